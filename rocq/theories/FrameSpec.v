(** Specification vocabulary for frames. *)
From Verif Require Import Base FrameModel.

(** The number of frames appended by a history. *)
Definition appends (h : list fop) : nat := length (filter (fun o => match o with Append => true | _ => false end) h).
