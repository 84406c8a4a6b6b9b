(** Specification vocabulary for the headers of files in parallel programs. *)
From Coq Require Import String.
From Verif Require Import Base AttModel AttSpec HeadModel.
Local Open Scope Z_scope.
Local Open Scope list_scope.

(** ** The same program on a single process (AttModel.v) *)

Fixpoint sequence (os : list op) (s : st) : st * list (res unit) :=
  match os with
  | [] => (s, [])
  | o :: os' => let (s1, a) := step o s in let (s2, r) := sequence os' s1 in (s2, a :: r)
  end.
Definition opening (b : build) (w : watch) (r : nat) (m : omode) (disk : option content) : res st * option content :=
  open m (b_info b) (b_hash b) (b_descr b) (b_dirty b) (t_date (at_open w r)) (t_time (at_open w r)) disk.
Definition outcome {A} (r : res A) : res unit := match r with Ok _ => Ok tt | Err e => Err e | UB => UB end.
(** The outcomes of all operations, the file afterwards, and, if the last file that
    was opened is still open, the object. *)
Fixpoint serial (b : build) (w : watch) (r : nat) (rs : list visit) (last : option visit) (disk : option content)
  : list (res unit) * option content * option st :=
  match rs with
  | [] =>
      match last with
      | None => ([], disk, None)
      | Some u =>
          match opening b w r (r_mode u) disk with
          | (Ok s, _) => let (s1, outs) := sequence (r_ops u) s in (Ok tt :: outs, s_disk s1, Some s1)
          | (e, d) => ([outcome e], d, None)
          end
      end
  | u :: rs' =>
      match opening b w r (r_mode u) disk with
      | (Ok s, _) =>
          let (s1, outs) := sequence (r_ops u) s in
          match close (t_date (at_close w r)) (t_time (at_close w r)) s1 with
          | (s2, Ok _) => let '(outs', d, o) := serial b w (S r) rs' last (s_disk s2) in
                          (Ok tt :: outs ++ Ok tt :: outs', d, o)
          | (s2, c) => (Ok tt :: outs ++ [c], s_disk s2, None)
          end
      | (e, d) => let '(outs', d', o) := serial b w (S r) rs' last d in (outcome e :: outs', d', o)
      end
  end.

(** ** Programs *)

(** All processes run the program, each with its own clock. *)
Definition start (b : build) (ws : list watch) (rs : list visit) (last : option visit) (disk : option content) : config :=
  (disk, map (fun w => program b w 0 rs last [] fresh) ws).
(** Whatever happens, the program gets to [Q] and is not stuck before. *)
Inductive always (Q : config -> Prop) : config -> Prop :=
| now c : Q c -> always Q c
| later c : (exists c', pstep c c') -> (forall c', pstep c c' -> always Q c') -> always Q c.
(** The formats of dates and times have fixed lengths. *)
Definition keeps_time (w : watch) : Prop :=
  forall r, clock (t_date (at_open w r)) (t_time (at_open w r)) /\ clock (t_date (at_close w r)) (t_time (at_close w r)).

(** ** What processes see *)

(** The attributes that hold dates and times. *)
Definition times : list string := ["creation_date"; "creation_time"; "last_modified_date"; "last_modified_time"]%string.
(** The attributes that the object of a process shows. *)
Definition sees (x : proc) : dictionary :=
  fun n => match find (fun m => String.eqb (m_name m) n) (s_atts (p_obj x)) with Some m => Some (m_type m, m_val m) | None => None end.
Definition sees_names (x : proc) : list string := map m_name (s_atts (p_obj x)).
(** These four are not given another name. *)
Definition keeps_names (o : op) : Prop :=
  match o with UpdateAtt old new _ _ => new = old \/ ~ In old times | _ => True end.
Definition tidy_visit (u : visit) : Prop := Forall keeps_names (r_ops u).
