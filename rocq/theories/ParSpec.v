(** Specification vocabulary for parallel programs: every order of the steps of the
    processes, and what the program looks like if its operations are taken as a
    whole (SessionModel.v). *)
From Coq Require Import String.
From Verif Require Import Base LayoutModel FrameModel NetCDFModel NetCDFSpec SessionModel SessionSpec ParModel.
Local Open Scope Z_scope.
Local Open Scope list_scope.

Definition same_file {B} (f g : ncfile B) : Prop :=
  recs f = recs g /\ forall n i, cells f n i = cells g n i.

Section Spec.
Context {A : Type}.
Notation session := (session A).

(** Whatever the order in which the processes proceed, the program gets to [Q]:
    it neither gets stuck before nor runs for ever. *)
Inductive always (Q : config A -> Prop) : config A -> Prop :=
| now c : Q c -> always Q c
| later c : (exists c', step c c') -> (forall c', step c c' -> always Q c') -> always Q c.
(** The steps that are made in one execution. *)
Inductive steps : config A -> config A -> Prop :=
| steps_none c : steps c c
| steps_one c c1 c2 : step c c1 -> steps c1 c2 -> steps c c2.

(** The processes and the file are as in the session. *)
Definition agrees (s : session) (w : world A) (ranks : list (rank A)) : Prop :=
  same_file (se_hfile s) (w_hfile w) /\ same_file (se_file s) (w_file w) /\
  length ranks = length (su_parts (se_setup s)) /\
  forall i r, nth_error ranks i = Some r ->
    r_id r = i /\ r_mode r = se_mode s /\ r_setup r = se_setup s /\ r_nb r = se_nb s /\
    r_read r = se_read s /\ r_written r = se_written s /\ r_indep r = false /\
    (forall l, r_pos r l = nth i (se_hidden s l) []) /\
    (forall n h, r_mem r n h = nth i (se_mem s n h) []).
(** All processes are done, and as in the session; [outs] are the outcomes of
    the operations. *)
Definition finished (s : session) (outs : list (res unit)) (c : config A) : Prop :=
  exists ranks, snd c = map (fun r => Ret r outs) ranks /\ agrees s (fst c) ranks.
(** The outcomes in the session. *)
Fixpoint outcomes (s : session) (ops : list (op A)) : list (res unit) :=
  match ops with
  | [] => []
  | o :: ops' => let (s', r) := SessionModel.step s o in r :: outcomes s' ops'
  end.

(** [n] processes: all files are opened by that many.  Local fields are neither
    written to a file opened for reading nor read from frames that have not been
    written; fields of global collections may be. *)
Definition no_local (P : plan) (names : list string) : Prop :=
  forall q, In q (pl_quantities P) -> In (q_name q) names -> q_local q = None.
Definition proper (P : plan) (n : nat) (s : session) (o : op A) : Prop :=
  match o with
  | Create u _ _ _ => length (su_parts u) = n
  | Reopen _ u _ => length (su_parts u) = n
  | Write _ names => se_mode s = Reading -> no_local P names
  | Read k names => no_local P names \/
      (- se_nb s <= k /\ forall fr, accessed k (se_nb s) = Ok fr -> fr < recs (se_file s))
  | _ => True
  end.
Definition opens (o : op A) : Prop :=
  match o with Create _ _ _ _ => True | Reopen _ _ _ => True | _ => False end.
(** The numbers of the processes. *)
Definition numbered (ranks : list (rank A)) : Prop := forall i r, nth_error ranks i = Some r -> r_id r = i.
End Spec.

(** The value of a process, as [has_value] in SessionSpec.v. *)
Definition rank_value {A} (r : rank A) (q : quantity) (h : Z) (c : list Z) (b : Z) (x : list Z) (a : A) : Prop :=
  let p := own_part r in
  let f := pt_field p (q_name q) in
  match q_local q with
  | None => owns f x /\ holds (nf_lay f) (r_mem r (q_name q) h) c b (shift (nf_loc f) x) a
  | Some l => exists j, owns (pt_sub p) x /\ nth_error (pt_ids p l) j = Some (pixel_id (pt_sub p) x) /\
                        holds (nf_lay f) (r_mem r (q_name q) h) c b [Z.of_nat j] a
  end.
Definition both {A} (K L : session A -> op A -> Prop) (s : session A) (o : op A) : Prop := K s o /\ L s o.
(** The outcomes of the whole program, and no further step is possible. *)
Definition stuck {A} (c : config A) : Prop := ~ exists c', step c c'.
Definition ended {A} (outs : list (res unit)) (c : config A) : Prop :=
  Forall (fun p => exists r, p = Ret r outs) (snd c).
