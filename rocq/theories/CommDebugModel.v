(** Gathering matrices in builds with assertions (communicator.hh 255-332). *)
From Verif Require Import Base CommModel.
Local Open Scope Z_scope.

(** 278: the rows of this process are as many as those of the process with the most, or
    none. *)
Definition rows_allowed {A} (args : list (matrix A)) (me : matrix A) : bool :=
  let nb_rows := fold_right Nat.max 0%nat (map m_rows args) in
  ((m_rows me =? nb_rows) || (m_rows me =? 0))%nat.
(** 296-302: entries need rows. *)
Definition entries_allowed {A} (args : list (matrix A)) : bool :=
  match fold_left add_int (map sent_size args) (Ok 0) with
  | Ok n => negb ((fold_right Nat.max 0%nat (map m_rows args) =? 0)%nat && negb (n =? 0))
  | _ => true
  end.
(** 255-332 [gather] on the process [rank]: [None] is a failed assertion, which ends the
    program.  That the other processes then wait for this one is not modelled. *)
Definition checked_gather {A} (zero : A) (args : list (matrix A)) (rank : nat) : option (res (matrix A)) :=
  match nth_error args rank with
  | Some me => if rows_allowed args me && entries_allowed args then Some (gather zero args rank) else None
  | None => Some (Err RuntimeError)
  end.
