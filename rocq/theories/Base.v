(** Shared vocabulary of the models: outcomes of a call, finite sums and list
    helpers.  Nothing in this file models a particular function of /repo. *)
From Coq Require Export List ZArith Lia Bool Permutation Arith.
From Coq Require Export ZifyBool ZifyNat.
Export ListNotations.
Open Scope Z_scope.

(** The C++ exception classes raised by libmugrid (exception.hh, field.hh,
    field_collection.hh, field_map.hh, units.hh, options_dictionary.hh,
    file_io_base.hh, numpy_tools.hh); [OutOfRange] and [LengthError]
    stand for [std::out_of_range] and [std::length_error]. *)
Inductive exn : Set :=
| RuntimeError | FieldError | FieldCollectionError | FieldMapError
| StateFieldError | UnitError | KeyError | ValueError | FileIOError
| OutOfRange | LengthError | NumpyError.

(** Outcome of a C++ call: a value, a thrown exception, or undefined
    behaviour (kept apart from both). *)
Inductive res (A : Type) : Type :=
| Ok (a : A)
| Err (e : exn)
| UB.
Arguments Ok {A} a.
Arguments Err {A} e.
Arguments UB {A}.

Definition bind {A B} (x : res A) (f : A -> res B) : res B :=
  match x with Ok a => f a | Err e => Err e | UB => UB end.
Notation "'let!' x ':=' a 'in' b" := (bind a (fun x => b))
  (at level 200, x pattern, a at level 100, b at level 200).

Definition is_ok {A} (x : res A) : bool :=
  match x with Ok _ => true | _ => false end.

(** Entry [i] of a vector of integers.  Used only with [i] in range. *)
Definition zn (l : list Z) (i : nat) : Z := nth i l 0.

(** [l] with entry [i] replaced by [v]; identity when [i] is out of range. *)
Fixpoint upd {A} (l : list A) (i : nat) (v : A) : list A :=
  match l, i with
  | [], _ => []
  | _ :: r, O => v :: r
  | x :: r, S j => x :: upd r j v
  end.

Definition zprod (l : list Z) : Z := fold_right Z.mul 1 l.
Definition zsum (l : list Z) : Z := fold_right Z.add 0 l.

(** [0; 1; ...; n-1] as integers. *)
Definition zrange (n : nat) : list Z := map Z.of_nat (seq 0 n).

Lemma upd_length {A} (l : list A) i v : length (upd l i v) = length l.
Proof. revert i; induction l as [|x r IH]; intros [|i]; simpl; auto. Qed.

Lemma nth_upd_same {A} (l : list A) i v d :
  (i < length l)%nat -> nth i (upd l i v) d = v.
Proof.
  revert i; induction l as [|x r IH]; intros [|i]; simpl; intros H; try lia; auto.
  apply IH; lia.
Qed.

Lemma nth_upd_other {A} (l : list A) i j v d :
  i <> j -> nth j (upd l i v) d = nth j l d.
Proof.
  revert i j; induction l as [|x r IH]; intros [|i] [|j]; simpl; intros H; try congruence.
  apply IH; lia.
Qed.

Lemma upd_out {A} (l : list A) i v : (length l <= i)%nat -> upd l i v = l.
Proof.
  revert i; induction l as [|x r IH]; intros [|i]; simpl; intros H; try lia; auto.
  f_equal; apply IH; lia.
Qed.

Lemma zsum_app l1 l2 : zsum (l1 ++ l2) = zsum l1 + zsum l2.
Proof. induction l1; simpl; lia. Qed.

Lemma zprod_app l1 l2 : zprod (l1 ++ l2) = zprod l1 * zprod l2.
Proof. induction l1 as [|x l IH]; simpl zprod; [simpl app; lia|]. simpl app. simpl zprod. rewrite IH. ring. Qed.

Lemma zsum_perm l1 l2 : Permutation l1 l2 -> zsum l1 = zsum l2.
Proof. induction 1; simpl; lia. Qed.

Lemma zprod_perm l1 l2 : Permutation l1 l2 -> zprod l1 = zprod l2.
Proof.
  induction 1; simpl; [lia| | |lia].
  - now f_equal.
  - ring.
Qed.

Lemma fold_left_mul l a : fold_left Z.mul l a = a * zprod l.
Proof.
  revert a; induction l as [|x r IH]; intros a; simpl; [lia|].
  rewrite IH; ring.
Qed.

Lemma fold_left_add l a : fold_left Z.add l a = a + zsum l.
Proof. revert a; induction l as [|x r IH]; intros a; simpl; [lia|]. rewrite IH; lia. Qed.

Lemma zprod_pos l : Forall (fun x => 0 < x) l -> 0 < zprod l.
Proof. induction 1; simpl; lia. Qed.

Lemma zprod_nonneg l : Forall (fun x => 0 <= x) l -> 0 <= zprod l.
Proof. induction 1; simpl; lia. Qed.

Lemma zrange_length n : length (zrange n) = n.
Proof. unfold zrange; now rewrite map_length, seq_length. Qed.

Lemma zrange_In n k : In k (zrange n) <-> 0 <= k < Z.of_nat n.
Proof.
  unfold zrange; rewrite in_map_iff; split.
  - intros (m & <- & Hm); apply in_seq in Hm; lia.
  - intros H; exists (Z.to_nat k); split; [lia|apply in_seq; lia].
Qed.

Lemma zrange_NoDup n : NoDup (zrange n).
Proof.
  unfold zrange; apply FinFun.Injective_map_NoDup; [|apply seq_NoDup].
  intros a b H; lia.
Qed.

Lemma zrange_nth n k : (k < n)%nat -> nth k (zrange n) 0 = Z.of_nat k.
Proof.
  intros H. unfold zrange.
  rewrite (nth_indep _ 0 (Z.of_nat 0)) by (rewrite map_length, seq_length; lia).
  rewrite map_nth, seq_nth by lia. f_equal.
Qed.

(** Two vectors of the same length that agree at every position are equal. *)
Lemma list_ext (l1 l2 : list Z) :
  length l1 = length l2 ->
  (forall i, (i < length l1)%nat -> zn l1 i = zn l2 i) -> l1 = l2.
Proof.
  intros Hl H. apply (nth_ext _ _ 0 0 Hl). exact H.
Qed.

(** A vector is the list of its entries. *)
Lemma map_zn_seq (l : list Z) : map (zn l) (seq 0 (length l)) = l.
Proof.
  apply list_ext.
  - now rewrite map_length, seq_length.
  - rewrite map_length, seq_length. intros i Hi. unfold zn at 1.
    rewrite (nth_indep _ 0 (zn l 0)) by (rewrite map_length, seq_length; lia).
    rewrite map_nth, seq_nth by lia. reflexivity.
Qed.
