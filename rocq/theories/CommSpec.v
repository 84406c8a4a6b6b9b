(** Specification vocabulary for collective operations. *)
From Verif Require Import Base CommModel.
Local Open Scope list_scope.

(** The columns of a matrix, from its entries. *)
Definition column {A} (m : matrix A) (j : nat) : list A := firstn (m_rows m) (skipn (j * m_outer m) (m_buf m)).
Definition columns {A} (m : matrix A) : list (list A) := map (column m) (seq 0 (m_cols m)).
(** The memory covers the matrix. *)
Definition backed {A} (m : matrix A) : Prop := (m_rows m <= m_outer m /\ (m_cols m = 0 \/ (m_cols m - 1) * m_outer m + m_rows m <= length (m_buf m)))%nat.
Definition contiguous {A} (m : matrix A) : Prop := m_outer m = m_rows m \/ (m_cols m <= 1)%nat.
(** What the documentation asks for: one number of rows, or nothing. *)
Definition gatherable {A} (rows : nat) (m : matrix A) : Prop := m_rows m = rows \/ m_rows m = 0%nat /\ m_cols m = 0%nat.
Definition entry (m : matrix Z) (i j : nat) : Z := nth (i + j * m_outer m) (m_buf m) 0%Z.
Definition nsum (l : list nat) : nat := fold_right Nat.add 0%nat l.
Definition msize {A} (m : matrix A) : nat := (m_rows m * m_cols m)%nat.
