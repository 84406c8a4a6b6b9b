(** Collective operations (communicator.hh).

    Every process calls the operation with its own argument; the list of
    arguments is in order of ranks.  MPI itself is trusted: reductions add up,
    [MPI_Scan] is inclusive, [MPI_Allgatherv] copies the announced number of
    elements from the send buffers to the announced positions.  Reductions are
    over integers, so rounding is not modelled.  A byte order with the least
    significant byte first is assumed where a 64-bit size is sent as [int]. *)
From Verif Require Import Base CIntModel SqrtModel.
Local Open Scope Z_scope.
Local Open Scope list_scope.

(** 162-170 [sum]: the same result everywhere. *)
Definition sum (args : list Z) (rank : nat) : Z := zsum args.
(** 172-180 [max] *)
Definition max (args : list Z) (rank : nat) : Z := match args with [] => 0 | a :: l => fold_left Z.max l a end.
(** 229-236 [cumulative_sum] *)
Definition cumulative_sum (args : list Z) (rank : nat) : Z := zsum (firstn (S rank) args).
(** 334-345 [bcast] *)
Definition bcast {A} (args : list A) (root : nat) (rank : nat) : option A := nth_error args root.
(** 347-366 *)
Definition logical_and (args : list bool) (rank : nat) : bool := forallb (fun b => b) args.
Definition logical_or (args : list bool) (rank : nat) : bool := existsb (fun b => b) args.

(** A matrix reference: [Eigen::Ref] admits columns that are further apart than
    their length.  [m_buf] is the memory from the first entry on. *)
Record matrix (A : Type) := mk_matrix { m_rows : nat; m_cols : nat; m_outer : nat; m_buf : list A }.
Arguments mk_matrix {A} _ _ _ _.
Arguments m_rows {A} _.
Arguments m_cols {A} _.
Arguments m_outer {A} _.
Arguments m_buf {A} _.

(** Writing [data] at position [at_] of a buffer; beyond its end is UB. *)
Definition place {A} (buf : list A) (at_ : nat) (data : list A) : res (list A) :=
  if (at_ + length data <=? length buf)%nat then Ok (firstn at_ buf ++ data ++ skipn (at_ + length data) buf) else UB.
(** Reading [n] elements of a buffer. *)
Definition take {A} (buf : list A) (n : nat) : res (list A) := if (n <=? length buf)%nat then Ok (firstn n buf) else UB.

(** [MPI_Allgatherv] with the given counts and displacements. *)
Fixpoint allgatherv {A} (recv : list A) (sends : list (list A)) (counts displs : list Z) : res (list A) :=
  match sends, counts, displs with
  | s :: sends', c :: counts', d :: displs' =>
      if c <? 0 then Err RuntimeError
      else let! data := take s (Z.to_nat c) in
           let! recv' := place recv (Z.to_nat d) data in
           allgatherv recv' sends' counts' displs'
  | _, _, _ => Ok recv
  end.

(** 287-295: sizes as received, 301-304 their sum, 314-317 the displacements. *)
Definition sent_size {A} (m : matrix A) : Z := wrap32 (Z.of_nat (m_rows m * m_cols m)).
Definition add_int (a : res Z) (b : Z) : res Z := let! x := a in as_int (x + b).
Fixpoint displacements (d : Z) (sizes : list Z) : list Z :=
  match sizes with [] => [] | s :: l => d :: displacements (d + s) l end.

(** 255-330 [gather]; assertions are not part of release builds. *)
Definition gather {A} (zero : A) (args : list (matrix A)) (rank : nat) : res (matrix A) :=
  let nb_rows := fold_right Nat.max 0%nat (map m_rows args) in
  let sizes := map sent_size args in
  let! nb_entries := fold_left add_int sizes (Ok 0) in
  if (nb_rows =? 0)%nat then (if nb_entries =? 0 then Ok (mk_matrix 0 0 0 []) else UB)
  else
    let nb_cols := Z.to_nat (Z.quot nb_entries (Z.of_nat nb_rows)) in
    let! buf := allgatherv (repeat zero (nb_rows * nb_cols)) (map m_buf args) sizes (displacements 0 sizes) in
    Ok (mk_matrix nb_rows nb_cols nb_rows buf).

(** 211-222 [sum] of matrix references: the first [rows * cols] elements of the
    memory are added. *)
Fixpoint add_all (l : list (list Z)) : list Z :=
  match l with [] => [] | [x] => x | x :: r => map (fun p => fst p + snd p) (combine x (add_all r)) end.
Fixpoint taken (args : list (matrix Z)) (n : nat) : res (list (list Z)) :=
  match args with [] => Ok [] | m :: l => let! x := take (m_buf m) n in let! r := taken l n in Ok (x :: r) end.
Definition sum_matrix (args : list (matrix Z)) (rank : nat) : res (matrix Z) :=
  match nth_error args rank with
  | None => Err RuntimeError
  | Some me => let! parts := taken args (m_rows me * m_cols me) in
               Ok (mk_matrix (m_rows me) (m_cols me) (m_rows me) (add_all parts))
  end.

(** file_io_netcdf.cc 716-724: positions of the pixels of a process in the file. *)
Definition offset (sizes : list Z) (rank : nat) : Z := cumulative_sum sizes rank - nth rank sizes 0.

(** 379-430: the communicator of builds without MPI hands every argument back
    ([sum], [max], [cumulative_sum], [gather], [bcast], [logical_or],
    [logical_and]); 165, 175, ...: so does a null communicator. *)
Definition serial {T} (arg : T) : T := arg.
