(** C178: gathering matrices in builds with assertions. *)
From Verif Require Import Base CIntModel SqrtModel CommModel CommDebugModel.
Local Open Scope Z_scope.
Local Open Scope list_scope.

Lemma max_of {A} (args : list (matrix A)) m : In m args -> (m_rows m <= fold_right Nat.max 0 (map m_rows args))%nat.
Proof. induction args as [|a l IH]; [intros []|]. cbn [map fold_right]. intros [->|I]; [lia|specialize (IH I); lia]. Qed.
Lemma max_in {A} (args : list (matrix A)) : fold_right Nat.max 0%nat (map m_rows args) <> 0%nat -> exists m, In m args /\ m_rows m = fold_right Nat.max 0%nat (map m_rows args).
Proof.
  induction args as [|a l IH]; cbn [map fold_right]; [congruence|]. intros N.
  destruct (Nat.le_gt_cases (m_rows a) (fold_right Nat.max 0 (map m_rows l)))%nat as [L|L].
  - rewrite Nat.max_r in * by exact L. destruct (IH N) as (m & I & E). exists m. split; [now right|exact E].
  - rewrite Nat.max_l by lia. exists a. split; [now left|reflexivity].
Qed.
Lemma no_rows {A} (args : list (matrix A)) : fold_right Nat.max 0%nat (map m_rows args) = 0%nat -> fold_left add_int (map sent_size args) (Ok 0) = Ok 0.
Proof.
  induction args as [|a l IH]; [reflexivity|]. cbn [map fold_right fold_left]. intros E. assert (Ra : m_rows a = 0%nat) by lia. unfold sent_size at 2. rewrite Ra. cbn [Nat.mul Z.of_nat].
  change (add_int (Ok 0) (wrap32 0)) with (Ok 0 : res Z). apply IH. lia.
Qed.
Lemma entries_always {A} (args : list (matrix A)) : entries_allowed args = true.
Proof.
  unfold entries_allowed. destruct (Nat.eqb_spec (fold_right Nat.max 0%nat (map m_rows args)) 0) as [E|E].
  - rewrite (no_rows args E). reflexivity.
  - destruct (fold_left add_int _ _); reflexivity.
Qed.

(** Matrices with a common number of rows, or none, are gathered as without assertions. *)
Theorem C178_gathered {A} (zero : A) args r rank : (forall m, In m args -> m_rows m = r \/ m_rows m = 0%nat) -> (rank < length args)%nat ->
  checked_gather zero args rank = Some (gather zero args rank).
Proof.
  intros C L. unfold checked_gather. destruct (nth_error args rank) as [me|] eqn:E; [|apply nth_error_None in E; lia]. rewrite entries_always, andb_true_r.
  assert (I : In me args) by (eapply nth_error_In; exact E). assert (W : rows_allowed args me = true); [|now rewrite W].
  unfold rows_allowed. destruct (C me I) as [R|R]; [|rewrite R; cbn; apply orb_true_r]. destruct (Nat.eq_dec (m_rows me) 0) as [Z0|Z0]; [rewrite Z0; cbn; apply orb_true_r|].
  apply orb_true_intro. left. apply Nat.eqb_eq. pose proof (max_of args me I). destruct (max_in args ltac:(lia)) as (m & Im & Em). destruct (C m Im) as [Rm|Rm]; lia.
Qed.
Print Assumptions C178_gathered.

(** If two processes have matrices with rows, but not as many, the program ends on the
    processes with fewer rows than another and at least one row; there is one. *)
Theorem C178_ends {A} (zero : A) args m m' : In m args -> In m' args -> m_rows m <> 0%nat -> m_rows m' <> 0%nat -> m_rows m <> m_rows m' ->
  (exists rank, (rank < length args)%nat /\ checked_gather zero args rank = None) /\
  (forall rank me, nth_error args rank = Some me -> (checked_gather zero args rank = None <-> m_rows me <> 0%nat /\ exists other, In other args /\ (m_rows me < m_rows other)%nat)).
Proof.
  intros I I' N N' D.
  assert (K : forall rank me, nth_error args rank = Some me -> (checked_gather zero args rank = None <-> m_rows me <> 0%nat /\ exists other, In other args /\ (m_rows me < m_rows other)%nat)).
  { intros rank me E. assert (Ie : In me args) by (eapply nth_error_In; exact E). unfold checked_gather. rewrite E, entries_always, andb_true_r. pose proof (max_of args me Ie) as L. unfold rows_allowed.
    destruct (Nat.eqb_spec (m_rows me) (fold_right Nat.max 0%nat (map m_rows args))) as [Q|Q], (Nat.eqb_spec (m_rows me) 0) as [Q0|Q0]; cbn [orb]; split; try discriminate; try reflexivity.
    - intros [X _]. contradiction.
    - intros (_ & o & Io & Lo). pose proof (max_of args o Io). lia.
    - intros [X _]. contradiction.
    - intros _. split; [exact Q0|]. destruct (max_in args ltac:(lia)) as (o & Io & Eo). exists o. split; [exact Io|lia]. }
  split; [|exact K].
  assert (X : exists x y, In x args /\ In y args /\ m_rows x <> 0%nat /\ (m_rows x < m_rows y)%nat).
  { destruct (Nat.lt_total (m_rows m) (m_rows m')) as [L|[L|L]]; [exists m, m'|contradiction|exists m', m]; auto. }
  destruct X as (x & y & Ix & Iy & Nx & Lx). destruct (In_nth_error args x Ix) as (k & Ek). exists k. split; [apply nth_error_Some; congruence|]. apply (K k x Ek). split; [exact Nx|]. now exists y.
Qed.
Print Assumptions C178_ends.

Example C178_case : let a := mk_matrix 2 1 2 [1; 2] in let e := mk_matrix 0 0 0 [] in let b := mk_matrix 2 2 2 [3; 4; 5; 6] in let c := mk_matrix 1 1 1 [7] in
  checked_gather 0 [a; e; b] 1 = Some (Ok (mk_matrix 2 3 2 [1; 2; 3; 4; 5; 6])) /\
  checked_gather 0 [a; c; b] 1 = None /\ is_ok (match checked_gather 0 [a; c; b] 0 with Some r => r | None => UB end) = false /\ checked_gather 0 [a; c; b] 0 <> None.
Proof. cbn zeta. split; [vm_compute; reflexivity|]. split; [vm_compute; reflexivity|]. split; [vm_compute; reflexivity|vm_compute; discriminate]. Qed.
