(** C07, C08: copying between stride layouts. *)
From Verif Require Import Base CIntModel GridModel GridSpec GridProofs GridProofs2 StridedModel StridedProofs.

(** C07: every logical element arrives, every other cell keeps its value.
    [rd buf i] reads cell [i]. *)
Theorem C07_strided_copy_exact :
  forall A axes n is os (inb outb : list A),
  sort_outcome n os axes -> n <> [] -> Forall (fun x => 0 < x) n -> zprod n < 2 ^ 31 ->
  length is = length n -> length os = length n ->
  within n is (Z.of_nat (length inb)) -> within n os (Z.of_nat (length outb)) -> injective_on n os ->
  exists out', strided_copy_with axes n is os inb outb = Ok out' /\ length out' = length outb /\
    (forall c, in_shape n c -> rd out' (off os c) = rd inb (off is c)) /\
    (forall j, (forall c, in_shape n c -> off os c <> j) -> rd out' j = rd outb j).
Proof. exact @strided_copy_correct. Qed.
Print Assumptions C07_strided_copy_exact.

(** Input strides [(1,2)], output strides [(10,1)] (padded rows). *)
Example C07_case :
  strided_copy [2; 3] [1; 2] [10; 1] [1; 2; 3; 4; 5; 6] (repeat 0 14) =
  Ok [1; 3; 5; 0; 0; 0; 0; 0; 0; 0; 2; 4; 6; 0].
Proof. reflexivity. Qed.

Example C07_case_hyp :
  injective_on [2; 3] [10; 1] /\ within [2; 3] [10; 1] 14 /\ within [2; 3] [1; 2] 6.
Proof.
  assert (G : forall c, in_shape [2; 3] c -> exists x y, c = [x; y] /\ 0 <= x < 2 /\ 0 <= y < 3).
  { intros c [L H]. destruct c as [|x [|y [|z c]]]; try discriminate. exists x, y.
    pose proof (H 0%nat ltac:(cbn; lia)). pose proof (H 1%nat ltac:(cbn; lia)). auto. }
  split; [|split].
  - intros c c' Hc Hc'. destruct (G c Hc) as (x & y & -> & Hx & Hy). destruct (G c' Hc') as (x' & y' & -> & Hx' & Hy').
    unfold off, zn; cbn [length seq map nth zsum fold_right]. intros E. assert (x = x' /\ y = y') as [-> ->] by lia. reflexivity.
  - intros c Hc. destruct (G c Hc) as (x & y & -> & Hx & Hy). unfold off, zn; cbn [length seq map nth zsum fold_right]. lia.
  - intros c Hc. destruct (G c Hc) as (x & y & -> & Hx & Hy). unfold off, zn; cbn [length seq map nth zsum fold_right]. lia.
Qed.

(** An array with a zero extent: nothing is copied. *)
Theorem C07_strided_copy_empty :
  forall A axes n is os (inb outb : list A),
  zprod n = 0 -> length is = length n -> length os = length n ->
  strided_copy_with axes n is os inb outb = Ok outb.
Proof. exact @strided_copy_empty. Qed.
Print Assumptions C07_strided_copy_empty.

Example C07_empty_case : strided_copy [2; 0; 3] [1; 2; 2] [3; 3; 1] [] [7] = Ok [7].
Proof. reflexivity. Qed.

(** Stride vectors of the wrong length are rejected before anything is written. *)
Theorem C07_strided_copy_rank_mismatch :
  forall A axes n is os (inb outb : list A),
  length is <> length n \/ length os <> length n ->
  strided_copy_with axes n is os inb outb = Err RuntimeError.
Proof. exact @strided_copy_dims. Qed.
Print Assumptions C07_strided_copy_rank_mismatch.

(** A zero-dimensional array (shape of length 0) has undefined behaviour. *)
Theorem C07_zero_dimensional_refuted :
  exists (inb outb : list Z), strided_copy [] [] [] inb outb = UB.
Proof. exists [1], [2]. reflexivity. Qed.
Print Assumptions C07_zero_dimensional_refuted.

(** Beyond 2^31 elements the copy silently does nothing for some shapes. *)
Theorem C07_large_refuted :
  exists n, Forall (fun x => 0 < x) n /\
    forall A is os (inb outb : list A), length is = length n -> length os = length n ->
    strided_copy n is os inb outb = Ok outb.
Proof.
  exists [65536; 65536]. split; [repeat constructor|]. intros A is os inb outb His Hos.
  unfold strided_copy, strided_copy_with. rewrite His, Hos. reflexivity.
Qed.
Print Assumptions C07_large_refuted.

(** C08: there and back again. *)
Theorem C08_layout_round_trip :
  forall A axes axes' n s1 s2 (a b a' : list A),
  sort_outcome n s2 axes -> sort_outcome n s1 axes' -> n <> [] -> Forall (fun x => 0 < x) n -> zprod n < 2 ^ 31 ->
  length s1 = length n -> length s2 = length n -> injective_on n s1 -> injective_on n s2 ->
  within n s1 (Z.of_nat (length a)) -> within n s2 (Z.of_nat (length b)) -> within n s1 (Z.of_nat (length a')) ->
  exists b1 a1, strided_copy_with axes n s1 s2 a b = Ok b1 /\ strided_copy_with axes' n s2 s1 b1 a' = Ok a1 /\
    forall c, in_shape n c -> rd a1 (off s1 c) = rd a (off s1 c).
Proof. exact @strided_copy_roundtrip. Qed.
Print Assumptions C08_layout_round_trip.

Example C08_case :
  strided_copy [2; 3] [3; 1] [1; 2] [1; 2; 3; 4; 5; 6] (repeat 0 6) = Ok [1; 4; 2; 5; 3; 6] /\
  strided_copy [2; 3] [1; 2] [3; 1] [1; 4; 2; 5; 3; 6] (repeat 0 6) = Ok [1; 2; 3; 4; 5; 6].
Proof. split; reflexivity. Qed.
