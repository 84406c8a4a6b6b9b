(** Theorems about registering collections one after the other with a file that is
    read (property C179), each with a concrete case beside it. *)
From Coq Require Import String.
From Verif Require Import Base AttModel AttSpec AttAgainSpec AttProofs11 AttProofs12 AttAgainProofs AttAgainProofs2 AttProps.
Local Open Scope string_scope.
Local Open Scope Z_scope.
Local Open Scope list_scope.

(** Any number of calls, each for any variables, none of them twice.  They succeed
    if no attribute holds a NaN.  After calls that succeeded, a further one succeeds
    if and only if no attribute of the variables registered before holds a NaN. *)
Theorem C179_one_by_one_partial m c s dss ds : m = ORead \/ m = OAppend -> opened m (Some c) s -> NoDup (map v_name (c_vars c)) ->
  Forall (in_file c) (concat dss ++ ds) -> NoDup (map it_at (concat dss ++ ds)) ->
  (~ nan_among (concat dss) -> exists s1, runs s (history dss) s1) /\
  forall s1, runs s (history dss) s1 ->
    (~ nan_among (concat dss) -> snd (step (register_items ds) s1) = Ok tt) /\
    (nan_among (concat dss) -> snd (step (register_items ds) s1) = Err FileIOError).
Proof.
  intros Hm O Nd F N. destruct (open_keeps_atts m c s Hm O) as (_ & Vs & _).
  assert (F1 : Forall (in_file c) (concat dss)) by (apply Forall_app in F; apply F). assert (N1 : NoDup (map it_at (concat dss))) by (rewrite map_app in N; exact (apart_left _ _ N)).
  destruct (register_calls m c s dss Hm O Nd [] F1 N1) as [A B]. cbn [map app] in A, B. rewrite <- Vs, with_vars_id in A, B.
  split; [intros H; eexists; exact (A H)|]. intros s1 R. rewrite (B s1 R). destruct (register_next m c s (concat dss) ds Hm O Nd F N) as (s2 & E & _). rewrite E. cbn [snd].
  rewrite <- (item_nan_iff c _ F1). destruct (existsb item_nan (concat dss)); split; intros H; congruence || reflexivity || (exfalso; apply H; reflexivity).
Qed.
Print Assumptions C179_one_by_one_partial.

(** A temperature with a fill value, one or NaN, and a velocity. *)
Definition one64 : bytes := [0; 0; 0; 0; 0; 0; 240; 63].
Definition nan64 : bytes := [0; 0; 0; 0; 0; 0; 248; 127].
Definition filled (b : bytes) : content :=
  mk_content [] [mk_var "T" [mk_att "unit" TChar [75]; mk_att "_FillValue" TDouble b]; mk_var "U" [mk_att "unit" TChar [109]]] [].
Definition itemT (b : bytes) : item := mk_item (mk_var "T" [mk_att "unit" TChar [75]; mk_att "_FillValue" TDouble b]) 0 [75] [mk_att "_FillValue" TDouble b].
Definition itemU : item := mk_item (mk_var "U" [mk_att "unit" TChar [109]]) 1 [109] [].
Example C179_ex : opened ORead (Some (filled one64)) (start ORead (Some (filled one64))) /\ Forall (in_file (filled one64)) (concat [[itemT one64]] ++ [itemU]) /\
  ~ nan_among [itemT one64] /\ nan_among [itemT nan64] /\
  fst (perform (start ORead (Some (filled one64))) [register_items [itemT one64]; register_items [itemU]]) = history [[itemT one64]; [itemU]].
Proof.
  split; [apply start_opened; vm_compute; exact Logic.I|]. split; [|split; [|split]].
  - constructor; [|constructor; [|constructor]]; (split; [reflexivity|]; split; [reflexivity|]; split; [|split; [cbn; lia|]]).
    + cbn. constructor; [intros [X|[]]; discriminate|]. constructor; [intros []|constructor].
    + constructor; [|constructor]. cbn [a_name a_type a_val]. split; [cbn; lia|]. split; [split; [reflexivity|exists 1%nat; reflexivity]|]. unfold one64. repeat constructor; lia.
    + cbn. constructor; [intros []|constructor].
    + constructor.
  - intros H. inversion H as [? ? H'|? ? X]; subst; [|inversion X]. inversion H' as [? ? (_ & k & Hk & X)|? ? X]; subst; [|inversion X]. cbn [a_val] in *. change (List.length one64) with 8%nat in Hk. assert (k = 0)%nat by lia. subst k. revert X. unfold not_a_number. vm_compute. discriminate.
  - constructor. constructor. split; [reflexivity|]. exists 0%nat. split; [cbn; lia|]. unfold not_a_number. vm_compute. reflexivity.
  - vm_compute. reflexivity.
Qed.

(** With NaN as fill value both variables can be registered, in one call or each
    alone, but not one after the other. *)
Theorem C179_nan_refuted : exists c s s1, opened ORead (Some c) s /\ c = filled nan64 /\ snd (step (Register [("T", [75]); ("U", [109])]) s) = Ok tt /\
  step (Register [("T", [75])]) s = (s1, Ok tt) /\ snd (step (Register [("U", [109])]) s) = Ok tt /\ snd (step (Register [("U", [109])]) s1) = Err FileIOError.
Proof.
  exists (filled nan64), (start ORead (Some (filled nan64))), (fst (step (Register [("T", [75])]) (start ORead (Some (filled nan64))))).
  split; [apply start_opened; vm_compute; exact Logic.I|]. split; [reflexivity|]. vm_compute. auto 10.
Qed.
Print Assumptions C179_nan_refuted.
