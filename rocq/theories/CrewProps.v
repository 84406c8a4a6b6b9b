(** Several processes register collections in one file. *)
From Coq Require Import String.
From Verif Require Import Base GridModel StridedModel LayoutModel LayoutProofs NetCDFModel NetCDFSpec DimModel DimSpec DimProofs5 DimProps CrewModel CrewSpec CrewProofs6.
Local Open Scope string_scope.
Local Open Scope Z_scope.
Local Open Scope list_scope.

(** ** Examples: three processes with a 3 x 2 domain, the last one has no part of it *)
Definition w_sub (i : nat) : list Z := nth i [[2; 2]; [1; 2]] [0; 2].
Definition w_loc (i : nat) : list Z := nth i [[0; 0]; [2; 0]] [3; 0].
Definition w_size (i : nat) : Z := nth i [4; 2] 0.
Definition w_coll (i : nat) : gcoll := mk_gcoll [3; 2] (w_sub i) (w_loc i).
Definition w_lay (i : nat) (comp : list Z) (nsub : Z) : layout :=
  match global_layout_order ColMajor Automatic (w_sub i) (w_loc i) comp nsub with Ok l => l | _ => local_layout 0 [] 1 end.
Definition w_global (n : string) (h : option Z) (comp : list Z) (nsub : Z) (subs : list string) (i : nat) : rvar :=
  mk_rvar n h (mk_nfield n "quad" (w_lay i comp nsub) [3; 2] (w_loc i)) subs.
Definition w_ids (i : nat) : list Z := nth i [[1]; [1]] [].
Definition w_damage (i : nat) : rvar :=
  mk_rvar "damage" (Some 2) (mk_nfield "damage" "quad" (local_layout (Z.of_nat (length (w_ids i))) [3] 4) [] []) ["damage_a"; "damage_b"].
Definition w_temp := w_global "T" None [1] 1 [].
Definition w_strain := w_global "strain" (Some 2) [2; 2] 4 ["strain_a"; "strain_b"].
Definition w_js : list jop :=
  [JGlobal w_coll (fun i => [w_strain i; w_temp i]); JLocal "matrix" w_ids (fun i => [w_damage i])].
(** The same collections on two processes. *)
Definition v_sub (i : nat) : list Z := [3; 1].
Definition v_loc (i : nat) : list Z := [0; Z.of_nat i].
Definition v_coll (i : nat) : gcoll := mk_gcoll [3; 2] (v_sub i) (v_loc i).
Definition v_lay (i : nat) (comp : list Z) (nsub : Z) : layout :=
  match global_layout_order ColMajor Automatic (v_sub i) (v_loc i) comp nsub with Ok l => l | _ => local_layout 0 [] 1 end.
Definition v_ids (i : nat) : list Z := nth i [[]; [0; 1]] [].
Definition v_temp (i : nat) : rvar := mk_rvar "T" None (mk_nfield "T" "quad" (v_lay i [1] 1) [3; 2] (v_loc i)) [].
Definition v_damage (i : nat) : rvar :=
  mk_rvar "damage" (Some 2) (mk_nfield "damage" "quad" (local_layout (Z.of_nat (length (v_ids i))) [3] 4) [] []) ["damage_a"; "damage_b"].
Definition v_js : list jop := [JGlobal v_coll (fun i => [v_temp i]); JLocal "matrix" v_ids (fun i => [v_damage i])].

Ltac below := repeat match goal with H : (?i < S _)%nat |- _ => destruct i as [|i]; [clear H|apply Nat.succ_lt_mono in H] end.
Ltac nolt := try match goal with H : (_ < 0)%nat |- _ => inversion H end.
Example w_decomposed : Forall (decomposed 3 w_size) w_js.
Proof.
  constructor; [|constructor; [|constructor]]; (split; [intros i L; below; nolt|intros i k Li Lk; below; nolt]);
    try (eexists; split; vm_compute; reflexivity);
    try (split; [repeat constructor; vm_compute; intuition discriminate|repeat constructor; vm_compute; intuition discriminate]);
    vm_compute; repeat (constructor; try reflexivity).
Qed.
Example v_decomposed : Forall (decomposed 2 (fun _ => 3)) v_js.
Proof.
  constructor; [|constructor; [|constructor]]; (split; [intros i L; below; nolt|intros i k Li Lk; below; nolt]);
    try (eexists; split; vm_compute; reflexivity);
    try (split; [repeat constructor; vm_compute; intuition discriminate|repeat constructor; vm_compute; intuition discriminate]);
    vm_compute; repeat (constructor; try reflexivity).
Qed.

(** ** C151: processes register collections together *)

(** Whatever the collections are, no process waits for ever or makes a call that
    does not fit the calls of the others: in all executions all processes finish,
    with the same outcomes of their registrations and the same header of the file.
    These are the outcomes and the header a single process gets that is told how
    many pixels a local collection has on all processes, and the object of each
    process is that of a single process with its part of the domain. *)
Theorem C151_create n size js : (0 < n)%nat -> Forall (decomposed n size) js ->
  exists f outs, always (finished n outs f (fun i o => serial true (map (whole n size true i) js) (new_obj, empty_lib) = ((o, f), outs))) (start n true js created).
Proof.
  intros N D. destruct (start_agrees n size N true js created D eq_refl (conj eq_refl eq_refl)) as (f & outs & vs & _ & A). exists f, outs. revert A.
  apply always_weak. intros c. apply finished_weak. intros i o _ E. apply E.
Qed.
Print Assumptions C151_create.
(** The first collection is not accepted twice, after that things go on. *)
Example C151_create_ex : (let '((_, f), outs) := serial true (map (whole 3 w_size true 2) (w_js ++ w_js)) (new_obj, empty_lib) in (map fst (lf_vars f), outs)) =
  (["strain"; "T"; "matrix"; "damage"], [Ok tt; Ok tt; Err FileIOError; Err FieldCollectionError]).
Proof. vm_compute. reflexivity. Qed.

Theorem C151_open n size js rw f0 : (0 < n)%nat -> Forall (decomposed n size) js ->
  exists f outs, always (finished n outs f (fun i o => serial false (map (whole n size false i) js) (new_obj, f0) = ((o, f), outs))) (start n false js (opened rw f0)).
Proof.
  intros N D. destruct (start_agrees n size N false js (opened rw f0) D eq_refl eq_refl) as (f & outs & vs & _ & A). exists f, outs. revert A.
  apply always_weak. intros c. apply finished_weak. intros i o _ E. apply E.
Qed.
Print Assumptions C151_open.
(** A file that lacks variables. *)
Example C151_open_ex : snd (serial false (map (whole 2 (fun _ => 3) false 1) v_js) (new_obj, ex_file)) = [Ok tt; Err FileIOError].
Proof. vm_compute. reflexivity. Qed.

(** Collections that the first process could save alone, and that do not use a name
    twice, are saved: all registrations succeed, and all processes know the number
    of each variable in the file. *)
Theorem C151_created n size js var dom : (0 < n)%nat -> Forall (decomposed n size) js ->
  orderly var dom (map (whole n size true 0) js) ->
  exists f, proper f /\ In frame_dim (lf_dims f) /\ map fst (lf_vars f) = names [] (map (whole n size true 0) js) /\
    (forall m, In m (names [] (map (whole n size true 0) js)) -> file_var f m (v_dims (var m))) /\
    always (finished n (repeat (Ok tt) (length js)) f (fun i o => forall m, In m (names [] (map (whole n size true 0) js)) -> uses (o, f) m (var m))) (start n true js created).
Proof. exact (created_all n size js var dom). Qed.
Print Assumptions C151_created.
Definition w_ops := map (whole 3 w_size true 0) w_js.
Definition w_pix : nfield := match pixels_field (w_coll 0) with Ok p => p | _ => ex_global "" [1] 1 end.
Definition w_var (n : string) : ncvar :=
  if string_dec n "strain" then alone (w_strain 0)
  else if string_dec n "T" then alone (w_temp 0)
  else if string_dec n "matrix" then or_none (snd (register_global [0; 0; 0] true None "matrix" (named w_pix "matrix")))
  else or_none (register_local 2 (Some 2) "damage" (rv_field (w_damage 0)) [-1; 0; -1; -1]).
Lemma w_fit n : In n ["strain"; "T"; "matrix"; "damage"] -> fit (w_var n).
Proof. intros [<-|[<-|[<-|[<-|[]]]]]; apply fit_check; vm_compute; reflexivity. Qed.
Example w_orderly : orderly w_var [3; 2] w_ops.
Proof.
  split; [|split; [|split]].
  - exists (w_coll 0), [w_strain 0; w_temp 0], (tl w_ops), w_pix. split; [reflexivity|]. split; [vm_compute; reflexivity|]. split; [vm_compute; reflexivity|].
    split; [|split; [exists [0; 0; 0]; eexists; vm_compute; reflexivity|split; [|exact I]]].
    + change (saved _ _) with [w_strain 0; w_temp 0].
      intros r [<-|[<-|[]]]; (split; [reflexivity|exists [0; 0; 0]; eexists; vm_compute; reflexivity]).
    + change (saved _ _) with [w_damage 0]. intros r [<-|[]]. vm_compute. reflexivity.
  - change (names [] w_ops) with ["strain"; "T"; "matrix"; "damage"]. repeat constructor; cbn; intuition discriminate.
  - change (names [] w_ops) with ["strain"; "T"; "matrix"; "damage"]. change (subs_of _) with ["strain_a"; "strain_b"; "damage_a"; "damage_b"].
    cbn. intuition (subst; discriminate).
  - change (names [] w_ops) with ["strain"; "T"; "matrix"; "damage"]. apply w_fit.
Qed.
Example C151_created_ex : exists f, proper f /\ map fst (lf_vars f) = ["strain"; "T"; "matrix"; "damage"] /\
  always (finished 3 [Ok tt; Ok tt] f (fun i o => uses (o, f) "damage" (w_var "damage"))) (start 3 true w_js created).
Proof.
  destruct (C151_created 3 w_size w_js w_var [3; 2] ltac:(lia) w_decomposed w_orderly) as (f & P & _ & E & _ & A).
  exists f. split; [exact P|]. split; [exact E|]. revert A. apply always_weak. intros c. apply finished_weak. intros i o _ H. apply H.
  change (names [] (map (whole 3 w_size true 0) w_js)) with ["strain"; "T"; "matrix"; "damage"]. cbn. tauto.
Qed.

(** Files can be opened by another number of processes, with another decomposition
    of the domain: the object of each of them uses the variables of the same names. *)
Theorem C151_reopened n size js var dom n' size' js' var' dom' rw :
  (0 < n)%nat -> Forall (decomposed n size) js -> orderly var dom (map (whole n size true 0) js) ->
  (0 < n')%nat -> Forall (decomposed n' size') js' -> orderly var' dom' (map (whole n' size' false 0) js') ->
  (forall m, In m (names [] (map (whole n' size' false 0) js')) -> In m (names [] (map (whole n size true 0) js)) /\ v_dims (var' m) = v_dims (var m)) ->
  exists f, proper f /\
    always (finished n (repeat (Ok tt) (length js)) f (fun i o => forall m, In m (names [] (map (whole n size true 0) js)) -> uses (o, f) m (var m))) (start n true js created) /\
    always (finished n' (repeat (Ok tt) (length js')) f (fun i o => forall m, In m (names [] (map (whole n' size' false 0) js')) -> uses (o, f) m (var' m))) (start n' false js' (opened rw f)).
Proof.
  intros N D Or N' D' Or' E. destruct (created_all n size js var dom N D Or) as (f & P & F & _ & FV & A). exists f. split; [exact P|]. split; [exact A|].
  apply (opened_all n' size' js' var' dom' rw f N' D' Or' P F). intros m M. destruct (E m M) as [I1 ->]. now apply FV.
Qed.
Print Assumptions C151_reopened.
Definition v_var (n : string) : ncvar :=
  if string_dec n "T" then alone (v_temp 0)
  else if string_dec n "matrix" then w_var "matrix"
  else or_none (register_local 2 (Some 2) "damage" (rv_field (v_damage 0)) [-1; -1; -1]).
Definition v_ops := map (whole 2 (fun _ => 3) false 0) v_js.
Definition v_pix : nfield := match pixels_field (v_coll 0) with Ok p => p | _ => ex_global "" [1] 1 end.
Lemma v_fit n : In n ["T"; "matrix"; "damage"] -> fit (v_var n).
Proof. intros [<-|[<-|[<-|[]]]]; apply fit_check; vm_compute; reflexivity. Qed.
Example v_orderly : orderly v_var [3; 2] v_ops.
Proof.
  split; [|split; [|split]].
  - exists (v_coll 0), [v_temp 0], (tl v_ops), v_pix. split; [reflexivity|]. split; [vm_compute; reflexivity|]. split; [vm_compute; reflexivity|].
    split; [|split; [exists [0; 0; 0]; eexists; vm_compute; reflexivity|split; [|exact I]]].
    + change (saved _ _) with [v_temp 0].
      intros r [<-|[]]; (split; [reflexivity|exists [0; 0; 0]; eexists; vm_compute; reflexivity]).
    + change (saved _ _) with [v_damage 0]. intros r [<-|[]]. vm_compute. reflexivity.
  - change (names [] v_ops) with ["T"; "matrix"; "damage"]. repeat constructor; cbn; intuition discriminate.
  - change (names [] v_ops) with ["T"; "matrix"; "damage"]. change (subs_of _) with ["damage_a"; "damage_b"].
    cbn. intuition (subst; discriminate).
  - change (names [] v_ops) with ["T"; "matrix"; "damage"]. apply v_fit.
Qed.
Example C151_reopened_ex : exists f, proper f /\
  always (finished 3 [Ok tt; Ok tt] f (fun i o => uses (o, f) "T" (w_var "T"))) (start 3 true w_js created) /\
  always (finished 2 [Ok tt; Ok tt] f (fun i o => uses (o, f) "T" (v_var "T"))) (start 2 false v_js (opened false f)).
Proof.
  destruct (C151_reopened 3 w_size w_js w_var [3; 2] 2 (fun _ => 3) v_js v_var [3; 2] false ltac:(lia) w_decomposed w_orderly ltac:(lia) v_decomposed v_orderly) as (f & P & A & B).
  - change (names [] (map (whole 2 (fun _ => 3) false 0) v_js)) with ["T"; "matrix"; "damage"]. change (names [] (map (whole 3 w_size true 0) w_js)) with ["strain"; "T"; "matrix"; "damage"].
    intros m [<-|[<-|[<-|[]]]]; (split; [cbn; tauto|vm_compute; reflexivity]).
  - exists f. split; [exact P|]. split; [revert A|revert B]; apply always_weak; intros c; apply finished_weak; intros i o _ H; apply H.
    + change (names [] (map (whole 3 w_size true 0) w_js)) with ["strain"; "T"; "matrix"; "damage"]. cbn. tauto.
    + change (names [] (map (whole 2 (fun _ => 3) false 0) v_js)) with ["T"; "matrix"; "damage"]. cbn. tauto.
Qed.
