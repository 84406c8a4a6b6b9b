(** Several collections in one file. *)
From Coq Require Import String.
From Verif Require Import Base GridModel StridedModel LayoutModel LayoutProofs NetCDFModel NetCDFSpec DimModel DimSpec DimProofs5.
Local Open Scope string_scope.
Local Open Scope Z_scope.
Local Open Scope list_scope.

(** ** Examples: a 3 x 2 domain, two global collections, one local *)
Definition ex_coll : gcoll := mk_gcoll [3; 2] [3; 2] [0; 0].
Definition ex_lay (comp : list Z) (nsub : Z) : layout :=
  match global_layout_order ColMajor Automatic [3; 2] [0; 0] comp nsub with Ok l => l | _ => local_layout 0 [] 1 end.
Definition ex_global (n : string) (comp : list Z) (nsub : Z) : nfield := mk_nfield n "quad" (ex_lay comp nsub) [3; 2] [0; 0].
Definition ex_local (n : string) (comp : list Z) (nsub : Z) : nfield := mk_nfield n "quad" (local_layout 2 comp nsub) [] [].
Definition ex_pixels : list Z := [-1; 0; -1; -1; 1; -1].
Definition f_temp : rvar := mk_rvar "T" None (ex_global "T" [1] 1) [].
Definition f_strain : rvar := mk_rvar "strain" (Some 2) (ex_global "strain" [2; 2] 4) ["strain_a"; "strain_b"].
Definition f_strain_a : rvar := mk_rvar "strain_a" None (ex_global "strain_a" [2; 2] 4) [].
Definition f_stress : rvar := mk_rvar "stress" None (ex_global "stress" [2; 2] 4) [].
Definition f_damage : rvar := mk_rvar "damage" (Some 2) (ex_local "damage" [3] 4) ["damage_a"; "damage_b"].
Definition ex_ops : list rop :=
  [RGlobal ex_coll [f_strain; f_temp; f_strain_a]; RLocal "matrix" 2 ex_pixels [f_damage]; RGlobal ex_coll [f_stress]].
Definition ex_pix : nfield := match pixels_field ex_coll with Ok p => p | _ => ex_global "" [1] 1 end.
Definition or_none (r : res ncvar) : ncvar := match r with Ok v => v | _ => mk_ncvar "" [] None end.
Definition alone (r : rvar) : ncvar := or_none (snd (register_global [0; 0; 0] false (rv_hist r) (rv_name r) (rv_field r))).
Definition ex_var (n : string) : ncvar :=
  if string_dec n "strain" then alone f_strain
  else if string_dec n "T" then alone f_temp
  else if string_dec n "stress" then alone f_stress
  else if string_dec n "matrix" then or_none (snd (register_global [0; 0; 0] true None "matrix" (named ex_pix "matrix")))
  else or_none (register_local 2 (rv_hist f_damage) "damage" (rv_field f_damage) ex_pixels).
Definition ex_some : list rop := [RGlobal ex_coll [f_stress; f_temp]; RLocal "matrix" 2 ex_pixels []].

Lemma ex_global_reg r : snd (register_global [0; 0; 0] false (rv_hist r) (rv_name r) (rv_field r)) = Ok (ex_var (rv_name r)) ->
  registered (rv_hist r) (rv_name r) (rv_field r) (ex_var (rv_name r)).
Proof. intros E. exists [0; 0; 0]. eexists. rewrite <- E. apply surjective_pairing. Qed.
Lemma ex_pixels_reg : registered_pixels "matrix" (named ex_pix "matrix") (ex_var "matrix").
Proof. exists [0; 0; 0]. eexists. vm_compute. reflexivity. Qed.
Lemma ex_fit n : In n ["strain"; "T"; "matrix"; "damage"; "stress"] -> fit (ex_var n).
Proof. intros [<-|[<-|[<-|[<-|[<-|[]]]]]]; apply fit_check; vm_compute; reflexivity. Qed.
Example ex_orderly : orderly ex_var [3; 2] ex_ops.
Proof.
  split; [|split; [|split]].
  - exists ex_coll, [f_strain; f_temp; f_strain_a], (tl ex_ops), ex_pix. split; [reflexivity|]. split; [vm_compute; reflexivity|]. split; [vm_compute; reflexivity|].
    split; [|split; [exact ex_pixels_reg|split; [|split; [|exact I]]]].
    + change (saved _ _) with [f_strain; f_temp]. intros r [<-|[<-|[]]]; (split; [reflexivity|apply ex_global_reg; vm_compute; reflexivity]).
    + change (saved _ _) with [f_damage]. intros r [<-|[]]. vm_compute. reflexivity.
    + change (saved _ _) with [f_stress]. intros r [<-|[]]; (split; [reflexivity|apply ex_global_reg; vm_compute; reflexivity]).
  - change (names [] ex_ops) with ["strain"; "T"; "matrix"; "damage"; "stress"]. repeat constructor; cbn; intuition discriminate.
  - change (names [] ex_ops) with ["strain"; "T"; "matrix"; "damage"; "stress"]. change (subs_of _) with ["strain_a"; "strain_b"; "damage_a"; "damage_b"].
    cbn. intuition (subst; discriminate).
  - change (names [] ex_ops) with ["strain"; "T"; "matrix"; "damage"; "stress"]. apply ex_fit.
Qed.
Example ex_some_orderly : orderly ex_var [3; 2] ex_some.
Proof.
  split; [|split; [|split]].
  - exists ex_coll, [f_stress; f_temp], (tl ex_some), ex_pix. split; [reflexivity|]. split; [vm_compute; reflexivity|]. split; [vm_compute; reflexivity|].
    split; [|split; [exact ex_pixels_reg|split; [|exact I]]].
    + change (saved _ _) with [f_stress; f_temp]. intros r [<-|[<-|[]]]; (split; [reflexivity|apply ex_global_reg; vm_compute; reflexivity]).
    + intros r [].
  - change (names [] ex_some) with ["stress"; "T"; "matrix"]. repeat constructor; cbn; intuition discriminate.
  - intros x [].
  - change (names [] ex_some) with ["stress"; "T"; "matrix"]. intros n N. apply ex_fit. cbn in *. tauto.
Qed.

(** ** C127: several collections in one file *)

(** Collections that can be saved alone, and do not use a name twice, can be saved
    together: in the file each variable has the dimensions it has alone, and no
    other dimensions are there. *)
Theorem C127_created var dom ops : orderly var dom ops ->
  exists o f us, create_all ops = ((o, f), Ok us) /\ proper f /\ In frame_dim (lf_dims f) /\
    (forall d, In d (lf_dims f) -> d = frame_dim \/ exists n, In n (names [] ops) /\ In d (v_dims (var n))) /\
    map fst (lf_vars f) = names [] ops /\
    forall n, In n (names [] ops) -> file_var f n (v_dims (var n)) /\ uses (o, f) n (var n).
Proof. exact (created var dom ops). Qed.
Print Assumptions C127_created.
(** The file of the example has 13 dimensions, shared by five variables. *)
Example C127_created_ex : (let '((o, f), r) := create_all ex_ops in
    (map (fun d => (d_name d, d_size d)) (lf_dims f), lf_vars f, map vo_id (o_vars o))) =
  ([("frame", 0); ("history_index__2", 2); ("tensor_dim__strain-0", 2); ("tensor_dim__strain-1", 2); ("subpt__quad-4", 4); ("nx", 3); ("ny", 2);
    ("tensor_dim__T-0", 1); ("tensor_dim__matrix-0", 1); ("tensor_dim__damage-0", 3); ("pts__damage", 2); ("tensor_dim__stress-0", 2); ("tensor_dim__stress-1", 2)],
   [("strain", [0; 1; 2; 3; 4; 5; 6]%nat); ("T", [0; 7; 5; 6]%nat); ("matrix", [8; 5; 6]%nat); ("damage", [0; 1; 9; 4; 10]%nat); ("stress", [0; 11; 12; 4; 5; 6]%nat)],
   [Some 0; Some 1; Some 2; Some 3; Some 4]%nat).
Proof. vm_compute. reflexivity. Qed.

(** A file that has these variables, whoever made it, can be opened for them. *)
Theorem C127_opened var dom ops f : orderly var dom ops -> proper f -> In frame_dim (lf_dims f) ->
  (forall n, In n (names [] ops) -> file_var f n (v_dims (var n))) ->
  exists o us, open_all f ops = ((o, f), Ok us) /\ map (fun x => v_name (vo_var x)) (o_vars o) = names [] ops /\
    forall n, In n (names [] ops) -> uses (o, f) n (var n).
Proof. exact (opened var dom ops f). Qed.
Print Assumptions C127_opened.
(** A file with its dimensions in another order. *)
Definition ex_file : nclib :=
  mk_nclib [mk_ncdim "ny" 2; mk_ncdim "other" 7; mk_ncdim "tensor_dim__T-0" 1; mk_ncdim "nx" 3; frame_dim] [("X", [1]%nat); ("T", [4; 2; 3; 0]%nat)].
Example C127_opened_ex : (let '((o, f), r) := open_all ex_file [RGlobal ex_coll [f_temp]] in (map do_id (o_dims o), map vo_id (o_vars o), r)) =
  ([Some 4; Some 2; Some 3; Some 0]%nat, [Some 1%nat], Ok [tt]).
Proof. vm_compute. reflexivity. Qed.

(** Some of the variables of a file can be registered in any order and grouping:
    they are the variables of the file. *)
Theorem C127_reopened var dom ops var' dom' ops' : orderly var dom ops -> orderly var' dom' ops' ->
  (forall n, In n (names [] ops') -> In n (names [] ops) /\ v_dims (var' n) = v_dims (var n)) ->
  exists o f us o' us', create_all ops = ((o, f), Ok us) /\ open_all f ops' = ((o', f), Ok us') /\
    forall n, In n (names [] ops') -> exists i, number (o, f) (var n) i /\ number (o', f) (var' n) i.
Proof. exact (reopened var dom ops var' dom' ops'). Qed.
Print Assumptions C127_reopened.
Example C127_reopened_ex : (let '((_, f), _) := create_all ex_ops in let '((o, _), r) := open_all f ex_some in
    (map (fun x => (v_name (vo_var x), vo_id x)) (o_vars o), r)) =
  ([("stress", Some 4); ("T", Some 1); ("matrix", Some 2)]%nat, Ok [tt; tt]).
Proof. vm_compute. reflexivity. Qed.

(** ** C128: a field with the name of a local collection *)

(** It is not refused when it is registered, but the library refuses it, and any
    collection after it. *)
Definition c_matrix : rop := RLocal "matrix" 2 ex_pixels [mk_rvar "matrix" None (ex_local "matrix" [1] 1) []].
Theorem C128_own_name_refuted :
  (exists v, register_local 2 None "matrix" (ex_local "matrix" [1] 1) ex_pixels = Ok v) /\
  (let '(s, r) := create_all [RGlobal ex_coll [f_temp]; c_matrix] in
   r = Err FileIOError /\ get_names (fst s) = ["T"; "matrix"] /\ map fst (lf_vars (snd s)) = ["T"; "matrix"] /\
   map vo_id (o_vars (fst s)) = [Some 0%nat; Some 1%nat; None] /\
   snd (create_op (RGlobal ex_coll [f_stress]) s) = Err FileIOError).
Proof. split; [eexists; vm_compute; reflexivity|vm_compute; repeat split]. Qed.
Print Assumptions C128_own_name_refuted.
(** A field of a global collection likewise. *)
Theorem C128_other_collection_refuted :
  snd (create_all [RGlobal ex_coll [f_temp]; RLocal "T" 2 ex_pixels []]) = Err FileIOError.
Proof. vm_compute. reflexivity. Qed.
Print Assumptions C128_other_collection_refuted.

(** ** C129: a field with the name of a field of a state field elsewhere *)

(** It is neither refused nor saved. *)
Definition g_strain_a : rvar := mk_rvar "strain_a" None (ex_global "strain_a" [1] 1) [].
Theorem C129_not_saved_refuted :
  (exists v, registered None "strain_a" (ex_global "strain_a" [1] 1) v) /\
  (let '(s, r) := create_all [RGlobal ex_coll [f_strain]; RGlobal ex_coll [g_strain_a]] in
   r = Ok [tt; tt] /\ get_names (fst s) = ["strain"] /\ map fst (lf_vars (snd s)) = ["strain"]).
Proof. split; [eexists; exists [0; 0; 0]; eexists; vm_compute; reflexivity|vm_compute; repeat split]. Qed.
Print Assumptions C129_not_saved_refuted.

(** ** C130: a collection that was refused *)

(** Its dimensions stay: the field cannot be registered in another shape. *)
Definition other_coll : gcoll := mk_gcoll [5; 2] [5; 2] [0; 0].
Definition f_other (comp : list Z) : rvar :=
  mk_rvar "u" None (mk_nfield "u" "quad" (match global_layout_order ColMajor Automatic [5; 2] [0; 0] comp 1 with Ok l => l | _ => local_layout 0 [] 1 end) [5; 2] [0; 0]) [].
Definition f_u : rvar := mk_rvar "u" None (ex_global "u" [2] 1) [].
Theorem C130_refused_refuted :
  snd (create_all [RGlobal ex_coll [f_temp]; RGlobal ex_coll [f_u]]) = Ok [tt; tt] /\
  (let '(s, r) := create_all [RGlobal ex_coll [f_temp]; RGlobal other_coll [f_other [3]]] in
   r = Err FileIOError /\ get_names (fst s) = ["T"] /\
   snd (create_op (RGlobal ex_coll [f_u]) s) = Err FileIOError).
Proof. vm_compute. repeat split. Qed.
Print Assumptions C130_refused_refuted.
