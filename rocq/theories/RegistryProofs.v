(** Maps keyed by strings; the effect of each operation on the fields of a
    collection; invariants of all histories. *)
From Coq Require Import String Ascii Sorting.Sorted.
From Verif Require Import Base CIntModel GridModel GridSpec LayoutProofs StridedModel UnitsModel LayoutModel LayoutSpec.
From Verif Require Import FieldModel FieldSpec FieldProofs RegistryModel RegistrySpec.
Local Open Scope Z_scope.
Local Open Scope list_scope.

(** ** Order on strings *)
Definition slt (a b : string) : Prop := String.compare a b = Lt.

Lemma compare_refl s : String.compare s s = Eq.
Proof. induction s as [|x s IH]; cbn; [reflexivity|]. unfold Ascii.compare. now rewrite N.compare_refl. Qed.

Lemma slt_trans a : forall b c, slt a b -> slt b c -> slt a c.
Proof.
  unfold slt. induction a as [|x a IH]; intros [|y b] [|z c]; cbn; try congruence; auto.
  unfold Ascii.compare.
  destruct (N.compare_spec (N_of_ascii x) (N_of_ascii y)); destruct (N.compare_spec (N_of_ascii y) (N_of_ascii z));
    destruct (N.compare_spec (N_of_ascii x) (N_of_ascii z)); try congruence; try lia; eauto.
Qed.

Lemma slt_irrefl a : ~ slt a a.
Proof. unfold slt. rewrite compare_refl. congruence. Qed.

Lemma eqb_compare a b : String.eqb a b = match String.compare a b with Eq => true | _ => false end.
Proof.
  destruct (String.eqb_spec a b) as [->|N]; [now rewrite compare_refl|].
  destruct (String.compare a b) eqn:E; auto. apply String.compare_eq_iff in E. congruence.
Qed.

(** ** Maps *)
Section Maps.
Context {V : Type}.
Implicit Types (m : list (string * V)) (k : string) (v : V).

Lemma lookup_insert_same k v m : lookup k (insert k v m) = Some v.
Proof.
  induction m as [|[k' v'] r IH]; cbn.
  - now rewrite String.eqb_refl.
  - destruct (String.compare k k') eqn:E; cbn; try (now rewrite String.eqb_refl).
    rewrite eqb_compare, E. exact IH.
Qed.

Lemma lookup_insert_other k k' v m : k <> k' -> lookup k (insert k' v m) = lookup k m.
Proof.
  intros N. assert (B : String.eqb k k' = false) by now apply String.eqb_neq.
  induction m as [|[x w] r IH]; cbn.
  - now rewrite B.
  - destruct (String.compare k' x) eqn:E; cbn.
    + apply String.compare_eq_iff in E. subst x. now rewrite B.
    + now rewrite B.
    + destruct (String.eqb k x); auto.
Qed.

Lemma lookup_insert k k' v m : lookup k (insert k' v m) = if String.eqb k k' then Some v else lookup k m.
Proof.
  destruct (String.eqb_spec k k') as [->|N]; [apply lookup_insert_same|now apply lookup_insert_other].
Qed.

Lemma lookup_erase k k' m : lookup k (erase k' m) = if String.eqb k k' then None else lookup k m.
Proof.
  unfold erase. induction m as [|[x w] r IH]; cbn.
  - now destruct (String.eqb k k').
  - destruct (String.eqb_spec k' x) as [->|N]; cbn.
    + rewrite IH. destruct (String.eqb k x); reflexivity.
    + rewrite IH. destruct (String.eqb_spec k x) as [->|N'].
      * destruct (String.eqb_spec x k'); [congruence|reflexivity].
      * reflexivity.
Qed.

Lemma lookup_In k v m : lookup k m = Some v -> In (k, v) m.
Proof.
  induction m as [|[x w] r IH]; cbn; [discriminate|].
  destruct (String.eqb_spec k x) as [->|N]; [intros H; injection H as ->; now left|right; auto].
Qed.

Lemma lookup_keys k m : In k (keys m) <-> lookup k m <> None.
Proof.
  unfold keys. induction m as [|[x w] r IH]; cbn; [tauto|].
  destruct (String.eqb_spec k x) as [->|N].
  - split; [congruence|auto].
  - rewrite <- IH. split; [intros [H|H]; [congruence|auto]|auto].
Qed.

Definition ordered m : Prop := StronglySorted slt (keys m).

Lemma ordered_NoDup m : ordered m -> NoDup (keys m).
Proof.
  unfold ordered. generalize (keys m). induction 1 as [|x l _ IH F]; constructor; auto.
  intros H. rewrite Forall_forall in F. now apply (slt_irrefl x), F.
Qed.

Lemma insert_keys_In k v m x : In x (keys (insert k v m)) -> x = k \/ In x (keys m).
Proof.
  unfold keys. induction m as [|[y w] r IH]; cbn; [intros [H|[]]; auto|].
  destruct (String.compare k y); cbn; intros [H|H]; auto.
  destruct (IH H); auto.
Qed.

Lemma insert_ordered k v m : ordered m -> ordered (insert k v m).
Proof.
  unfold ordered. induction m as [|[x w] r IH]; cbn; intros S.
  - repeat constructor.
  - apply StronglySorted_inv in S. destruct S as [S F]. destruct (String.compare k x) eqn:E; cbn.
    + apply String.compare_eq_iff in E. subst x. now constructor.
    + constructor; [now constructor|]. constructor; [exact E|].
      rewrite Forall_forall in *. intros y H. apply slt_trans with x; auto.
    + constructor; [now apply IH|]. rewrite Forall_forall in *. intros y H.
      apply insert_keys_In in H. destruct H as [->|H]; [|now apply F].
      unfold slt. rewrite String.compare_antisym, E. reflexivity.
Qed.

Lemma filter_ordered p m : ordered m -> ordered (filter p m).
Proof.
  unfold ordered. induction m as [|[x w] r IH]; cbn; intros S; [constructor|].
  apply StronglySorted_inv in S. destruct S as [S F]. destruct (p (x, w)); cbn; [|auto].
  constructor; [auto|]. rewrite Forall_forall in *. intros y H. apply F. unfold keys in *.
  apply in_map_iff in H. destruct H as (q & <- & H). apply filter_In in H. now apply in_map.
Qed.

Lemma lookup_none_keys m k : lookup k m = None -> ~ In k (keys m).
Proof. intros H I. apply lookup_keys in I. congruence. Qed.

Lemma insert_perm k v m : lookup k m = None -> Permutation (keys (insert k v m)) (k :: keys m).
Proof.
  unfold keys. induction m as [|[x w] r IH]; cbn; intros H; [auto|].
  destruct (String.eqb_spec k x) as [->|N]; [discriminate|].
  destruct (String.compare k x) eqn:E; cbn; auto.
  - apply String.compare_eq_iff in E. congruence.
  - etransitivity; [apply perm_skip, IH, H|]. apply perm_swap.
Qed.
End Maps.

Lemma keys_map_fields {A} (g : rfield A -> rfield A) l : keys (map_fields g l) = keys l.
Proof. unfold keys, map_fields. now rewrite map_map. Qed.

Lemma ordered_map_fields {A} (g : rfield A -> rfield A) l : ordered l -> ordered (map_fields g l).
Proof. unfold ordered. now rewrite keys_map_fields. Qed.

Lemma lookup_map_fields {A} (g : rfield A -> rfield A) l k :
  lookup k (map_fields g l) = option_map g (lookup k l).
Proof. induction l as [|[x r] l IH]; cbn; [auto|]. destruct (String.eqb k x); auto. Qed.

(** ** Field operations leave the collection's data alone *)
Section Reg.
Context {A : Type}.
Implicit Types (f : field A) (c : coll A) (r : rfield A).

Definition same_env f f' : Prop :=
  l_order (f_lay f') = l_order (f_lay f) /\ l_pix (f_lay f') = l_pix (f_lay f) /\ l_pstr (f_lay f') = l_pstr (f_lay f) /\
  l_npix (f_lay f') = l_npix (f_lay f) /\ l_nbuf (f_lay f') = l_nbuf (f_lay f) /\ f_glob f' = f_glob f /\ f_init f' = f_init f.

Lemma same_env_refl f : same_env f f.
Proof. unfold same_env; auto 10. Qed.

Lemma resize_lay zero f : f_lay (fst (resize zero f)) = f_lay f /\ f_glob (fst (resize zero f)) = f_glob f /\
  f_init (fst (resize zero f)) = f_init f /\ f_pad (fst (resize zero f)) = f_pad f.
Proof.
  unfold resize. destruct (negb (has_nsub f)); [cbn; auto|].
  destruct (_ && _); [cbn; auto|]. destruct (_ <? 0); cbn; auto.
Qed.

Lemma set_pad_lay zero f p : f_lay (fst (set_pad_size zero f p)) = f_lay f /\ f_glob (fst (set_pad_size zero f p)) = f_glob f /\
  f_init (fst (set_pad_size zero f p)) = f_init f /\ f_pad (fst (set_pad_size zero f p)) = p.
Proof. unfold set_pad_size. match goal with |- context [resize zero ?g] => pose proof (resize_lay zero g) end. cbn in *. tauto. Qed.

Lemma push_one_env f x : f_lay (push_one f x) = f_lay f /\ f_glob (push_one f x) = f_glob f /\ f_init (push_one f x) = f_init f.
Proof. unfold push_one; cbn; auto. Qed.

Lemma push_all_env v : forall f, f_lay (push_all f v) = f_lay f /\ f_glob (push_all f v) = f_glob f /\ f_init (push_all f v) = f_init f.
Proof.
  unfold push_all. induction v as [|x v IH]; intros f; cbn [fold_left]; [auto|].
  destruct (IH (push_one f x)) as (-> & -> & ->). apply push_one_env.
Qed.

Lemma keep_push_env f v : let g := fst (keep (fun f => push_back f v) f) in
  f_lay g = f_lay f /\ f_glob g = f_glob f /\ f_init g = f_init f.
Proof.
  cbn zeta. unfold keep, push_back. destruct (f_glob f) eqn:G; [cbn; auto|]. destruct (negb (has_nsub f)); [cbn; auto|].
  destruct (negb _); [cbn; auto|]. cbn [fst].
  match goal with |- context [push_all ?g ?w] => destruct (push_all_env w g) as (-> & -> & ->) end. cbn; auto.
Qed.

Lemma keep_push_single_env f v : let g := fst (keep (fun f => push_back_single f v) f) in
  f_lay g = f_lay f /\ f_glob g = f_glob f /\ f_init g = f_init f.
Proof.
  cbn zeta. unfold keep, push_back_single. destruct (f_glob f) eqn:G; [cbn; auto|]. destruct (negb (has_nsub f)); [cbn; auto|].
  destruct (negb _); [cbn; auto|]. cbn [fst].
  match goal with |- context [push_all ?g ?w] => destruct (push_all_env w g) as (-> & -> & ->) end. cbn; auto.
Qed.

Lemma reshape_env f s k f' : field_reshape f s k = Ok f' -> same_env f f' /\
  l_comp (f_lay f') = s /\ l_nbc (f_lay f') = get_nb_from_shape s /\
  l_nsub (f_lay f') = match k with None => l_nsub (f_lay f) | Some n => n end /\
  get_nb_from_shape s * l_nsub (f_lay f') = l_nbc (f_lay f) * l_nsub (f_lay f) /\
  f_vals f' = f_vals f /\ f_pad f' = f_pad f /\ f_gen f' = f_gen f /\ f_ptr f' = f_ptr f /\ f_cur f' = f_cur f.
Proof.
  unfold field_reshape. destruct k as [k|].
  - unfold reshape_sub, nb_dof_per_pixel. destruct (Z.eqb_spec (get_nb_from_shape s * k) (l_nbc (f_lay f) * l_nsub (f_lay f))); cbn [negb bind]; [|discriminate].
    intros H; apply Ok_inj in H; subst f'. unfold same_env; cbn. auto 20.
  - unfold reshape. destruct (Z.eqb_spec (get_nb_from_shape s) (l_nbc (f_lay f))) as [E|]; cbn [negb bind]; [|discriminate].
    intros H; apply Ok_inj in H; subst f'. unfold same_env; cbn. rewrite E. auto 20.
Qed.


(** ** Tags *)
Lemma tag_number_insert (t : list (string * Z)) n tag c tag' :
  tag_number (with_tags c (insert tag n t)) tag' =
  if String.eqb tag' tag then (if n =? unknown then None else Some n) else tag_number (with_tags c t) tag'.
Proof. unfold tag_number, with_tags; cbn. rewrite lookup_insert. now destruct (String.eqb tag' tag). Qed.

Lemma with_tags_same c tag : tag_number (with_tags c (c_tags c)) tag = tag_number c tag.
Proof. reflexivity. Qed.

Lemma touch_tag_number c tag tag' : tag_number (touch_tag c tag) tag' = tag_number c tag'.
Proof.
  unfold touch_tag. destruct (tag_number c tag) eqn:E; [reflexivity|].
  rewrite tag_number_insert, with_tags_same. destruct (String.eqb_spec tag' tag) as [->|]; [rewrite E; reflexivity|reflexivity].
Qed.

Lemma touch_tag_same c tag : c_glob (touch_tag c tag) = c_glob c /\ c_order (touch_tag c tag) = c_order c /\
  c_init (touch_tag c tag) = c_init c /\ c_npix (touch_tag c tag) = c_npix c /\ c_nbuf (touch_tag c tag) = c_nbuf c /\
  c_pix (touch_tag c tag) = c_pix c /\ c_pstr (touch_tag c tag) = c_pstr c /\ c_index (touch_tag c tag) = c_index c /\
  c_fields (touch_tag c tag) = c_fields c.
Proof. unfold touch_tag. destruct (tag_number c tag); cbn; auto 20. Qed.

Lemma sub_pts_touch c tag tag' : sub_pts_of (touch_tag c tag) tag' = sub_pts_of c tag'.
Proof. unfold sub_pts_of. now rewrite touch_tag_number. Qed.

Definition same_coll c c' : Prop :=
  c_glob c' = c_glob c /\ c_order c' = c_order c /\ c_init c' = c_init c /\ c_npix c' = c_npix c /\ c_nbuf c' = c_nbuf c /\
  c_pix c' = c_pix c /\ c_pstr c' = c_pstr c /\ c_index c' = c_index c.

Lemma sees_coll c c' f : same_coll c c' -> sees c f -> sees c' f.
Proof. unfold same_coll, sees. intros (-> & -> & -> & -> & -> & -> & -> & _). auto. Qed.

Lemma sees_env c f f' : same_env f f' -> sees c f -> sees c f'.
Proof. unfold same_env, sees. intros (-> & -> & -> & -> & -> & -> & ->). auto. Qed.

Lemma lay_env f f' : f_lay f' = f_lay f -> f_glob f' = f_glob f -> f_init f' = f_init f -> same_env f f'.
Proof. unfold same_env. intros -> -> ->. auto 10. Qed.

Lemma attach_sees c f : sees c (attach c f).
Proof. unfold sees, attach; cbn; auto 10. Qed.

Lemma attach_id c f : sees c f -> attach c f = f.
Proof.
  destruct f as [l g i cu p v ca ge pt]. destruct l. unfold sees, attach; cbn. intros (-> & -> & -> & -> & -> & -> & ->). reflexivity.
Qed.

(** ** Allocation *)
Definition resized zero r : rfield A := set_field r (fst (resize zero (rf_field r))).

Lemma allocate_keys zero (l : list (string * rfield A)) : keys (fst (allocate_fields zero l)) = keys l.
Proof.
  induction l as [|[k r] l IH]; cbn; [reflexivity|].
  destruct (_ && _); [reflexivity|]. destruct (resize zero (rf_field r)) as [f' [u|e|]]; [|reflexivity|reflexivity].
  destruct (allocate_fields zero l) as [l' o]; cbn in *. now rewrite IH.
Qed.

Lemma allocate_each zero (l : list (string * rfield A)) k : lookup k (fst (allocate_fields zero l)) = lookup k l \/
  exists r, lookup k l = Some r /\ lookup k (fst (allocate_fields zero l)) = Some (resized zero r).
Proof.
  induction l as [|[x r] l IH]; cbn; [auto|].
  destruct (_ && _); [now left|]. destruct (resize zero (rf_field r)) as [f' [u|e|]] eqn:E.
  - destruct (allocate_fields zero l) as [l' o]; cbn in *. destruct (String.eqb k x); [|exact IH].
    right. exists r. split; [reflexivity|]. unfold resized. now rewrite E.
  - cbn. destruct (String.eqb k x); [|now left]. right. exists r. split; [reflexivity|]. unfold resized. now rewrite E.
  - cbn. destruct (String.eqb k x); [|now left]. right. exists r. split; [reflexivity|]. unfold resized. now rewrite E.
Qed.

Lemma allocate_ok zero (l : list (string * rfield A)) l' u : allocate_fields zero l = (l', Ok u) -> forall k,
  lookup k l' = option_map (resized zero) (lookup k l) /\
  forall r, lookup k l = Some r -> snd (resize zero (rf_field r)) = Ok tt /\ (f_cur (rf_field r) = 0 \/ f_cur (rf_field r) = nb_entries (rf_field r)).
Proof.
  revert l'; induction l as [|[x r] l IH]; intros l' H k; cbn in H.
  - injection H as <-. cbn. split; [auto|discriminate].
  - destruct (Z.eqb_spec (f_cur (rf_field r)) 0); destruct (Z.eqb_spec (f_cur (rf_field r)) (nb_entries (rf_field r)));
      cbn [negb andb] in H; try discriminate;
      (destruct (resize zero (rf_field r)) as [f' [[]|e'|]] eqn:E; try discriminate;
       destruct (allocate_fields zero l) as [l1 o] eqn:El; injection H as <- ->; specialize (IH l1 eq_refl k); cbn;
       destruct (String.eqb k x); [|exact IH];
       split; [cbn; unfold resized; now rewrite E|];
       intros r0 H0; injection H0 as <-; rewrite E; auto).
Qed.

Lemma allocate_fails zero (l : list (string * rfield A)) e : snd (allocate_fields zero l) = e -> e <> Ok tt ->
  exists k r, lookup k l = Some r \/ In (k, r) l.
Proof. destruct l as [|[k r] l]; [cbn; congruence|]. intros _ _. exists k, r. right. now left. Qed.

(** ** The invariant of all histories *)
Definition inv c : Prop := ordered (c_fields c) /\
  forall k r, lookup k (c_fields c) = Some r -> sees c (rf_field r) /\ l_nsub (f_lay (rf_field r)) = sub_pts_of c (rf_tag r).

Lemma sub_pts_same c c' tag : c_tags c' = c_tags c -> sub_pts_of c' tag = sub_pts_of c tag.
Proof. unfold sub_pts_of, tag_number. now intros ->. Qed.

Lemma set_nb_cases c tag n : (snd (set_nb_sub_pts c tag n) = Err FieldCollectionError /\ fst (set_nb_sub_pts c tag n) = c /\
     (n < 1 \/ exists m, tag_number c tag = Some m /\ m <> n)) \/
  (1 <= n /\ (tag_number c tag = None \/ tag_number c tag = Some n) /\
   set_nb_sub_pts c tag n = (with_fields (with_tags c (insert tag n (c_tags c)))
      (map_fields (fun r => if String.eqb (rf_tag r) tag then set_nsub r n else r) (c_fields c)), Ok tt)).
Proof.
  unfold set_nb_sub_pts. destruct (tag_number c tag) as [m|] eqn:E.
  - destruct (Z.eqb_spec m n); cbn [negb].
    + subst m. destruct (Z.ltb_spec n 1); [left; cbn; auto 10|right; auto 10].
    + left; cbn. split; [auto|]. split; [auto|]. right. eauto.
  - destruct (Z.ltb_spec n 1); [left; cbn; auto 10|right; auto 10].
Qed.

Lemma set_nb_numbers c tag n tag' : 1 <= n -> (tag_number c tag = None \/ tag_number c tag = Some n) ->
  tag_number (fst (set_nb_sub_pts c tag n)) tag' = if String.eqb tag' tag then Some n else tag_number c tag'.
Proof.
  intros Hn Ht. destruct (set_nb_cases c tag n) as [(_ & _ & [H|(m & H1 & H2)])|(_ & _ & ->)].
  - lia.
  - destruct Ht; congruence.
  - cbn [fst]. unfold tag_number, with_fields, with_tags; cbn. rewrite lookup_insert. destruct (String.eqb tag' tag); [|reflexivity].
    destruct (Z.eqb_spec n unknown); [unfold unknown in *; lia|reflexivity].
Qed.

Lemma inv_set_nb c tag n : inv c -> inv (fst (set_nb_sub_pts c tag n)).
Proof.
  intros [O H]. destruct (set_nb_cases c tag n) as [(_ & -> & _)|(Hn & Ht & E)]; [now split|].
  pose proof (fun t => set_nb_numbers c tag n t Hn Ht) as T. rewrite E in *. cbn [fst] in *. split.
  - cbn [with_fields c_fields]. now apply ordered_map_fields.
  - intros k r. unfold with_fields at 1; cbn [c_fields]. rewrite lookup_map_fields. destruct (lookup k (c_fields c)) as [r0|] eqn:L; cbn [option_map]; [|discriminate].
    intros Hr. injection Hr as <-. destruct (H _ _ L) as [S N]. unfold sub_pts_of. rewrite T.
    destruct (String.eqb_spec (rf_tag r0) tag) as [Et|Et].
    + split; [exact S|]. cbn. rewrite Et, String.eqb_refl. reflexivity.
    + split; [exact S|]. destruct (String.eqb_spec (rf_tag r0) tag); [congruence|]. exact N.
Qed.

Lemma inv_insert c c1 name r : inv c -> same_coll c c1 -> c_fields c1 = c_fields c -> (forall t, sub_pts_of c1 t = sub_pts_of c t) ->
  sees c (rf_field r) -> l_nsub (f_lay (rf_field r)) = sub_pts_of c (rf_tag r) ->
  inv (with_fields c1 (insert name r (c_fields c1))).
Proof.
  intros [O H] SC FE T S N. split.
  - cbn [with_fields c_fields]. rewrite FE. now apply insert_ordered.
  - intros k r'. unfold with_fields at 1; cbn [c_fields]. rewrite FE, lookup_insert.
    assert (E1 : forall t, sub_pts_of (with_fields c1 (insert name r (c_fields c))) t = sub_pts_of c t)
      by (intros t; rewrite (sub_pts_same c1); [apply T|reflexivity]).
    assert (E2 : forall f, sees c f -> sees (with_fields c1 (insert name r (c_fields c))) f)
      by (intros f; apply sees_coll; exact SC).
    destruct (String.eqb k name).
    + intros Hr; injection Hr as <-. rewrite E1. auto.
    + intros Hr. destruct (H _ _ Hr). rewrite E1. auto.
Qed.

Lemma same_coll_touch c tag : same_coll c (touch_tag c tag).
Proof. unfold same_coll. destruct (touch_tag_same c tag) as (? & ? & ? & ? & ? & ? & ? & ? & ?). auto 10. Qed.

Lemma inv_touch c tag : inv c -> inv (touch_tag c tag).
Proof.
  intros [O H]. destruct (touch_tag_same c tag) as (_ & _ & _ & _ & _ & _ & _ & _ & F). split; [now rewrite F|].
  intros k r. rewrite F, sub_pts_touch. intros L. destruct (H _ _ L). split; [|auto]. eapply sees_coll; [apply same_coll_touch|auto].
Qed.

Lemma same_coll_refl c : same_coll c c.
Proof. unfold same_coll; auto 10. Qed.

Lemma inv_register zero c name ty comp tag u allow : inv c -> inv (fst (register_field zero c name ty comp tag u allow)).
Proof.
  intros I. unfold register_field. destruct (lookup name (c_fields c)) as [r|] eqn:L.
  - destruct allow; [|exact I]. repeat match goal with |- context [if ?b then _ else _] => destruct b; [exact I|] end. exact I.
  - match goal with |- context [new_field ?l ?g ?i] => set (f := new_field l g i) end.
    assert (Sf : sees c f) by (unfold f, sees; cbn; auto 10).
    destruct (c_init c) eqn:Ei.
    + pose proof (resize_lay zero f) as (R1 & R2 & R3 & _). destruct (resize zero f) as [f' [u'|e|]] eqn:R; cbn [fst] in *; try (now apply inv_touch).
      destruct (touch_tag_same c tag) as (_ & _ & _ & _ & _ & _ & _ & _ & F).
      apply (inv_insert c); auto; [apply same_coll_touch|intros; apply sub_pts_touch| |].
      * eapply sees_env; [apply lay_env; eassumption|exact Sf].
      * cbn [rf_field rf_tag]. rewrite R1. cbn. apply sub_pts_touch.
    + cbn [fst]. destruct (touch_tag_same c tag) as (_ & _ & _ & _ & _ & _ & _ & _ & F).
      apply (inv_insert c); auto; [apply same_coll_touch|intros; apply sub_pts_touch|]. cbn. apply sub_pts_touch.
Qed.

Lemma inv_on_field c name opf : inv c ->
  (forall f, sees c f -> same_env f (fst (opf f)) /\ l_nsub (f_lay (fst (opf f))) = l_nsub (f_lay f)) -> inv (fst (on_field c name opf)).
Proof.
  intros I Ho. unfold on_field. destruct (lookup name (c_fields c)) as [r|] eqn:L; [|exact I].
  destruct I as [O H]. destruct (H _ _ L) as [S N]. destruct (Ho _ S) as [E1 E2]. destruct (opf (rf_field r)) as [f' o]; cbn [fst] in *.
  apply (inv_insert c); auto; [now split|apply same_coll_refl|eapply sees_env; eassumption|]. cbn. congruence.
Qed.

Lemma sync_fields c k : lookup k (c_fields (sync c)) = option_map (fun r => set_field r (attach c (rf_field r))) (lookup k (c_fields c)).
Proof. unfold sync, with_fields; cbn. apply lookup_map_fields. Qed.

Lemma inv_sync c : ordered (c_fields c) ->
  (forall k r, lookup k (c_fields c) = Some r -> l_nsub (f_lay (rf_field r)) = sub_pts_of c (rf_tag r)) -> inv (sync c).
Proof.
  intros O H. split.
  - unfold sync. cbn [with_fields c_fields]. now apply ordered_map_fields.
  - intros k r. rewrite sync_fields. destruct (lookup k (c_fields c)) as [r0|] eqn:L; cbn [option_map]; [|discriminate].
    intros Hr; injection Hr as <-. cbn [set_field rf_field rf_tag]. rewrite (sub_pts_same c) by reflexivity. split; [|cbn; now apply H with k].
    eapply sees_coll; [|apply attach_sees]. unfold same_coll; repeat split; reflexivity.
Qed.

Lemma inv_finish zero c idx : inv c -> inv (fst (finish_init zero c idx)).
Proof.
  intros [O H]. unfold finish_init. pose proof (allocate_keys zero (c_fields c)) as K. pose proof (allocate_each zero (c_fields c)) as E.
  destruct (allocate_fields zero (c_fields c)) as [l o]; cbn [fst] in *.
  assert (N : forall k r, lookup k l = Some r -> sees c (rf_field r) /\ l_nsub (f_lay (rf_field r)) = sub_pts_of c (rf_tag r)).
  { intros k r Lk. destruct (E k) as [E1|(r0 & E1 & E2)].
    - rewrite E1 in Lk. now apply H with k.
    - rewrite E2 in Lk. injection Lk as <-. destruct (H _ _ E1) as [S N]. unfold resized, set_field; cbn.
      pose proof (resize_lay zero (rf_field r0)) as (R1 & R2 & R3 & _). split; [|now rewrite R1]. eapply sees_env; [apply lay_env; eassumption|exact S]. }
  assert (I' : inv (with_fields c l)).
  { split; [cbn [with_fields c_fields]; unfold ordered in *; now rewrite K|]. intros k r Lk. destruct (N k r Lk). split; [|auto].
    eapply sees_coll; [|eassumption]. unfold same_coll; repeat split; reflexivity. }
  destruct o as [u|e|]; cbn [fst]; [|exact I'|exact I'].
  apply inv_sync; cbn [c_fields]; [unfold ordered in *; now rewrite K|]. intros k r Lk. destruct (N k r Lk). rewrite (sub_pts_same c) by reflexivity. auto.
Qed.

Lemma inv_with_pixels c a b p q : inv c -> inv (with_pixels c a b p q).
Proof.
  intros [O H]. unfold with_pixels. apply inv_sync; cbn; [exact O|]. intros k r L. rewrite (sub_pts_same c) by reflexivity. now apply H with k.
Qed.

Lemma inv_init_global zero c nd nsd loc pstr : inv c -> inv (fst (init_global zero c nd nsd loc pstr)).
Proof.
  intros I. unfold init_global. destruct (_ <=? 0); [exact I|]. destruct (_ <? 0); [exact I|]. destruct (c_init c); [exact I|].
  destruct (pixels_strided _ _ _); [|exact I|]; destruct (get_buffer_size _ _); try exact I. apply inv_finish. now apply inv_with_pixels.
Qed.

Lemma inv_reshape_tag c name s tag : inv c -> inv (fst (reshape_tag c name s tag)).
Proof.
  intros I. unfold reshape_tag. destruct (lookup name (c_fields c)) as [r|] eqn:L; [|exact I].
  destruct (field_reshape (rf_field r) s _) as [f'|e|] eqn:E; cbn [fst]; try (now apply inv_touch).
  apply reshape_env in E. destruct E as (E1 & _ & _ & E2 & _). destruct (touch_tag_same c tag) as (_ & _ & _ & _ & _ & _ & _ & _ & F).
  destruct I as [O H]. apply (inv_insert c); auto; [now split|apply same_coll_touch|intros; apply sub_pts_touch| |].
  - cbn. eapply sees_env; [exact E1|]. now apply (H name).
  - cbn. rewrite E2. apply sub_pts_touch.
Qed.

Lemma step_inv zero c o : inv c -> inv (fst (step zero c o)).
Proof.
  intros I. destruct o; cbn [step].
  - now apply inv_register.
  - unfold pop_field. destruct (lookup name (c_fields c)) eqn:L; cbn [fst]; [|exact I]. destruct I as [O H]. split.
    + unfold with_fields, erase; cbn. now apply filter_ordered.
    + intros k r'. unfold with_fields at 1; cbn [c_fields]. rewrite lookup_erase. destruct (String.eqb k name); [discriminate|]. intros Hr. destruct (H _ _ Hr).
      split; [|auto]. eapply sees_coll; [|eassumption]. unfold same_coll; repeat split; reflexivity.
  - now apply inv_set_nb.
  - destruct (c_glob c); [exact I|]. unfold add_pixel. destruct (c_init c) eqn:Ei; [exact I|]. destruct I as [O H]. split; [exact O|].
    intros k r L. destruct (H k r L) as [S N]. split; [|exact N]. unfold sees in *; cbn. rewrite <- Ei. exact S.
  - destruct (c_glob c); [exact I|]. unfold init_local. destruct (c_init c); [exact I|]. apply inv_finish. now apply inv_with_pixels.
  - destruct (c_glob c); [|exact I]. now apply inv_init_global.
  - destruct (c_glob c); [|exact I]. unfold init_global_order. destruct (pixel_strides_for _ _); try exact I. now apply inv_init_global.
  - apply inv_on_field; [exact I|]. intros f _. pose proof (set_pad_lay zero f p) as (R1 & R2 & R3 & _). split; [now apply lay_env|now rewrite R1].
  - apply inv_on_field; [exact I|]. intros f _. pose proof (keep_push_env f v) as (R1 & R2 & R3). split; [now apply lay_env|now rewrite R1].
  - apply inv_on_field; [exact I|]. intros f _. pose proof (keep_push_single_env f v) as (R1 & R2 & R3). split; [now apply lay_env|now rewrite R1].
  - apply inv_on_field; [exact I|]. intros f _. unfold keep. destruct (field_reshape f shape None) as [f'|e|] eqn:E; cbn [fst]; try (split; [apply same_env_refl|reflexivity]).
    apply reshape_env in E. destruct E as (E1 & _ & _ & E2 & _). auto.
  - now apply inv_reshape_tag.
  - apply inv_on_field; [exact I|]. intros f _. unfold keep. destruct (wr (f_vals f) i x); cbn; split; try reflexivity; apply lay_env; reflexivity.
Qed.

Lemma run_inv zero h : forall c, inv c -> inv (run zero c h).
Proof. unfold run. induction h as [|o h IH]; intros c I; cbn [fold_left]; [exact I|]. apply IH. now apply step_inv. Qed.

Lemma new_coll_spec glob order tags c : new_coll glob order tags = Ok c ->
  inv c /\ tag_number c pixel_tag = Some 1 /\ c_fields c = [] /\ c_glob c = glob /\ c_order c = order /\ c_init c = false /\ c_index c = [] /\
  (forall tag, tag <> pixel_tag -> tag_number c tag = match lookup tag (build_map tags) with Some n => if n =? unknown then None else Some n | None => None end).
Proof.
  unfold new_coll. match goal with |- context [set_nb_sub_pts ?x _ _] => set (c0 := x) end.
  assert (I : inv c0) by (split; [constructor|cbn; discriminate]).
  intros H. assert (E : set_nb_sub_pts c0 pixel_tag 1 = (c, Ok tt)).
  { destruct (set_nb_sub_pts c0 pixel_tag 1) as [c' [[]|e|]]; try discriminate. apply Ok_inj in H. now subst. }
  destruct (set_nb_cases c0 pixel_tag 1) as [(B & _)|(_ & T & E2)]; [rewrite E in B; discriminate|].
  pose proof (inv_set_nb c0 pixel_tag 1 I) as I2. assert (Le : 1 <= 1) by lia.
  pose proof (fun t => set_nb_numbers c0 pixel_tag 1 t Le T) as N. rewrite E in I2, N. cbn [fst] in *.
  split; [exact I2|]. split; [now rewrite N|]. rewrite E in E2. injection E2 as E2.
  split; [rewrite E2; reflexivity|]. split; [rewrite E2; reflexivity|]. split; [rewrite E2; reflexivity|]. split; [rewrite E2; reflexivity|].
  split; [rewrite E2; reflexivity|]. intros tag Nt. rewrite N. destruct (String.eqb_spec tag pixel_tag); [congruence|]. reflexivity.
Qed.

Lemma reachable_inv zero c : reachable zero c -> inv c.
Proof. intros (g & o & t & c0 & h & N & ->). apply run_inv. now apply new_coll_spec in N. Qed.

(** ** Tags are write-once *)
Lemma finish_tags zero c idx : c_tags (fst (finish_init zero c idx)) = c_tags c.
Proof. unfold finish_init. destruct (allocate_fields zero (c_fields c)) as [l [u|e|]]; reflexivity. Qed.

Lemma on_field_tags c name opf : c_tags (fst (on_field c name opf)) = c_tags c.
Proof. unfold on_field. destruct (lookup name (c_fields c)); [|reflexivity]. destruct (opf _). reflexivity. Qed.

Lemma init_global_tags zero c nd nsd loc pstr : c_tags (fst (init_global zero c nd nsd loc pstr)) = c_tags c.
Proof.
  unfold init_global. destruct (_ <=? 0); [reflexivity|]. destruct (_ <? 0); [reflexivity|]. destruct (c_init c); [reflexivity|].
  destruct (pixels_strided _ _ _); [|reflexivity|]; destruct (get_buffer_size _ _); try reflexivity. now rewrite finish_tags.
Qed.

Lemma number_tags c c' tag : c_tags c' = c_tags c -> tag_number c' tag = tag_number c tag.
Proof. unfold tag_number. now intros ->. Qed.

Lemma register_number zero c name ty comp tag u allow tag' :
  tag_number (fst (register_field zero c name ty comp tag u allow)) tag' = tag_number c tag'.
Proof.
  unfold register_field. destruct (lookup name (c_fields c)).
  - destruct allow; [|reflexivity]. repeat match goal with |- context [if ?b then _ else _] => destruct b; [reflexivity|] end. reflexivity.
  - destruct (c_init c).
    + destruct (resize zero _) as [f' [u'|e|]]; cbn [fst]; [|apply touch_tag_number|apply touch_tag_number].
      rewrite (number_tags (touch_tag c tag)) by reflexivity. apply touch_tag_number.
    + cbn [fst]. rewrite (number_tags (touch_tag c tag)) by reflexivity. apply touch_tag_number.
Qed.

(** A step changes the number of a tag only by a successful first setting. *)
Lemma step_number zero c o tag : tag_number (fst (step zero c o)) tag = tag_number c tag \/
  exists n, o = OSetSubPts tag n /\ 1 <= n /\ tag_number c tag = None /\ tag_number (fst (step zero c o)) tag = Some n.
Proof.
  destruct o; cbn [step]; try (left; apply number_tags; now rewrite ?on_field_tags).
  - left. apply register_number.
  - left. unfold pop_field. destruct (lookup name (c_fields c)); reflexivity.
  - destruct (set_nb_cases c tag0 n) as [(_ & -> & _)|(Hn & Ht & E)]; [now left|].
    pose proof (set_nb_numbers c tag0 n tag Hn Ht) as T. rewrite T. destruct (String.eqb_spec tag tag0) as [->|]; [|now left].
    destruct Ht as [Ht|Ht]; [right; exists n; auto|left; now rewrite Ht].
  - left. destruct (c_glob c); [reflexivity|]. unfold add_pixel. destruct (c_init c); reflexivity.
  - left. destruct (c_glob c); [reflexivity|]. unfold init_local. destruct (c_init c); [reflexivity|]. apply number_tags. rewrite finish_tags. reflexivity.
  - left. destruct (c_glob c); [|reflexivity]. apply number_tags. apply init_global_tags.
  - left. destruct (c_glob c); [|reflexivity]. unfold init_global_order. destruct (pixel_strides_for _ _); try reflexivity. apply number_tags. apply init_global_tags.
  - left. unfold reshape_tag. destruct (lookup name (c_fields c)); [|reflexivity]. destruct (field_reshape _ _ _); cbn [fst]; [|apply touch_tag_number|apply touch_tag_number].
    rewrite (number_tags (touch_tag c tag0)) by reflexivity. apply touch_tag_number.
Qed.

Lemma run_number zero h : forall c tag n, tag_number c tag = Some n -> tag_number (run zero c h) tag = Some n.
Proof.
  unfold run. induction h as [|o h IH]; intros c tag n H; cbn [fold_left]; [exact H|]. apply IH.
  destruct (step_number zero c o tag) as [->|(m & _ & _ & N & _)]; [exact H|congruence].
Qed.
End Reg.
