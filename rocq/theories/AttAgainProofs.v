(** Proofs about reading the attributes of variables a second time. *)
From Coq Require Import String.
From Verif Require Import Base AttModel AttSpec AttAgainSpec LayoutProofs AttProofs AttProofs2 AttProofs3 AttProofs4 AttProofs5 AttProofs6 AttProofs7 AttProofs8 AttProofs9 AttProofs10 AttProofs11 AttProofs12.
Local Open Scope string_scope.
Local Open Scope Z_scope.
Local Open Scope list_scope.

(** ** NaN *)
Lemma is_nan_iff b : List.length b = 8%nat -> Forall (fun x => 0 <= x < 256) b -> is_nan b = true <-> not_a_number b.
Proof.
  intros L F. destruct b as [|b0 [|b1 [|b2 [|b3 [|b4 [|b5 [|b6 [|b7 [|]]]]]]]]]; try discriminate L.
  repeat match goal with H : Forall _ (_ :: _) |- _ => inversion H; clear H; subst end.
  unfold is_nan, not_a_number, le64. cbn [map fold_right]. rewrite (Z.mod_small b0 256), (Z.mod_small b1 256), (Z.mod_small b2 256), (Z.mod_small b3 256), (Z.mod_small b4 256), (Z.mod_small b5 256), (Z.mod_small b6 256), (Z.mod_small b7 256) by assumption.
  assert (E7 := Z.div_mod b7 128 ltac:(lia)). assert (R7 := Z.mod_pos_bound b7 128 ltac:(lia)). set (r := b7 mod 128) in *. set (q := b7 / 128) in *.
  assert (E6 := Z.div_mod b6 16 ltac:(lia)). assert (R6 := Z.mod_pos_bound b6 16 ltac:(lia)). set (t := b6 mod 16) in *. set (p := b6 / 16) in *.
  set (lo := b0 + 256 * (b1 + 256 * (b2 + 256 * (b3 + 256 * (b4 + 256 * (b5 + 256 * (b6 + 256 * r))))))).
  replace (b0 + 256 * _) with (lo + q * 2 ^ 63) by (unfold lo; rewrite E7; change (2 ^ 63) with 9223372036854775808; lia).
  rewrite Z.mod_add by lia. change (2 ^ 63) with 9223372036854775808. change (2047 * 2 ^ 52) with 9218868437227405312.
  rewrite Z.mod_small by (unfold lo; lia). rewrite !andb_true_iff, negb_true_iff, Z.eqb_eq, Z.leb_le, Z.eqb_neq. unfold lo. lia.
Qed.
Lemma has_nan_iff n : forall v, List.length v = (8 * n)%nat -> Forall (fun x => 0 <= x < 256) v ->
  has_nan n v = true <-> exists k, (8 * k < List.length v)%nat /\ not_a_number (firstn 8 (skipn (8 * k) v)).
Proof.
  induction n as [|n IH]; intros v L F; cbn [has_nan].
  - split; [discriminate|]. intros (k & H & _). lia.
  - rewrite orb_true_iff, is_nan_iff by solve [rewrite firstn_length; lia | apply Forall_firstn; exact F].
    assert (F' : Forall (fun x => 0 <= x < 256) (skipn 8 v)) by (rewrite <- (firstn_skipn 8 v) in F; apply Forall_app in F; exact (proj2 F)).
    rewrite (IH (skipn 8 v)) by solve [rewrite skipn_length; lia | exact F'].
    assert (Sk : forall k, skipn (8 * k) (skipn 8 v) = skipn (8 * Datatypes.S k) v).
    { intros k. replace (8 * Datatypes.S k)%nat with (8 + 8 * k)%nat by lia. clear. generalize (8 * k)%nat. do 8 (destruct v as [|? v]; [intros [|?]; reflexivity|]). reflexivity. }
    split.
    + intros [H | (k & H1 & H2)]; [exists 0%nat; split; [lia|exact H]|]. exists (Datatypes.S k). rewrite skipn_length in H1. split; [lia|]. rewrite <- Sk. exact H2.
    + intros ([|k] & H1 & H2); [left; exact H2|]. right. exists k. rewrite skipn_length, Sk. split; [lia|exact H2].
Qed.
Definition nan_att (a : att) : bool := nctype_eqb (a_type a) TDouble && has_nan (List.length (a_val a) / tsize (a_type a)) (a_val a).
Lemma nan_att_iff a : value_ok (a_type a) (a_val a) -> Forall (fun x => 0 <= x < 256) (a_val a) -> nan_att a = true <-> holds_nan a.
Proof.
  intros [Sp (n & Hn)] F. unfold nan_att, holds_nan. destruct (a_type a); cbn [nctype_eqb andb]; try (split; [discriminate|intros [H _]; discriminate]).
  cbn [tsize] in *. rewrite Hn at 1. rewrite Nat.div_mul by lia. rewrite has_nan_iff by (lia || exact F). split; [auto|]. intros [_ H]. exact H.
Qed.

(** ** One variable *)
Lemma names_new l acc : NoDup (map m_name acc ++ map a_name l) -> Forall (fun a => (String.length (a_name a) < 256)%nat /\ value_ok (a_type a) (a_val a)) l ->
  register_names 256 acc l = Ok (acc ++ map found l).
Proof.
  revert acc. induction l as [|a l IH]; intros acc N F; cbn [register_names map]; [now rewrite app_nil_r|]. inversion F as [|? ? [La Va] F']; subst.
  destruct (Nat.leb_spec 256 (String.length (a_name a))); [lia|]. unfold register_matt.
  assert (Ha : has_att (a_name a) acc = false).
  { destruct (has_att (a_name a) acc) eqn:X; [|reflexivity]. exfalso. apply has_att_in in X. cbn [map] in N. apply NoDup_remove_2 in N. apply N. apply in_or_app. auto. }
  rewrite Ha. assert (Kn : known (a_type a) = true) by (destruct Va as [Va _]; destruct (a_type a); cbn in *; congruence). rewrite Kn.
  rewrite IH; [|rewrite map_app; cbn [map m_name]; rewrite <- app_assoc; exact N|exact F']. rewrite <- app_assoc. reflexivity.
Qed.
Lemma names_known l acc : Forall (fun a => (String.length (a_name a) < 256)%nat /\ In (a_name a) (map m_name acc)) l -> register_names 256 acc l = Ok acc.
Proof.
  induction 1 as [|a l [La Ha] F IH]; cbn [register_names]; [reflexivity|]. destruct (Nat.leb_spec 256 (String.length (a_name a))); [lia|].
  unfold register_matt. apply has_att_in in Ha. rewrite Ha. exact IH.
Qed.
Lemma read_unit u rest : read_value (mk_att "unit" TChar u :: rest) (new_matt "unit" TChar u) = Ok (new_matt "unit" TChar u).
Proof.
  unfold read_value, new_matt. cbn [m_type m_name m_n m_init m_val m_written supported negb tsize]. cbn zeta. rewrite Nat.div_1_r, Nat.mul_1_r. unfold find_att. cbn [find a_name]. rewrite String.eqb_refl. cbn [a_val].
  rewrite Nat.ltb_irrefl, Nat.sub_diag. cbn [repeat]. rewrite app_nil_r, firstn_all. unfold equal_value, bytes_eqb. destruct (list_eq_dec _ _ _) as [_|Y]; [reflexivity|]. exfalso. apply Y. reflexivity.
Qed.
Lemma read_again file i a : NoDup (map a_name file) -> nth_error file i = Some a -> value_ok (a_type a) (a_val a) ->
  read_value file (loaded a) = if nan_att a then Err FileIOError else Ok (loaded a).
Proof.
  intros N E [Sp (n & Hn)]. unfold read_value, loaded. cbn [m_type m_name m_n m_init m_val m_written]. rewrite Sp. cbn [negb]. rewrite (find_att_nth _ i a N E).
  assert (T : (tsize (a_type a) <> 0)%nat) by (destruct (a_type a); cbn; lia).
  assert (D : (List.length (a_val a) / tsize (a_type a) * tsize (a_type a) = List.length (a_val a))%nat) by (rewrite Hn, Nat.div_mul by exact T; reflexivity).
  rewrite D, Nat.ltb_irrefl, Nat.sub_diag. cbn [repeat]. rewrite app_nil_r, firstn_all. unfold equal_value, bytes_eqb. destruct (list_eq_dec _ _ _) as [_|Y]; [|exfalso; apply Y; reflexivity].
  cbn [andb]. fold (nan_att a). destruct (nan_att a); reflexivity.
Qed.
Lemma all_again file l : NoDup (map a_name file) -> (forall a, In a l -> In a file /\ value_ok (a_type a) (a_val a)) ->
  mapr (read_value file) (map loaded l) = if existsb nan_att l then Err FileIOError else Ok (map loaded l).
Proof.
  intros N. induction l as [|a l IH]; intros H; cbn [map mapr existsb]; [reflexivity|]. destruct (H a (or_introl eq_refl)) as [Hi Hv].
  apply In_nth_error in Hi. destruct Hi as (i & Ei). rewrite (read_again file i a N Ei Hv). destruct (nan_att a); cbn [bind orb]; [reflexivity|].
  rewrite IH by (intros b Hb; apply H; right; exact Hb). destruct (existsb nan_att l); reflexivity.
Qed.
(** What is held of a variable once its attributes were read. *)
Definition known_atts (u : bytes) (extra : list att) : list matt := new_matt "unit" TChar u :: map loaded extra.
Lemma first_reading v u extra : described v u extra -> exists l,
  register_names 256 [new_matt "unit" TChar u] (firstn 10 (v_atts v)) = Ok l /\ mapr (read_value (v_atts v)) l = Ok (known_atts u extra).
Proof.
  intros (Av & Nd & Le & F). rewrite Av in *. exists (new_matt "unit" TChar u :: map found extra). rewrite firstn_all2 by (cbn; lia). split.
  - cbn [register_names a_name]. replace (256 <=? String.length "unit")%nat with false by reflexivity. unfold register_matt at 1. cbn [has_att existsb a_name m_name new_matt]. rewrite String.eqb_refl. cbn [orb].
    rewrite (names_new extra [new_matt "unit" TChar u]); [reflexivity|exact Nd|]. eapply Forall_impl; [|exact F]. cbn. intros a (A & B & _). auto.
  - cbn [mapr]. rewrite read_unit. cbn [bind]. rewrite mapr_found; [reflexivity|exact Nd|]. intros a Ha. rewrite Forall_forall in F. split; [right; exact Ha|]. apply (F a Ha).
Qed.
Lemma second_reading v u extra : described v u extra ->
  register_names 256 (known_atts u extra) (firstn 10 (v_atts v)) = Ok (known_atts u extra) /\
  mapr (read_value (v_atts v)) (known_atts u extra) = if existsb nan_att extra then Err FileIOError else Ok (known_atts u extra).
Proof.
  intros (Av & Nd & Le & F). rewrite Av in *. rewrite firstn_all2 by (cbn; lia). split.
  - apply names_known. constructor; [split; [cbn; lia|left; reflexivity]|]. rewrite Forall_forall in *. intros a Ha. destruct (F a Ha) as (A & _). split; [exact A|]. right. rewrite map_map. exact (in_map a_name extra a Ha).
  - unfold known_atts at 1. cbn [mapr]. rewrite read_unit. cbn [bind]. rewrite all_again; [destruct (existsb nan_att extra); reflexivity|exact Nd|].
    intros a Ha. rewrite Forall_forall in F. split; [right; exact Ha|]. apply (F a Ha).
Qed.

(** ** The loops *)
Lemma with_with s a b : with_vars (with_vars s a) b = with_vars s b.
Proof. reflexivity. Qed.
Lemma id_set ws i w k s : nth_error ws i = Some w -> w_id w = Some k -> register_var_id i (with_vars s ws) = (with_vars s ws, Ok tt).
Proof. intros E H. unfold register_var_id. rewrite bind_obj. change (s_vars (s_o (with_vars s ws))) with ws. rewrite E, H. reflexivity. Qed.
Lemma id_new ws i w k s l : s_lib s = Some l -> nth_error ws i = Some w -> w_id w = None -> position (fun v => String.eqb (v_name v) (w_name w)) (c_vars (l_c l)) = Some k ->
  register_var_id i (with_vars s ws) = (with_vars s (upd ws i (mk_mvar (w_name w) (Some k) (w_atts w))), Ok tt).
Proof.
  intros L E H P. unfold register_var_id. rewrite bind_obj. change (s_vars (s_o (with_vars s ws))) with ws. rewrite E, H.
  rewrite (bind_ok _ _ _ (with_vars s ws) (Some k)) by (unfold inquire, with_vars; pj; rewrite L, P; reflexivity). reflexivity.
Qed.
Lemma vatts_any ws i w k v s l lst r : s_lib s = Some l -> nth_error ws i = Some w -> w_id w = Some k -> nth_error (c_vars (l_c l)) k = Some v ->
  register_names 256 (w_atts w) (firstn 10 (v_atts v)) = Ok lst -> mapr (read_value (v_atts v)) lst = r ->
  register_vatts i (with_vars s ws) = match r with
    | Ok l' => (with_vars s (upd ws i (mk_mvar (w_name w) (w_id w) l')), Ok tt) | Err e => (with_vars s ws, Err e) | UB => (with_vars s ws, UB) end.
Proof.
  intros L E H Nv R1 R2. unfold register_vatts. rewrite bind_obj. change (s_vars (s_o (with_vars s ws))) with ws. rewrite E.
  rewrite (bind_ok _ _ _ (with_vars s ws) (v_atts v)) by (unfold inquire, with_vars; pj; rewrite L, H, Nv; reflexivity).
  rewrite (bind_ok _ _ _ (with_vars s ws) lst) by (unfold lift; rewrite R1; reflexivity). unfold mbind, lift. rewrite R2. destruct r; reflexivity.
Qed.
Lemma register_loops vs s l : s_lib s = Some l -> s_flag (s_o s) = MDefine -> writes (s_mode (s_o s)) = false -> NoDup (map w_name (s_vars (s_o s)) ++ map fst vs) ->
  (List.length (s_vars (s_o s)) + List.length vs <= List.length (c_vars (l_c l)))%nat ->
  let ws := s_vars (s_o s) ++ map new_var vs in let all := seq 0 (List.length ws) in
  step (Register vs) s = (run each register_var_id all; each register_vatts all) (with_vars s ws).
Proof.
  intros L Fl W Nd Le ws all. cbn [step]. unfold register_field_collection. rewrite (bind_ok _ _ _ _ _ (add_all_ok vs s Nd)). fold ws. rewrite bind_obj.
  change (s_flag (s_o (with_vars s ws))) with (s_flag (s_o s)). rewrite Fl. cbn [is_flag]. rewrite (bind_ok _ _ _ (with_vars s ws) tt) by reflexivity. rewrite bind_obj. cbn zeta.
  change (s_mode (s_o (with_vars s ws))) with (s_mode (s_o s)). rewrite W. change (s_vars (s_o (with_vars s ws))) with ws. fold all.
  rewrite (bind_ok _ _ _ (with_vars s ws) (List.length (c_vars (l_c l)))) by (unfold inquire, with_vars; pj; rewrite L; reflexivity).
  destruct (Nat.ltb_spec (List.length (c_vars (l_c l))) (List.length ws)) as [X|_]; [|reflexivity]. exfalso. unfold ws in X. rewrite app_length, map_length in X. lia.
Qed.
Definition held_var (v : var) (i : nat) (u : bytes) (extra : list att) : mvar := mk_mvar (v_name v) (Some i) (known_atts u extra).
Lemma nan_exists v u extra : described v u extra -> existsb nan_att extra = true <-> Exists holds_nan extra.
Proof.
  intros (_ & _ & _ & F). rewrite existsb_exists, Exists_exists. rewrite Forall_forall in F.
  split; intros (a & Ha & X); exists a; (split; [exact Ha|]); destruct (F a Ha) as (_ & Va & Ba); apply (nan_att_iff a Va Ba); exact X.
Qed.
