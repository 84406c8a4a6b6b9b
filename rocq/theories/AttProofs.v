(** Proofs about attributes and modes of files: what the steps keep. *)
From Coq Require Import String.
From Verif Require Import Base AttModel AttSpec LayoutProofs.
Local Open Scope Z_scope.
Local Open Scope list_scope.

Ltac mb H := unfold mbind at 1 in H; match type of H with context [let '(_, _) := ?m in _] => let E := fresh "E" in destruct m as [? [?|?|]] eqn:E | _ => idtac end.

(** ** Functions that leave the global attributes and modes alone *)

Definition same_lib (a b : option lib) : Prop :=
  match a, b with
  | Some x, Some y => l_rw x = l_rw y /\ l_def x = l_def y /\ c_gatts (l_c x) = c_gatts (l_c y)
  | None, None => True
  | _, _ => False
  end.
Definition keeps (s s' : st) : Prop :=
  s_mode (s_o s) = s_mode (s_o s') /\ s_flag (s_o s) = s_flag (s_o s') /\ s_changed (s_o s) = s_changed (s_o s') /\
  s_gdef (s_o s) = s_gdef (s_o s') /\ s_atts (s_o s) = s_atts (s_o s') /\ s_disk s = s_disk s' /\ same_lib (s_lib s) (s_lib s').
Lemma keeps_refl s : keeps s s.
Proof. repeat split. unfold same_lib. destruct (s_lib s); auto. Qed.
Lemma keeps_trans a b c : keeps a b -> keeps b c -> keeps a c.
Proof.
  intros (A1 & A2 & A3 & A4 & A5 & A6 & A7) (B1 & B2 & B3 & B4 & B5 & B6 & B7). repeat split; try congruence.
  unfold same_lib in *. destruct (s_lib a), (s_lib b), (s_lib c); try tauto. destruct A7 as (?&?&?), B7 as (?&?&?). repeat split; congruence.
Qed.
Definition K {A} (m : M A) : Prop := forall s, keeps s (fst (m s)).
Lemma K_ret {A} (a : A) : K (ret a). Proof. intros s. apply keeps_refl. Qed.
Lemma K_throw {A} : K (@throw A). Proof. intros s. apply keeps_refl. Qed.
Lemma K_lift {A} (r : res A) : K (lift r). Proof. intros s. apply keeps_refl. Qed.
Lemma K_obj : K obj. Proof. intros s. apply keeps_refl. Qed.
Lemma K_inquire {A} (g : content -> A) : K (inquire g).
Proof. intros s. unfold inquire. destruct (s_lib s); apply keeps_refl. Qed.
Lemma K_bind {A B} (m : M A) (k : A -> M B) : K m -> (forall a, K (k a)) -> K (mbind m k).
Proof.
  intros Hm Hk s. unfold mbind. specialize (Hm s). destruct (m s) as [s1 [a|e|]]; cbn [fst] in *; auto.
  eapply keeps_trans; [exact Hm|apply Hk].
Qed.
Lemma K_each {A} (f : A -> M unit) l : (forall a, K (f a)) -> K (each f l).
Proof. intros H. induction l as [|a r IH]; cbn [each]; [apply K_ret|]. apply K_bind; auto. Qed.
Lemma K_set_vars l : K (set_vars l).
Proof. intros s. repeat split. cbn. unfold same_lib. destruct (s_lib s); auto. Qed.
Lemma K_check f : (forall l l', f l = inr l' -> l_rw l = l_rw l' /\ l_def l = l_def l' /\ c_gatts (l_c l) = c_gatts (l_c l')) -> K (check f).
Proof.
  intros H s. unfold check, mbind, call. destruct (s_lib s) as [l|] eqn:E; [|apply keeps_refl].
  destruct (f l) as [e|l'] eqn:F; cbn [fst]; [apply keeps_refl|]. repeat split. cbn. rewrite E. exact (H _ _ F).
Qed.
Ltac kk := repeat match goal with
  | |- K (mbind _ _) => apply K_bind; [|intros ?]
  | |- K (ret _) => apply K_ret
  | |- K throw => apply K_throw
  | |- K obj => apply K_obj
  | |- K (inquire _) => apply K_inquire
  | |- K (lift _) => apply K_lift
  | |- K (set_vars _) => apply K_set_vars
  end.

Lemma K_add_var p : K (add_var p).
Proof. unfold add_var. kk. destruct (existsb _ _); kk. Qed.
Lemma K_def_var n : K (check (lib_def_var n)).
Proof.
  apply K_check. intros l l'. unfold lib_def_var. repeat match goal with |- context [if ?b then _ else _] => destruct b end; try discriminate.
  intros E. injection E as <-. repeat split.
Qed.
Lemma K_define_var i : K (define_var i).
Proof. unfold define_var. kk. destruct (nth_error _ _) as [w|]; [|kk]. destruct (w_id w); kk. apply K_def_var. Qed.
Lemma K_put_vatt id b : K (check (lib_put_vatt id b)).
Proof.
  apply K_check. intros l l'. unfold lib_put_vatt. destruct (nth_error _ _); [|discriminate]. destruct (put_att _ _ _); [discriminate|].
  intros E. injection E as <-. repeat split.
Qed.
Lemma K_define_vatts w : K (define_vatts w).
Proof. unfold define_vatts. apply K_each. intros m. destruct (w_id w); [apply K_put_vatt|kk]. Qed.
Lemma K_register_var_id i : K (register_var_id i).
Proof. unfold register_var_id. kk. destruct (nth_error _ _) as [w|]; [|kk]. destruct (w_id w); kk. destruct a0; kk. Qed.
Lemma K_register_vatts i : K (register_vatts i).
Proof. unfold register_vatts. kk. destruct (nth_error _ _) as [w|]; kk. Qed.
Lemma K_get_variable n : K (get_variable n).
Proof. unfold get_variable. kk. destruct (find _ _); kk. Qed.
Lemma K_put_var i f v : K (check (lib_put_var i f v)).
Proof.
  apply K_check. intros l l'. unfold lib_put_var. destruct (negb _); [discriminate|]. destruct (l_def l) eqn:D; [discriminate|].
  destruct i as [i|]; [|discriminate]. destruct (_ <? _)%nat; [|discriminate]. intros E. injection E as <-. cbn. repeat split; auto.
Qed.
Lemma K_get_var i : K (check (lib_get_var i)).
Proof.
  apply K_check. intros l l'. unfold lib_get_var. destruct (l_def l) eqn:D; [discriminate|].
  destruct i as [i|]; [|discriminate]. destruct (_ <? _)%nat; [|discriminate]. intros E. injection E as <-. repeat split; auto.
Qed.

(** ** The invariant of an object that writes *)

Record I (s : st) (l : lib) (k : nat) : Prop := mk_I {
  I_lib : s_lib s = Some l;
  I_rw : l_rw l = true;
  I_file : c_gatts (l_c l) = map to_att (firstn k (s_atts (s_o s)));
  I_wr : forall i m, nth_error (s_atts (s_o s)) i = Some m -> m_written m = (i <? k)%nat;
  I_le : (k <= List.length (s_atts (s_o s)))%nat;
  I_def : s_gdef (s_o s) = true -> k = List.length (s_atts (s_o s));
  I_app : s_mode (s_o s) = OAppend -> k = List.length (s_atts (s_o s));
  I_names : NoDup (map m_name (s_atts (s_o s)));
  I_val : Forall (fun m => value_ok (m_type m) (m_val m)) (s_atts (s_o s));
  I_legal : Forall (fun m => legal_name (m_name m) = true) (firstn k (s_atts (s_o s)));
  I_flag : s_flag (s_o s) <> MUndefined;
  I_data : s_flag (s_o s) = MData -> l_def l = false;
  I_defm : writes (s_mode (s_o s)) = true -> s_flag (s_o s) = MDefine -> l_def l = true;
  I_mode : s_mode (s_o s) <> ORead
}.

Lemma I_keeps s l k s' : I s l k -> keeps s s' -> exists l', I s' l' k.
Proof.
  intros H (E1 & E2 & E3 & E4 & E5 & E6 & E7). unfold same_lib in E7. rewrite (I_lib _ _ _ H) in E7.
  destruct (s_lib s') as [l'|] eqn:L; [|contradiction]. destruct E7 as (R & D & G). exists l'.
  destruct H. constructor; rewrite <- ?E1, <- ?E2, <- ?E4, <- ?E5, <- ?R, <- ?D, <- ?G; auto.
Qed.

(** *** Lists of attributes *)
Lemma nth_error_upd_same {A} (l : list A) i v : (i < List.length l)%nat -> nth_error (upd l i v) i = Some v.
Proof. revert i. induction l as [|a l IH]; intros [|i] H; cbn in *; try lia; auto. apply IH. lia. Qed.
Lemma nth_error_upd_other {A} (l : list A) i j v : i <> j -> nth_error (upd l i v) j = nth_error l j.
Proof. revert i j. induction l as [|a l IH]; intros [|i] [|j] H; cbn; try lia; auto. Qed.
Lemma map_upd {A B} (f : A -> B) l i v : map f (upd l i v) = upd (map f l) i (f v).
Proof. revert i. induction l as [|a l IH]; intros [|i]; cbn; auto. f_equal. apply IH. Qed.
Lemma upd_id {A} (l : list A) i v : nth_error l i = Some v -> upd l i v = l.
Proof. revert i. induction l as [|a l IH]; intros [|i] H; cbn in *; try discriminate; [now injection H as ->|]. f_equal. now apply IH. Qed.
Lemma firstn_upd_lt {A} (l : list A) i k v : (i < k)%nat -> firstn k (upd l i v) = upd (firstn k l) i v.
Proof. revert i k. induction l as [|a l IH]; intros [|i] [|k] H; cbn; try lia; auto. f_equal. apply IH. lia. Qed.
Lemma firstn_upd_ge {A} (l : list A) i k v : (k <= i)%nat -> firstn k (upd l i v) = firstn k l.
Proof. revert i k. induction l as [|a l IH]; intros [|i] [|k] H; cbn; try lia; auto. f_equal. apply IH. lia. Qed.
Lemma firstn_S_nth {A} (l : list A) k v : nth_error l k = Some v -> firstn (S k) l = firstn k l ++ [v].
Proof. revert k. induction l as [|a l IH]; intros [|k] H; cbn in *; try discriminate; [now injection H as ->|]. f_equal. now apply IH. Qed.
Lemma nth_error_firstn_lt {A} (l : list A) k i : (i < k)%nat -> nth_error (firstn k l) i = nth_error l i.
Proof. revert k i. induction l as [|a l IH]; intros [|k] [|i] H; cbn; try lia; auto. apply IH. lia. Qed.
Lemma Forall_upd {A} (P : A -> Prop) l i v : Forall P l -> P v -> Forall P (upd l i v).
Proof. intros H Hv. revert i. induction H as [|a l Ha Hl IH]; intros [|i]; cbn; auto. Qed.
Lemma Forall_firstn {A} (P : A -> Prop) k l : Forall P l -> Forall P (firstn k l).
Proof. intros H. revert k. induction H; intros [|k]; cbn; auto. Qed.

Lemma find_att_notin n l : ~ In n (map a_name l) -> find_att n l = None.
Proof.
  unfold find_att. induction l as [|a l IH]; cbn; auto. intros H. destruct (String.eqb_spec (a_name a) n) as [E|E]; [exfalso; auto|]. apply IH. tauto.
Qed.
Lemma find_att_nth l i a : NoDup (map a_name l) -> nth_error l i = Some a -> find_att (a_name a) l = Some a.
Proof.
  unfold find_att. revert i. induction l as [|b l IH]; intros i N E; [destruct i; discriminate|]. cbn [find]. inversion N as [|? ? Hn N']; subst.
  destruct i as [|i]; cbn in E.
  - injection E as ->. now rewrite String.eqb_refl.
  - destruct (String.eqb_spec (a_name b) (a_name a)) as [X|X]; [|now apply (IH i)].
    exfalso. apply Hn. rewrite X. apply in_map. apply nth_error_In in E. exact E.
Qed.
Lemma replace_att_nth l i a b : NoDup (map a_name l) -> nth_error l i = Some a -> replace_att (a_name a) b l = upd l i b.
Proof.
  revert i. induction l as [|c l IH]; intros i N E; [destruct i; discriminate|]. cbn [replace_att]. inversion N as [|? ? Hn N']; subst.
  destruct i as [|i]; cbn in E.
  - injection E as ->. now rewrite String.eqb_refl.
  - destruct (String.eqb_spec (a_name c) (a_name a)) as [X|X].
    + exfalso. apply Hn. rewrite X. apply in_map. apply nth_error_In in E. exact E.
    + cbn [upd]. f_equal. now apply IH.
Qed.
Lemma position_some {A} (p : A -> bool) l i : position p l = Some i -> exists a, nth_error l i = Some a /\ p a = true.
Proof.
  revert i. induction l as [|a l IH]; intros i; cbn; [discriminate|]. destruct (p a) eqn:E.
  - intros H. injection H as <-. exists a. auto.
  - destruct (position p l) as [j|]; [|discriminate]. intros H. injection H as <-. exact (IH j eq_refl).
Qed.
Lemma position_none {A} (p : A -> bool) l : position p l = None -> forall a, In a l -> p a = false.
Proof.
  induction l as [|a l IH]; cbn; [contradiction|]. destruct (p a) eqn:E; [discriminate|]. destruct (position p l); [discriminate|].
  intros _ b [->|Hb]; auto.
Qed.
Lemma map_a_name l : map a_name (map to_att l) = map m_name l.
Proof. rewrite map_map. reflexivity. Qed.
Lemma firstn_map_names k l : map m_name (firstn k l) = firstn k (map m_name l).
Proof. symmetry. apply firstn_map. Qed.
Lemma NoDup_firstn {A} k (l : list A) : NoDup l -> NoDup (firstn k l).
Proof.
  intros H. revert k. induction H as [|a l Hn N IH]; intros [|k]; cbn; try constructor; auto.
  intros X. apply Hn. clear - X. revert k X. induction l as [|b l IHl]; intros [|k]; cbn; try tauto. intros [->|X]; auto. right. eapply IHl. exact X.
Qed.
Lemma In_firstn {A} k (l : list A) a : In a (firstn k l) -> In a l.
Proof. revert k. induction l as [|b l IH]; intros [|k]; cbn; try tauto. intros [->|X]; auto. right. eapply IH. exact X. Qed.
Lemma NoDup_upd {A} (l : list A) i a b : NoDup l -> nth_error l i = Some a -> (b = a \/ ~ In b l) -> NoDup (upd l i b).
Proof.
  intros N E [->|H]; [now rewrite upd_id|]. revert i E. induction N as [|c l Hn N IH]; intros [|i] E; cbn in *; try discriminate.
  - constructor; tauto.
  - constructor; [|apply IH; [tauto|exact E]]. intros X. assert (Y : In c (upd l i b) -> In c l \/ c = b).
    { clear. revert i. induction l as [|d l IHl]; intros [|i]; cbn; try tauto; [intros [->|X]; auto|intros [->|X]; auto]. destruct (IHl i X); auto. }
    destruct (Y X) as [Z|Z]; [auto|subst; tauto].
Qed.
