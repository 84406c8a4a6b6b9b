(** One process of a parallel program does what AttModel.v says. *)
From Coq Require Import String.
From Verif Require Import Base AttModel AttSpec HeadModel HeadSpec.
Local Open Scope Z_scope.
Local Open Scope list_scope.

(** A program with one process. *)
Fixpoint alone (p : prog) (d : option content) : option content * proc * list (res unit) :=
  match p with
  | Fin x outs => (d, x, outs)
  | Call c h k => alone (k (fst (answer d c h)) (snd (answer d c h))) (disk_after d c h)
  end.
Definition proc_of (s : st) : proc := mk_proc (s_o s) (s_lib s).

(** A function of a process and the function of AttModel.v. *)
Definition sim {A} (f : H A) (g : M A) : Prop :=
  forall s k, alone (f (proc_of s) k) (s_disk s) =
              alone (k (proc_of (fst (g s))) (snd (g s))) (s_disk (fst (g s))).

Lemma sim_ret {A} (a : A) : sim (hret a) (ret a).
Proof. intros s k. reflexivity. Qed.
Lemma sim_throw {A} : sim (@hthrow A) throw.
Proof. intros s k. reflexivity. Qed.
Lemma sim_lift {A} (r : res A) : sim (hlift r) (lift r).
Proof. intros s k. reflexivity. Qed.
Lemma sim_bind {A B} (m : H A) (n : M A) (f : A -> H B) (g : A -> M B) :
  sim m n -> (forall a, sim (f a) (g a)) -> sim (hbind m f) (mbind n g).
Proof.
  intros E F s k. unfold hbind, mbind. rewrite E.
  destruct (n s) as [s' [a|e|]]; cbn [fst snd]; [apply F|reflexivity|reflexivity].
Qed.
Lemma sim_obj : sim hobj obj.
Proof. intros s k. reflexivity. Qed.
Lemma sim_upd g : sim (hupd g) (upd_obj g).
Proof. intros s k. reflexivity. Qed.
Lemma sim_inquire {A} (g : content -> A) : sim (hinquire g) (inquire g).
Proof. intros s k. unfold hinquire, inquire. cbn [proc_of p_lib]. destruct (s_lib s) eqn:E; cbn [fst snd]; reflexivity. Qed.
Definition ordinary (c : lcall) : Prop := match c with LOpen _ | LClose => False | _ => True end.
Lemma sim_call c : ordinary c -> sim (hcall c) (call (exec c)).
Proof.
  intros O s k. unfold hcall, call. cbn [proc_of p_lib p_obj alone].
  assert (EA : answer (s_disk s) c (s_lib s) =
               match s_lib s with
               | None => (Some EBadId, None)
               | Some l => match exec c l with inl e => (Some e, s_lib s) | inr l' => (None, Some l') end
               end) by (destruct c; try contradiction; reflexivity).
  assert (ED : disk_after (s_disk s) c (s_lib s) = s_disk s) by (destruct c; try contradiction; reflexivity).
  rewrite EA, ED. destruct s as [o [l|] d]; cbn [s_lib s_disk s_o proc_of].
  - destruct (exec c l); reflexivity.
  - reflexivity.
Qed.
Lemma sim_check c : ordinary c -> sim (hcheck c) (check (exec c)).
Proof.
  intros O. apply sim_bind; [apply sim_call, O|]. intros [e|]; [apply sim_throw|apply sim_ret].
Qed.
Lemma sim_close : sim (hcheck LClose) lib_close.
Proof.
  intros s k. unfold hcheck, hbind, hcall, lib_close. cbn [proc_of p_lib p_obj alone answer disk_after].
  destruct s as [o [l|] d]; cbn [s_lib s_disk s_o fst snd]; reflexivity.
Qed.
Lemma sim_each {A} (f : A -> H unit) (g : A -> M unit) l :
  (forall a, sim (f a) (g a)) -> sim (heach f l) (each g l).
Proof.
  intros E. induction l as [|a l IH]; cbn [heach each]; [apply sim_ret|].
  apply sim_bind; [apply E|]. intros _. exact IH.
Qed.
Lemma sim_if {A} (b : bool) (f f' : H A) (g g' : M A) : sim f g -> sim f' g' -> sim (if b then f else f') (if b then g else g').
Proof. destruct b; auto. Qed.

Ltac sims :=
  repeat first
    [ apply sim_ret | apply sim_throw | apply sim_lift | apply sim_obj | apply sim_upd | apply sim_inquire
    | apply (sim_check LRedef I) | apply (sim_check LEnddef I) | apply (sim_call LEnddef I)
    | apply sim_close
    | match goal with
      | |- sim (hcheck (LPutGatt ?b)) _ => apply (sim_check (LPutGatt b) I)
      | |- sim (hcheck (LRename ?a ?b)) _ => apply (sim_check (LRename a b) I)
      | |- sim (hcheck (LDefVar ?b)) _ => apply (sim_check (LDefVar b) I)
      | |- sim (hcheck (LPutVatt ?a ?b)) _ => apply (sim_check (LPutVatt a b) I)
      | |- sim (hcheck (LPutVar ?a ?b ?c)) _ => apply (sim_check (LPutVar a b c) I)
      | |- sim (hcheck (LGetVar ?a)) _ => apply (sim_check (LGetVar a) I)
      | |- sim (hbind _ _) _ => apply sim_bind; [|intros ?]
      | |- sim (heach _ _) _ => apply sim_each; intros ?
      | |- sim (if _ then _ else _) _ => apply sim_if
      | |- sim (match ?x with _ => _ end) _ => destruct x
      end ].

Lemma sim_file_changes : sim h_file_changes netcdf_file_changes.
Proof. unfold h_file_changes, netcdf_file_changes, hset_changed, set_changed. sims. Qed.
Lemma sim_write_att n t v : sim (h_write_global_attribute n t v) (write_global_attribute n t v).
Proof. unfold h_write_global_attribute, write_global_attribute, h_add_attribute, add_attribute, hset_atts, set_atts. sims. Qed.
Lemma sim_define : sim h_define_global_attributes define_global_attributes.
Proof.
  unfold h_define_global_attributes, define_global_attributes, h_define_one, define_one, hset_atts, set_atts, hset_gdef, set_gdef. sims.
Qed.
Lemma sim_define_save : sim h_define_save define_global_attributes_save_call.
Proof.
  unfold h_define_save, define_global_attributes_save_call, hset_flag, set_flag. sims; apply sim_define.
Qed.
Lemma sim_update a b t v : sim (h_update a b t v) (update_global_attribute a b t v).
Proof.
  unfold h_update, update_global_attribute, hset_flag, set_flag, hset_atts, set_atts. sims; apply sim_file_changes.
Qed.
Lemma sim_last d t : sim (h_last_modified d t) (update_global_attribute_last_modified d t).
Proof. unfold h_last_modified, update_global_attribute_last_modified. sims; apply sim_update. Qed.
Lemma sim_last_save d t : sim (h_last_modified_save d t) (update_global_attribute_last_modified_save_call d t).
Proof. unfold h_last_modified_save, update_global_attribute_last_modified_save_call, hset_flag, set_flag. sims; apply sim_last. Qed.
Lemma sim_closing d t : sim (h_close d t) (close d t).
Proof. unfold h_close, close, hset_flag, set_flag. sims; first [apply sim_define_save|apply sim_last_save]. Qed.
Lemma sim_register vs : sim (h_register vs) (register_field_collection vs).
Proof.
  unfold h_register, register_field_collection, h_add_var, add_var, h_define_var, define_var, h_define_vatts, define_vatts,
    h_register_var_id, register_var_id, h_register_vatts, register_vatts, hset_vars, set_vars, hset_flag, set_flag.
  sims; apply sim_file_changes.
Qed.
Lemma sim_write f x ns : sim (h_write f x ns) (write f x ns).
Proof.
  unfold h_write, write, h_get_variable, get_variable. sims; first [apply sim_define_save|apply sim_file_changes].
Qed.
Lemma sim_read ns : sim (h_read ns) (read ns).
Proof. unfold h_read, read, h_get_variable, get_variable. sims. Qed.
Lemma sim_operation o : sim (operation o) (step o).
Proof. destruct o; cbn [operation step]; [apply sim_register|apply sim_write|apply sim_read|apply sim_write_att|apply sim_update]. Qed.

Lemma alone_ops os : forall s outs k,
  alone (each_op os outs (proc_of s) k) (s_disk s) =
  alone (k (proc_of (fst (sequence os s))) (rev (snd (sequence os s)) ++ outs)) (s_disk (fst (sequence os s))).
Proof.
  induction os as [|o os IH]; intros s outs k; cbn [each_op sequence]; [reflexivity|].
  rewrite (sim_operation o s). destruct (step o s) as [s1 a]; cbn [fst snd]. rewrite IH.
  destruct (sequence os s1) as [s2 r]; cbn [fst snd rev]. rewrite <- app_assoc. reflexivity.
Qed.
(** Opening: the constructor. *)
Lemma alone_open b w r m d x k :
  match opening b w r m d with
  | (Ok s, _) => alone (open_visit b w r m x k) d = alone (k (proc_of s) (Ok tt)) (s_disk s)
  | (e, d') => exists x', alone (open_visit b w r m x k) d = alone (k x' (outcome e)) d'
  end.
Proof.
  unfold open_visit, opening, h_open, open, hcheck, hbind, hcall. cbn [alone].
  destruct m, d as [c|]; cbn [answer disk_after fst snd writes];
    try (eexists; reflexivity); try reflexivity.
  - unfold hinquire, hlift, hupd; cbn [p_lib p_obj hret l_c]. unfold hret; cbn [p_lib l_c].
    destruct (register_names 257 [] (firstn 30 (c_gatts c))) as [l|e|]; cbn [bind]; try (eexists; reflexivity).
    destruct (mapr (read_value (c_gatts c)) l) as [l'|e|]; cbn [bind]; try (eexists; reflexivity).
  - unfold hinquire, hlift, hupd; cbn [p_lib p_obj hret l_c]. unfold hret; cbn [p_lib l_c].
    destruct (register_names 257 [] (firstn 30 (c_gatts c))) as [l|e|]; cbn [bind]; try (eexists; reflexivity).
    destruct (mapr (read_value (c_gatts c)) l) as [l'|e|]; cbn [bind]; try (eexists; reflexivity).
Qed.
(** Whole programs. *)
Lemma alone_program b w last rs : forall r outs x d,
  exists x', alone (program b w r rs last outs x) d =
             (snd (fst (serial b w r rs last d)), x', rev outs ++ fst (fst (serial b w r rs last d))) /\
             (forall s, snd (serial b w r rs last d) = Some s -> x' = proc_of s).
Proof.
  induction rs as [|u rs IH]; intros r outs x d; cbn [program serial]; unfold last_visit.
  - destruct last as [u|].
    + pose proof (alone_open b w r (r_mode u) d x (fun x' a =>
                    match a with
                    | Ok _ => each_op (r_ops u) (a :: outs) x' (fun x2 outs2 => Fin x2 (rev outs2))
                    | _ => Fin (gone x') (rev (a :: outs))
                    end)) as E.
      destruct (opening b w r (r_mode u) d) as [[s|e|] d'].
      * rewrite E, alone_ops. cbn [alone]. destruct (sequence (r_ops u) s) as [s1 outs1]; cbn [fst snd].
        exists (proc_of s1). split; [|intros s' [= ->]; reflexivity].
        rewrite rev_app_distr, rev_involutive. cbn [rev]. rewrite <- app_assoc. reflexivity.
      * destruct E as [x' E]. rewrite E. cbn [alone outcome fst snd rev]. exists (gone x'). split; [reflexivity|discriminate].
      * destruct E as [x' E]. rewrite E. cbn [alone outcome fst snd rev]. exists (gone x'). split; [reflexivity|discriminate].
    + exists x. cbn [alone fst snd]. rewrite app_nil_r. split; [reflexivity|discriminate].
  - pose proof (alone_open b w r (r_mode u) d x (fun x' a =>
        match a with
        | Ok _ =>
            each_op (r_ops u) (a :: outs) x' (fun x2 outs2 =>
              h_close (t_date (at_close w r)) (t_time (at_close w r)) x2 (fun x3 c =>
                match c with
                | Ok _ => program b w (S r) rs last (c :: outs2) (gone x3)
                | _ => Fin (gone x3) (rev (c :: outs2))
                end))
        | _ => program b w (S r) rs last (a :: outs) (gone x')
        end)) as E.
    destruct (opening b w r (r_mode u) d) as [[s|e|] d'].
    + rewrite E, alone_ops. destruct (sequence (r_ops u) s) as [s1 outs1]; cbn [fst snd].
      rewrite (sim_closing (t_date (at_close w r)) (t_time (at_close w r)) s1).
      destruct (close (t_date (at_close w r)) (t_time (at_close w r)) s1) as [s2 [t|e|]]; cbn [fst snd].
      * destruct (IH (S r) (Ok t :: rev outs1 ++ Ok tt :: outs) (gone (proc_of s2)) (s_disk s2)) as [x' [EP ES]].
        destruct (serial b w (S r) rs last (s_disk s2)) as [[outs' dd] oo]; cbn [fst snd] in *.
        exists x'. rewrite EP. split; [|exact ES]. destruct t. f_equal.
        cbn [rev]. rewrite rev_app_distr, rev_involutive. cbn [rev]. rewrite <- !app_assoc. reflexivity.
      * exists (gone (proc_of s2)). cbn [alone fst snd rev]. split; [|discriminate]. f_equal.
        rewrite rev_app_distr, rev_involutive. cbn [rev]. rewrite <- !app_assoc. reflexivity.
      * exists (gone (proc_of s2)). cbn [alone fst snd rev]. split; [|discriminate]. f_equal.
        rewrite rev_app_distr, rev_involutive. cbn [rev]. rewrite <- !app_assoc. reflexivity.
    + destruct E as [x1 E]. rewrite E. cbn [outcome].
      destruct (IH (S r) (Err e :: outs) (gone x1) d') as [x' [EP ES]].
      destruct (serial b w (S r) rs last d') as [[outs' dd] oo]; cbn [fst snd] in *.
      exists x'. rewrite EP. split; [|exact ES]. cbn [rev]. rewrite <- app_assoc. reflexivity.
    + destruct E as [x1 E]. rewrite E. cbn [outcome].
      destruct (IH (S r) (UB :: outs) (gone x1) d') as [x' [EP ES]].
      destruct (serial b w (S r) rs last d') as [[outs' dd] oo]; cbn [fst snd] in *.
      exists x'. rewrite EP. split; [|exact ES]. cbn [rev]. rewrite <- app_assoc. reflexivity.
Qed.
