(** Lemmas about the names of dimensions. *)
From Coq Require Import String Ascii DecimalString DecimalN.
From Verif Require Import Base CIntModel GridModel StridedModel LayoutModel CommModel FrameModel RegistryModel.
From Verif Require Import NetCDFModel.
Local Open Scope Z_scope.
Local Open Scope list_scope.

(** ** Strings *)
Lemma sapp_assoc (a b c : string) : (a ++ (b ++ c) = (a ++ b) ++ c)%string.
Proof. induction a as [|x a IH]; [reflexivity|]. cbn. now rewrite IH. Qed.
Lemma sapp_nil (a : string) : (a ++ "" = a)%string.
Proof. induction a as [|x a IH]; [reflexivity|]. cbn. now rewrite IH. Qed.
Lemma sapp_inv (a b c : string) : (a ++ b = a ++ c)%string -> b = c.
Proof. induction a as [|x a IH]; [easy|]. cbn. intros E. injection E. exact IH. Qed.
Lemma slen_app (a b : string) : String.length (a ++ b)%string = (String.length a + String.length b)%nat.
Proof. induction a as [|x a IH]; [reflexivity|]. cbn. now rewrite IH. Qed.

Lemma substring_over (a b : string) k :
  substring 0 (String.length a + k) (a ++ b)%string = (a ++ substring 0 k b)%string.
Proof.
  induction a as [|x a IH]; [reflexivity|].
  cbn [String.length append Nat.add substring]. now rewrite IH.
Qed.

Lemma rfind_app (a b : string) p :
  rfind_underscores b = Some p -> rfind_underscores (a ++ b)%string = Some (String.length a + p)%nat.
Proof. intros E. induction a as [|x a IH]; [exact E|]. cbn [append rfind_underscores String.length]. now rewrite IH. Qed.

Lemma rfind_us (s : string) : exists p, rfind_underscores ("__" ++ s)%string = Some p.
Proof.
  cbn [append rfind_underscores].
  destruct (rfind_underscores s) as [p|]; [eexists; reflexivity|].
  destruct (two_underscores (String "_" s)); [eexists; reflexivity|]. cbn. now exists 0%nat.
Qed.

(** The base name extends the kind. *)
Lemma base_extends kind s : exists t, compute_base_name (kind ++ "__" ++ s)%string = (kind ++ t)%string.
Proof.
  unfold compute_base_name. destruct (rfind_us s) as [p E]. rewrite (rfind_app kind _ p E).
  rewrite substring_over. eexists. reflexivity.
Qed.

(** No further pair of underscores: the base name is the kind. *)
Fixpoint clean (s : string) : bool :=
  match s with
  | EmptyString => true
  | String a r => negb (two_underscores s) && clean r
  end.
Lemma clean_rfind s : clean s = true -> rfind_underscores s = None.
Proof.
  induction s as [|a s IH]; [reflexivity|]. cbn [clean rfind_underscores]. intros E.
  apply andb_true_iff in E. destruct E as [E1 E2]. rewrite IH by exact E2.
  now destruct (two_underscores (String a s)).
Qed.
Lemma rfind_clean s : rfind_underscores s = None -> clean s = true.
Proof.
  induction s as [|a s IH]; [reflexivity|]. cbn [clean rfind_underscores].
  destruct (rfind_underscores s); [easy|]. destruct (two_underscores (String a s)); [easy|].
  intros _. now rewrite IH.
Qed.
Lemma base_kind kind s : clean (String "_" s) = true -> compute_base_name (kind ++ "__" ++ s)%string = kind.
Proof.
  intros C. unfold compute_base_name.
  assert (E : rfind_underscores ("__" ++ s)%string = Some 0%nat).
  { change ("__" ++ s)%string with (String "_" (String "_" s)). cbn [rfind_underscores].
    pose proof (clean_rfind _ C) as R. cbn [rfind_underscores] in R. rewrite R. reflexivity. }
  rewrite (rfind_app kind _ 0 E), substring_over. cbn [substring]. destruct s; cbn [append substring]; apply sapp_nil.
Qed.
Lemma base_kind_only kind s : compute_base_name (kind ++ "__" ++ s)%string = kind -> clean (String "_" s) = true.
Proof.
  unfold compute_base_name. destruct (rfind_us s) as [p E]. rewrite (rfind_app kind _ p E), substring_over.
  intros H. rewrite <- (sapp_nil kind) in H at 2. apply sapp_inv in H.
  change ("__" ++ s)%string with (String "_" (String "_" s)) in H, E.
  destruct p as [|p]; [|now cbn in H].
  apply rfind_clean. cbn [rfind_underscores] in E |- *.
  destruct (rfind_underscores s); [easy|]. now destruct (two_underscores (String "_" s)).
Qed.
Lemma base_simple kind : clean kind = true -> compute_base_name kind = kind.
Proof. intros C. unfold compute_base_name. now rewrite (clean_rfind _ C). Qed.

(** ** Decimal numbers *)
Definition no_dash (s : string) : bool := match after_last_dash s with None => true | Some _ => false end.
Lemma uint_no_dash u : after_last_dash (NilEmpty.string_of_uint u) = None.
Proof. induction u; cbn [NilEmpty.string_of_uint after_last_dash]; [reflexivity|rewrite IHu; reflexivity ..]. Qed.
Lemma decimal_no_dash n : after_last_dash (decimal n) = None.
Proof.
  unfold decimal, NilZero.string_of_uint. destruct (N.to_uint n) eqn:E; [reflexivity|rewrite <- E; apply uint_no_dash ..].
Qed.
Lemma after_dash s n : after_last_dash (s ++ "-" ++ decimal n)%string = Some (decimal n).
Proof.
  induction s as [|a s IH].
  - cbn [append after_last_dash]. now rewrite decimal_no_dash.
  - cbn [append after_last_dash]. cbn [append] in IH. now rewrite IH.
Qed.

Lemma digits_acc u acc : digits (Z.pos acc) (NilEmpty.string_of_uint u) = Z.pos (Pos.of_uint_acc u acc).
Proof.
  revert acc. induction u; intros acc; cbn [NilEmpty.string_of_uint digits Pos.of_uint_acc]; [reflexivity|..];
  match goal with |- context [digit ?a] => let d := eval vm_compute in (digit a) in change (digit a) with d end;
  cbn iota; rewrite <- IHu; f_equal; rewrite ?Pos2Z.inj_add, ?Pos2Z.inj_mul; lia.
Qed.
Lemma digits_uint u : digits 0 (NilEmpty.string_of_uint u) = Z.of_N (Pos.of_uint u).
Proof.
  induction u; cbn [NilEmpty.string_of_uint digits Pos.of_uint]; [reflexivity|..];
  match goal with |- context [digit ?a] => let d := eval vm_compute in (digit a) in change (digit a) with d end;
  cbn iota; [exact IHu|..]; cbn [Z.of_N]; rewrite <- digits_acc; reflexivity.
Qed.
Lemma digits_decimal n : digits 0 (decimal n) = Z.of_N n.
Proof.
  unfold decimal, NilZero.string_of_uint.
  transitivity (digits 0 (NilEmpty.string_of_uint (N.to_uint n))).
  - now destruct (N.to_uint n).
  - rewrite digits_uint. f_equal. apply (DecimalN.Unsigned.of_to n).
Qed.
Lemma decimal_head n : exists a r d, decimal n = String a r /\ digit a = Some d.
Proof.
  unfold decimal, NilZero.string_of_uint.
  destruct (N.to_uint n); cbn [NilEmpty.string_of_uint]; do 3 eexists; (split; [reflexivity|vm_compute; reflexivity]).
Qed.
Lemma stoi_decimal n : stoi (decimal n) = if Z.of_N n <? 2 ^ 31 then Ok (Z.of_N n) else Err OutOfRange.
Proof.
  unfold stoi. destruct (decimal_head n) as (a & r & d & E & D).
  rewrite <- digits_decimal. rewrite E. rewrite D. reflexivity.
Qed.
Lemma stoi_to_string i : 0 <= i -> stoi (to_string i) = if i <? 2 ^ 31 then Ok i else Err OutOfRange.
Proof. intros H. unfold to_string. rewrite stoi_decimal, Z2N.id by exact H. reflexivity. Qed.

Lemma uint_chars u a : In a (list_ascii_of_string (NilEmpty.string_of_uint u)) -> digit a <> None.
Proof.
  induction u; cbn [NilEmpty.string_of_uint list_ascii_of_string]; [easy|..];
  intros [<-|H]; try (now apply IHu); vm_compute; discriminate.
Qed.
