(** Lemmas about printed units. *)
From Coq Require Import String Ascii DecimalString DecimalZ DecimalFacts.
From Verif Require Import Base UnitsModel UnitsSpec UnitPrintModel UnitPrintSpec.
Local Open Scope string_scope.
Local Open Scope Z_scope.
Local Open Scope list_scope.

Lemma app_assoc_s (a b c : string) : ((a ++ b) ++ c)%string = (a ++ (b ++ c))%string.
Proof. induction a as [|x a IH]; cbn; [reflexivity|now rewrite IH]. Qed.
Lemma app_nil_s (a : string) : (a ++ "")%string = a.
Proof. induction a as [|x a IH]; cbn; [reflexivity|now rewrite IH]. Qed.

(** ** Numbers *)
Definition num_char (c : ascii) : bool :=
  match c with "0" | "1" | "2" | "3" | "4" | "5" | "6" | "7" | "8" | "9" | "-" => true | _ => false end%char.
Fixpoint num_string (s : string) : bool := match s with "" => true | String c r => num_char c && num_string r end.

Lemma uint_num d : num_string (NilEmpty.string_of_uint d) = true.
Proof. induction d; cbn [NilEmpty.string_of_uint num_string num_char andb]; auto. Qed.
Lemma show_int_num z : num_string (show_int z) = true.
Proof. unfold show_int. destruct (Z.to_int z); cbn [NilEmpty.string_of_int num_string num_char andb]; apply uint_num. Qed.
Lemma show_int_inj a b : show_int a = show_int b -> a = b.
Proof.
  unfold show_int. intros H. assert (E : Some (Z.to_int a) = Some (Z.to_int b)) by now rewrite <- (NilEmpty.isi (Z.to_int a)), <- (NilEmpty.isi (Z.to_int b)), H.
  injection E as E. rewrite <- (DecimalZ.of_to a), <- (DecimalZ.of_to b), E. reflexivity.
Qed.
Lemma show_int_nonempty z : show_int z <> "".
Proof.
  unfold show_int. intros H. pose proof (NilEmpty.isi (Z.to_int z)) as E. rewrite H in E. cbn in E. injection E as E.
  pose proof (DecimalZ.of_to z) as F. rewrite <- E in F. cbn in F. subst z. discriminate.
Qed.
(** A text that does not continue a number. *)
Definition after_num (s : string) : Prop := match s with "" => True | String c _ => num_char c = false end.
Lemma num_string_split x : forall y r r', num_string x = true -> num_string y = true -> after_num r -> after_num r' ->
  (x ++ r)%string = (y ++ r')%string -> x = y /\ r = r'.
Proof.
  induction x as [|c x IH]; intros [|d y] r r' X Y R R' E; cbn [append] in E; cbn [num_string] in X, Y.
  - auto.
  - subst r. cbn in R. destruct (num_char d); [discriminate R|discriminate Y].
  - subst r'. cbn in R'. destruct (num_char c); [discriminate R'|discriminate X].
  - injection E as -> E. apply andb_prop in X as [_ X]. apply andb_prop in Y as [_ Y]. destruct (IH y r r' X Y R R' E) as [-> ->]. auto.
Qed.
Lemma show_int_split a b r r' : after_num r -> after_num r' -> (show_int a ++ r)%string = (show_int b ++ r')%string -> a = b /\ r = r'.
Proof.
  intros R R' E. destruct (num_string_split _ _ _ _ (show_int_num a) (show_int_num b) R R' E) as [H ->]. split; [now apply show_int_inj|reflexivity].
Qed.

(** ** Exponents *)
(** What may follow an exponent. *)
Definition tail_char (c : ascii) : bool := match c with "," | ")" | "n" => true | _ => false end%char.
Definition dot : string := "·".
Definition after_exp (s : string) : Prop :=
  s = "" \/ (exists c r, s = String c r /\ tail_char c = true) \/ exists r, s = (dot ++ r)%string.

Definition supers : list (ascii * string) :=
  [("0"%char, "⁰"); ("1"%char, "¹"); ("2"%char, "²"); ("3"%char, "³"); ("4"%char, "⁴"); ("5"%char, "⁵"); ("6"%char, "⁶"); ("7"%char, "⁷"); ("8"%char, "⁸"); ("9"%char, "⁹"); ("-"%char, "⁻")].
Lemma super_char_in c : num_char c = true -> exists w, super_char c = Ok w /\ In (c, w) supers.
Proof.
  intros H. destruct c as [[] [] [] [] [] [] [] []]; try discriminate H; eexists; (split; [reflexivity|cbn; tauto]).
Qed.
Lemma super_chars_total s : num_string s = true -> exists t, super_chars s = Ok t.
Proof.
  induction s as [|c s IH]; cbn [num_string super_chars]; [eauto|]. intros H. apply andb_prop in H as [H1 H2].
  destruct (super_char_in c H1) as (w & -> & _). destruct (IH H2) as (t & ->). cbn [bind]. eauto.
Qed.

Ltac tails H := let c := fresh "c" in let r := fresh "r" in let E := fresh "E" in let T := fresh "T" in
  destruct H as [E|[(c & r & E & T)|(r & E)]].
Lemma supers_after c w r s : In (c, w) supers -> after_exp s -> (w ++ r)%string <> s.
Proof.
  intros I A E. subst s. cbn in I. repeat (destruct I as [I|I]; [injection I as <- <-;
    destruct A as [A|[(x & y & A & T)|(y & A)]]; cbn in A; [discriminate A|injection A as <- _; discriminate T|discriminate A]|]). destruct I.
Qed.
Lemma supers_split c w c' w' r r' : In (c, w) supers -> In (c', w') supers -> (w ++ r)%string = (w' ++ r')%string -> c = c' /\ w = w' /\ r = r'.
Proof.
  intros I J E. cbn in I. repeat (destruct I as [I|I]; [injection I as <- <-;
    cbn in J; repeat (destruct J as [J|J]; [injection J as <- <-; cbn in E; first [discriminate E|injection E as E; auto]|]); destruct J|]). destruct I.
Qed.
Lemma super_chars_split x : forall y s t r r', num_string x = true -> num_string y = true -> super_chars x = Ok s -> super_chars y = Ok t ->
  after_exp r -> after_exp r' -> (s ++ r)%string = (t ++ r')%string -> x = y /\ r = r'.
Proof.
  induction x as [|c x IH]; intros [|d y] s t r r' X Y S T R R' E; cbn [num_string] in X, Y; cbn [super_chars] in S, T.
  - injection S as <-. injection T as <-. auto.
  - injection S as <-. apply andb_prop in Y as [Y1 Y2]. destruct (super_char_in d Y1) as (w & Ew & I). rewrite Ew in T. cbn [bind] in T.
    destruct (super_chars y) as [t'| |]; try discriminate T. cbn [bind] in T. injection T as <-. rewrite app_assoc_s in E. cbn [append] in E.
    exfalso. exact (supers_after d w _ r I R (eq_sym E)).
  - injection T as <-. apply andb_prop in X as [X1 X2]. destruct (super_char_in c X1) as (w & Ew & I). rewrite Ew in S. cbn [bind] in S.
    destruct (super_chars x) as [s'| |]; try discriminate S. cbn [bind] in S. injection S as <-. rewrite app_assoc_s in E. cbn [append] in E.
    exfalso. exact (supers_after c w _ r' I R' E).
  - apply andb_prop in X as [X1 X2]. apply andb_prop in Y as [Y1 Y2].
    destruct (super_char_in c X1) as (w & Ew & I). destruct (super_char_in d Y1) as (w' & Ew' & I'). rewrite Ew in S. rewrite Ew' in T. cbn [bind] in S, T.
    destruct (super_chars x) as [s'| |] eqn:Es; try discriminate S. destruct (super_chars y) as [t'| |] eqn:Et; try discriminate T. cbn [bind] in S, T. injection S as <-. injection T as <-.
    rewrite !app_assoc_s in E. destruct (supers_split _ _ _ _ _ _ I I' E) as (-> & _ & E').
    destruct (IH y s' t' r r' X2 Y2 eq_refl Et R R' E') as [-> ->]. auto.
Qed.

Lemma show_exp_total e : exists s, show_exp e = Ok s.
Proof.
  unfold show_exp. destruct (ue_den e =? 1); [|eauto]. destruct (ue_num e =? 1); cbn [negb]; [eauto|].
  unfold superscript. apply super_chars_total, show_int_num.
Qed.
(** An exponent with denominator 1 prints as the superscript of [exp_digits]. *)
Definition exp_digits (e : uexp) : string := if ue_num e =? 1 then "" else show_int (ue_num e).
Lemma exp_digits_num e : num_string (exp_digits e) = true.
Proof. unfold exp_digits. destruct (ue_num e =? 1); [reflexivity|apply show_int_num]. Qed.
Lemma show_exp_int e : ue_den e = 1 -> show_exp e = super_chars (exp_digits e).
Proof. intros H. unfold show_exp, exp_digits. rewrite H. cbn [Z.eqb Pos.eqb]. destruct (ue_num e =? 1); reflexivity. Qed.
Lemma exp_digits_inj a b : exp_digits a = exp_digits b -> ue_num a = ue_num b.
Proof.
  unfold exp_digits. destruct (Z.eqb_spec (ue_num a) 1) as [->|Ha], (Z.eqb_spec (ue_num b) 1) as [->|Hb]; intros H.
  - reflexivity.
  - symmetry in H. now apply show_int_nonempty in H.
  - now apply show_int_nonempty in H.
  - now apply show_int_inj.
Qed.
Lemma hat_after y r s x : num_string x = true -> super_chars x = Ok s -> after_exp r -> (s ++ r)%string <> ("^" ++ y)%string.
Proof.
  intros X S R E. destruct x as [|c x]; cbn [super_chars num_string] in S, X.
  - injection S as <-. cbn [append] in E. subst r. destruct R as [R|[(c & r & R & T)|(r & R)]]; cbn in R; [discriminate R|injection R as <- _; discriminate T|discriminate R].
  - apply andb_prop in X as [X1 X2]. destruct (super_char_in c X1) as (w & Ew & I). rewrite Ew in S. cbn [bind] in S.
    destruct (super_chars x) as [s'| |]; try discriminate S. cbn [bind] in S. injection S as <-. rewrite app_assoc_s in E.
    cbn in I. repeat (destruct I as [I|I]; [injection I as <- <-; cbn in E; discriminate E|]). destruct I.
Qed.
Lemma show_exp_split a b s t r r' : show_exp a = Ok s -> show_exp b = Ok t -> after_exp r -> after_exp r' ->
  (s ++ r)%string = (t ++ r')%string -> a = b /\ r = r'.
Proof.
  intros A B R R' E. destruct (Z.eq_dec (ue_den a) 1) as [Da|Da], (Z.eq_dec (ue_den b) 1) as [Db|Db].
  - rewrite (show_exp_int a Da) in A. rewrite (show_exp_int b Db) in B.
    destruct (super_chars_split _ _ _ _ _ _ (exp_digits_num a) (exp_digits_num b) A B R R' E) as [H ->]. apply exp_digits_inj in H.
    split; [|reflexivity]. destruct a, b; cbn in *; congruence.
  - rewrite (show_exp_int a Da) in A. unfold show_exp in B. replace (ue_den b =? 1) with false in B by (symmetry; now apply Z.eqb_neq).
    injection B as <-. cbn [append] in E. exfalso. exact (hat_after _ _ _ _ (exp_digits_num a) A R E).
  - rewrite (show_exp_int b Db) in B. unfold show_exp in A. replace (ue_den a =? 1) with false in A by (symmetry; now apply Z.eqb_neq).
    injection A as <-. cbn [append] in E. exfalso. exact (hat_after _ _ _ _ (exp_digits_num b) B R' (eq_sym E)).
  - unfold show_exp in A, B. replace (ue_den b =? 1) with false in B by (symmetry; now apply Z.eqb_neq). replace (ue_den a =? 1) with false in A by (symmetry; now apply Z.eqb_neq).
    injection A as <-. injection B as <-. cbn [append] in E. injection E as E. rewrite !app_assoc_s in E. cbn [append] in E.
    apply show_int_split in E as [E1 E]; [|reflexivity|reflexivity]. injection E as E. rewrite !app_assoc_s in E. cbn [append] in E.
    apply show_int_split in E as [E2 E]; [|reflexivity|reflexivity]. injection E as ->. split; [|reflexivity]. destruct a, b; cbn in *; congruence.
Qed.

(** ** Names *)
(** What may follow a name: an exponent and what follows it. *)
Definition after_name (s : string) : Prop := exists e x r, show_exp e = Ok x /\ after_exp r /\ s = (x ++ r)%string.
Definition name_char (c : ascii) : bool := match c with "o" => true | "225" => true | _ => false end%char.
Lemma after_exp_first s c r : after_exp s -> s = String c r -> name_char c = false.
Proof.
  intros [A|[(x & y & A & T)|(y & A)]] E; rewrite A in E; [discriminate E| |cbn in E]; injection E as <- _; [|reflexivity].
  destruct x as [[] [] [] [] [] [] [] []]; try discriminate T; reflexivity.
Qed.
Lemma after_name_first s c r : after_name s -> s = String c r -> name_char c = false.
Proof.
  intros (e & x & t & X & T & ->) E. unfold show_exp in X. destruct (ue_den e =? 1).
  - destruct (negb (ue_num e =? 1)).
    + unfold superscript in X. pose proof (show_int_num (ue_num e)) as N. destruct (show_int (ue_num e)) as [|d q].
      * injection X as <-. cbn [append] in E. exact (after_exp_first t c r T E).
      * cbn [num_string super_chars] in N, X. apply andb_prop in N as [N _]. destruct (super_char_in d N) as (w & Ew & I). rewrite Ew in X. cbn [bind] in X.
        destruct (super_chars q) as [q'| |]; try discriminate X. cbn [bind] in X. injection X as <-. rewrite app_assoc_s in E.
        cbn in I. repeat (destruct I as [I|I]; [injection I as <- <-; cbn in E; injection E as <- _; reflexivity|]). destruct I.
    + injection X as <-. cbn [append] in E. exact (after_exp_first t c r T E).
  - injection X as <-. cbn [append] in E. injection E as <- _. reflexivity.
Qed.
Definition apart (n n' : string) : Prop := forall x y, after_name x -> after_name y -> (n ++ x)%string <> (n' ++ y)%string.
Lemma names_apart : ForallOrdPairs apart unit_names.
Proof.
  unfold unit_names. repeat (constructor; [repeat (constructor; [|]); try constructor|]); try constructor; intros x y X Y E; cbn [append] in E; try discriminate E;
    injection E as E; first [pose proof (after_name_first x _ _ X E) as H; discriminate H|pose proof (after_name_first y _ _ Y E) as H; discriminate H].
Qed.
(** The names start with characters that never follow an exponent. *)
Definition name_ok (n : string) : Prop := forall x r, after_exp r -> (n ++ x)%string <> r.
Lemma names_ok : Forall name_ok unit_names.
Proof.
  unfold unit_names. repeat constructor; intros x r [A|[(c & s & A & T)|(s & A)]] E; rewrite A in E; cbn in E; try discriminate E; injection E as <- _; discriminate T.
Qed.

(** ** The loop *)
Definition seen (es : list uexp) : bool := existsb (fun e => negb (ue_num e =? 0)) es.
Lemma show_loop_total names : forall first es, exists s, show_loop first names es = Ok (first && negb (seen (firstn (List.length names) es)), s).
Proof.
  induction names as [|n names IH]; intros first es; cbn [show_loop List.length firstn seen existsb]; [rewrite andb_true_r; eauto|].
  destruct es as [|e es]; cbn [seen existsb]; [rewrite andb_true_r; eauto|].
  destruct (ue_num e =? 0); cbn [negb orb].
  - exact (IH first es).
  - destruct (show_exp_total e) as (x & ->). destruct (IH false es) as (s & ->). cbn [bind fst snd andb]. rewrite andb_false_r. eauto.
Qed.
Definition sep (first : bool) : string := if first then "" else dot.
(** What may follow the exponents of a unit. *)
Definition after_exps (s : string) : Prop := s = "" \/ exists c r, s = String c r /\ tail_char c = true.
Lemma after_exps_exp s : after_exps s -> after_exp s.
Proof. intros [->|H]; [now left|right; now left]. Qed.
Lemma show_loop_shape names : forall first es f s r, show_loop first names es = Ok (f, s) -> after_exps r ->
  (s = "" /\ forall i, ue_num (nth i (firstn (List.length names) es) ue0) = 0) \/
  exists n y, In n names /\ after_name y /\ (s ++ r)%string = (sep first ++ n ++ y)%string.
Proof.
  induction names as [|n names IH]; intros first es f s r E R; cbn [show_loop] in E.
  - injection E as _ <-. left. split; [reflexivity|]. intros i. cbn. now destruct i.
  - destruct es as [|e es].
    + injection E as _ <-. left. split; [reflexivity|]. intros i. cbn. now destruct i.
    + destruct (Z.eqb_spec (ue_num e) 0) as [E0|E0]; cbn [negb] in E.
      * destruct (IH first es f s r E R) as [[-> H]|(n' & y & I & Y & H)]; [left|right].
        -- split; [reflexivity|]. intros [|i]; cbn [List.length firstn nth]; [exact E0|apply H].
        -- exists n', y. split; [now right|]. auto.
      * destruct (show_exp e) as [x| |] eqn:X; try discriminate E. cbn [bind] in E.
        destruct (show_loop false names es) as [[f' s']| |] eqn:L; try discriminate E. cbn [bind fst snd] in E. injection E as _ <-.
        right. exists n, (x ++ (s' ++ r))%string. split; [now left|]. split.
        -- exists e, x, (s' ++ r)%string. split; [exact X|]. split; [|reflexivity].
           destruct (IH false es f' s' r L R) as [[-> _]|(n' & y & _ & _ & ->)]; [now apply after_exps_exp|]. right; right. now exists (n' ++ y)%string.
        -- rewrite !app_assoc_s. reflexivity.
Qed.
(** The text after the exponents is never the start of a name or a dot. *)
Lemma shape_after first n y r : In n unit_names -> after_exps r -> (sep first ++ n ++ y)%string <> r.
Proof.
  intros I R. destruct first; cbn [sep append].
  - pose proof (proj1 (Forall_forall _ _) names_ok n I) as N. apply N. now apply after_exps_exp.
  - intros E. destruct R as [->|(c & s & -> & T)]; cbn in E; [discriminate E|]. injection E as <- _. discriminate T.
Qed.
Lemma sep_split first x y : (sep first ++ x)%string = (sep first ++ y)%string -> x = y.
Proof. destruct first; cbn; [auto|]. intros H. now injection H. Qed.
Lemma in_apart (P : string -> string -> Prop) n l m : ForallOrdPairs P (n :: l) -> In m l -> P n m.
Proof. intros H I. inversion H; subst. now apply (proj1 (Forall_forall _ _) H2). Qed.
Lemma valid_zero e : valid e -> ue_num e = 0 -> e = ue0.
Proof.
  intros (P & G & _ & _) Z. destruct e as [n d]. cbn in *. subst n. rewrite Z.gcd_0_l in G. unfold ue0. f_equal. lia.
Qed.
Lemma valid_zeros es k : List.length es = k -> Forall valid es -> (forall i, ue_num (nth i (firstn k es) ue0) = 0) -> es = repeat ue0 k.
Proof.
  intros L. subst k. rewrite firstn_all. intros V. induction V as [|e es V _ IH]; intros H; [reflexivity|]. cbn [List.length repeat]. f_equal.
  - apply valid_zero; [exact V|exact (H 0%nat)].
  - apply IH. intros i. exact (H (Datatypes.S i)).
Qed.
Lemma show_loop_split names : incl names unit_names -> ForallOrdPairs apart names ->
  forall first es es' f f' s s' r r', List.length es = List.length names -> List.length es' = List.length names -> Forall valid es -> Forall valid es' ->
  show_loop first names es = Ok (f, s) -> show_loop first names es' = Ok (f', s') -> after_exps r -> after_exps r' ->
  (s ++ r)%string = (s' ++ r')%string -> es = es' /\ r = r'.
Proof.
  induction names as [|n names IH]; intros Sub A first es es' f f' s s' r r' L L' V V' X X' R R' E.
  - destruct es, es'; try discriminate. cbn [show_loop] in X, X'. injection X as _ <-. injection X' as _ <-. auto.
  - destruct es as [|e es]; [discriminate|]. destruct es' as [|e' es']; [discriminate|]. cbn [List.length] in L, L'. injection L as L. injection L' as L'.
    inversion V as [|? ? Ve Ves]; subst. inversion V' as [|? ? Ve' Ves']; subst.
    assert (Sub' : incl names unit_names) by (intros z Hz; apply Sub; now right).
    assert (A' : ForallOrdPairs apart names) by (inversion A; assumption).
    cbn [show_loop] in X, X'.
    destruct (Z.eqb_spec (ue_num e) 0) as [E0|E0], (Z.eqb_spec (ue_num e') 0) as [E0'|E0']; cbn [negb] in X, X'.
    + destruct (IH Sub' A' first es es' f f' s s' r r' L L' Ves Ves' X X' R R' E) as [-> ->]. split; [|reflexivity].
      f_equal. rewrite (valid_zero e Ve E0), (valid_zero e' Ve' E0'). reflexivity.
    + exfalso. destruct (show_exp e') as [x| |] eqn:Xe; try discriminate X'. cbn [bind] in X'.
      destruct (show_loop false names es') as [[f2 s2]| |] eqn:L2; try discriminate X'. cbn [bind fst snd] in X'. injection X' as _ <-.
      assert (Y : after_name (x ++ (s2 ++ r'))%string).
      { exists e', x, (s2 ++ r')%string. split; [exact Xe|]. split; [|reflexivity].
        destruct (show_loop_shape names false es' f2 s2 r' L2 R') as [[-> _]|(n2 & y & _ & _ & ->)]; [now apply after_exps_exp|]. right; right. now exists (n2 ++ y)%string. }
      rewrite !app_assoc_s in E. fold (sep first) in E.
      destruct (show_loop_shape names first es f s r X R) as [[-> _]|(n2 & y & I & Yy & H)].
      * cbn [append] in E. apply (shape_after first n (x ++ (s2 ++ r'))%string r); [apply Sub; now left|exact R|now symmetry].
      * rewrite H in E. apply sep_split in E. exact (in_apart apart n names n2 A I _ _ Y Yy (eq_sym E)).
    + exfalso. destruct (show_exp e) as [x| |] eqn:Xe; try discriminate X. cbn [bind] in X.
      destruct (show_loop false names es) as [[f2 s2]| |] eqn:L2; try discriminate X. cbn [bind fst snd] in X. injection X as _ <-.
      assert (Y : after_name (x ++ (s2 ++ r))%string).
      { exists e, x, (s2 ++ r)%string. split; [exact Xe|]. split; [|reflexivity].
        destruct (show_loop_shape names false es f2 s2 r L2 R) as [[-> _]|(n2 & y & _ & _ & ->)]; [now apply after_exps_exp|]. right; right. now exists (n2 ++ y)%string. }
      rewrite !app_assoc_s in E. fold (sep first) in E.
      destruct (show_loop_shape names first es' f' s' r' X' R') as [[-> _]|(n2 & y & I & Yy & H)].
      * cbn [append] in E. apply (shape_after first n (x ++ (s2 ++ r))%string r'); [apply Sub; now left|exact R'|exact E].
      * rewrite H in E. apply sep_split in E. exact (in_apart apart n names n2 A I _ _ Y Yy E).
    + destruct (show_exp e) as [x| |] eqn:Xe; try discriminate X. destruct (show_exp e') as [x'| |] eqn:Xe'; try discriminate X'. cbn [bind] in X, X'.
      destruct (show_loop false names es) as [[f2 s2]| |] eqn:L2; try discriminate X. destruct (show_loop false names es') as [[f2' s2']| |] eqn:L2'; try discriminate X'.
      cbn [bind fst snd] in X, X'. injection X as _ <-. injection X' as _ <-. rewrite !app_assoc_s in E. fold (sep first) in E. apply sep_split in E.
      assert (T : after_exp (s2 ++ r)%string).
      { destruct (show_loop_shape names false es f2 s2 r L2 R) as [[-> _]|(n2 & y & _ & _ & ->)]; [now apply after_exps_exp|]. right; right. now exists (n2 ++ y)%string. }
      assert (T' : after_exp (s2' ++ r')%string).
      { destruct (show_loop_shape names false es' f2' s2' r' L2' R') as [[-> _]|(n2 & y & _ & _ & ->)]; [now apply after_exps_exp|]. right; right. now exists (n2 ++ y)%string. }
      assert (E2 : (x ++ s2 ++ r)%string = (x' ++ s2' ++ r')%string) by (clear - E; induction n as [|c n IHn]; cbn [append] in E; [exact E|injection E as E; auto]).
      destruct (show_exp_split e e' x x' _ _ Xe Xe' T T' E2) as [-> E3].
      destruct (IH Sub' A' false es es' f2 f2' s2 s2' r r' L L' Ves Ves' L2 L2' R R' E3) as [-> ->]. auto.
Qed.

(** ** Units *)
Lemma seen_dimensionless u : List.length (u_exps u) = nb_units -> seen (firstn 7 (u_exps u)) = false <-> dimensionless u.
Proof.
  intros L. unfold dimensionless, ex, nb_units in *. rewrite <- L, firstn_all. clear L. induction (u_exps u) as [|e es IH]; cbn [seen existsb List.length].
  - split; [intros _ i Hi; lia|reflexivity].
  - rewrite orb_false_iff. fold (seen es). rewrite IH. destruct (Z.eqb_spec (ue_num e) 0) as [E|E]; cbn [negb].
    + split; [intros [_ H] [|i] Hi; cbn; [exact E|apply H; lia]|]. intros H. split; [reflexivity|]. intros i Hi. apply (H (Datatypes.S i)). lia.
    + split; [intros [H _]; discriminate H|]. intros H. exfalso. apply E. apply (H 0%nat). lia.
Qed.
Definition unit_tail (first : bool) (tag : Z) : string :=
  if tag =? 0 then if first then "no unit provided" else ""
  else if first then "" else (", tag(" ++ show_int tag ++ ")")%string.
Lemma show_unit_parts u : exists s, show_loop true unit_names (u_exps u) = Ok (negb (seen (firstn 7 (u_exps u))), s) /\
  show_unit u = Ok (s ++ unit_tail (negb (seen (firstn 7 (u_exps u)))) (u_tag u))%string.
Proof.
  destruct (show_loop_total unit_names true (u_exps u)) as (s & E). cbn [andb] in E. change (List.length unit_names) with 7%nat in E. exists s. split; [exact E|].
  unfold show_unit. rewrite E. cbn [bind]. unfold unit_tail. destruct (u_tag u =? 0), (negb (seen (firstn 7 (u_exps u)))); cbn [negb]; rewrite ?app_nil_s; reflexivity.
Qed.
Lemma show_unit_total u : exists s, show_unit u = Ok s.
Proof. destruct (show_unit_parts u) as (s & _ & ->). eauto. Qed.

(** What may follow a unit. *)
Definition after_unit (s : string) : Prop := s = "" \/ (exists r, s = (")" ++ r)%string) \/ exists r, s = (", o" ++ r)%string.
Lemma after_unit_exps f tag r : after_unit r -> after_exps (unit_tail f tag ++ r).
Proof.
  intros R. assert (Z : after_exps r).
  { destruct R as [->|[(x & ->)|(x & ->)]]; [now left|right|right]; cbn; eauto. }
  unfold unit_tail. destruct (tag =? 0), f; cbn [append]; try exact Z; right; eauto.
Qed.
Lemma tail_split tag tag' r r' : after_unit r -> after_unit r' -> (unit_tail false tag ++ r)%string = (unit_tail false tag' ++ r')%string -> tag = tag' /\ r = r'.
Proof.
  intros R R' E. unfold unit_tail in E. destruct (Z.eqb_spec tag 0) as [->|N], (Z.eqb_spec tag' 0) as [->|N'].
  - auto.
  - exfalso. rewrite !app_assoc_s in E. cbn [append] in E. destruct R as [->|[(x & ->)|(x & ->)]]; cbn in E; discriminate E.
  - exfalso. rewrite !app_assoc_s in E. cbn [append] in E. destruct R' as [->|[(x & ->)|(x & ->)]]; cbn in E; discriminate E.
  - rewrite !app_assoc_s in E. cbn [append] in E. injection E as E.
    apply show_int_split in E as [-> E]; [|reflexivity|reflexivity]. injection E as ->. auto.
Qed.
Definition shown_apart (u : unit_t) : Prop := valid_unit u /\ (u_tag u = 0 \/ ~ dimensionless u).
Lemma show_unit_split u v s t r r' : valid_unit u -> valid_unit v -> show_unit u = Ok s -> show_unit v = Ok t -> after_unit r -> after_unit r' ->
  (s ++ r)%string = (t ++ r')%string -> u_exps u = u_exps v /\ (unit_tail (negb (seen (firstn 7 (u_exps u)))) (u_tag u) ++ r)%string = (unit_tail (negb (seen (firstn 7 (u_exps v)))) (u_tag v) ++ r')%string.
Proof.
  intros [Lu Vu] [Lv Vv] Su Sv R R' E. destruct (show_unit_parts u) as (s0 & Xu & Pu). destruct (show_unit_parts v) as (t0 & Xv & Pv).
  rewrite Pu in Su. rewrite Pv in Sv. injection Su as <-. injection Sv as <-. rewrite !app_assoc_s in E.
  exact (show_loop_split unit_names (incl_refl _) names_apart true _ _ _ _ _ _ _ _ Lu Lv Vu Vv Xu Xv (after_unit_exps _ _ r R) (after_unit_exps _ _ r' R') E).
Qed.
Lemma show_unit_inj u v s r r' : shown_apart u -> shown_apart v -> forall t, show_unit u = Ok s -> show_unit v = Ok t -> after_unit r -> after_unit r' ->
  (s ++ r)%string = (t ++ r')%string -> u = v /\ r = r'.
Proof.
  intros [Vu Tu] [Vv Tv] t Su Sv R R' E. destruct (show_unit_split u v s t r r' Vu Vv Su Sv R R' E) as [Ee Et].
  assert (K : u_tag u = u_tag v /\ r = r').
  { destruct (seen (firstn 7 (u_exps u))) eqn:Su'.
    - rewrite <- Ee, Su' in Et. cbn [negb] in Et. exact (tail_split _ _ _ _ R R' Et).
    - pose proof Su' as Sv'. rewrite Ee in Sv'. rewrite Sv' in Et. apply (seen_dimensionless u (proj1 Vu)) in Su'. pose proof (proj1 (seen_dimensionless v (proj1 Vv)) Sv') as Dv.
      destruct Tu as [Tu|Tu]; [|contradiction]. destruct Tv as [Tv|Tv]; [|contradiction]. rewrite Tu, Tv in Et.
      assert (Q : forall x a b, (x ++ a)%string = (x ++ b)%string -> a = b) by (clear; induction x as [|c x IH]; cbn; intros a b H; [exact H|injection H; auto]).
      apply Q in Et. split; [congruence|exact Et]. }
  destruct K as [K ->]. split; [|reflexivity]. destruct u, v. cbn in *. congruence.
Qed.
Lemma show_unit_iff u v : valid_unit u -> valid_unit v -> show_unit u = show_unit v <-> u = v \/ (tag_lost u /\ tag_lost v).
Proof.
  intros Vu Vv. destruct (show_unit_total u) as (s & Su). destruct (show_unit_total v) as (t & Sv). split.
  - intros E. rewrite Su, Sv in E. injection E as <-.
    destruct (show_unit_split u v s s "" "" Vu Vv Su Sv (or_introl eq_refl) (or_introl eq_refl) eq_refl) as [Ee Et]. rewrite !app_nil_s in Et.
    destruct (seen (firstn 7 (u_exps u))) eqn:S1.
    + left. rewrite <- Ee, S1 in Et. cbn [negb] in Et. rewrite <- (app_nil_s (unit_tail false (u_tag u))), <- (app_nil_s (unit_tail false (u_tag v))) in Et.
      destruct (tail_split _ _ "" "" (or_introl eq_refl) (or_introl eq_refl) Et) as [T _]. destruct u, v. cbn in *. congruence.
    + pose proof S1 as S2. rewrite Ee in S2. pose proof S1 as D1. apply (seen_dimensionless u (proj1 Vu)) in D1. pose proof (proj1 (seen_dimensionless v (proj1 Vv)) S2) as D2.
      rewrite S2 in Et. cbn [negb] in Et. unfold unit_tail in Et. destruct (Z.eqb_spec (u_tag u) 0) as [Tu|Tu], (Z.eqb_spec (u_tag v) 0) as [Tv|Tv]; try discriminate Et.
      * left. destruct u, v. cbn in *. congruence.
      * right. split; split; assumption.
  - intros [->|[[Du Tu] [Dv Tv]]]; [reflexivity|].
    assert (Z : forall w, valid_unit w -> dimensionless w -> u_exps w = repeat ue0 7).
    { intros w [L V] D. apply valid_zeros; [exact L|exact V|]. intros i. unfold nb_units in L. rewrite <- L, firstn_all. destruct (Nat.lt_ge_cases i 7) as [H|H]; [exact (D i H)|].
      rewrite nth_overflow by lia. reflexivity. }
    assert (W : forall w, valid_unit w -> dimensionless w -> u_tag w <> 0 -> show_unit w = Ok "").
    { intros w V D T. unfold show_unit. rewrite (Z w V D). cbn. apply Z.eqb_neq in T. rewrite T. reflexivity. }
    rewrite (W u Vu Du Tu), (W v Vv Dv Tv). reflexivity.
Qed.

(** ** Domains *)
Lemma show_pd_inj a b : shown_apart (pd_in a) -> shown_apart (pd_out a) -> shown_apart (pd_in b) -> shown_apart (pd_out b) ->
  show_pd a = show_pd b -> pd_rank a = pd_rank b /\ pd_in a = pd_in b /\ pd_out a = pd_out b.
Proof.
  intros Ai Ao Bi Bo E. unfold show_pd in E. destruct (show_unit_total (pd_in a)) as (si & Si). destruct (show_unit_total (pd_out a)) as (so & So).
  destruct (show_unit_total (pd_in b)) as (ti & Ti). destruct (show_unit_total (pd_out b)) as (to & To). rewrite Si, So, Ti, To in E. cbn [bind] in E.
  injection E as E. apply show_int_split in E as [Er E]; [|reflexivity|reflexivity]. cbn [append] in E. injection E as E.
  apply (show_unit_inj (pd_in a) (pd_in b) si _ _ Ai Bi ti Si Ti) in E as [Ei E]; [|right; right; eexists; reflexivity|right; right; eexists; reflexivity].
  injection E as E. apply (show_unit_inj (pd_out a) (pd_out b) so _ _ Ao Bo to So To) in E as [Eo _]; [|right; left; eexists; reflexivity|right; left; eexists; reflexivity]. auto.
Qed.

Lemma heat_warns tag : exists d, pd_heat tag = Ok (d, true) /\ pd_rank d = 1 /\ u_tag (pd_in d) = tag /\ u_tag (pd_out d) = tag /\
  u_exps (pd_in d) = map (fun n => mk_ue n 1) [-1; 0; 0; 1; 0; 0; 0] /\ u_exps (pd_out d) = map (fun n => mk_ue n 1) [0; 1; -3; 0; 0; 0; 0].
Proof.
  unfold pd_heat, pd_make, unit_mul, unit_div, unit_op.
  unfold u_mass, u_length, u_time, u_temperature, base_unit. cbn [u_tag].
  rewrite Z.eqb_refl. cbn [negb bind].
  repeat (match goal with |- context[zipM ?f ?l ?m] => let v := eval vm_compute in (zipM f l m) in change (zipM f l m) with v end;
          cbn [bind u_tag u_exps]; rewrite ?Z.eqb_refl; cbn [negb bind]).
  match goal with |- context[energy_density] => let v := eval vm_compute in energy_density in change energy_density with v end.
  cbn [bind]. eexists. split; [unfold unit_eqb; cbn [u_tag]; destruct (tag =? 0); reflexivity|]. cbn. auto.
Qed.
