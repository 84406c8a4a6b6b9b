(** Proofs about the texts of errors. *)
From Coq Require Import String Ascii Lia List.
From Verif Require Import Base ErrModel ErrSpec.
Import ListNotations.
Local Open Scope string_scope.
Local Open Scope nat_scope.
Local Open Scope list_scope.

Lemma append_nil_r s : (s ++ "")%string = s.
Proof. induction s as [|c r IH]; [reflexivity|]. cbn [append]. rewrite IH. reflexivity. Qed.
Lemma append_assoc_s a b c : ((a ++ b) ++ c)%string = (a ++ (b ++ c))%string.
Proof. induction a as [|x r IH]; [reflexivity|]. cbn [append]. rewrite IH. reflexivity. Qed.
Lemma c_str_plain s : plain (c_str s).
Proof.
  induction s as [|c r IH]; [exact I|]. cbn [c_str].
  destruct (Ascii.eqb c "000") eqn:E; [exact I|]. split; [|exact IH].
  intro H. apply Ascii.eqb_neq in E. exact (E H).
Qed.
Lemma plain_c_str s : plain s -> c_str s = s.
Proof.
  induction s as [|c r IH]; [reflexivity|]. intros [H P]. cbn [c_str].
  destruct (Ascii.eqb c "000") eqn:E; [apply Ascii.eqb_eq in E; contradiction|]. rewrite (IH P). reflexivity.
Qed.
Lemma plain_app a b : plain a -> plain b -> plain (a ++ b)%string.
Proof. induction a as [|c r IH]; [intros _ P; exact P|]. intros [H P] Q. split; [exact H|exact (IH P Q)]. Qed.
Lemma plain_concat s l : plain s -> Forall plain l -> plain (String.concat s l).
Proof.
  intros P. induction l as [|x r IH]; intro F; [exact I|].
  inversion F as [|? ? Hx Hr]; subst. destruct r as [|y t]; [exact Hx|].
  change (String.concat s (x :: y :: t)) with (x ++ s ++ String.concat s (y :: t))%string.
  apply plain_app; [exact Hx|]. apply plain_app; [exact P|]. exact (IH Hr).
Qed.
Lemma c_str_app_plain a b : plain a -> c_str (a ++ b)%string = (a ++ c_str b)%string.
Proof.
  induction a as [|c r IH]; [reflexivity|]. intros [H P]. cbn [append c_str].
  destruct (Ascii.eqb c "000") eqn:E; [apply Ascii.eqb_eq in E; contradiction|]. rewrite (IH P). reflexivity.
Qed.

(** An entry made of a frame. *)
Definition entry_of (l : clib) (f : Z * string) : entry := copy_entry (new_entry l (fst f) (snd f)).
Lemma resolved_named l f : e_resolved (entry_of l f) = true <-> named l f.
Proof.
  unfold entry_of, copy_entry, new_entry, discover, named. cbn [e_address e_resolved].
  destruct (dladdr l (fst f)) as [i|]; cycle 1.
  { cbn. split; [discriminate|]. intros (i & s & H & _). discriminate H. }
  destruct (dli_sname i) as [s|] eqn:S; destruct (dli_fname i) as [g|] eqn:G; cbn [e_resolved]; split;
    try discriminate; try reflexivity.
  1, 2: intros _; exists i, s; split; [reflexivity|exact S].
  all: intros (i' & s' & H & S'); injection H as <-; rewrite S in S'; discriminate S'.
Qed.
Lemma show_named l f : plain_lib l -> named l f -> show_entry l (entry_of l f) = lines l f.
Proof.
  intros [PD PA] N. pose proof N as N'. apply resolved_named in N'. unfold show_entry. rewrite N'. clear N'.
  destruct N as (i & s & Hi & Hs). destruct (PA _ _ Hi) as [Pn Pf].
  unfold entry_of, copy_entry, new_entry, discover, lines, file_of, name_of. cbn [e_address e_file e_name e_symbol].
  rewrite Hi, Hs. rewrite (plain_c_str s (Pn _ Hs)).
  assert (D : match demangle l s with Some d => c_str d | None => s end = match demangle l s with Some d => d | None => s end).
  { destruct (demangle l s) as [d|] eqn:E; [apply plain_c_str; exact (PD _ _ E)|reflexivity]. }
  destruct (dli_fname i) as [g|] eqn:G; cbn [e_file e_name].
  - rewrite (plain_c_str g (Pf _ eq_refl)), D. reflexivity.
  - rewrite D. reflexivity.
Qed.

(** The frames that are printed: the longest run of named frames. *)
Lemma resolved_run l fs : exists k, k <= length fs /\ nb_resolved (map (entry_of l) fs) = k /\
  Forall (named l) (firstn k fs) /\ (forall f, nth_error fs k = Some f -> ~ named l f).
Proof.
  induction fs as [|f r IH].
  - exists 0. repeat split; [cbn; lia|constructor|]. intros f H. discriminate H.
  - cbn [map nb_resolved]. destruct (e_resolved (entry_of l f)) eqn:E.
    + destruct IH as (k & L & N & F & X). exists (S k). repeat split.
      * cbn [length]. lia.
      * rewrite N. reflexivity.
      * cbn [firstn]. constructor; [apply resolved_named; exact E|exact F].
      * exact X.
    + exists 0. repeat split; [cbn; lia|constructor|]. intros g H. cbn in H. injection H as <-.
      intro N. apply resolved_named in N. rewrite N in E. discriminate E.
Qed.
Lemma concat_snoc s l x : String.concat s (l ++ [x]) = match l with [] => x | _ => (String.concat s l ++ s ++ x)%string end.
Proof.
  induction l as [|a r IH]; [reflexivity|]. cbn [app].
  destruct r as [|b t]; [reflexivity|].
  change (String.concat s (a :: (b :: t) ++ [x])) with (a ++ s ++ String.concat s ((b :: t) ++ [x]))%string.
  rewrite IH. change (String.concat s (a :: b :: t)) with (a ++ s ++ String.concat s (b :: t))%string.
  rewrite !append_assoc_s. reflexivity.
Qed.
Lemma show_down_concat l es j : j <= length es -> show_down l es j = String.concat nl (map (show_entry l) (rev (firstn j es))).
Proof.
  induction j as [|j IH]; intro L; [reflexivity|].
  cbn [show_down]. destruct (nth_error es j) as [e|] eqn:E; cycle 1.
  { apply nth_error_None in E. lia. }
  assert (F : firstn (S j) es = firstn j es ++ [e]).
  { clear IH L. revert es E. induction j as [|j IH]; intros [|a r] E; try discriminate E.
    - injection E as ->. reflexivity.
    - change (firstn (S (S j)) (a :: r)) with (a :: firstn (S j) r). rewrite (IH r E). reflexivity. }
  rewrite F, rev_app_distr. cbn [rev app map]. rewrite IH by lia.
  destruct j as [|j].
  - cbn. rewrite !append_nil_r. reflexivity.
  - change (S j =? 0) with false. cbv iota.
    destruct (rev (firstn (S j) es)) as [|a r] eqn:R.
    { apply (f_equal (@length _)) in R. rewrite rev_length, firstn_length in R. cbn [length] in R. lia. }
    cbn [map]. change (String.concat nl (show_entry l e :: show_entry l a :: map (show_entry l) r))
      with (show_entry l e ++ nl ++ String.concat nl (show_entry l a :: map (show_entry l) r))%string.
    rewrite append_assoc_s. reflexivity.
Qed.

(** The frames of an error. *)
Lemma what_text l stack message : plain_lib l ->
  exists k, let shown := firstn k (skipn 3 (firstn 256 stack)) in
    what l stack message = text l (c_str message) (rev shown) /\
    k <= length (skipn 3 (firstn 256 stack)) /\
    Forall (named l) shown /\
    (forall f, nth_error (skipn 3 (firstn 256 stack)) k = Some f -> ~ named l f).
Proof.
  intro P. set (fs := skipn 3 (firstn 256 stack)).
  destruct (resolved_run l fs) as (k & L & N & F & X). exists k. cbv zeta. split; [|split; [exact L|split; [exact F|exact X]]].
  assert (B : buffer l stack message = text l (c_str message) (rev (firstn k fs))).
  { unfold buffer, text, show_traceback, new_traceback. change MAX_DEPTH with 256. fold fs.
    change (map (fun f => copy_entry (new_entry l (fst f) (snd f))) fs) with (map (entry_of l) fs).
    rewrite N, show_down_concat by (rewrite map_length; exact L).
    do 4 f_equal. f_equal.
    rewrite firstn_map, <- map_rev, map_map. apply map_ext_in. intros f I. apply in_rev in I.
    apply show_named; [exact P|]. rewrite Forall_forall in F. exact (F f I). }
  unfold what. rewrite B. apply plain_c_str. unfold text.
  apply plain_app; [apply c_str_plain|]. apply plain_app; [split; [discriminate|exact I]|].
  apply plain_app; [repeat (split; [discriminate|]); exact I|]. apply plain_app; [split; [discriminate|exact I]|].
  apply plain_concat; [split; [discriminate|exact I]|].
  apply Forall_forall. intros s I. apply in_map_iff in I. destruct I as (f & <- & I). apply in_rev in I.
  rewrite Forall_forall in F. destruct (F f I) as (i & n & Hi & Hn).
  destruct P as [PD PA]. destruct (PA _ _ Hi) as [Pn Pf].
  unfold lines. apply plain_app; [repeat (split; [discriminate|]); exact Logic.I|].
  apply plain_app.
  { unfold file_of. rewrite Hi. destruct (dli_fname i) as [g|] eqn:G; [exact (Pf _ eq_refl)|exact Logic.I]. }
  apply plain_app; [split; [discriminate|exact Logic.I]|]. apply plain_app; [split; [discriminate|exact Logic.I]|].
  apply plain_app; [repeat (split; [discriminate|]); exact Logic.I|].
  unfold name_of. rewrite Hi, Hn. destruct (demangle l n) as [d|] eqn:D; [exact (PD _ _ D)|exact (Pn _ Hn)].
Qed.

(** Whatever the loader says, the text begins with the message. *)
Lemma what_message l stack message : exists rest, what l stack message = (c_str message ++ nl ++ rest)%string.
Proof.
  unfold what, buffer. rewrite c_str_app_plain by apply c_str_plain.
  rewrite (c_str_app_plain nl) by (split; [discriminate|exact I]).
  eexists. reflexivity.
Qed.

(** The run of named frames is determined. *)
Lemma run_unique (Q : Z * string -> Prop) fs k k' :
  k <= length fs -> k' <= length fs -> Forall Q (firstn k fs) -> (forall f, nth_error fs k = Some f -> ~ Q f) ->
  Forall Q (firstn k' fs) -> (forall f, nth_error fs k' = Some f -> ~ Q f) -> k = k'.
Proof.
  assert (G : forall a b, a < b -> b <= length fs -> Forall Q (firstn b fs) -> (forall f, nth_error fs a = Some f -> ~ Q f) -> False).
  { intros a b L Lb F X. destruct (nth_error fs a) as [f|] eqn:E; [|apply nth_error_None in E; lia].
    apply (X f eq_refl). rewrite Forall_forall in F. apply F.
    assert (E' : nth_error (firstn b fs) a = Some f).
    { rewrite <- E. clear - L. revert b fs L. induction a as [|a IH]; intros [|b] [|x r] L; try lia; try reflexivity.
      cbn. apply IH. lia. }
    exact (nth_error_In _ _ E'). }
  intros L L' F X F' X'. destruct (Nat.lt_trichotomy k k') as [H|[H|H]]; [|exact H|].
  - destruct (G k k' H L' F' X).
  - destruct (G k' k H L F X').
Qed.

(** The function that throws. *)
Lemma what_thrower l tb ex ctors thrower callers message : plain_lib l -> length ctors = 1 -> named l thrower ->
  exists k, what l (stack_of tb ex ctors thrower callers) message = text l (c_str message) (rev (firstn k callers) ++ [thrower]).
Proof.
  intros P LC N. destruct ctors as [|c1 [|]]; try discriminate LC. clear LC.
  destruct (what_text l (stack_of tb ex [c1] thrower callers) message P) as (k & W & L & F & X).
  unfold stack_of in *. cbn [app] in *. change (skipn 3 (firstn 256 (tb :: ex :: c1 :: thrower :: callers))) with (thrower :: firstn 252 callers) in *.
  destruct k as [|k].
  { exfalso. exact (X thrower eq_refl N). }
  exists (Nat.min k 252). rewrite W. f_equal. change (rev (firstn (S k) (thrower :: firstn 252 callers))) with (rev (firstn k (firstn 252 callers)) ++ [thrower]).
  rewrite firstn_firstn. reflexivity.
Qed.
Lemma what_runtime_error l tb ex thrower callers message : plain_lib l ->
  exists k, what l (stack_of tb ex [] thrower callers) message = text l (c_str message) (rev (firstn k callers)).
Proof.
  intro P. destruct (what_text l (stack_of tb ex [] thrower callers) message P) as (k & W & L & F & X).
  unfold stack_of in *. cbn [app] in *. change (skipn 3 (firstn 256 (tb :: ex :: thrower :: callers))) with (firstn 253 callers) in *.
  exists (Nat.min k 253). rewrite W. rewrite firstn_firstn. reflexivity.
Qed.
Lemma what_dictionary_error l tb ex c1 c2 thrower callers message : plain_lib l -> named l c2 ->
  exists frames, what l (stack_of tb ex [c1; c2] thrower callers) message = text l (c_str message) (frames ++ [c2]).
Proof.
  intros P N. destruct (what_text l (stack_of tb ex [c1; c2] thrower callers) message P) as (k & W & L & F & X).
  unfold stack_of in *. cbn [app] in *. change (skipn 3 (firstn 256 (tb :: ex :: c1 :: c2 :: thrower :: callers))) with (c2 :: firstn 252 (thrower :: callers)) in *.
  destruct k as [|k].
  { exfalso. exact (X c2 eq_refl N). }
  exists (rev (firstn k (firstn 252 (thrower :: callers)))). rewrite W. reflexivity.
Qed.
Lemma length_append a b : String.length (a ++ b)%string = String.length a + String.length b.
Proof. induction a as [|c r IH]; [reflexivity|]. cbn. rewrite IH. reflexivity. Qed.
Lemma text_longer l message frames f : String.length (text l message (frames ++ [f])) > String.length (text l message []).
Proof.
  unfold text. rewrite !length_append. rewrite map_app. cbn [map]. rewrite concat_snoc.
  assert (0 < String.length (lines l f)) by (unfold lines; rewrite length_append; cbn; lia).
  change (String.length (String.concat nl [])) with 0.
  destruct (map (lines l) frames) as [|x r]; [lia|]. rewrite !length_append. lia.
Qed.
