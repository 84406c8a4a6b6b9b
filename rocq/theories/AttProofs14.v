(** Legal names. *)
From Coq Require Import String Ascii.
From Verif Require Import Base AttModel NameSpec.
Local Open Scope Z_scope.
Local Open Scope list_scope.

Lemma between_iff x y a : between (String x "") (String y "") a <-> code x <= code a <= code y.
Proof.
  unfold between, code. split.
  - intros (x' & y' & E1 & E2 & H). injection E1 as <-. injection E2 as <-. lia.
  - intros H. exists x, y. split; [reflexivity|]. split; [reflexivity|]. lia.
Qed.
Lemma beyond_iff a : beyond_ascii a <-> 128 <= code a.
Proof. unfold beyond_ascii, code. lia. Qed.
Lemma first_ok_iff a : first_ok a = true <-> (between "a" "z" a \/ between "A" "Z" a \/ between "0" "9" a \/ between "_" "_" a \/ beyond_ascii a).
Proof.
  rewrite !between_iff, beyond_iff. change (code "a") with 97. change (code "z") with 122. change (code "A") with 65. change (code "Z") with 90.
  change (code "0") with 48. change (code "9") with 57. change (code "_") with 95. unfold first_ok. lia.
Qed.
Lemma rest_ok_iff s : rest_ok s = true <-> Forall (fun b => (between " " "~" b \/ beyond_ascii b) /\ ~ between "/" "/" b) (list_ascii_of_string s).
Proof.
  induction s as [|a s IH]; cbn [rest_ok list_ascii_of_string]; [split; [constructor|reflexivity]|].
  rewrite Forall_cons_iff, <- IH, !between_iff, beyond_iff. change (code " ") with 32. change (code "~") with 126. change (code "/") with 47.
  rewrite !andb_true_iff. assert (H : ((32 <=? code a) && (code a <=? 126) || (128 <=? code a) = true /\ negb (code a =? 47) = true) <-> (32 <= code a <= 126 \/ 128 <= code a) /\ ~ 47 <= code a <= 47) by lia.
  rewrite H. reflexivity.
Qed.
Lemma last_char_app p b : last_char (p ++ String b "") = Some b.
Proof. induction p as [|a p IH]; [reflexivity|]. cbn [append last_char]. destruct (p ++ String b "")%string eqn:E; [destruct p; discriminate|exact IH]. Qed.
Lemma last_char_some s b : last_char s = Some b -> exists p, s = (p ++ String b "")%string.
Proof.
  induction s as [|a s IH]; intros H; [discriminate|]. cbn [last_char] in H. destruct s as [|a' s].
  - injection H as ->. exists ""%string. reflexivity.
  - destruct (IH H) as [p ->]. exists (String a p). reflexivity.
Qed.
Lemma code_inj a b : code a = code b -> a = b.
Proof. unfold code. intros H. rewrite <- (ascii_nat_embedding a), <- (ascii_nat_embedding b). f_equal. lia. Qed.
Lemma last_ok_iff s : negb (match last_char s with Some b => code b =? 32 | None => false end) = true <-> forall p, s <> (p ++ " ")%string.
Proof.
  split.
  - intros H p ->. rewrite last_char_app in H. discriminate.
  - intros H. destruct (last_char s) as [b|] eqn:E; [|reflexivity]. destruct (last_char_some s b E) as [p Ep].
    destruct (Z.eqb_spec (code b) 32) as [Eb|]; [|reflexivity]. exfalso. apply (H p). rewrite Ep. do 2 f_equal. now apply code_inj.
Qed.
Lemma legal_acceptable s : legal_name s = true <-> acceptable s.
Proof.
  unfold acceptable, legal_name. destruct s as [|a r].
  - split; [discriminate|]. intros ((a & r & E & _) & _). discriminate.
  - rewrite !andb_true_iff, first_ok_iff, rest_ok_iff, last_ok_iff, Nat.leb_le. split.
    + intros (((A & B) & C) & D). split; [exists a, r; auto|auto].
    + intros ((a' & r' & E & A & B) & C & D). injection E as <- <-. auto.
Qed.
