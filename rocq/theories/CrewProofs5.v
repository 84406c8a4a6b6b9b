(** Registration, definition and search by all processes; whole programs. *)
From Coq Require Import String.
From Verif Require Import Base GridModel StridedModel LayoutModel LayoutProofs CommModel.
From Verif Require Import NetCDFModel NetCDFProofs4 NetCDFProofs6 NetCDFProofs7 DimModel DimProofs2 CrewModel CrewSpec CrewProofs CrewProofs2 CrewProofs3 CrewProofs4.
Local Open Scope Z_scope.
Local Open Scope list_scope.

(** ** Object and file on two processes *)

Definition ssess (a b : Z) (s s' : sess) : Prop := sobj a b (fst s) (fst s') /\ snd s = snd s'.
Definition srel {X} (a b : Z) (f g : M sess X) : Prop := forall s s', ssess a b s s' -> ssess a b (fst (f s)) (fst (g s')) /\ snd (f s) = snd (g s').
Lemma srel_ret {X} a b (x : X) : srel a b (mret x) (mret x).
Proof. intros s s' S. split; [exact S|reflexivity]. Qed.
Lemma srel_bind {X Y} a b (f g : M sess X) (k l : X -> M sess Y) : srel a b f g -> (forall x, srel a b (k x) (l x)) -> srel a b (mbind f k) (mbind g l).
Proof.
  intros F K s s' S. specialize (F s s' S). unfold mbind. destruct (f s) as [s1 r1], (g s') as [s2 r2]. cbn [fst snd] in F. destruct F as [S1 <-].
  destruct r1; [now apply K|split; [exact S1|reflexivity] ..].
Qed.
Lemma srel_each {X Y} a b (f : X -> M sess Y) l : (forall x, srel a b (f x) (f x)) -> srel a b (meach f l) (meach f l).
Proof. intros H. induction l as [|x l IH]; cbn [meach]; [apply srel_ret|]. apply srel_bind; [apply H|]. intros y. apply srel_bind; [exact IH|]. intros z. apply srel_ret. Qed.
Lemma set_dims_same a b l o o' : sobj a b o o' -> sobj a b (set_dims l o) (set_dims l o').
Proof. intros (E1 & E2 & E3 & E4 & E5). repeat split; assumption. Qed.
Lemma set_vars_same a b l o o' : sobj a b o o' -> sobj a b (set_vars l o) (set_vars l o').
Proof. intros (E1 & E2 & E3 & E4 & E5). repeat split; assumption. Qed.
Lemma find_dim_id_same a b i : srel a b (find_dim_id i) (find_dim_id i).
Proof.
  intros [o f] [o' f'] [S E]. cbn [fst snd] in S, E. subst f'. pose proof S as (E1 & E2 & E3 & E4 & E5). unfold find_dim_id. cbn [fst snd]. rewrite E1.
  destruct (nth_error (o_dims o') i) as [x|]; [|split; [split; [exact S|reflexivity]|reflexivity]].
  destruct (do_id x); [split; [split; [exact S|reflexivity]|reflexivity]|].
  destruct (inq_dim _ f) as [id|]; [|split; [split; [exact S|reflexivity]|reflexivity]].
  destruct (unlimited f) as [u|].
  - destruct (_ && _); (split; [split; [apply set_dims_same; exact S|reflexivity]|reflexivity]).
  - split; [split; [apply set_dims_same; exact S|reflexivity]|reflexivity].
Qed.
Lemma find_var_id_same a b i : srel a b (find_var_id i) (find_var_id i).
Proof.
  intros [o f] [o' f'] [S E]. cbn [fst snd] in S, E. subst f'. pose proof S as (E1 & E2 & E3 & E4 & E5). unfold find_var_id. cbn [fst snd]. rewrite E3.
  destruct (nth_error (o_vars o') i) as [x|]; [|split; [split; [exact S|reflexivity]|reflexivity]].
  destruct (vo_id x); [split; [split; [exact S|reflexivity]|reflexivity]|].
  destruct (inq_var _ f) as [id|]; [|split; [split; [exact S|reflexivity]|reflexivity]].
  split; [split; [apply set_vars_same; exact S|reflexivity]|reflexivity].
Qed.
Lemma find_all_same a b : srel a b find_all find_all.
Proof.
  intros [o f] [o' f'] SS. pose proof SS as [S E]. cbn [fst snd] in S, E. subst f'. pose proof S as (E1 & E2 & E3 & E4 & E5). unfold find_all. cbn [fst snd]. rewrite E1.
  destruct (_ <? _)%nat; [split; [exact SS|reflexivity]|].
  apply (srel_bind a b (meach find_dim_id _) (meach find_dim_id _)); [apply srel_each; intros; apply find_dim_id_same| |exact SS].
  intros _ s s' ST. pose proof ST as [S' E']. rewrite E'. pose proof S' as (E1' & E2' & E3' & E4' & E5'). rewrite E3'.
  destruct (_ <? _)%nat; [split; [exact ST|reflexivity]|].
  apply (srel_bind a b (meach find_var_id _) (meach find_var_id _)); [apply srel_each; intros; apply find_var_id_same|intros; apply srel_ret|exact ST].
Qed.
Lemma meach_keep {X Y} (P : sess -> Prop) (f : X -> M sess Y) l : (forall x s, P s -> P (fst (f x s))) -> forall s, P s -> P (fst (meach f l s)).
Proof.
  intros H. induction l as [|x l IH]; intros s I; cbn [meach]; [exact I|]. unfold mbind. specialize (H x s I) as H1. destruct (f x s) as [s1 [y|e|]]; [|exact H1 ..].
  cbn [fst] in H1. specialize (IH s1 H1). destruct (meach f l s1) as [s2 [z|e|]]; exact IH.
Qed.
Lemma define_dim_vars i s : o_vars (fst (fst (define_dim i s))) = o_vars (fst s).
Proof.
  unfold define_dim. destruct (nth_error _ i) as [x|]; [|reflexivity]. destruct (do_id x); [reflexivity|]. destruct (lib_def_dim _ _) as [[f id]|]; reflexivity.
Qed.

Section Together.
Variables (n : nat) (size : nat -> Z).
Hypothesis some : (0 < n)%nat.

(** ** Definitions *)

Definition defining (flag : bool) (h : head) : Prop := flag = true /\ h_rw h = true /\ h_define h = true.
Notation agreesD := (agrees n size defining).
Lemma define_dim_agrees j : agreesD eq (fun _ => c_define_dim j) (fun _ => define_dim j).
Proof.
  intros xs T Q K HK. unfold c_define_dim, cbind at 1, cget.
  assert (ED : forall i, (i < n)%nat -> o_dims (p_obj (xs i)) = o_dims (p_obj (xs 0%nat))) by (intros i L; destruct T as [T _]; destruct (T i 0%nat L some) as ((E & _) & _); exact E).
  assert (same : (forall i, (i < n)%nat -> define_dim j (view (xs i)) = (view (xs i), Ok tt)) -> always Q (map (fun i => K i (xs i) (Ok tt)) (seq 0 n))).
  { intros H. apply (HK xs (fun _ => Ok tt)); [exact H|exact T|intros i k _ _; reflexivity]. }
  destruct (nth_error (o_dims (p_obj (xs 0%nat))) j) as [x|] eqn:EX.
  2:{ rewrite (map_below n _ (fun i => K i (xs i) (Ok tt))) by (intros i L; rewrite (ED i L), EX; reflexivity).
      apply same. intros i L. unfold define_dim, view. cbn [fst]. now rewrite (ED i L), EX. }
  destruct (do_id x) as [id|] eqn:EI.
  { rewrite (map_below n _ (fun i => K i (xs i) (Ok tt))) by (intros i L; rewrite (ED i L), EX, EI; reflexivity).
    apply same. intros i L. unfold define_dim, view. cbn [fst]. now rewrite (ED i L), EX, EI. }
  rewrite (map_below n _ (fun i => Call (CDefDim (do_dim x)) (p_head (xs i)) (fun a h =>
      match (match a with Some m => Ok m | None => Err FileIOError end) with
      | Ok m => cobj (fun o => (set_dims (upd (o_dims o) j (mk_dimobj (do_dim x) (Some (Z.to_nat m)))) o, Ok tt)) (mk_proc (p_obj (xs i)) (p_flag (xs i)) h) (K i)
      | Err e => K i (mk_proc (p_obj (xs i)) (p_flag (xs i)) h) (Err e)
      | UB => K i (mk_proc (p_obj (xs i)) (p_flag (xs i)) h) UB end)))
    by (intros i L; rewrite (ED i L), EX, EI; reflexivity).
  apply (always_call Q n (fun _ => CDefDim (do_dim x)) (fun i => p_head (xs i))); [exact some|intros; reflexivity|].
  cbn [answer]. pose proof T as [TT TW].
  assert (EH : forall i, (i < n)%nat -> p_head (xs i) = p_head (xs 0%nat)) by (intros i L; destruct (TT i 0%nat L some) as (_ & _ & E); exact E).
  destruct (TW 0%nat some) as (F1 & F2 & F3).
  destruct (lib_def_dim (do_dim x) (h_nc (p_head (xs 0%nat)))) as [[f id]|] eqn:EL.
  - set (xs' := fun i => mk_proc (set_dims (upd (o_dims (p_obj (xs i))) j (mk_dimobj (do_dim x) (Some id))) (p_obj (xs i))) (p_flag (xs i)) (mk_head (h_rw (p_head (xs 0%nat))) true f)).
    rewrite (map_below n _ (fun i => K i (xs' i) (Ok tt))) by (intros i L; rewrite (EH i L), F3, EL; cbn [fst snd cobj]; rewrite Nat2Z.id; reflexivity).
    apply (HK xs' (fun _ => Ok tt)); [| |intros i k _ _; reflexivity].
    + intros i L. unfold define_dim, view. cbn [fst snd]. rewrite (ED i L), EX, EI, (EH i L), EL. unfold xs'. cbn [p_obj p_head h_nc]. now rewrite (ED i L).
    + split.
      * intros i k Li Lk. destruct (TT i k Li Lk) as (S & E1 & E2). unfold xs'. cbn [p_obj p_flag p_head]. split; [|split; [exact E1|reflexivity]].
        rewrite (ED i Li), (ED k Lk). now apply set_dims_same.
      * intros i L. unfold xs'. cbn [p_flag p_head]. destruct (TW i L) as (G1 & _). split; [exact G1|]. cbn [h_rw h_define]. split; [exact F2|reflexivity].
  - rewrite (map_below n _ (fun i => K i (xs i) (Err FileIOError))) by (intros i L; rewrite (EH i L), F3, EL; cbn [fst snd]; rewrite <- (EH i L); destruct (xs i); reflexivity).
    apply (HK xs (fun _ => Err FileIOError)); [|exact T|intros i k _ _; reflexivity].
    intros i L. unfold define_dim, view. cbn [fst snd]. now rewrite (ED i L), EX, EI, (EH i L), EL.
Qed.
Lemma ids_at_same o o' refs : o_dims o = o_dims o' -> ids_at o refs = ids_at o' refs.
Proof. intros E. unfold ids_at. now rewrite E. Qed.
Lemma define_var_agrees j : agreesD eq (fun _ => c_define_var j) (fun _ => define_var j).
Proof.
  intros xs T Q K HK. unfold c_define_var, cbind at 1, cget.
  assert (ED : forall i, (i < n)%nat -> o_vars (p_obj (xs i)) = o_vars (p_obj (xs 0%nat))) by (intros i L; destruct T as [T _]; destruct (T i 0%nat L some) as ((_ & _ & E & _) & _); exact E).
  assert (EA : forall i refs, (i < n)%nat -> ids_at (p_obj (xs i)) refs = ids_at (p_obj (xs 0%nat)) refs) by (intros i refs L; apply ids_at_same; destruct T as [T _]; destruct (T i 0%nat L some) as ((E & _) & _); exact E).
  assert (same : (forall i, (i < n)%nat -> define_var j (view (xs i)) = (view (xs i), Ok tt)) -> always Q (map (fun i => K i (xs i) (Ok tt)) (seq 0 n))).
  { intros H. apply (HK xs (fun _ => Ok tt)); [exact H|exact T|intros i k _ _; reflexivity]. }
  destruct (nth_error (o_vars (p_obj (xs 0%nat))) j) as [x|] eqn:EX.
  2:{ rewrite (map_below n _ (fun i => K i (xs i) (Ok tt))) by (intros i L; rewrite (ED i L), EX; reflexivity).
      apply same. intros i L. unfold define_var, view. cbn [fst]. now rewrite (ED i L), EX. }
  destruct (vo_id x) as [id|] eqn:EI.
  { rewrite (map_below n _ (fun i => K i (xs i) (Ok tt))) by (intros i L; rewrite (ED i L), EX, EI; reflexivity).
    apply same. intros i L. unfold define_var, view. cbn [fst]. now rewrite (ED i L), EX, EI. }
  destruct (ids_at (p_obj (xs 0%nat)) (vo_refs x)) as [ids|] eqn:ER.
  2:{ rewrite (map_below n _ (fun i => K i (xs i) (Err FileIOError))) by (intros i L; rewrite (ED i L), EX, EI, (EA i _ L), ER; reflexivity).
      apply (HK xs (fun _ => Err FileIOError)); [|exact T|intros i k _ _; reflexivity].
      intros i L. unfold define_var, view. cbn [fst]. now rewrite (ED i L), EX, EI, (EA i _ L), ER. }
  rewrite (map_below n _ (fun i => Call (CDefVar (v_name (vo_var x)) ids) (p_head (xs i)) (fun a h =>
      match (match a with Some m => Ok m | None => Err FileIOError end) with
      | Ok m => cobj (fun o => (set_vars (upd (o_vars o) j (mk_varobj (vo_var x) (vo_hidden x) (vo_refs x) (Some (Z.to_nat m)))) o, Ok tt)) (mk_proc (p_obj (xs i)) (p_flag (xs i)) h) (K i)
      | Err e => K i (mk_proc (p_obj (xs i)) (p_flag (xs i)) h) (Err e)
      | UB => K i (mk_proc (p_obj (xs i)) (p_flag (xs i)) h) UB end)))
    by (intros i L; rewrite (ED i L), EX, EI, (EA i _ L), ER; reflexivity).
  apply (always_call Q n (fun _ => CDefVar (v_name (vo_var x)) ids) (fun i => p_head (xs i))); [exact some|intros; reflexivity|].
  cbn [answer]. pose proof T as [TT TW].
  assert (EH : forall i, (i < n)%nat -> p_head (xs i) = p_head (xs 0%nat)) by (intros i L; destruct (TT i 0%nat L some) as (_ & _ & E); exact E).
  destruct (TW 0%nat some) as (F1 & F2 & F3).
  destruct (lib_def_var (v_name (vo_var x)) ids (h_nc (p_head (xs 0%nat)))) as [[f id]|] eqn:EL.
  - set (xs' := fun i => mk_proc (set_vars (upd (o_vars (p_obj (xs i))) j (mk_varobj (vo_var x) (vo_hidden x) (vo_refs x) (Some id))) (p_obj (xs i))) (p_flag (xs i)) (mk_head (h_rw (p_head (xs 0%nat))) true f)).
    rewrite (map_below n _ (fun i => K i (xs' i) (Ok tt))) by (intros i L; rewrite (EH i L), F3, EL; cbn [fst snd cobj]; rewrite Nat2Z.id; reflexivity).
    apply (HK xs' (fun _ => Ok tt)); [| |intros i k _ _; reflexivity].
    + intros i L. unfold define_var, view. cbn [fst snd]. rewrite (ED i L), EX, EI, (EA i _ L), ER, (EH i L), EL. unfold xs'. cbn [p_obj p_head h_nc]. now rewrite (ED i L).
    + split.
      * intros i k Li Lk. destruct (TT i k Li Lk) as (S & E1 & E2). unfold xs'. cbn [p_obj p_flag p_head]. split; [|split; [exact E1|reflexivity]].
        rewrite (ED i Li), (ED k Lk). now apply set_vars_same.
      * intros i L. unfold xs'. cbn [p_flag p_head]. destruct (TW i L) as (G1 & _). split; [exact G1|]. cbn [h_rw h_define]. split; [exact F2|reflexivity].
  - rewrite (map_below n _ (fun i => K i (xs i) (Err FileIOError))) by (intros i L; rewrite (EH i L), F3, EL; cbn [fst snd]; rewrite <- (EH i L); destruct (xs i); reflexivity).
    apply (HK xs (fun _ => Err FileIOError)); [|exact T|intros i k _ _; reflexivity].
    intros i L. unfold define_var, view. cbn [fst snd]. now rewrite (ED i L), EX, EI, (EA i _ L), ER, (EH i L), EL.
Qed.
End Together.
