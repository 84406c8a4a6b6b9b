(** C142, C143: lifetimes of Python objects. *)
From Coq Require Import String.
From Verif Require Import Base PyLifeModel PyLifeSpec PyLifeProofs.
Local Open Scope nat_scope.
Local Open Scope list_scope.
Local Open Scope string_scope.

(** Fields, state fields, pixels, arrays and buffers stay usable as long as the program
    has them, whatever it gave up. *)
Theorem C142_keeps : forall l o h, keeps l h -> object_of o = Some h -> snd (step (run start l) o) <> Crash.
Proof. exact keeps_no_crash. Qed.
Print Assumptions C142_keeps.

(** Programs that keep their collections and files never use what does not exist. *)
Theorem C142_owners : forall l, keeps_owners l -> ~ In Crash (outcomes start l).
Proof. exact owners_no_crash. Qed.
Print Assumptions C142_owners.

(** def make():
        c = GlobalFieldCollection(...); f = c.real_field("u"); return f.array()[0]
    The collection and the field are given up, and the slice can be used; the
    collection comes back through the field. *)
Definition made : list call := [NewColl; GetPart 0 (PField "u"); Array 1; Slice 2; Del 0; Del 1; Del 2].
Example C142_case :
  keeps made 3 /\ s_vars (run start made) = [3] /\ snd (step (run start made) (Use 3)) = Done /\
  outcomes start [NewColl; GetPart 0 (PField "u"); Del 0; Owner 1; GetPart 0 (PField "v"); Use 2] =
    [Obj 0; Obj 1; Done; Obj 0; Obj 2; Done].
Proof.
  split; [|vm_compute; auto]. apply keeps_slice with (i := 3) (a := 2); [reflexivity| |reflexivity].
  now apply keeps_call with (i := 2) (o := Array 1).
Qed.
(** The same as a test, for cases. *)
Definition has_ownersb (s : state) : bool :=
  forallb (fun h => match nth_error (s_objs s) h with
                    | Some o => match po_kind o with KColl | KFile => memb h (s_vars s) | _ => true end
                    | None => true end) (seq 0 (length (s_objs s))).
Lemma has_ownersb_spec s : has_ownersb s = true -> has_owners s.
Proof.
  unfold has_ownersb, has_owners. intros H h o E W. rewrite forallb_forall in H.
  assert (L : h < length (s_objs s)) by (apply nth_error_Some; congruence).
  specialize (H h). rewrite E in H. assert (B : memb h (s_vars s) = true).
  { destruct W as [W|W]; rewrite W in H; apply H, in_seq; lia. }
  unfold memb in B. apply existsb_exists in B. destruct B as (y & I & Eq). apply Nat.eqb_eq in Eq. now subst.
Qed.

(** A program that reads a field from a file and works with [f.s]. *)
Definition reading : list call :=
  [NewColl; GetPart 0 (PField "u"); NewFile; Register 2 0; GetFrame 2; Transfer 3; Prop_ 1; Use 4; Del 1; Use 4].
Example C142_owners_case : keeps_owners reading /\ outcomes start reading =
  [Obj 0; Obj 1; Obj 2; Done; Obj 3; Done; Obj 4; Done; Done; Done].
Proof.
  split; [|reflexivity]. intros l1 l2 E h o H W.
  assert (K : forall n, has_ownersb (run start (firstn n reading)) = true).
  { intros n. do 11 (destruct n as [|n]; [reflexivity|]). reflexivity. }
  assert (F : l1 = firstn (length l1) reading) by (rewrite E, firstn_app, Nat.sub_diag, firstn_all; cbn; now rewrite app_nil_r).
  rewrite F in *. revert h o H W. apply has_ownersb_spec, K.
Qed.

(** What [s], [p], the maps, iterators and frames of a file give does not keep alive
    what it refers to: for every such object there is a way on that ends in a use of memory that is
    gone, namely giving up everything else. *)
Theorem C143_borrowed_refuted : forall l o x, borrowing o -> snd (step (run start l) o) = Obj x ->
  snd (step (run start (l ++ o :: give_up (run start l))) (Use x)) = Crash.
Proof. exact borrowed_crash. Qed.
Print Assumptions C143_borrowed_refuted.

(** A file does not keep alive the collections that are registered. *)
Theorem C143_registered_refuted : forall l f c, snd (step (run start l) (Register f c)) = Done ->
  snd (step (run start (l ++ Register f c :: give_up_but f (run start l))) (Transfer f)) = Crash.
Proof. exact registered_crash. Qed.
Print Assumptions C143_registered_refuted.

(** def make(): c = GlobalFieldCollection(...); return c.real_field("u").s  — and the
    result is an array on memory that is gone; likewise a loop over the pixels, over
    frames and a frame of a file, a map, and a function that opens a file and registers a
    collection of its own. *)
Example C143_case :
  outcomes start [NewColl; GetPart 0 (PField "u"); Prop_ 1; Del 1; Del 0; Use 2] = [Obj 0; Obj 1; Obj 2; Done; Done; Crash] /\
  outcomes start [NewColl; GetPart 0 PPixels; Iterate 1; Del 1; Del 0; Use 2] = [Obj 0; Obj 1; Obj 2; Done; Done; Crash] /\
  outcomes start [NewColl; GetPart 0 (PField "u"); MapOf 1; Del 1; Del 0; Use 2] = [Obj 0; Obj 1; Obj 2; Done; Done; Crash] /\
  outcomes start [NewFile; Iterate 0; Del 0; GetFrame 1] = [Obj 0; Obj 1; Done; Crash] /\
  outcomes start [NewFile; GetFrame 0; Del 0; Transfer 1] = [Obj 0; Obj 1; Done; Crash] /\
  outcomes start [NewFile; NewColl; Register 0 1; Del 1; Transfer 0] = [Obj 0; Obj 1; Done; Done; Crash].
Proof. vm_compute. auto 10. Qed.
