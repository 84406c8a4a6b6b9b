(** C149-C150: attributes and variables of files that several processes define. *)
From Coq Require Import String Ascii.
From Verif Require Import Base AttModel AttSpec HeadModel HeadSpec HeadProofs2 HeadProofs3 HeadProofs4.
Local Open Scope Z_scope.
Local Open Scope list_scope.

(** All processes finish, none waits for ever; all have the outcomes, exceptions
    included, that a single process with the clock of process 0 has, and the file is
    the one that this process makes. *)
Theorem C149_finishes : forall b w ws rs last disk,
  Forall keeps_time (w :: ws) ->
  always (fun c =>
    fst c = snd (fst (serial b w 0 rs last disk)) /\
    List.length (snd c) = List.length (w :: ws) /\
    Forall (fun p => exists x, p = Fin x (fst (fst (serial b w 0 rs last disk)))) (snd c))
    (start b (w :: ws) rs last disk).
Proof. exact program_finishes. Qed.
Print Assumptions C149_finishes.

(** While the last file is open, all processes see the attributes that the single
    process sees; only dates and times may differ, and they have the same type and
    length. *)
Theorem C149_attributes : forall b w ws rs last disk s,
  Forall keeps_time (w :: ws) ->
  Forall tidy_visit rs -> (forall u, last = Some u -> tidy_visit u) ->
  snd (serial b w 0 rs last disk) = Some s ->
  always (fun c => Forall (fun p => exists x outs, p = Fin x outs /\
    sees_names x = read_global_attribute_names s /\
    forall n, match sees x n, shown s n with
              | Some (t, v), Some (t', v') => t = t' /\ List.length v = List.length v' /\ (~ In n times -> v = v')
              | None, None => True
              | _, _ => False
              end) (snd c)) (start b (w :: ws) rs last disk).
Proof. intros b w ws rs last disk s T. exact (program_attributes b w ws rs last disk T s). Qed.
Print Assumptions C149_attributes.

(** In a file that is opened again all processes see the same, dates and times
    included. *)
Theorem C149_reopened : forall b w ws rs u disk s,
  Forall keeps_time (w :: ws) ->
  writes (r_mode u) = false -> snd (serial b w 0 rs (Some u) disk) = Some s ->
  always (fun c => Forall (fun p => exists x outs, p = Fin x outs /\
    sees_names x = read_global_attribute_names s /\ forall n, sees x n = shown s n) (snd c)) (start b (w :: ws) rs (Some u) disk).
Proof. intros b w ws rs u disk s T. exact (program_reopened b w ws rs (Some u) disk T u s eq_refl). Qed.
Print Assumptions C149_reopened.

(** ** A case: two processes, the clock of the second one is a second ahead *)
Definition codes (s : string) : bytes := map code (list_ascii_of_string s).
Definition steady (date time : string) : watch :=
  mk_watch (fun _ => mk_stamp (codes date) (codes time)) (fun _ => mk_stamp (codes date) (codes time)).
Definition early : watch := steady "31-12-2021 (d-m-Y)" "23:59:59 (H:M:S)".
Definition late : watch := steady "01-01-2022 (d-m-Y)" "00:00:00 (H:M:S)".
Definition muGrid : build := mk_build (codes "info") (codes "hash") (codes "0.1") (codes "false").
Definition creates : visit :=
  mk_visit OWrite [WriteAtt "author" TChar (codes "somebody"); Register [("strain"%string, codes "no unit")];
                   WriteAtt "author" TChar (codes "x"); Write 0 7 ["strain"%string]; Write 0 7 ["stress"%string];
                   UpdateAtt "author" "owner" TChar (codes "nobody")].
Definition reads : visit := mk_visit ORead [Register [("strain"%string, codes "no unit")]; Read ["strain"%string]].

Example C149_clocks : Forall keeps_time [early; late].
Proof. repeat constructor. Qed.
(** The second attempt to write the attribute and writing a field that was not
    registered are refused. *)
Example C149_case :
  fst (fst (serial muGrid early 0 [creates] (Some reads) None)) =
    [Ok tt; Ok tt; Ok tt; Err FileIOError; Ok tt; Err FileIOError; Ok tt; Ok tt; Ok tt; Ok tt; Ok tt] /\
  match snd (serial muGrid early 0 [creates] (Some reads) None) with
  | Some s => shown s "owner"%string = Some (TChar, codes "nobody") /\ shown s "creation_time"%string = Some (TChar, codes "23:59:59 (H:M:S)")
  | None => False
  end /\
  Forall tidy_visit [creates] /\ tidy_visit reads /\ writes (r_mode reads) = false.
Proof.
  split; [vm_compute; reflexivity|]. split; [vm_compute; split; reflexivity|]. split; [|split; [repeat constructor|reflexivity]].
  constructor; [|constructor]. unfold tidy_visit, creates. cbn [r_ops]. do 5 (constructor; [exact I|]). constructor; [|constructor].
  right. cbn. intros [X|[X|[X|[X|[]]]]]; discriminate.
Qed.

(** Not all processes see the same dates and times in a file that they have
    created: each of them asks its own clock (1941-1967), and PnetCDF gets
    different values from them. *)
Theorem C150_same_attributes_refuted :
  ~ (forall b ws rs last disk, Forall keeps_time ws ->
       always (fun c => exists seen, Forall (fun p => exists x outs, p = Fin x outs /\ forall n, sees x n = seen n) (snd c))
         (start b ws rs last disk)).
Proof.
  intros X. specialize (X muGrid [early; late] [] (Some (mk_visit OWrite [])) None C149_clocks).
  inversion X as [c [seen Q]|c _ K]; subst.
  - cbn [start snd map] in Q. inversion Q as [|p ps [x [outs [E _]]] _]; subst. discriminate E.
  - assert (S : exists c', pstep (start muGrid [early; late] [] (Some (mk_visit OWrite [])) None) c' /\
                 exists x y outs, snd c' = [Fin x outs; Fin y outs] /\
                   sees x "creation_time"%string = Some (TChar, codes "23:59:59 (H:M:S)") /\
                   sees y "creation_time"%string = Some (TChar, codes "00:00:00 (H:M:S)")).
    { pose (k := fun w => match program muGrid w 0 [] (Some (mk_visit OWrite [])) [] fresh with
                          | Call _ _ f => f
                          | p => fun _ _ => p
                          end).
      eexists. split.
      - apply (pstep_call None (mk_caller (LOpen OWrite) None (k early)) [mk_caller (LOpen OWrite) None (k late)]).
        repeat constructor.
      - eexists _, _, _. split; [reflexivity|]. split; vm_compute; reflexivity. }
    destruct S as [c' [S [x [y [outs [E [Ex Ey]]]]]]]. specialize (K c' S).
    inversion K as [c [seen Q]|c [c2 S2] _]; subst.
    + rewrite E in Q. inversion Q as [|p ps [x1 [o1 [E1 P1]]] Q2]; subst. inversion Q2 as [|p ps [y1 [o2 [E2 P2]]] _]; subst.
      injection E1 as <- _. injection E2 as <- _. rewrite P1 in Ex. rewrite P2 in Ey. rewrite Ex in Ey. discriminate Ey.
    + destruct c' as [d ps]. cbn [snd] in E. subst ps. inversion S2.
Qed.
Print Assumptions C150_same_attributes_refuted.
