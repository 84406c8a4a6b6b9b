(** Specification vocabulary for programs that use a file. *)
From Coq Require Import String Sorting.Sorted.
From Verif Require Import Base GridSpec LayoutModel LayoutSpec FrameModel NetCDFModel NetCDFSpec SessionModel.
Local Open Scope Z_scope.
Local Open Scope list_scope.

(** What all runs of a program agree on: the domain, the fields with their
    shapes, and the pixels of the local collections. *)
Record quantity := mk_quantity {
  q_name : string;
  q_hist : option Z;
  q_comp : list Z;
  q_nsub : Z;
  q_tag : string;
  q_local : option string
}.
Record plan := mk_plan {
  pl_dom : list Z;
  pl_quantities : list quantity;
  pl_colls : list string;
  pl_pixels : string -> list Z -> Prop;
  pl_total : string -> Z
}.

(** The field of a process has the shape of the quantity. *)
Definition shaped (P : plan) (q : quantity) (f : nfield) : Prop :=
  l_comp (nf_lay f) = q_comp q /\ l_nsub (nf_lay f) = q_nsub q /\ nf_tag f = q_tag q.
(** The setup of one run has these quantities, and its processes divide the
    domain between them, in any way.  The pixels of local collections are those
    of the plan, in increasing order. *)
Definition fits (P : plan) (u : setup) : Prop :=
  NoDup (map (fun v => v_name (sv_var v)) (su_vars u)) /\
  (forall q, In q (pl_quantities P) ->
     (forall l, q_local q = Some l -> In l (pl_colls P)) /\ (forall n, q_hist q = Some n -> 0 <= n) /\
     Z.of_nat (length (q_comp q)) <= 2 ^ 31 /\
     exists v, In (mk_svar v (q_local q)) (su_vars u) /\
     forall p, In p (su_parts u) -> let f := pt_field p (q_name q) in shaped P q f /\
       match q_local q with
       | None => registered (q_hist q) (q_name q) f v /\ nf_dom f = pl_dom P
       | Some l => registered_local (pl_total P l) (q_hist q) (q_name q) f v
       end) /\
  (forall q, In q (pl_quantities P) -> q_local q = None ->
     ForallOrdPairs (fun a b => disjoint (pt_field a (q_name q)) (pt_field b (q_name q))) (su_parts u)) /\
  su_parts u <> [] /\ NoDup (pl_colls P) /\ (forall l, In l (su_colls u) <-> In l (pl_colls P)) /\
  (forall p, In p (su_parts u) -> pixel_field (pt_sub p) /\ nf_dom (pt_sub p) = pl_dom P) /\
  (forall p q, In p (su_parts u) -> In q (su_parts u) -> nf_tag (pt_sub p) = nf_tag (pt_sub q)) /\
  ForallOrdPairs (fun a b => disjoint (pt_sub a) (pt_sub b)) (su_parts u) /\
  (forall x, in_shape (pl_dom P) x -> exists p, In p (su_parts u) /\ owns (pt_sub p) x) /\
  (forall l, In l (pl_colls P) ->
     0 < pl_total P l /\ zsum (map (fun p => Z.of_nat (length (pt_ids p l))) (su_parts u)) = pl_total P l /\
     forall p, In p (su_parts u) -> registered_pixels l (pt_sub p) (su_hidden u l) /\
       StronglySorted Z.lt (pt_ids p l) /\
       (forall i, In i (pt_ids p l) -> exists x, owns (pt_sub p) x /\ i = pixel_id (pt_sub p) x) /\
       (forall x, owns (pt_sub p) x -> (In (pixel_id (pt_sub p) x) (pt_ids p l) <-> pl_pixels P l x))).
(** The entries of the history of a quantity. *)
Definition entry_of (q : quantity) (h : Z) : Prop :=
  match q_hist q with None => h = 0 | Some n => 0 <= h < n end.
(** The program has memory for its fields. *)
Definition sized {A} (P : plan) (u : setup) (mem : string -> Z -> list (list A)) : Prop :=
  forall q h, In q (pl_quantities P) -> entry_of q h ->
    length (mem (q_name q) h) = length (su_parts u) /\
    forall i p m, nth_error (su_parts u) i = Some p -> nth_error (mem (q_name q) h) i = Some m ->
      match q_local q with
      | None => distributed (pt_field p (q_name q)) m
      | Some l => local_field (pt_field p (q_name q)) (Z.of_nat (length (pt_ids p l))) m
      end.

Section Runs.
Context {A : Type}.
Notation session := (session A).
Notation op := (op A).

(** All names are quantities; [known] are the local collections that had
    something written while the file was created. *)
Definition named (P : plan) (names : list string) : Prop :=
  forall n, In n names -> exists q, In q (pl_quantities P) /\ q_name q = n.
Definition positioned (P : plan) (known : list string) (names : list string) : Prop :=
  forall q l, In q (pl_quantities P) -> In (q_name q) names -> q_local q = Some l -> In l known.
(** What the program may do.  Reading a local field, or writing it to a file
    that was opened for appending, requires that some field of its collection
    was written when the file was created. *)
Definition allowed (P : plan) (known : list string) (s : session) (o : op) : Prop :=
  match o with
  | Create u mem _ _ => fits P u /\ sized P u mem
  | Reopen _ u mem => fits P u /\ sized P u mem
  | AppendFrame => True
  | Assign mem => sized P (se_setup s) mem
  | Write _ names => named P names /\ (se_mode s = Appending -> positioned P known names)
  | Read _ names => named P names /\ positioned P known names
  end.
Definition colls_of (P : plan) (names : list string) : list string :=
  flat_map (fun q => match q_local q with
                     | Some l => if existsb (String.eqb (q_name q)) names then [l] else []
                     | None => [] end) (pl_quantities P).
Definition learn (P : plan) (known : list string) (s : session) (o : op) (r : res unit) : list string :=
  match o, r with
  | Create _ _ _ _, _ => []
  | Write _ names, Ok _ => match se_mode s with Creating => colls_of P names ++ known | _ => known end
  | _, _ => known
  end.
(** The program executes these operations, also if some of them fail; each of
    them satisfies [K]. *)
Inductive run (P : plan) (K : session -> op -> Prop) : session -> list string -> list op -> session -> list string -> Prop :=
| run_end s known : run P K s known [] s known
| run_step s known o s1 r ops s2 known2 :
    allowed P known s o -> K s o -> step s o = (s1, r) ->
    run P K s1 (learn P known s o r) ops s2 known2 -> run P K s known (o :: ops) s2 known2.
Definition anything (s : session) (o : op) : Prop := True.
(** Frame [fr] of the quantity is not written again, and the file is not
    replaced. *)
Definition spares (name : string) (fr : Z) (s : session) (o : op) : Prop :=
  match o with
  | Create _ _ _ _ => False
  | Write k names => ~ (In name names /\ accessed k (se_nb s) = Ok fr)
  | _ => True
  end.

(** Process [i] has pixel [x] of the domain for quantity [q]: it is in its part
    of the domain, or in its local collection. *)
Definition has_pixel (s : session) (i : nat) (q : quantity) (x : list Z) : Prop :=
  exists p, nth_error (su_parts (se_setup s)) i = Some p /\
    match q_local q with
    | None => owns (pt_field p (q_name q)) x
    | Some l => owns (pt_sub p) x /\ In (pixel_id (pt_sub p) x) (pt_ids p l)
    end.
(** Component [c] of sub-point [b] at pixel [x], in entry [h] of the history, is
    [a] in the memory of process [i]. *)
Definition has_value (s : session) (i : nat) (q : quantity) (h : Z) (c : list Z) (b : Z) (x : list Z) (a : A) : Prop :=
  exists p m, nth_error (su_parts (se_setup s)) i = Some p /\ nth_error (se_mem s (q_name q) h) i = Some m /\
    let f := pt_field p (q_name q) in
    match q_local q with
    | None => owns f x /\ holds (nf_lay f) m c b (shift (nf_loc f) x) a
    | Some l => exists j, owns (pt_sub p) x /\ nth_error (pt_ids p l) j = Some (pixel_id (pt_sub p) x) /\
                          holds (nf_lay f) m c b [Z.of_nat j] a
    end.
End Runs.
