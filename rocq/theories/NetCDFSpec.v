(** Specification vocabulary for fields in files. *)
From Coq Require Import String.
From Verif Require Import Base GridSpec StridedModel LayoutModel LayoutSpec CommModel NetCDFModel.
Local Open Scope Z_scope.
Local Open Scope list_scope.

(** The order of dimensions in the file: frame, history, components, sub-point,
    grid.  A field with a single value per pixel has no sub-point axis. *)
Definition single (f : layout) : bool := (l_nbc f =? 1) && (l_nsub f =? 1).
Definition kinds_of (hidden : bool) (hist : option Z) (f : layout) (rest : list string) : list string :=
  (if hidden then [] else ["frame"%string]) ++
  (match hist with Some _ => ["history_index"%string] | None => [] end) ++
  repeat "tensor_dim"%string (length (l_comp f)) ++
  (if single f then [] else ["subpt"%string]) ++ rest.

(** The index of one value in the variable. *)
Definition cell (hidden : bool) (hist : option Z) (f : layout) (frame h : Z) (c : list Z) (q : Z) (x : list Z)
  : list Z :=
  (if hidden then [] else [frame]) ++
  (match hist with Some _ => [h] | None => [] end) ++
  c ++ (if single f then [] else [q]) ++ x.

(** Component [c] of sub-point [q] of pixel [x] of a field, [x] relative to the
    sub-domain, has the value [a]. *)
Definition holds {A} (f : layout) (mem : list A) (c : list Z) (q : Z) (x : list Z) (a : A) : Prop :=
  exists s, get_strides f SubPt 1 = Ok s /\ rd mem (off s (c ++ q :: x)) = Ok a.
(** The indices a field has. *)
Definition indexes (f : layout) (c : list Z) (q : Z) (x : list Z) : Prop :=
  in_shape (l_comp f) c /\ 0 <= q < l_nsub f /\ in_shape (l_pix f) x.

(** A field on a part of a domain, and memory for it. *)
Definition distributed {A} (f : nfield) (mem : list A) : Prop :=
  sane (nf_lay f) /\ l_npix (nf_lay f) = zprod (l_pix (nf_lay f)) /\
  length (nf_loc f) = length (nf_dom f) /\ length (l_pix (nf_lay f)) = length (nf_dom f) /\
  (forall i, (i < length (nf_dom f))%nat ->
     0 <= zn (nf_loc f) i /\ 0 <= zn (l_pix (nf_lay f)) i /\
     zn (nf_loc f) i + zn (l_pix (nf_lay f)) i <= zn (nf_dom f) i) /\
  buffer_scalars (nf_lay f) <= Z.of_nat (length mem).
(** Same components, sub-points and domain. *)
Definition same_array (f g : nfield) : Prop :=
  l_comp (nf_lay f) = l_comp (nf_lay g) /\ l_nsub (nf_lay f) = l_nsub (nf_lay g) /\
  nf_tag f = nf_tag g /\ nf_dom f = nf_dom g.
(** The pixel [x] of the domain lies in the sub-domain of [f]; [shift l x] is
    the position relative to [l]. *)
Definition owns (f : nfield) (x : list Z) : Prop := in_box (l_pix (nf_lay f)) (nf_loc f) x.
Definition shift (l x : list Z) : list Z := map (fun p => fst p - snd p) (combine x l).
Definition disjoint (f g : nfield) : Prop := forall x, owns f x -> owns g x -> False.

(** The variable of a field, as it is registered by a process. *)
Definition registered (hist : option Z) (name : string) (f : nfield) (v : ncvar) : Prop :=
  exists seen s, register_global seen false hist name f = (s, Ok v).
(** Position in the history: any for plain fields. *)
Definition entry (hist : option Z) (h : Z) : Prop := forall n, hist = Some n -> 0 <= h < n.
(** Any number of successful writes that concern other variables, other frames
    or other entries of the history. *)
Inductive later {A} (v : ncvar) (fr h : Z) : ncfile A -> ncfile A -> Prop :=
| later_none file : later v fr h file file
| later_write file file1 file2 name' hist' f' v' m' nb' k' fr' h' :
    later v fr h file file1 ->
    distributed f' m' -> registered hist' name' f' v' -> entry hist' h' ->
    FrameModel.accessed k' nb' = Ok fr' ->
    name' <> v_name v \/ fr' <> fr \/ (v' = v /\ hist' <> None /\ h' <> h) ->
    write_global nb' k' v' h' f' m' file1 = Ok file2 ->
    later v fr h file file2.
(** Sub-domains of different processes. *)
Definition decomposition {A} (ranks : list (nfield * A)) : Prop :=
  ForallOrdPairs (fun a b => disjoint (fst a) (fst b)) ranks.

(** Names that neither begin with an underscore nor contain two in a row. *)
Definition plain_name (s : string) : Prop := forall a b, ("_" ++ s)%string <> (a ++ "__" ++ b)%string.

(** A field on [n] local pixels. *)
Definition local_field {A} (f : nfield) (n : Z) (mem : list A) : Prop :=
  nf_lay f = local_layout n (l_comp (nf_lay f)) (l_nsub (nf_lay f)) /\ 0 <= n /\
  Forall (fun c => 0 < c) (l_comp (nf_lay f)) /\ 0 < l_nsub (nf_lay f) /\
  zprod (l_comp (nf_lay f)) * l_nsub (nf_lay f) < 2 ^ 31 /\
  n * (zprod (l_comp (nf_lay f)) * l_nsub (nf_lay f)) <= Z.of_nat (length mem).
(** The variable of a local field; [total] is the number of its pixels on all
    processes. *)
Definition registered_local (total : Z) (hist : option Z) (name : string) (f : nfield) (v : ncvar) : Prop :=
  exists pixels, register_local total hist name f pixels = Ok v.
(** The field of pixel positions of a sub-domain without padding. *)
Definition pixel_field (p : nfield) : Prop :=
  l_comp (nf_lay p) = [1] /\ l_nsub (nf_lay p) = 1 /\ l_nbuf (nf_lay p) = l_npix (nf_lay p) /\
  sane_dense (nf_lay p) /\ distributed p (repeat (-1) (Z.to_nat (l_npix (nf_lay p)))).
Definition registered_pixels (name : string) (p : nfield) (v : ncvar) : Prop :=
  exists seen s, register_global seen true None name p = (s, Ok v).
(** The number a sub-domain gives to one of its pixels, and the entry of a
    local collection that is pixel [x]. *)
Definition pixel_id (p : nfield) (x : list Z) : Z := off (l_pstr (nf_lay p)) (shift (nf_loc p) x).
Definition pixel_at {A} (w : process A) (j : nat) (x : list Z) : Prop :=
  owns (pr_sub w) x /\ nth_error (pr_ids w) j = Some (pixel_id (pr_sub w) x).
(** A process with a local collection, that holds every pixel at most once, and
    a field on it. *)
Definition local_process {A} (lname : string) (hv : ncvar) (total : Z) (hist : option Z) (name : string) (v : ncvar)
    (comp : list Z) (nsub : Z) (w : process A) : Prop :=
  pixel_field (pr_sub w) /\ registered_pixels lname (pr_sub w) hv /\
  NoDup (pr_ids w) /\ (forall i, In i (pr_ids w) -> exists x, owns (pr_sub w) x /\ i = pixel_id (pr_sub w) x) /\
  local_field (pr_field w) (Z.of_nat (length (pr_ids w))) (pr_mem w) /\
  registered_local total hist name (pr_field w) v /\
  l_comp (nf_lay (pr_field w)) = comp /\ l_nsub (nf_lay (pr_field w)) = nsub.
(** Sub-domains of different processes, of one domain. *)
Definition tiles {A} (ws : list (process A)) : Prop :=
  ForallOrdPairs (fun a b => disjoint (pr_sub a) (pr_sub b)) ws /\
  forall a b, In a ws -> In b ws -> same_array (pr_sub a) (pr_sub b).
(** What the variable holds for this frame and this entry of the history is
    still there. *)
Definition keeps {A} (name : string) (hist : option Z) (fr h : Z) (a b : ncfile A) : Prop :=
  recs a <= recs b /\
  forall at_, (exists r, at_ = match hist with None => fr :: r | Some _ => fr :: h :: r end) ->
    cells b name at_ = cells a name at_.
(** A variable of a global or of a local field. *)
Definition stored (hist : option Z) (name : string) (f : nfield) (v : ncvar) : Prop :=
  registered hist name f v \/ exists total pixels, register_local total hist name f pixels = Ok v.
