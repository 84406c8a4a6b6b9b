(** Theorems about printed units and the predefined heat domain (properties C46,
    C115, C116), each with a concrete case beside it. *)
From Coq Require Import String.
From Verif Require Import Base UnitsModel UnitsSpec UnitsProofs UnitPrintModel UnitPrintSpec UnitPrintProofs.
Local Open Scope string_scope.
Local Open Scope Z_scope.
Local Open Scope list_scope.

(** ** C115 *)
Theorem C115_prints u : exists s, show_unit u = Ok s.
Proof. exact (show_unit_total u). Qed.
Print Assumptions C115_prints.
Theorem C115_alike_iff u v : valid_unit u -> valid_unit v -> show_unit u = show_unit v <-> u = v \/ (tag_lost u /\ tag_lost v).
Proof. exact (show_unit_iff u v). Qed.
Print Assumptions C115_alike_iff.
Definition toughness : unit_t := mk_unit [mk_ue (-1) 2; mk_ue 1 1; mk_ue (-2) 1; ue0; ue0; ue0; ue0] 12.
Example C115_case : valid_unit toughness /\ ~ tag_lost toughness /\ show_unit toughness = Ok "l^(-1/2)·m·t⁻², tag(12)" /\
  show_unit (mk_unit [ue0; mk_ue 1 1; ue0; ue0; ue0; mk_ue 13 1; mk_ue 1 1] 0) = Ok "m·Iᵥ¹³·mol" /\ show_unit (unitless 0) = Ok "no unit provided".
Proof.
  split; [split; [reflexivity|repeat constructor; vm_compute; reflexivity]|]. split; [intros [D _]; specialize (D 1%nat (le_S_n 2 7 (le_n_S 2 7 ltac:(unfold nb_units; lia)))); discriminate D|].
  vm_compute. auto.
Qed.
Theorem C115_domains a b : (forall u, In u [pd_in a; pd_out a; pd_in b; pd_out b] -> valid_unit u /\ (u_tag u = 0 \/ ~ dimensionless u)) ->
  show_pd a = show_pd b -> pd_rank a = pd_rank b /\ pd_in a = pd_in b /\ pd_out a = pd_out b.
Proof. intros H. apply show_pd_inj; apply H; cbn; auto. Qed.
Print Assumptions C115_domains.
Example C115_domain_case : exists d, pd_mechanics 0 = Ok (d, false) /\ valid_unit (pd_in d) /\ valid_unit (pd_out d) /\
  show_pd d = Ok "Domain(rank: 2, input: no unit provided, output: l⁻¹·m·t⁻²)".
Proof. eexists. split; [vm_compute; reflexivity|]. split; [|split]; [split; [reflexivity|repeat constructor; vm_compute; reflexivity]..|vm_compute; reflexivity]. Qed.

(** ** C116 *)
(** Finding: the tag of a dimensionless unit, for instance of a strain, is not
    printed, and then nothing at all is. *)
Theorem C116_tag_refuted : exists u v, reach_unit u /\ reach_unit v /\ unit_eqb u v = false /\ unit_add u v = Err UnitError /\ show_unit u = Ok "" /\ show_unit v = Ok "".
Proof. exists (unitless 1), (unitless 2). repeat split; try constructor; vm_compute; reflexivity. Qed.
Print Assumptions C116_tag_refuted.
(** Units with base units show their tag. *)
Theorem C116_dimension_partial u v s : valid_unit u -> valid_unit v -> ~ dimensionless u -> show_unit u = Ok s -> show_unit v = Ok s -> u_tag u = u_tag v.
Proof.
  intros U V D Su Sv. assert (E : show_unit u = show_unit v) by congruence. apply (show_unit_iff u v U V) in E. destruct E as [->|[[Du _] _]]; [reflexivity|contradiction].
Qed.
Print Assumptions C116_dimension_partial.
Example C116_case : exists s, show_unit (u_length 3) = Ok s /\ s = "l, tag(3)" /\ ~ dimensionless (u_length 3).
Proof. eexists. split; [vm_compute; reflexivity|]. split; [reflexivity|]. intros D. specialize (D 0%nat ltac:(unfold nb_units; lia)). discriminate D. Qed.

(** ** C46 *)
(** Finding: the predefined heat domain is reported inconsistent for every tag:
    its units, temperature per length and mass per cubed time, do not multiply to
    an energy density. *)
Theorem C46_heat_refuted tag : exists d, pd_heat tag = Ok (d, true) /\ pd_rank d = 1 /\ u_tag (pd_in d) = tag /\ u_tag (pd_out d) = tag /\
  u_exps (pd_in d) = map (fun n => mk_ue n 1) [-1; 0; 0; 1; 0; 0; 0] /\ u_exps (pd_out d) = map (fun n => mk_ue n 1) [0; 1; -3; 0; 0; 0; 0].
Proof. exact (heat_warns tag). Qed.
Print Assumptions C46_heat_refuted.
Example C46_heat_case : exists d, pd_heat 0 = Ok (d, true) /\ show_unit (pd_in d) = Ok "l⁻¹·T" /\ show_unit (pd_out d) = Ok "m·t⁻³".
Proof. eexists. vm_compute. auto. Qed.
