(** C79 for thermo packages; see Properties_HeapPsd.  [db] is any database. *)
From Verif Require Import Prelude M_Lists M_Thermochem M_ThermoMat M_Heap Spec_Heap M_HeapThermo P_Heap P_HeapThermo.
From Verif Require Properties_ThermoMat.
From Coq Require Import Reals Lra.
Local Open Scope list_scope.

Theorem C79_thermo_values db cs : agree (object_run (h_create db) (h_method db) empty_world [] cs) (value_run (v_create db) (v_method db) [] cs).
Proof. apply run_agrees; [apply creates|apply acts]. Qed.
Print Assumptions C79_thermo_values.
Theorem C79_thermo_operators db o : o = TopAdd \/ o = TopMul \/ o = TopClone -> leaves_alone (h_create db) (h_method db) o all_variables.
Proof. intros H. apply (all_alone (v_create db) (v_method db)); [apply creates|apply acts|]. intros q v. destruct H as [->|[->| ->]]; reflexivity. Qed.
Print Assumptions C79_thermo_operators.
(** extract, clear and the assignments to T, H and P. *)
Theorem C79_thermo_others db o : leaves_alone (h_create db) (h_method db) o other_variables.
Proof. apply (others_alone (v_create db) (v_method db)); [apply creates|apply acts]. Qed.
Print Assumptions C79_thermo_others.
(** A clone that is cleared, next to its original. *)
Example C79_thermo_example : let o := object_run (h_create []) (h_method []) empty_world []
    [Create (Properties_ThermoMat.metals, None, 0%R, 2%R, 30%R, true); Call TopClone 0 (OOther TOther); Call TopClear 1 (OOther TOther)] in
  option_map tp_P (contents o 0) = Some 2%R /\ option_map tp_P (contents o 1) = Some 1%R /\ option_map tp_T (contents o 0) = Some 30%R /\ option_map tp_T (contents o 1) = Some 25%R.
Proof.
  cbv zeta. rewrite !(agree_contents _ _ _ (C79_thermo_values _ _)). cbn [value_run value_step v_create create_package new_package create_empty_assay].
  unfold create_package, new_package. replace (rsum (create_empty_assay Properties_ThermoMat.metals)) with 0%R by (cbn; lra).
  destruct (Rlt_dec 0 0) as [L1|L1]; [exfalso; lra|]. cbn. auto.
Qed.
