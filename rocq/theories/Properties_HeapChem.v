(** C79 for chem packages; see Properties_HeapPsd. *)
From Verif Require Import Prelude M_Lists M_Chem M_Heap Spec_Heap M_HeapChem P_Heap P_HeapChem.
From Verif Require Properties_Chem.
Local Open Scope list_scope.
Local Open Scope Z_scope.

Theorem C79_chem_values cs : agree (object_run h_create h_method empty_world [] cs) (value_run v_create v_method [] cs).
Proof. apply run_agrees; [apply creates|apply acts]. Qed.
Print Assumptions C79_chem_values.
Theorem C79_chem_operators o : o = OpAdd \/ o = OpMul \/ o = OpClone -> leaves_alone h_create h_method o all_variables.
Proof. intros H. apply (all_alone v_create v_method); [apply creates|apply acts|]. intros q v. destruct H as [->|[->| ->]]; reflexivity. Qed.
Print Assumptions C79_chem_operators.
Theorem C79_chem_others o : leaves_alone h_create h_method o other_variables.
Proof. apply (others_alone v_create v_method); [apply creates|apply acts]. Qed.
Print Assumptions C79_chem_others.
Example C79_chem_example : let o := object_run h_create h_method empty_world []
    [Create (Properties_Chem.ore, Some "A"%string, Properties_Chem.fq 9 1, true); Call OpClone 0%nat (OOther (PVal VOther));
     Call OpAddTo 1%nat (OOther (PTuple [VStr "SiO2"%string; VNum (Properties_Chem.fq 3 1)]))] in
  option_map p_masses (contents o 0%nat) = Some [Properties_Chem.fq 3 1; Properties_Chem.fq 6 1] /\
  option_map p_masses (contents o 1%nat) = Some [Properties_Chem.fq 3 1; Properties_Chem.fq 9 1] /\ snd o = [Ok tt; Ok tt; Ok tt].
Proof.
  cbv zeta. repeat match goal with |- _ /\ _ => split end; vm_compute; try reflexivity; apply f_equal;
  repeat first [reflexivity | apply f_equal2 | apply (f_equal NFloat); apply Qc_is_canon; reflexivity | apply Qc_is_canon; reflexivity].
Qed.
