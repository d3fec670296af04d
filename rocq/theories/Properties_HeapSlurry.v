(** C79 for slurry packages; see Properties_HeapPsd. *)
From Verif Require Import Prelude M_Lists M_Float M_Slurry M_Heap Spec_Heap M_HeapSlurry P_Heap P_HeapSlurry.
From Verif Require Properties_Slurry.
Local Open Scope list_scope.
Local Open Scope Z_scope.

Theorem C79_slurry_values float_of cs :
  agree (object_run h_create (h_method float_of) empty_world [] cs) (value_run v_create (v_method float_of) [] cs).
Proof. apply run_agrees; [apply creates|apply acts]. Qed.
Print Assumptions C79_slurry_values.
Theorem C79_slurry_operators float_of o : o = OpAdd \/ o = OpMul \/ o = OpClone -> leaves_alone h_create (h_method float_of) o all_variables.
Proof. intros H. apply (all_alone v_create (v_method float_of)); [apply creates|apply acts|]. intros q v. destruct H as [->|[->| ->]]; reflexivity. Qed.
Print Assumptions C79_slurry_operators.
Theorem C79_slurry_others float_of o : leaves_alone h_create (h_method float_of) o other_variables.
Proof. apply (others_alone v_create (v_method float_of)); [apply creates|apply acts]. Qed.
Print Assumptions C79_slurry_others.
Example C79_slurry_example : let o := object_run h_create (h_method (fun _ => Err ValueError)) empty_world []
    [Create (Properties_Slurry.pulp, Some "A"%string, Fin (Properties_Slurry.q 4 1), true); Call OpClone 0%nat (OOther (PVal NvOther));
     Call OpExtract 1%nat (OOther (PVal (NvFloat (Fin (Properties_Slurry.q 2 1)))))] in
  option_map sk_masses (contents o 0%nat) = Some (map Fin [Properties_Slurry.q 3 4; Properties_Slurry.q 9 4]) /\
  option_map sk_masses (contents o 1%nat) = Some (map Fin [Properties_Slurry.q 3 8; Properties_Slurry.q 9 8]) /\ option_map sk_masses (contents o 2%nat) = Some (map Fin [Properties_Slurry.q 3 8; Properties_Slurry.q 9 8]) /\ snd o = [Ok tt; Ok tt; Ok tt].
Proof.
  cbv zeta. repeat match goal with |- _ /\ _ => split end; vm_compute; try reflexivity; apply f_equal;
  repeat first [reflexivity | apply f_equal2 | apply (f_equal Fin); apply Qc_is_canon; reflexivity | apply Qc_is_canon; reflexivity].
Qed.
