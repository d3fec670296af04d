(** C79 for psd packages: packages do not share their contents.  A program creates
    packages and calls their methods; [agree]: running it on objects that refer to
    arrays gives in every variable what running it on values gives. *)
From Verif Require Import Prelude M_Lists M_Float M_Heap Spec_Heap M_Psd M_HeapPsd P_Heap P_HeapPsd.
From Verif Require Properties_Psd.
Local Open Scope list_scope.
Local Open Scope Z_scope.

(** Every program, with any reading of texts as numbers. *)
Theorem C79_psd_values float_of cs :
  agree (object_run h_create (h_method float_of) empty_world [] cs) (value_run v_create (v_method float_of) [] cs).
Proof. apply run_agrees; [apply creates|apply acts]. Qed.
Print Assumptions C79_psd_values.
(** +, * and clone change no package. *)
Theorem C79_psd_operators float_of o : o = OpAdd \/ o = OpMul \/ o = OpClone -> leaves_alone h_create (h_method float_of) o all_variables.
Proof. intros H. apply (all_alone v_create (v_method float_of)); [apply creates|apply acts|]. intros q v. destruct H as [->|[->| ->]]; reflexivity. Qed.
Print Assumptions C79_psd_operators.
(** extract, add_to and clear change no package but their own. *)
Theorem C79_psd_others float_of o : leaves_alone h_create (h_method float_of) o other_variables.
Proof. apply (others_alone v_create (v_method float_of)); [apply creates|apply acts]. Qed.
Print Assumptions C79_psd_others.
(** A clone, changed in place, next to its original. *)
Example C79_psd_example : let o := object_run h_create (h_method (fun _ => Err ValueError)) empty_world []
    [Create (Properties_Psd.sand, Some "A"%string, Fin (Properties_Psd.q 4 1), true); Call OpClone 0%nat (OOther (PVal NvOther));
     Call OpAddTo 1%nat (OOther (PTuple [NvFloat (Fin (Properties_Psd.q 1 2)); NvFloat (Fin (Properties_Psd.q 3 1))]))] in
  option_map pk_masses (contents o 0%nat) = Some (map Fin [Properties_Psd.q 1 1; Properties_Psd.q 2 1; Properties_Psd.q 1 1]) /\
  option_map pk_masses (contents o 1%nat) = Some (map Fin [Properties_Psd.q 1 1; Properties_Psd.q 5 1; Properties_Psd.q 1 1]) /\ snd o = [Ok tt; Ok tt; Ok tt].
Proof.
  cbv zeta. repeat match goal with |- _ /\ _ => split end; vm_compute; try reflexivity; apply f_equal;
  repeat first [reflexivity | apply f_equal2 | apply (f_equal Fin); apply Qc_is_canon; reflexivity | apply Qc_is_canon; reflexivity].
Qed.
