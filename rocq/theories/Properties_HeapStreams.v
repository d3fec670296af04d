(** C79 for material streams; see Properties_HeapPsd.  [db] is any database. *)
From Verif Require Import Prelude M_Lists M_Thermochem M_ThermoMat M_Streams M_Heap Spec_Heap M_HeapStreams P_Heap P_HeapStreams.
From Verif Require Properties_ThermoMat.
From Coq Require Import Reals Lra.
Local Open Scope list_scope.

Theorem C79_stream_values db cs : agree (object_run (hs_create db) (hs_method db) empty_world [] cs) (value_run (vs_create db) (vs_method db) [] cs).
Proof. apply run_agrees; [apply creates|apply acts]. Qed.
Print Assumptions C79_stream_values.
Theorem C79_stream_operators db o : o = SopAdd \/ o = SopMul \/ o = SopClone -> leaves_alone (hs_create db) (hs_method db) o all_variables.
Proof. intros H. apply (all_alone (vs_create db) (vs_method db)); [apply creates|apply acts|]. intros q v. destruct H as [->|[->| ->]]; reflexivity. Qed.
Print Assumptions C79_stream_operators.
(** extract, clear and the assignments to T, Hfr, P and HHV. *)
Theorem C79_stream_others db o : leaves_alone (hs_create db) (hs_method db) o other_variables.
Proof. apply (others_alone (vs_create db) (vs_method db)); [apply creates|apply acts]. Qed.
Print Assumptions C79_stream_others.
Example C79_stream_example : let o := object_run (hs_create []) (hs_method []) empty_world []
    [Create (Properties_ThermoMat.metals, None, 0%R, 2%R, 30%R, true); Call SopClone 0 (OOther SaOther); Call SopClear 1 (OOther SaOther)] in
  option_map (fun s => tp_P (s_body s)) (contents o 0) = Some 2%R /\ option_map (fun s => tp_P (s_body s)) (contents o 1) = Some 1%R.
Proof.
  cbv zeta. rewrite !(agree_contents _ _ _ (C79_stream_values _ _)). cbn [value_run value_step vs_create].
  unfold create_stream, new_stream. replace (rsum (create_empty_assay Properties_ThermoMat.metals)) with 0%R by (cbn; lra). cbn [put_HHV done s_body set_HHV tp_coal with_body bind fst snd].
  destruct (Rlt_dec 0 0) as [L1|L1]; [exfalso; lra|]. cbn. auto.
Qed.
