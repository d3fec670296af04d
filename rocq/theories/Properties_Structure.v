(** C53: the order and the failures of the structure report. *)
From Verif Require Import Prelude M_Accounts M_Ledger Spec_Accounts Spec_Ledger Spec_Structure P_Accounts P_Structure.
Local Open Scope string_scope.

(** The rows come depth first, the accounts of one level by number; accounts with
    the same number stay in the order in which they were created. *)
Theorem C53_structure_report_order : forall g rows, gls_report g = Ok rows -> structure_rows g rows.
Proof. exact report_rows. Qed.
Print Assumptions C53_structure_report_order.
(** It fails if and only if a number is missing: at the top level, or below an
    account whose number begins with I or B. *)
Theorem C53_structure_report_fails : forall g,
  (gls_report g = Err AttributeError <-> exists a, In a (g_accounts g) /\ a_number a = None) /\
  (gls_report g = Err TypeError <-> (forall a, In a (g_accounts g) -> numbered a) /\
     exists t a, In t (g_accounts g) /\ (begins "I" t = true \/ begins "B" t = true) /\ In a (acct_and_descendants t) /\ a_number a = None) /\
  (forall e, gls_report g = Err e -> e = AttributeError \/ e = TypeError).
Proof. exact report_fails. Qed.
Print Assumptions C53_structure_report_fails.
Example C53_order_case :
  let g := built [OCreate 17 "later" (Some "0002"); OCreate 17 "first" (Some "0001"); OCreate 17 "again" (Some "0002")] in
  exists rows, gls_report g = Ok rows /\ structure_rows g rows /\
    map gr_name (filter (fun r => starts_with (gr_number r) "B60/") rows) = ["Default"; "first"; "later"; "again"]%list.
Proof.
  cbv zeta. destruct (gls_report (built [OCreate 17 "later" (Some "0002"); OCreate 17 "first" (Some "0001"); OCreate 17 "again" (Some "0002")])) as [rows|] eqn:E; [|vm_compute in E; discriminate].
  exists rows. split; auto. split; [now apply report_rows|]. vm_compute in E. injection E as <-. vm_compute. reflexivity.
Qed.
