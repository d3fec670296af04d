(** Vocabulary: masses that are numbers and not negative. *)
From Verif Require Import Prelude M_Ieee Spec_Ieee.
From Coq Require Import Reals List.
Local Open Scope R_scope.
Definition mass_ok (m : float64) : Prop := finite m /\ 0 <= value m.
(** One entry [m] split into [t] taken and [l] left: neither negative, neither
    more than there was, and together the entry but for the rounding. *)
Definition splits (m t l : float64) : Prop :=
  finite t /\ finite l /\ 0 <= value t <= value m /\ 0 <= value l <= value m /\
  Rabs (value t + value l - value m) <= 3 * ulp_half * value m + 2 * tiny.
Inductive splits_all : list float64 -> list float64 -> list float64 -> Prop :=
| splits_nil : splits_all nil nil nil
| splits_cons m t l ms ts ls : splits m t l -> splits_all ms ts ls -> splits_all (m :: ms) (t :: ts) (l :: ls).
