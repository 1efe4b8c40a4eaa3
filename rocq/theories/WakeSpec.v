(** Nudges and wake-ups seen from outside. *)
From Verif Require Import Base WakeModel.

Fixpoint nudges (tr : list event) : Z := match tr with [] => 0 | ENudge :: t => 1 + nudges t | _ :: t => nudges t end.
(** Every nudge is followed by a wake-up of the RTP thread and one of the RTCP thread, carrying a number that counts it *)
Definition all_delivered (tr : list event) : Prop :=
  forall a b, tr = a ++ ENudge :: b -> exists t v t' v', In (ERtp t v) b /\ In (ERtcp t' v') b /\ nudges a < v /\ nudges a < v'.
(** The clock is positive and does not go backwards; CLOCK_MONOTONIC is never ahead of it *)
Fixpoint clock_from (t0 : Z) (os : list op) : Prop :=
  match os with [] => True | Work now mono _ :: t => t0 <= now /\ mono <= now /\ clock_from now t | _ :: t => clock_from t0 t end.
Fixpoint count_nudges (os : list op) : Z := match os with [] => 0 | Nudge :: t => 1 + count_nudges t | _ :: t => count_nudges t end.
(** The thread runs, at a time not before [t] *)
Definition runs_after (t : Z) (o : op) : Prop := match o with Work now mono _ => t <= now /\ t <= mono | Nudge => True | Cease => False end.
Fixpoint count_work (os : list op) : nat := match os with [] => O | Work _ _ _ :: t => S (count_work t) | _ :: t => count_work t end.
(** Numbers written to the RTP thread, with the time *)
Fixpoint rtp_wakes (tr : list event) : list (Z * Z) := match tr with [] => [] | ERtp t v :: r => (t, v) :: rtp_wakes r | _ :: r => rtp_wakes r end.
Fixpoint rtcp_wakes (tr : list event) : list (Z * Z) := match tr with [] => [] | ERtcp t v :: r => (t, v) :: rtcp_wakes r | _ :: r => rtcp_wakes r end.

(** Nudges up to number [n] have been followed by both wake-ups *)
Definition delivered_upto (n : Z) (tr : list event) : Prop :=
  forall a b, tr = a ++ ENudge :: b -> nudges a < n -> exists t v t' v', In (ERtp t v) b /\ In (ERtcp t' v') b /\ nudges a < v /\ nudges a < v'.
(** Wake-ups carry growing numbers and are at least [d] apart *)
Definition spaced (d : Z) (l : list (Z * Z)) : Prop := forall a x b y c, l = a ++ x :: b ++ y :: c -> snd x < snd y /\ fst x + d <= fst y.
