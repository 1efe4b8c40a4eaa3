(** Proofs about the filter. *)
From Verif Require Import Base FiltModel FiltSpec.

Lemma run_out mix os : forall f, snd (run mix f os) = outputs mix (lastval f) os.
Proof.
  assert (X : forall f o, lastval (step mix f o) = match o with Apply x | ApplyInt x => mix x (lastval f) end) by (intros f [x|x]; cbn [step]; unfold apply, apply_int; destruct (peak_detect f); reflexivity).
  induction os as [|o os IH]; intros f; [reflexivity|]. cbn [run]. specialize (IH (step mix f o)). destruct (run mix (step mix f o) os) as [f2 vs]. cbn [snd] in *. rewrite IH, X. destruct o; reflexivity.
Qed.
Lemma step_max mix f o l : peak_detect f = true -> greatest (maxval f) l -> greatest (maxval (step mix f o)) (l ++ [lastval (step mix f o)]) /\ peak_detect (step mix f o) = true.
Proof.
  intros P [I0 G]. assert (X : exists v, lastval (step mix f o) = v /\ maxval (step mix f o) = (if maxval f <? v then v else maxval f) /\ peak_detect (step mix f o) = true).
  { destruct o as [x|x]; cbn [step]; unfold apply, apply_int; rewrite P; exists (mix x (lastval f)); auto. }
  destruct X as (v & -> & -> & X). split; [|exact X]. split.
  - apply in_or_app. destruct (maxval f <? v); [right; left; reflexivity|left; exact I0].
  - intros w W. apply in_app_or in W. destruct (Z.ltb_spec (maxval f) v); destruct W as [W|[<-|[]]]; try lia; specialize (G _ W); lia.
Qed.
Lemma step_min mix f o l : is_int o -> peak_detect f = true -> least (minval f) l -> least (minval (step mix f o)) (l ++ [lastval (step mix f o)]).
Proof.
  intros I1 P [I0 G]. destruct o as [x|x]; [destruct I1|]. cbn [step]. unfold apply_int. rewrite P. cbn [minval lastval]. set (v := mix x (lastval f)). split.
  - apply in_or_app. destruct (v <? minval f); [right; left; reflexivity|left; exact I0].
  - intros w W. apply in_app_or in W. destruct (Z.ltb_spec v (minval f)); destruct W as [W|[<-|[]]]; try lia; specialize (G _ W); lia.
Qed.
Lemma run_max mix os : forall f l, peak_detect f = true -> greatest (maxval f) l -> greatest (maxval (fst (run mix f os))) (l ++ snd (run mix f os)).
Proof.
  induction os as [|o os IH]; intros f l P G; cbn [run]; [cbn; rewrite app_nil_r; exact G|].
  destruct (step_max mix f o l P G) as [G1 P1]. specialize (IH _ _ P1 G1). destruct (run mix (step mix f o) os) as [f2 vs]. cbn [fst snd] in *. rewrite <- app_assoc in IH. exact IH.
Qed.
Lemma run_min mix os : forall f l, Forall is_int os -> peak_detect f = true -> least (minval f) l -> least (minval (fst (run mix f os))) (l ++ snd (run mix f os)).
Proof.
  induction os as [|o os IH]; intros f l F P G; cbn [run]; [cbn; rewrite app_nil_r; exact G|].
  pose proof (step_min mix f o l (Forall_inv F) P G) as G1. assert (P1 : peak_detect (step mix f o) = true) by (destruct o as [x|x]; cbn [step]; unfold apply, apply_int; rewrite P; reflexivity).
  specialize (IH _ _ (Forall_inv_tail F) P1 G1). destruct (run mix (step mix f o) os) as [f2 vs]. cbn [fst snd] in *. rewrite <- app_assoc in IH. exact IH.
Qed.
