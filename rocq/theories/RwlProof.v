From Verif Require Import Base RwlModel RwlSpec.

Definition rd (p : pc) : Z := match p with InRd | RdU | Up => 1 | _ => 0 end.
Definition fr (p : pc) : Z := match p with RdW => 1 | _ => 0 end.
Definition wr (p : pc) : Z := match p with InWr => 1 | _ => 0 end.
Definition ww (p : pc) : Z := match p with WrW | InWr | WrU => 1 | _ => 0 end.

Definition oz (o : option nat) : Z := match o with None => 0 | Some _ => 1 end.
Definition inv (s : st) : Prop :=
  nr s = zsum rd (pcs s) + zsum fr (pcs s) /\
  nw s = zsum ww (pcs s) /\
  zsum fr (pcs s) <= 1 /\ zsum wr (pcs s) <= 1 /\
  (zsum fr (pcs s) = 1 -> zsum rd (pcs s) = 0) /\
  (zsum wr (pcs s) = 1 -> zsum rd (pcs s) = 0) /\
  (oz (wl s) = 0 <-> zsum rd (pcs s) = 0 /\ zsum wr (pcs s) = 0) /\
  (oz (cnt s) = 0 <-> zsum fr (pcs s) = 0) /\
  (forall t, nth_error (pcs s) t = Some RdW -> cnt s = Some t).

Lemma nonneg s : 0 <= zsum rd (pcs s) /\ 0 <= zsum fr (pcs s) /\ 0 <= zsum wr (pcs s) /\ zsum wr (pcs s) <= zsum ww (pcs s).
Proof.
  assert (P : forall l, zsum wr l <= zsum ww l). { induction l as [|x l IH]; cbn; [lia|]. assert (wr x <= ww x) by (destruct x; cbn; lia). lia. }
  repeat split; try (apply zsum_nonneg; intros []; cbn; lia). apply P.
Qed.

Lemma start_inv n : inv (start n).
Proof.
  unfold inv, start; cbn [nr nw wl cnt pcs].
  assert (Z : forall f : pc -> Z, f Out = 0 -> zsum f (repeat Out n) = 0).
  { intros f Hf. induction n; cbn; [reflexivity|]. rewrite IHn, Hf. reflexivity. }
  rewrite !Z by reflexivity. cbn [oz]; repeat split; try lia; try tauto.
  intros t H. apply nth_error_In in H. apply repeat_spec in H. discriminate.
Qed.

Lemma nth_upd_cases (l : list pc) t p q u : nth_error l t = Some p -> nth_error (upd l t q) u = Some RdW -> q = RdW /\ u = t \/ u <> t /\ nth_error l u = Some RdW.
Proof.
  intros H K. destruct (Nat.eq_dec t u) as [<-|N].
  - rewrite nth_error_upd_same in K by (apply nth_error_Some; congruence). left. split; congruence.
  - rewrite nth_error_upd_other in K by assumption. auto.
Qed.

Lemma in_sum (f : pc -> Z) s t p : (forall q, 0 <= f q) -> nth_error (pcs s) t = Some p -> f p <= zsum f (pcs s).
Proof. intros P H. apply zsum_ge_in; [assumption|]. eapply nth_error_In; eassumption. Qed.

Lemma step_inv s t a : inv s -> inv (fst (step s t a)).
Proof.
  intros I. unfold step. destruct (nth_error (pcs s) t) as [p|] eqn:E; [|exact I].
  pose proof (nonneg s) as (N1 & N2 & N3 & N4).
  pose proof (in_sum rd s t p ltac:(intros []; cbn; lia) E) as G1.
  pose proof (in_sum fr s t p ltac:(intros []; cbn; lia) E) as G2.
  pose proof (in_sum wr s t p ltac:(intros []; cbn; lia) E) as G3.
  pose proof (in_sum ww s t p ltac:(intros []; cbn; lia) E) as G4.
  pose proof I as I0. destruct I as (A1 & A2 & A3 & A4 & A5 & A6 & A7 & A8 & A9).
  assert (U : forall q, forall f : pc -> Z, zsum f (upd (pcs s) t q) = zsum f (pcs s) - f p + f q).
  { intros q f. apply zsum_upd. exact E. }
  assert (R : forall q, q <> RdW -> p <> RdW -> forall u, nth_error (upd (pcs s) t q) u = Some RdW -> cnt s = Some u).
  { intros q Nq Np u H. destruct (nth_upd_cases _ _ _ _ _ E H) as [[? ?]|[? H']]; [congruence|auto]. }
  Ltac fin E U R := unfold inv; cbn [fst nr nw wl cnt pcs go]; unfold go; rewrite !U; cbn [rd fr wr ww].
  destruct p; destruct a; cbn [fst]; try exact I0;
    cbn [rd fr wr ww] in G1, G2, G3, G4;
    repeat match goal with
    | |- context [match cnt s with _ => _ end] => destruct (cnt s) eqn:EC
    | |- context [match wl s with _ => _ end] => destruct (wl s) eqn:EW
    | |- context [if ?b then _ else _] => destruct b eqn:?
    end; cbn [fst]; try exact I0;
    fin E U R; cbn [oz];
    try rewrite EC in A8; try rewrite EC in R; try rewrite EC in A9; try rewrite EW in A7; cbn [oz] in A7, A8;
    (split; [lia|]; split; [lia|]; split; [lia|]; split; [lia|]; split; [lia|]; split; [lia|]; split; [lia|]; split; [lia|]).
    try (apply R; discriminate).
  all: intros u H; destruct (nth_upd_cases _ _ _ _ _ E H) as [[X Y]|[X Y]];
    [try discriminate; subst; reflexivity|specialize (A9 u Y)];
    try congruence; pose proof (I0) as (_ & _ & _ & _ & _ & _ & _ & _ & B9); specialize (B9 t E); congruence.
Qed.

Lemma run_app s os1 os2 : fst (run s (os1 ++ os2)) = fst (run (fst (run s os1)) os2).
Proof.
  revert s. induction os1 as [|[t a] os1 IH]; intros s; [reflexivity|]. cbn [app run].
  destruct (step s t a) as [s1 e]. specialize (IH s1). destruct (run s1 (os1 ++ os2)). destruct (run s1 os1). exact IH.
Qed.
Lemma inv_run s os : inv s -> inv (fst (run s os)).
Proof.
  revert s. induction os as [|[t a] os IH]; intros s I; [exact I|]. cbn [run].
  pose proof (step_inv s t a I). destruct (step s t a) as [s1 e]. specialize (IH s1 ltac:(assumption)). destruct (run s1 os). exact IH.
Qed.
Lemma reach_inv n s : reachable n s -> inv s.
Proof. intros [os <-]. apply inv_run, start_inv. Qed.

Lemma two_in (f : pc -> Z) : (forall q, 0 <= f q) -> forall l t u p q, t <> u -> nth_error l t = Some p -> nth_error l u = Some q ->
  f p + f q <= zsum f l.
Proof.
  intros P. induction l as [|x l IH]; intros [|t] [|u] p q N H K; cbn in *; try discriminate; try lia.
  - injection H as ->. pose proof (zsum_ge_in f l q P (nth_error_In _ _ K)). lia.
  - injection K as ->. pose proof (zsum_ge_in f l p P (nth_error_In _ _ H)). lia.
  - specialize (IH t u p q ltac:(lia) H K). specialize (P x). lia.
Qed.

Lemma exclusive s t u : inv s -> writes s t -> t <> u -> ~ writes s u /\ ~ reads s u /\ ~ at_pc s u RdU.
Proof.
  intros (A1 & A2 & A3 & A4 & A5 & A6 & A7 & A8 & A9) W N. unfold writes, reads, at_pc in *.
  pose proof (zsum_ge_in wr _ _ ltac:(intros []; cbn; lia) (nth_error_In _ _ W)) as G. cbn in G.
  pose proof (nonneg s) as (N1 & N2 & N3 & N4).
  assert (R0 : zsum rd (pcs s) = 0) by lia.
  assert (X : forall p, nth_error (pcs s) u = Some p -> rd p = 0 /\ wr p = 0).
  { intros p H. pose proof (two_in wr ltac:(intros []; cbn; lia) _ _ _ _ _ N W H) as T. cbn [wr] in T.
    pose proof (zsum_ge_in rd _ _ ltac:(intros []; cbn; lia) (nth_error_In _ _ H)) as G1.
    assert (0 <= rd p /\ 0 <= wr p) by (destruct p; cbn; lia). lia. }
  split; [|split].
  - intros H. destruct (X _ H) as [_ Y]. discriminate.
  - intros [H|H]; destruct (X _ H) as [Y _]; discriminate.
  - intros H; destruct (X _ H) as [Y _]; discriminate.
Qed.

(** Some thread is at a place counted by [f] *)
Lemma sum_some (f : pc -> Z) l : 0 < zsum f l -> exists t p, nth_error l t = Some p /\ 0 < f p.
Proof.
  induction l as [|x l IH]; cbn; intros H; [lia|]. destruct (Z.le_gt_cases (f x) 0).
  - destruct IH as (t & p & E & P); [lia|]. exists (S t), p. auto.
  - exists 0%nat, x. split; [reflexivity|lia].
Qed.
