(** C15: the reader/writer lock. *)
From Verif Require Import Base RwlModel RwlSpec RwlProof.

(** While a thread holds the lock for writing no other holds it in any way. *)
Theorem writers_exclude : forall n s t u, reachable n s -> writes s t -> t <> u -> ~ writes s u /\ ~ reads s u.
Proof. intros n s t u R W N. destruct (exclusive s t u (reach_inv _ _ R) W N) as (A & B & _). auto. Qed.
Print Assumptions writers_exclude.

(** An upgrade succeeds only for a sole reader, who then writes. *)
Theorem upgrade_is_for_sole_reader : forall n s t a s' e u, reachable n s -> step s t a = (s', e) -> In (EUpgraded u) e ->
  u = t /\ at_pc s t Up /\ (forall v, reads s v \/ writes s v -> v = t) /\ writes s' t.
Proof.
  intros n s t a s' e u R E H. pose proof (reach_inv _ _ R) as I. unfold step in E.
  destruct (nth_error (pcs s) t) as [p|] eqn:P; [|injection E as <- <-; destruct H].
  assert (X : p = Up /\ cnt s = None /\ (0 <? nw s) || (1 <? nr s) = false).
  { destruct p, a; cbv iota beta in E; repeat match goal with
      | E : context [match cnt s with _ => _ end] |- _ => destruct (cnt s) eqn:?
      | E : context [match wl s with _ => _ end] |- _ => destruct (wl s) eqn:?
      | E : context [if ?b then _ else _] |- _ => destruct b eqn:?
      end; injection E as <- <-; cbn [In] in H; unfold foreign in H;
      repeat match goal with H : context [if ?b then _ else _] |- _ => destruct b | H : context [match ?o with Some _ => _ | None => _ end] |- _ => destruct o end;
      cbn [In] in H; try contradiction; destruct H as [H|H]; try discriminate; try contradiction; auto. }
  destruct X as (-> & EC & EB). rewrite EC, EB in E. assert (Hs : s' = mkSt None (wl s) 0 1 (go s t InWr)) by congruence.
  assert (He : e = [EUpgraded t]) by congruence. subst. destruct H as [H|[]]. injection H as <-.
  split; [reflexivity|]. split; [exact P|]. split.
  - destruct I as (A1 & A2 & A3 & A4 & A5 & A6 & A7 & A8 & A9). rewrite EC in A8. cbn [oz] in A8. pose proof (nonneg s).
    apply orb_false_iff in EB. intros v Hv. destruct (Nat.eq_dec v t) as [|N]; [assumption|exfalso].
    assert (K : forall q, nth_error (pcs s) v = Some q -> rd q = 0 /\ wr q = 0).
    { intros q Hq. pose proof (two_in rd ltac:(intros []; cbn; lia) _ _ _ _ _ N Hq P) as T. cbn [rd] in T.
      pose proof (zsum_ge_in wr _ _ ltac:(intros []; cbn; lia) (nth_error_In _ _ Hq)) as G1.
      assert (0 <= rd q /\ 0 <= wr q) by (destruct q; cbn; lia). lia. }
    destruct Hv as [[Hv|Hv]|Hv]; destruct (K _ Hv); discriminate.
  - unfold writes, at_pc, go. cbn [pcs]. apply nth_error_upd_same. apply nth_error_Some. congruence.
Qed.
Print Assumptions upgrade_is_for_sole_reader.

(** A sole reader is not refused when nobody else is about. *)
Theorem sole_reader_may_upgrade : forall n s t a, reachable n s -> at_pc s t Up -> (forall u p, at_pc s u p -> u = t \/ p = Out) ->
  snd (step s t a) = [EUpgraded t].
Proof.
  intros n s t a R P H. pose proof (reach_inv _ _ R) as (A1 & A2 & A3 & A4 & A5 & A6 & A7 & A8 & A9). unfold step. unfold at_pc in *. rewrite P.
  assert (Z : forall f : pc -> Z, f Out = 0 -> zsum f (pcs s) = f Up).
  { intros f Hf. clear - P H Hf. revert t P H. induction (pcs s) as [|x l IH]; intros [|t] P H; cbn in *; try discriminate.
    - injection P as ->. rewrite zsum_zero; [lia|]. intros y Hy. apply In_nth_error in Hy. destruct Hy as [k Hk].
      destruct (H (S k) y Hk) as [X|X]; [discriminate|]. congruence.
    - destruct (H 0%nat x eq_refl) as [X|X]; [discriminate|]. subst x. rewrite (IH t P); [lia|]. intros u p Hu.
      destruct (H (S u) p Hu) as [X|X]; [left; lia|auto]. }
  rewrite (Z rd), (Z fr) in A1 by reflexivity. rewrite (Z ww) in A2 by reflexivity. rewrite (Z fr) in A8 by reflexivity. cbn [rd fr ww] in *.
  destruct (cnt s); [cbn [oz] in A8; lia|]. destruct ((0 <? nw s) || (1 <? nr s)) eqn:B; [lia|reflexivity].
Qed.
Print Assumptions sole_reader_may_upgrade.

(** Readers share: while somebody reads, a thread that wants to read gets in with its next step. *)
Theorem readers_share : forall n s t u a, reachable n s -> reads s t -> at_pc s u RdC -> reads (fst (step s u a)) u.
Proof.
  intros n s t u a R H K. pose proof (reach_inv _ _ R) as (A1 & A2 & A3 & A4 & A5 & A6 & A7 & A8 & A9). pose proof (nonneg s).
  assert (G : 1 <= zsum rd (pcs s)).
  { destruct H as [Hr|Hr]; pose proof (zsum_ge_in rd _ _ ltac:(intros []; cbn; lia) (nth_error_In _ _ Hr)) as G; exact G. }
  unfold step. unfold at_pc in K. rewrite K. assert (C : cnt s = None) by (destruct (cnt s); [cbn [oz] in A8; lia|reflexivity]). rewrite C.
  destruct (Z.eqb_spec (nr s + 1) 1); [lia|]. cbn [fst]. left. unfold at_pc, go. cbn [pcs]. apply nth_error_upd_same. apply nth_error_Some. congruence.
Qed.
Print Assumptions readers_share.

(** No deadlock: when nobody holds the lock and threads are inside the functions, one of them can move. *)
Theorem no_deadlock : forall n s, reachable n s -> (forall t, ~ at_pc s t InRd /\ ~ writes s t) -> (exists t, busy s t) ->
  exists t, busy s t /\ forall a, nth_error (pcs (fst (step s t a))) t <> nth_error (pcs s) t.
Proof.
  intros n s R NH (t & p & P & B1 & B2 & B3). pose proof (reach_inv _ _ R) as (A1 & A2 & A3 & A4 & A5 & A6 & A7 & A8 & A9). pose proof (nonneg s).
  assert (W0 : zsum wr (pcs s) = 0).
  { destruct (Z.le_gt_cases (zsum wr (pcs s)) 0); [lia|]. destruct (sum_some wr _ ltac:(eassumption)) as (u & q & Eq & Pq).
    destruct q; cbn in Pq; try lia. exfalso. destruct (NH u) as [_ X]. apply X. exact Eq. }
  assert (Mv : forall u q q', nth_error (pcs s) u = Some q -> q' <> q -> nth_error (upd (pcs s) u q') u <> Some q).
  { intros u q q' Eq Nq. rewrite nth_error_upd_same by (apply nth_error_Some; congruence). congruence. }
  destruct (cnt s) as [c|] eqn:C.
  - cbn [oz] in A8. assert (F : 0 < zsum fr (pcs s)) by lia. destruct (sum_some fr _ F) as (u & q & Eq & Pq). destruct q; cbn in Pq; try lia.
    exists u. split; [exists RdW; repeat split; [exact Eq|discriminate|discriminate|discriminate]|]. intros a. unfold step. rewrite Eq.
    destruct (wl s) eqn:L; [cbn [oz] in A7; lia|]. cbn [fst pcs]. unfold go. apply (Mv u RdW); [assumption|discriminate].
  - assert (Q : (exists u q, nth_error (pcs s) u = Some q /\ (q = RdC \/ q = RdU \/ q = Up \/ q = WrC \/ q = WrU)) \/ zsum rd (pcs s) = 0).
    { destruct (Z.le_gt_cases (zsum rd (pcs s)) 0); [right; lia|left]. destruct (sum_some rd _ ltac:(eassumption)) as (u & q & Eq & Pq).
      exists u, q. split; [assumption|]. destruct q; cbn in Pq; try lia; auto. exfalso. destruct (NH u) as [X _]. exact (X Eq). }
    assert (Easy : forall u q, nth_error (pcs s) u = Some q -> q = RdC \/ q = RdU \/ q = Up \/ q = WrC \/ q = WrU ->
      exists t, busy s t /\ forall a, nth_error (pcs (fst (step s t a))) t <> nth_error (pcs s) t).
    { intros u q Eq Cq. exists u. split.
      - exists q. split; [exact Eq|]. destruct Cq as [->|[->|[->|[->| ->]]]]; repeat split; discriminate.
      - intros a. unfold step. rewrite Eq. rewrite C. destruct Cq as [->|[->|[->|[->| ->]]]]; repeat match goal with |- context [if ?b then _ else _] => destruct b end;
          cbn [fst pcs]; unfold go; (eapply Mv; [exact Eq|discriminate]). }
    destruct Q as [(u & q & Eq & Cq)|Q]; [exact (Easy u q Eq Cq)|].
    destruct p; try congruence; try (eapply Easy; [exact P|]; solve [auto 6]).
    + (* RdW: holds cnt_lock *) specialize (A9 _ P). congruence.
    + exists t. split; [exists WrW; repeat split; [exact P|discriminate|discriminate|discriminate]|]. intros a. unfold step. unfold at_pc in P. rewrite P.
      destruct (wl s) eqn:L; [cbn [oz] in A7; lia|]. cbn [fst pcs]. unfold go. apply (Mv t WrW); [assumption|discriminate].
Qed.
Print Assumptions no_deadlock.

(** When everybody has left, the lock is as new. *)
Theorem lock_is_released : forall n s, reachable n s -> (forall t p, at_pc s t p -> p = Out) -> cnt s = None /\ wl s = None /\ nr s = 0 /\ nw s = 0.
Proof.
  intros n s R H. pose proof (reach_inv _ _ R) as (A1 & A2 & A3 & A4 & A5 & A6 & A7 & A8 & A9).
  assert (Z : forall f : pc -> Z, f Out = 0 -> zsum f (pcs s) = 0).
  { intros f Hf. apply zsum_zero. intros x Hx. apply In_nth_error in Hx. destruct Hx as [k Hk]. rewrite (H k x Hk). exact Hf. }
  rewrite !Z in * by reflexivity. destruct (cnt s); [cbn [oz] in A8; lia|]. destruct (wl s); [cbn [oz] in A7; lia|]. repeat split; lia.
Qed.
Print Assumptions lock_is_released.

(** Two readers; the first leaves; the second upgrades, writes, a third thread waits to read and gets in when it is done. *)
Example rwl_ex :
  let os := [(0, LockRd); (0, LockRd); (0, LockRd); (1, LockRd); (1, LockRd); (1, Upgrade); (1, Upgrade); (0, Unlock); (0, Unlock);
             (1, Upgrade); (1, Upgrade)]%nat in
  let s := fst (run (start 3) os) in
  snd (run (start 3) os) = [ERefused 1; EUpgraded 1]%nat /\ pcs s = [Out; InWr; Out] /\ reachable 3 s /\ writes s 1 /\
  pcs (fst (run s [(2, LockRd); (2, LockRd); (2, LockRd); (0, LockWr); (0, LockWr)]%nat)) = [WrC; InWr; RdW] /\
  pcs (fst (run s [(2, LockRd); (2, LockRd); (2, LockRd); (1, Unlock); (2, LockRd)]%nat)) = [Out; WrU; InRd].
Proof. cbv zeta. split; [reflexivity|]. split; [reflexivity|]. split; [eexists; reflexivity|]. split; [reflexivity|]. split; reflexivity. Qed.

(** The last of several readers unlocks a mutex that the first one locked, which POSIX leaves undefined for this kind of mutex. *)
Theorem owner_unlocks_refuted : exists os, In (EForeign 1) (snd (run (start 2) os)).
Proof.
  exists [(0, LockRd); (0, LockRd); (0, LockRd); (1, LockRd); (1, LockRd); (0, Unlock); (0, Unlock); (1, Unlock); (1, Unlock)]%nat.
  vm_compute. auto.
Qed.
Print Assumptions owner_unlocks_refuted.
