From Verif Require Import Base RefcntProof WrefModel WrefSpec.

Notation tr := wt_refs.

Lemma zsum_nonneg_in {A} (f : A -> Z) l : (forall a, In a l -> 0 <= f a) -> 0 <= zsum f l.
Proof.
  induction l as [|b l IH]; cbn; intros H; [lia|]. pose proof (H b (or_introl eq_refl)).
  assert (0 <= zsum f l) by (apply IH; intros; apply H; right; assumption). lia.
Qed.
Lemma zsum_ge_nth_in {A} (f : A -> Z) l : (forall a, In a l -> 0 <= f a) -> forall t x, nth_error l t = Some x -> f x <= zsum f l.
Proof.
  induction l as [|b l IH]; intros H [|t] x Ht; cbn in *; try discriminate.
  - injection Ht as ->. pose proof (zsum_nonneg_in f l (fun a Ha => H a (or_intror Ha))). lia.
  - pose proof (IH (fun a Ha => H a (or_intror Ha)) t x Ht). pose proof (H b (or_introl eq_refl)). lia.
Qed.
Definition gt (th : wthr) : Z := if in_getref th then 1 else 0.
Definition ut (th : wthr) : Z := match w_pc th with PGUndo => 1 | _ => 0 end.
Definition dt (th : wthr) : Z := match w_pc th with PInval | PFree => 1 | _ => 0 end.
Definition ft (th : wthr) : Z := match w_pc th with PFree => 1 | _ => 0 end.
(** touching the target through the weak reference *)
Definition mt (th : wthr) : Z := match w_pc th with PGTry | PGSet | PGStore | PGAdd | PGUndo => 1 | _ => 0 end.

Definition inc_ok (th : wthr) : Prop := 0 <= w_own th /\ (w_pc th = PIncAdd -> 0 < w_own th) /\
  w_pc th <> PIncSet /\ w_pc th <> PIncStore /\ w_pc th <> PGSet /\ w_pc th <> PGStore.

(** [v]: the weak reference has not been invalidated. *)
Record WInv (s : wsys) (v : bool) : Prop := {
  wi_sh : ws_shared s = true;
  wi_own : Forall inc_ok (ws_thr s);
  wi_cnt : ws_cnt s = w_refs s - 1 + zsum ut (ws_thr s);
  wi_w : ws_wcnt s = (if v then 1 else 0) + zsum gt (ws_thr s);
  wi_ser : ws_overlap s = false -> zsum gt (ws_thr s) <= 1;
  wi_dead : ws_dying s = true <-> w_refs s = 0;
  wi_alive : ws_dying s = false -> zsum dt (ws_thr s) = 0 /\ zsum ut (ws_thr s) = 0 /\ ws_freed s = false /\ v = true;
  wi_one : zsum dt (ws_thr s) + (if ws_freed s then 1 else 0) <= 1;
  wi_f : zsum ft (ws_thr s) = (if v then 0 else 1 - (if ws_freed s then 1 else 0));
  wi_fr : ws_freed s = true -> v = false;
  wi_m : v = false -> zsum mt (ws_thr s) = 0;
  wi_ret : forall r, In r (ws_ret s) -> r <> (true, true);
  wi_ok : forall th, In th (ws_thr s) -> w_pc th = PGSub true -> 0 < w_own th
}.
Arguments wi_sh {s v}. Arguments wi_own {s v}. Arguments wi_cnt {s v}. Arguments wi_w {s v}. Arguments wi_ser {s v}.
Arguments wi_dead {s v}. Arguments wi_alive {s v}. Arguments wi_one {s v}. Arguments wi_f {s v}. Arguments wi_fr {s v}.
Arguments wi_m {s v}. Arguments wi_ret {s v}. Arguments wi_ok {s v}.

Lemma gt0 th : 0 <= gt th. Proof. unfold gt. destruct (in_getref th); lia. Qed.
Lemma ut0 th : 0 <= ut th. Proof. unfold ut. destruct (w_pc th); lia. Qed.
Lemma dt0 th : 0 <= dt th. Proof. unfold dt. destruct (w_pc th); lia. Qed.
Lemma ft0 th : 0 <= ft th. Proof. unfold ft. destruct (w_pc th); lia. Qed.
Lemma mt0 th : 0 <= mt th. Proof. unfold mt. destruct (w_pc th); lia. Qed.

Lemma existsb_gt l : existsb in_getref l = false -> zsum gt l = 0.
Proof.
  intros H. apply zsum_zero. intros x Hx. unfold gt. destruct (in_getref x) eqn:E; [|reflexivity].
  assert (existsb in_getref l = true) by (apply existsb_exists; eauto). congruence.
Qed.

Lemma Forall_upd {A} (Q : A -> Prop) l i x : Forall Q l -> Q x -> Forall Q (upd l i x).
Proof. intros H Hx. revert i. induction H; intros [|i]; cbn; constructor; auto. Qed.

Lemma In_upd {A} (l : list A) i x y : In y (upd l i x) -> y = x \/ In y l.
Proof. revert i. induction l as [|h t IH]; intros [|i]; cbn; [tauto|tauto| |]; intros [H|H]; auto. destruct (IH _ H); auto. Qed.

Lemma w_step_ok s v e : WInv s v -> (forall s', w_step s e = Some s' -> ws_overlap s' = false) ->
  exists s' v', w_step s e = Some s' /\ WInv s' v'.
Proof.
  intros I Hno. destruct e as [[t op] spur]. unfold w_step in *.
  destruct (nth_error (ws_thr s) t) as [th|] eqn:Ht; [|exists s, v; auto].
  pose proof (wi_own I) as Hown. rewrite Forall_forall in Hown.
  pose proof (Hown th (nth_error_In _ _ Ht)) as (O1 & O2 & O3 & O4 & O5 & O6).
  assert (Htr : forall a, In a (ws_thr s) -> 0 <= tr a).
  { intros a Ha. destruct (Hown a Ha) as (X & _). unfold wt_refs. destruct (w_pc a); lia. }
  assert (Hge : tr th <= w_refs s) by (eapply (zsum_ge_nth_in tr); eassumption).
  pose proof (zsum_ge_nth gt _ _ _ gt0 Ht) as Gg. pose proof (zsum_ge_nth ut _ _ _ ut0 Ht) as Gu.
  pose proof (zsum_ge_nth dt _ _ _ dt0 Ht) as Gd. pose proof (zsum_ge_nth ft _ _ _ ft0 Ht) as Gf.
  pose proof (zsum_ge_nth mt _ _ _ mt0 Ht) as Gm.
  assert (Gum : zsum ut (ws_thr s) <= zsum gt (ws_thr s)).
  { clear. induction (ws_thr s) as [|h l IH]; cbn; [lia|]. unfold ut at 1, gt at 1, in_getref. destruct (w_pc h); lia. }
  assert (Gmg : zsum mt (ws_thr s) <= zsum gt (ws_thr s)).
  { clear. induction (ws_thr s) as [|h l IH]; cbn; [lia|]. unfold mt at 1, gt at 1, in_getref. destruct (w_pc h); lia. }
  assert (Gum2 : zsum ut (ws_thr s) <= zsum mt (ws_thr s)).
  { clear. induction (ws_thr s) as [|h l IH]; cbn; [lia|]. unfold ut at 1, mt at 1. destruct (w_pc h); lia. }
  pose proof (zsum_nonneg ut (ws_thr s) ut0) as Nu. pose proof (zsum_nonneg mt (ws_thr s) mt0) as Nm. pose proof (zsum_nonneg gt (ws_thr s) gt0) as Ng.
  pose proof (zsum_nonneg dt (ws_thr s) dt0) as Nd. pose proof (zsum_nonneg ft (ws_thr s) ft0) as Nf.
  assert (Gfd : zsum ft (ws_thr s) <= zsum dt (ws_thr s)).
  { clear. induction (ws_thr s) as [|h l IH]; cbn; [lia|]. unfold ft at 1, dt at 1. destruct (w_pc h); lia. }
  assert (Gfx : zsum ft (ws_thr s) + dt th - ft th <= zsum dt (ws_thr s)).
  { clear - Ht. revert t Ht. induction (ws_thr s) as [|h l IH]; intros [|t] Ht; cbn in *; try discriminate.
    - injection Ht as ->. assert (zsum ft l <= zsum dt l); [|lia].
      clear. induction l as [|h l IH]; cbn; [lia|]. unfold ft at 1, dt at 1. destruct (w_pc h); lia.
    - specialize (IH t Ht). unfold ft at 1, dt at 2. destruct (w_pc h); lia. }
  assert (Gux : zsum ut (ws_thr s) + gt th - ut th <= zsum gt (ws_thr s)).
  { clear - Ht. revert t Ht. induction (ws_thr s) as [|h l IH]; intros [|t] Ht; cbn in *; try discriminate.
    - injection Ht as ->. assert (zsum ut l <= zsum gt l); [|lia].
      clear. induction l as [|h l IH]; cbn; [lia|]. unfold ut at 1, gt at 1, in_getref. destruct (w_pc h); lia.
    - specialize (IH t Ht). unfold ut at 1, gt at 2, in_getref. destruct (w_pc h); lia. }
  pose proof (wi_ok I th (nth_error_In _ _ Ht)) as Hokt.
  pose proof I as I0. pose proof I as I1. destruct I as [Jsh Jown Jcnt Jw Jser Jdead Jal Jone Jf Jfr Jm Jret Jok].
  assert (Hpos : 0 <= w_refs s) by (apply zsum_nonneg_in; exact Htr).
  (* reference counted target is not freed *)
  assert (Hlive : 0 < w_refs s -> ws_dying s = false) by (intros X; destruct (ws_dying s); [assert (w_refs s = 0) by (apply Jdead; reflexivity); lia|reflexivity]).
  assert (QT : forall x, zsum tr (upd (ws_thr s) t x) = w_refs s - tr th + tr x) by (intros; apply zsum_upd; exact Ht).
  assert (QG : forall x, zsum gt (upd (ws_thr s) t x) = zsum gt (ws_thr s) - gt th + gt x) by (intros; apply zsum_upd; exact Ht).
  assert (QU : forall x, zsum ut (upd (ws_thr s) t x) = zsum ut (ws_thr s) - ut th + ut x) by (intros; apply zsum_upd; exact Ht).
  assert (QD : forall x, zsum dt (upd (ws_thr s) t x) = zsum dt (ws_thr s) - dt th + dt x) by (intros; apply zsum_upd; exact Ht).
  assert (QF : forall x, zsum ft (upd (ws_thr s) t x) = zsum ft (ws_thr s) - ft th + ft x) by (intros; apply zsum_upd; exact Ht).
  assert (QM : forall x, zsum mt (upd (ws_thr s) t x) = zsum mt (ws_thr s) - mt th + mt x) by (intros; apply zsum_upd; exact Ht).
  pose proof (existsb_gt (ws_thr s)) as Hex.
  remember (w_refs s) as R eqn:ER. remember (zsum gt (ws_thr s)) as G. remember (zsum ut (ws_thr s)) as U.
  remember (zsum dt (ws_thr s)) as Dd. remember (zsum ft (ws_thr s)) as Ff. remember (zsum mt (ws_thr s)) as M.
  assert (V : forall (f : bool) (fr : bool), f = fr -> f = fr) by auto.
  unfold w_access in *. rewrite Jsh in *.
  assert (GOAL : forall (own : Z) (pc : wpc) (cnt wcnt : Z) (dy fr : bool) (ret : list (bool * bool)) (ov v' : bool),
     inc_ok (mkWthr own pc) -> (pc = PGSub true -> 0 < own) ->
     (let a := mkWthr own pc in
      cnt = R - tr th + tr a - 1 + (U - ut th + ut a) /\ wcnt = (if v' then 1 else 0) + (G - gt th + gt a) /\
      (ov = false -> G - gt th + gt a <= 1) /\ (dy = true <-> R - tr th + tr a = 0) /\
      (dy = false -> Dd - dt th + dt a = 0 /\ U - ut th + ut a = 0 /\ fr = false /\ v' = true) /\
      Dd - dt th + dt a + (if fr then 1 else 0) <= 1 /\ Ff - ft th + ft a = (if v' then 0 else 1 - (if fr then 1 else 0)) /\
      (fr = true -> v' = false) /\ (v' = false -> M - mt th + mt a = 0) /\ (forall r : bool * bool, In r ret -> r <> (true, true))) ->
     WInv (mkWsys cnt true wcnt (upd (ws_thr s) t (mkWthr own pc)) dy fr (ws_ret s ++ ret) ov) v').
  { intros own pc cnt wcnt dy fr ret ov v' HI HS (C1 & C2 & C3 & C4 & C5 & C6 & C7 & C8 & C9 & C10).
    split; unfold w_refs; cbn [ws_shared ws_thr ws_cnt ws_wcnt ws_overlap ws_dying ws_freed ws_ret]; rewrite ?QT, ?QG, ?QU, ?QD, ?QF, ?QM; try assumption.
    - reflexivity.
    - apply Forall_upd; assumption.
    - intros r Hr. apply in_app_or in Hr. destruct Hr; auto.
    - intros y Hy Ey. apply In_upd in Hy. destruct Hy as [->|Hy]; [apply HS; exact Ey|eapply Jok; eassumption]. }
  destruct (w_pc th) as [| | | | | | | | | | | | |r] eqn:E; try congruence;
    unfold gt, in_getref, ut, dt, ft, mt, wt_refs in Gg, Gu, Gd, Gf, Gm, Gfx, Gux, Hge, GOAL; rewrite E in Gg, Gu, Gd, Gf, Gm, Gfx, Gux, Hge, GOAL; cbn [w_pc w_own] in GOAL;
    unfold put in *; rewrite ?Jsh in *.
  clear QT QG QU QD QF QM Jown Jok Hown Htr V Jsh.
  Ltac leaf s Jret := try discriminate; try lia; try (intros; intuition (try discriminate; try lia); fail);
     try (destruct (ws_dying s), (ws_freed s); intros; intuition (try discriminate; try lia); fail);
     try (cbn; intros ? [Hq|Hq]; [subst; congruence|destruct Hq]); try (cbn; intros ? Hq; destruct Hq).
  Ltac dn s GOAL v' Jret := eexists; exists v'; (split; [reflexivity|]); apply GOAL; clear GOAL;
    [unfold inc_ok; cbn [w_own w_pc]; repeat split; try discriminate; try lia
    |first [discriminate|intros; lia]
    |cbv zeta; repeat split; leaf s Jret ].
  Ltac live Hlive Jal := let H := fresh in assert (H := Hlive ltac:(lia)); rewrite H in *; destruct (Jal eq_refl) as (? & ? & Efr & Ev); rewrite Efr in *; subst.
  - destruct op.
    + destruct (Z.ltb_spec 0 (w_own th)); [|exists s, v; split; [reflexivity|exact I0]].
      live Hlive Jal. dn s GOAL true Jret.
    + destruct (Z.ltb_spec 0 (w_own th)); [|exists s, v; split; [reflexivity|exact I0]].
      live Hlive Jal. dn s GOAL true Jret.
    + cbn [ws_cnt ws_shared ws_wcnt ws_thr ws_dying ws_freed ws_ret] in *.
      specialize (Hno _ eq_refl). cbn [ws_overlap] in Hno. apply orb_false_iff in Hno. destruct Hno as [N1 N2]. specialize (Hex N2).
      rewrite N1, N2; cbn [orb]. clear I0.
      destruct (Z.eqb_spec (ws_wcnt s) 0); (dn s GOAL v Jret; destruct v; leaf s Jret).
  - live Hlive Jal. dn s GOAL true Jret.
  - live Hlive Jal. dn s GOAL true Jret.
  - live Hlive Jal. destruct (Z.eqb_spec (ws_cnt s) 0); dn s GOAL true Jret.
  - clear I0. destruct ((ws_wcnt s =? 1) && negb spur) eqn:Ec; [|exists s, v; split; [reflexivity|exact I1]].
    destruct v; [|destruct (ws_freed s); lia].
    dn s GOAL false Jret.
  - destruct v, (ws_freed s); try lia. dn s GOAL false Jret.
  - destruct v; [|lia]. destruct (ws_freed s) eqn:Efr0; [specialize (Jfr eq_refl); discriminate|].
    dn s GOAL true Jret.
  - destruct v; [|lia]. destruct (ws_freed s) eqn:Efr0; [specialize (Jfr eq_refl); discriminate|].
    assert (N1 : ws_overlap s = false) by (destruct (ws_cnt s <? 0); exact (Hno _ eq_refl)). specialize (Jser N1).
    destruct (Z.ltb_spec (ws_cnt s) 0).
    + dn s GOAL true Jret.
    + assert (Hd := Hlive ltac:(lia)). rewrite Hd in *. dn s GOAL true Jret.
  - destruct v; [|lia]. destruct (ws_freed s) eqn:Efr0; [specialize (Jfr eq_refl); discriminate|].
    dn s GOAL true Jret.
  - destruct r; [|dn s GOAL v Jret; destruct v; leaf s Jret].
    specialize (Hokt eq_refl). live Hlive Jal. dn s GOAL true Jret.
Qed.

Lemma w_exec_ok sched : forall s v, WInv s v -> serial_from s sched -> exists s' v', w_exec s sched = Some s' /\ WInv s' v'.
Proof.
  induction sched as [|e t IH]; intros s v I Hs; cbn [w_exec serial_from] in *; [eauto|].
  destruct (w_step_ok s v e I) as (s1 & v1 & E & I1); [intros s' H; apply Hs; exact H|].
  rewrite E. destruct (Hs _ E) as [_ Hs1]. exact (IH _ _ I1 Hs1).
Qed.

Lemma zsum_map_idle f owns : (forall n, f (mkWthr n PIdle) = 0) -> zsum f (map (fun n => mkWthr n PIdle) owns) = 0.
Proof. intros H. induction owns as [|o l IH]; cbn; [reflexivity|]. rewrite IH, H. reflexivity. Qed.

Lemma w_init_inv owns : Forall (fun n => 0 <= n) owns -> 1 <= zsum (fun x => x) owns -> WInv (w_init true owns) true.
Proof.
  intros Ho H1.
  assert (Ef : w_refs (w_init true owns) = zsum (fun x => x) owns).
  { unfold w_refs, w_init; cbn [ws_thr]. clear. induction owns as [|o l IH]; cbn; [reflexivity|]. rewrite IH. unfold wt_refs; cbn. lia. }
  split; rewrite ?Ef; cbn [w_init ws_shared ws_thr ws_cnt ws_wcnt ws_overlap ws_dying ws_freed ws_ret];
    rewrite ?zsum_map_idle by reflexivity; try lia; try tauto; try discriminate.
  - apply Forall_forall. intros x Hx. apply in_map_iff in Hx. destruct Hx as (n & <- & Hn).
    rewrite Forall_forall in Ho. specialize (Ho n Hn). unfold inc_ok; cbn [w_own w_pc]. repeat split; try discriminate; lia.
  - intros y Hy Ey. apply in_map_iff in Hy. destruct Hy as (n & <- & Hn). discriminate.
Qed.
