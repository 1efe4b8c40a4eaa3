From Verif Require Import Base PortModel PortSpec.
From Coq Require Import Permutation.

Lemma upd_swap_perm : forall (l : list Z) i j x y,
  nth_error l i = Some x -> nth_error l j = Some y -> Permutation (upd (upd l i y) j x) l.
Proof.
  induction l as [|h t IH]; intros [|i] [|j] x y Hi Hj; cbn in *; try discriminate.
  - injection Hi as ->. injection Hj as ->. reflexivity.
  - injection Hi as ->. clear IH.
    revert j Hj. induction t as [|z t IHt]; intros [|j] Hj; cbn in *; try discriminate.
    + injection Hj as ->. apply perm_swap.
    + specialize (IHt j Hj). eapply perm_trans; [apply perm_swap|].
      eapply perm_trans; [apply perm_skip, IHt|]. apply perm_swap.
  - injection Hj as ->. clear IH.
    revert i Hi. induction t as [|z t IHt]; intros [|i] Hi; cbn in *; try discriminate.
    + injection Hi as ->. apply perm_swap.
    + specialize (IHt i Hi). eapply perm_trans; [apply perm_swap|].
      eapply perm_trans; [apply perm_skip, IHt|]. apply perm_swap.
  - apply perm_skip. apply IH; assumption.
Qed.

Lemma swap_at_ok tab i j : (i < length tab)%nat -> (j < length tab)%nat ->
  exists tab', swap_at tab i j = Some tab' /\ Permutation tab' tab.
Proof.
  intros Hi Hj. unfold swap_at.
  destruct (nth_error tab i) as [x|] eqn:Ex; [|apply nth_error_None in Ex; lia].
  destruct (nth_error tab j) as [y|] eqn:Ey; [|apply nth_error_None in Ey; lia].
  eexists; split; [reflexivity|]. apply upd_swap_perm; assumption.
Qed.

Section World.
  Context {W : Type} (rnd : W -> nat * W).

  Lemma shuffle_ok : forall k i tab w, (i + k <= length tab)%nat ->
    exists tab' w', shuffle rnd k i tab w = Some (tab', w') /\ Permutation tab' tab.
  Proof.
    induction k as [|k IH]; intros i tab w Hl; cbn.
    - eauto.
    - destruct (rnd w) as [r w1].
      assert (Hm : (r mod length tab < length tab)%nat) by (apply Nat.mod_upper_bound; lia).
      destruct (swap_at_ok tab i (r mod length tab)) as (t & -> & Hp); [lia|assumption|].
      pose proof (Permutation_length Hp).
      destruct (IH (S i) t w1) as (t2 & w2 & -> & Hp2); [lia|].
      exists t2, w2. split; [reflexivity|]. eapply perm_trans; eassumption.
  Qed.

  Lemma gen_linear_ports : forall n p, 0 <= p -> p + 2 * Z.of_nat n <= 65537 -> p mod 2 = 0 ->
    gen_linear n (u16 p) = map (fun k => p + 2 * Z.of_nat k) (seq 0 n).
  Proof.
    intros n. induction n as [|n IH]; intros p Hp Hn He; [reflexivity|].
    destruct n as [|n].
    - cbn. rewrite u16_small by lia. f_equal. lia.
    - change (gen_linear (S (S n)) (u16 p)) with (u16 p :: gen_linear (S n) (u16 (u16 p + 2))).
      rewrite (u16_small p) by lia. rewrite (IH (p + 2)) by lia.
      cbn [seq map]. f_equal; [lia|]. f_equal; [lia|].
      rewrite <- (seq_shift n 1), map_map. apply map_ext. intros k. lia.
  Qed.

  Definition pt_inv (mn mx ctl : Z) (pt : ptbl) : Prop :=
    Permutation (pt_tab pt) (ports mn mx) /\ 0 <= pt_idx pt < Z.of_nat (length (pt_tab pt)) /\ pt_ctl pt = ctl.

  Lemma ports_length mn mx : mn <= mx -> Z.of_nat (length (ports mn mx)) = (mx - mn) / 2 + 1.
  Proof. intros H. unfold ports. rewrite map_length, seq_length. lia. Qed.

  Definition good_range (mn mx ctl : Z) : Prop :=
    0 <= mn <= mx /\ mx <= 65535 /\ mn mod 2 = 0 /\ 0 <= ctl < 65536.

  Lemma pt_ctor_linear mn mx : 0 <= mn <= mx -> mx <= 65535 -> mn mod 2 = 0 ->
    gen_linear (Z.to_nat (Z.quot (mx - mn) 2 + 1)) (u16 mn) = ports mn mx.
  Proof.
    intros H1 H2 H3. rewrite Z.quot_div_nonneg by lia. unfold ports.
    apply gen_linear_ports; lia.
  Qed.

  Lemma pt_ctor_ok mn mx sq ctl w : good_range mn mx ctl ->
    exists pt w', pt_ctor rnd mn mx sq ctl w = Some (pt, w') /\ pt_inv mn mx ctl pt /\ pt_seq pt = sq /\
      pt_idx pt = (mx - mn) / 2 /\
      (sq = true -> pt_tab pt = ports mn mx /\ w' = w).
  Proof.
    intros (H1 & H2 & H3 & H4). unfold pt_ctor. rewrite pt_ctor_linear by lia.
    rewrite Z.quot_div_nonneg by lia. rewrite u16_small by lia.
    pose proof (ports_length mn mx ltac:(lia)) as Hl.
    destruct sq.
    - eexists _, _; split; [reflexivity|]. unfold pt_inv; cbn. rewrite Hl.
      split; [split; [reflexivity|lia]|]. repeat split; lia.
    - destruct (shuffle_ok (length (ports mn mx)) 0 (ports mn mx) w) as (t & w' & -> & Hp); [lia|].
      eexists _, _; split; [reflexivity|]. unfold pt_inv; cbn.
      pose proof (Permutation_length Hp) as Hpl. rewrite Hpl, Hl.
      split; [split; [assumption|lia]|]. split; [reflexivity|]. split; [lia|discriminate].
  Qed.

  Definition offer_ok (mn mx ctl : Z) (x : Z * ptu) : Prop :=
    In (fst x) (ports mn mx) /\ ~ hits_ctl ctl (fst x).

  Lemma verdict_cons p offs rc : verdict offs rc -> verdict ((p, PtuOneMore) :: offs) rc.
  Proof.
    intros [[-> (q & l & -> & Hb)]|[-> [Hb|(q & l & -> & Hb)]]].
    - left. split; [reflexivity|]. exists q, ((p, PtuOneMore) :: l). split; [reflexivity|]. constructor; auto.
    - right. split; [reflexivity|]. left. constructor; auto.
    - right. split; [reflexivity|]. right. exists q, ((p, PtuOneMore) :: l). split; [reflexivity|]. constructor; auto.
  Qed.

  Lemma gp_loop_ok use mn mx ctl : forall k i pt w,
    pt_inv mn mx ctl pt -> 0 <= i ->
    exists pt' w' offs rc, gp_loop rnd use k i pt w = Some (pt', w', offs, rc) /\
      pt_inv mn mx ctl pt' /\ pt_seq pt' = pt_seq pt /\
      Forall (offer_ok mn mx ctl) offs /\ verdict offs rc /\ (length offs <= k)%nat.
  Proof.
    induction k as [|k IH]; intros i pt w Hinv Hi; cbn [gp_loop].
    - eexists _, _, _, _; split; [reflexivity|]. split; [assumption|]. split; [reflexivity|].
      split; [constructor|]. split; [|cbn; lia]. right. split; [reflexivity|]. left. constructor.
    - destruct Hinv as (Hp & Hidx & Hctl).
      set (len := Z.of_nat (length (pt_tab pt))) in *.
      set (idx := Z.rem (pt_idx pt + i) len).
      assert (Hix : 0 <= idx < len) by (unfold idx; apply Z.rem_bound_pos; lia).
      destruct (nth_error (pt_tab pt) (Z.to_nat idx)) as [port|] eqn:En; [|apply nth_error_None in En; lia].
      assert (Hin : In port (ports mn mx)) by (eapply Permutation_in; [exact Hp|]; eapply nth_error_In; eassumption).
      destruct ((port =? pt_ctl pt) || (port =? pt_ctl pt - 1)) eqn:Ec.
      + destruct (IH (i + 1) pt w) as (pt' & w' & offs & rc & E & I1 & I2 & I3 & I4 & I5);
          [split; auto|lia|].
        exists pt', w', offs, rc. split; [assumption|]. repeat (split; [assumption|]). lia.
      + assert (Hoff : forall r, offer_ok mn mx ctl (port, r)).
        { intros r. split; [assumption|]. unfold hits_ctl. cbn. lia. }
        destruct (use w port) as [rval w1].
        assert (Hsw : exists tab' w2,
          (if pt_seq pt then Some (pt_tab pt, w1)
           else let (r, w2) := rnd w1 in
                match swap_at (pt_tab pt) (Z.to_nat idx) (r mod length (pt_tab pt)) with
                | None => None
                | Some t => Some (t, w2)
                end) = Some (tab', w2) /\ Permutation tab' (pt_tab pt)).
        { destruct (pt_seq pt); [eauto|]. destruct (rnd w1) as [r w2].
          assert (Hm : (r mod length (pt_tab pt) < length (pt_tab pt))%nat) by (apply Nat.mod_upper_bound; lia).
          destruct (swap_at_ok (pt_tab pt) (Z.to_nat idx) (r mod length (pt_tab pt))) as (t & -> & Ht);
            [lia|assumption|]. eauto. }
        destruct Hsw as (tab' & w2 & -> & Hp').
        pose proof (Permutation_length Hp') as Hpl.
        assert (Hinv' : forall j, 0 <= j < len -> pt_inv mn mx ctl (mkPt tab' j (pt_ctl pt) (pt_seq pt))).
        { intros j Hj. split; [cbn; eapply perm_trans; eassumption|]. cbn. rewrite Hpl. split; [assumption|assumption]. }
        destruct rval.
        * eexists _, _, _, _; split; [reflexivity|]. split; [apply Hinv'; assumption|]. split; [reflexivity|].
          split; [repeat constructor; apply Hoff|]. split; [|cbn; lia].
          left. split; [reflexivity|]. exists port, []. split; [reflexivity|constructor].
        * destruct (IH (i + 1) (mkPt tab' (pt_idx pt) (pt_ctl pt) (pt_seq pt)) w2)
            as (pt' & w' & offs & rc & E & I1 & I2 & I3 & I4 & I5); [apply Hinv'; assumption|lia|].
          rewrite E. eexists _, _, _, _; split; [reflexivity|]. split; [assumption|]. split; [assumption|].
          split; [constructor; [apply Hoff|assumption]|]. split; [apply verdict_cons; assumption|cbn; lia].
        * eexists _, _, _, _; split; [reflexivity|]. split; [apply Hinv'; assumption|]. split; [reflexivity|].
          split; [repeat constructor; apply Hoff|]. split; [|cbn; lia].
          right. split; [reflexivity|]. right. exists port, []. split; [reflexivity|constructor].
  Qed.

  Lemma gp_hist_ok mn mx ctl : forall uses pt w, pt_inv mn mx ctl pt ->
    exists pt' w' outs, gp_hist rnd uses pt w = Some (pt', w', outs) /\ pt_inv mn mx ctl pt' /\
      length outs = length uses /\
      Forall (fun o => Forall (offer_ok mn mx ctl) (fst o) /\ verdict (fst o) (snd o)) outs.
  Proof.
    induction uses as [|use t IH]; intros pt w Hinv; cbn [gp_hist].
    - eexists _, _, _; split; [reflexivity|]. auto.
    - unfold get_port.
      destruct (gp_loop_ok use mn mx ctl (length (pt_tab pt) - 1) 1 pt w Hinv ltac:(lia))
        as (pt' & w' & offs & rc & -> & I1 & I2 & I3 & I4 & I5).
      destruct (IH pt' w' I1) as (pt2 & w2 & outs & -> & J1 & J2 & J3).
      eexists _, _, _; split; [reflexivity|]. split; [assumption|]. split; [cbn; congruence|].
      constructor; auto.
  Qed.

  Lemma port_alloc_lemma mn mx sq ctl uses w : good_range mn mx ctl ->
    exists pt w1 pt' w2 outs,
      pt_ctor rnd mn mx sq ctl w = Some (pt, w1) /\
      gp_hist rnd uses pt w1 = Some (pt', w2, outs) /\
      Permutation (pt_tab pt') (ports mn mx) /\ length outs = length uses /\
      Forall (fun o => Forall (fun x => In (fst x) (ports mn mx) /\ ~ hits_ctl ctl (fst x)) (fst o)
                       /\ verdict (fst o) (snd o)) outs.
  Proof.
    intros Hg. destruct (pt_ctor_ok mn mx sq ctl w Hg) as (pt & w1 & -> & Hinv & _).
    destruct (gp_hist_ok mn mx ctl uses pt w1 Hinv) as (pt' & w2 & outs & E & (I1 & _) & I2 & I3).
    exists pt, w1, pt', w2, outs. auto.
  Qed.

  (** ** Sequential mode *)
  Definition pth (mn : Z) (k : nat) : Z := mn + 2 * Z.of_nat k.

  Lemma filter_gt_seq mn q : forall n s, (s <= S q)%nat -> (S q <= s + n)%nat ->
    filter (fun p => pth mn q <? p) (map (pth mn) (seq s n)) = map (pth mn) (seq (S q) (s + n - S q)).
  Proof.
    induction n as [|n IH]; intros s H1 H2.
    - cbn. replace (s + 0 - S q)%nat with O by lia. reflexivity.
    - cbn [seq map filter]. unfold pth at 1 2. destruct (Z.ltb_spec (mn + 2 * Z.of_nat q) (mn + 2 * Z.of_nat s)).
      + assert (s = S q) by lia. subst s.
        replace (S q + S n - S q)%nat with (S n) by lia. cbn [seq map]. f_equal.
        rewrite (filter_ext_in _ (fun _ => true)).
        * clear. induction (map (pth mn) (seq (S (S q)) n)); cbn; congruence.
        * intros a Ha. apply in_map_iff in Ha. destruct Ha as (k & <- & Hk). apply in_seq in Hk. unfold pth. lia.
      + rewrite IH by lia. f_equal. f_equal. lia.
  Qed.

  Lemma filter_lt_seq mn q : forall n s, (s <= q)%nat -> (q < s + n)%nat ->
    filter (fun p => p <? pth mn q) (map (pth mn) (seq s n)) = map (pth mn) (seq s (q - s)).
  Proof.
    induction n as [|n IH]; intros s H1 H2; [lia|].
    cbn [seq map filter]. unfold pth at 1 2. destruct (Z.ltb_spec (mn + 2 * Z.of_nat s) (mn + 2 * Z.of_nat q)).
    - rewrite IH by lia. replace (q - s)%nat with (S (q - S s))%nat by lia. reflexivity.
    - assert (s = q) by lia. subst s. replace (q - q)%nat with O by lia. cbn.
      rewrite (filter_ext_in _ (fun _ => false)).
      + clear. induction (map (pth mn) (seq (S q) n)); cbn; auto.
      + intros a Ha. apply in_map_iff in Ha. destruct Ha as (k & <- & Hk). apply in_seq in Hk. unfold pth. lia.
  Qed.

  Lemma map_seq_eq {A} (f g : nat -> A) : forall m a b,
    (forall k, (k < m)%nat -> f (a + k)%nat = g (b + k)%nat) -> map f (seq a m) = map g (seq b m).
  Proof.
    induction m as [|m IH]; intros a b H; [reflexivity|]. cbn. f_equal.
    - specialize (H 0%nat ltac:(lia)). rewrite !Nat.add_0_r in H. exact H.
    - apply IH. intros k Hk. specialize (H (S k) ltac:(lia)).
      replace (S a + k)%nat with (a + S k)%nat by lia. replace (S b + k)%nat with (b + S k)%nat by lia. exact H.
  Qed.

  Lemma cyclic_ports mn mx q n : n = Z.to_nat ((mx - mn) / 2 + 1) -> (q < n)%nat ->
    cyclic_after (ports mn mx) (pth mn q) = map (fun i => pth mn ((q + i) mod n)) (seq 1 (n - 1)).
  Proof.
    intros Hn Hq. unfold cyclic_after, ports. rewrite <- Hn.
    change (fun k : nat => mn + 2 * Z.of_nat k) with (pth mn).
    rewrite filter_gt_seq by lia. rewrite filter_lt_seq by lia.
    replace (n - 1)%nat with ((0 + n - S q) + (q - 0))%nat by lia.
    rewrite seq_app, map_app. f_equal.
    - apply map_seq_eq. intros k Hk. f_equal. rewrite Nat.mod_small by lia. lia.
    - apply map_seq_eq. intros k Hk. f_equal.
      replace (q + (1 + (0 + n - S q) + k))%nat with (k + 1 * n)%nat by lia.
      rewrite Nat.mod_add by lia. rewrite Nat.mod_small by lia. reflexivity.
  Qed.

  Lemma gp_loop_seq use mn mx ctl q n : n = Z.to_nat ((mx - mn) / 2 + 1) -> (q < n)%nat -> 0 <= ctl ->
    forall k i w,
    let pt := mkPt (ports mn mx) (Z.of_nat q) ctl true in
    let '(offs, w', rc) := try_ports use w
          (filter (fun p => negb (hits_ctlb ctl p)) (map (fun i => pth mn ((q + i) mod n)) (seq i k))) in
    exists q', (q' < n)%nat /\ pth mn q' = next_last (pth mn q) offs /\
    gp_loop rnd use k (Z.of_nat i) pt w = Some (mkPt (ports mn mx) (Z.of_nat q') ctl true, w', offs, rc).
  Proof.
    intros Hn Hq Hctl. induction k as [|k IH]; intros i w; cbn zeta.
    - cbn. exists q. auto.
    - cbn [seq map filter].
      set (idx := ((q + i) mod n)%nat).
      assert (Hidx : (idx < n)%nat) by (apply Nat.mod_upper_bound; lia).
      assert (Hlen : length (ports mn mx) = n) by (unfold ports; rewrite map_length, seq_length; congruence).
      cbn [gp_loop pt_tab pt_idx pt_ctl pt_seq].
      rewrite Hlen.
      replace (Z.to_nat (Z.rem (Z.of_nat q + Z.of_nat i) (Z.of_nat n))) with idx
        by (rewrite Z.rem_mod_nonneg by lia; unfold idx; rewrite <- Nat2Z.inj_add, <- Nat2Z.inj_mod; lia).
      assert (Hnth : nth_error (ports mn mx) idx = Some (pth mn idx)).
      { unfold ports. rewrite <- Hn. rewrite nth_error_map.
        rewrite (nth_error_nth' _ 0%nat) by (rewrite seq_length; assumption).
        rewrite seq_nth by assumption. reflexivity. }
      rewrite Hnth.
      replace (Z.rem (Z.of_nat q + Z.of_nat i) (Z.of_nat n)) with (Z.of_nat idx)
        by (rewrite Z.rem_mod_nonneg by lia; unfold idx; rewrite <- Nat2Z.inj_add, <- Nat2Z.inj_mod; lia).
      unfold hits_ctlb at 1.
      replace ((pth mn idx =? ctl) || (pth mn idx =? ctl - 1)) with ((ctl =? pth mn idx) || (ctl =? pth mn idx + 1)) by lia.
      specialize (IH (S i)). replace (Z.of_nat (S i)) with (Z.of_nat i + 1) in IH by lia.
      destruct ((ctl =? pth mn idx) || (ctl =? pth mn idx + 1)); cbn [negb].
      + apply IH.
      + cbn [try_ports]. destruct (use w (pth mn idx)) as [r w1]. destruct r.
        * exists idx. cbn. auto.
        * specialize (IH w1). cbn zeta in IH.
          destruct (try_ports use w1 _) as [[offs w2] rc].
          destruct IH as (q' & Q1 & Q2 & ->). exists q'. split; [assumption|]. split; [|reflexivity].
          rewrite Q2. unfold next_last. cbn [rev]. destruct (rev offs) as [|[p []] l]; reflexivity.
        * exists idx. cbn. auto.
  Qed.

  Lemma seq_hist_ok mn mx ctl : 0 <= ctl -> mn <= mx -> forall uses q w,
    (q < Z.to_nat ((mx - mn) / 2 + 1))%nat ->
    let (w', outs) := seq_hist mn mx ctl uses (pth mn q) w in
    exists pt', gp_hist rnd uses (mkPt (ports mn mx) (Z.of_nat q) ctl true) w = Some (pt', w', outs).
  Proof.
    intros Hctl Hle. set (n := Z.to_nat ((mx - mn) / 2 + 1)).
    induction uses as [|use t IH]; intros q w Hq; cbn [seq_hist gp_hist].
    - eexists; reflexivity.
    - rewrite (cyclic_ports mn mx q n eq_refl Hq). unfold get_port. cbn [pt_tab].
      replace (length (ports mn mx)) with n by (unfold ports; rewrite map_length, seq_length; reflexivity).
      pose proof (gp_loop_seq use mn mx ctl q n eq_refl Hq Hctl (n - 1) 1 w) as H. cbn zeta in H.
      destruct (try_ports use w _) as [[offs w1] rc].
      destruct H as (q' & Q1 & Q2 & E). change (Z.of_nat 1) with 1 in E. rewrite E. rewrite <- Q2.
      specialize (IH q' w1 Q1). destruct (seq_hist mn mx ctl t (pth mn q') w1) as [w2 outs].
      destruct IH as (pt' & ->). eexists; reflexivity.
  Qed.

  Lemma port_seq_lemma mn mx ctl uses w : good_range mn mx ctl ->
    exists pt pt', pt_ctor rnd mn mx true ctl w = Some (pt, w) /\
      gp_hist rnd uses pt w =
        Some (pt', fst (seq_hist mn mx ctl uses (mn + 2 * ((mx - mn) / 2)) w),
                   snd (seq_hist mn mx ctl uses (mn + 2 * ((mx - mn) / 2)) w)).
  Proof.
    intros Hg. pose proof Hg as (H1 & H2 & H3 & H4).
    destruct (pt_ctor_ok mn mx true ctl w Hg) as (pt & w1 & E & Hinv & Hs & Hi & Ht).
    destruct (Ht eq_refl) as [Htab ->]. destruct pt as [tab idx c s]; cbn in *. subst.
    destruct Hinv as (_ & _ & Hc). cbn in Hc. subst c.
    pose proof (seq_hist_ok mn mx ctl ltac:(lia) ltac:(lia) uses (Z.to_nat ((mx - mn) / 2)) w ltac:(lia)) as H.
    replace (pth mn (Z.to_nat ((mx - mn) / 2))) with (mn + 2 * ((mx - mn) / 2)) in H by (unfold pth; lia).
    destruct (seq_hist mn mx ctl uses _ w) as [w' outs]. destruct H as (pt' & H).
    exists (mkPt (ports mn mx) ((mx - mn) / 2) ctl true), pt'. split; [assumption|].
    replace (Z.of_nat (Z.to_nat ((mx - mn) / 2))) with ((mx - mn) / 2) in H by lia. exact H.
  Qed.
End World.

Lemma try_ports_nodup {W} (use : W -> Z -> ptu * W) : forall l w,
  NoDup l -> NoDup (map fst (fst (fst (try_ports use w l)))) /\
  incl (map fst (fst (fst (try_ports use w l)))) l.
Proof.
  induction l as [|p t IH]; intros w Hn; cbn.
  - split; [constructor|]. intros x H; exact H.
  - inversion Hn as [|? ? Hnp Hnt]; subst. destruct (use w p) as [r w']. destruct r.
    + cbn. split; [repeat constructor; auto|]. intros x [->|[]]; left; reflexivity.
    + specialize (IH w' Hnt). destruct (try_ports use w' t) as [[offs w''] rc]. cbn in *.
      destruct IH as [I1 I2]. split.
      * constructor; [|assumption]. intros Hc. apply Hnp, I2, Hc.
      * intros x [->|Hx]; [left; reflexivity|right; apply I2, Hx].
    + cbn. split; [repeat constructor; auto|]. intros x [->|[]]; left; reflexivity.
Qed.

Lemma NoDup_filter {A} (f : A -> bool) l : NoDup l -> NoDup (filter f l).
Proof.
  induction 1 as [|x l Hx Hn IH]; cbn; [constructor|].
  destruct (f x); [|assumption]. constructor; [|assumption]. rewrite filter_In. tauto.
Qed.

Lemma ports_nodup mn mx : NoDup (ports mn mx).
Proof.
  unfold ports. apply FinFun.Injective_map_NoDup; [|apply seq_NoDup]. intros a b H. lia.
Qed.

Lemma cyclic_nodup l q : NoDup l -> NoDup (cyclic_after l q).
Proof.
  intros H. unfold cyclic_after.
  assert (forall a b : list Z, NoDup a -> NoDup b -> (forall x, In x a -> In x b -> False) -> NoDup (a ++ b)) as Happ.
  { clear. induction a as [|x a IH]; cbn; intros b Ha Hb Hd; [assumption|].
    inversion Ha; subst. constructor.
    - rewrite in_app_iff. intros [?|?]; [contradiction|]. eapply Hd; eauto.
    - apply IH; auto. intros y Hy1 Hy2. eapply Hd; eauto. }
  apply Happ; try apply NoDup_filter; auto.
  intros x Hx Hy. apply filter_In in Hx, Hy. lia.
Qed.

Lemma seq_hist_nodup {W} mn mx ctl : forall (uses : list (W -> Z -> ptu * W)) q w,
  Forall (fun o => NoDup (map fst (fst o))) (snd (seq_hist mn mx ctl uses q w)).
Proof.
  induction uses as [|use t IH]; intros q w; cbn; [constructor|].
  pose proof (try_ports_nodup use
    (filter (fun p => negb (hits_ctlb ctl p)) (cyclic_after (ports mn mx) q)) w) as H.
  destruct (try_ports use w _) as [[offs w'] rc].
  specialize (IH (next_last q offs) w'). destruct (seq_hist mn mx ctl t (next_last q offs) w') as [w'' outs].
  cbn. constructor; [|exact IH]. apply H. apply NoDup_filter, cyclic_nodup, ports_nodup.
Qed.

Lemma norm_ports_ok m M mn mx : 1 <= m <= 65535 -> 1 <= M <= 65535 -> norm_ports m M = Some (mn, mx) ->
  0 <= mn <= mx /\ mx <= 65535 /\ mn mod 2 = 0 /\ m <= mn /\ mx + 1 <= M /\
  (forall p, In p (ports mn mx) -> m <= p /\ p + 1 <= M /\ p mod 2 = 0).
Proof.
  intros Hm HM. unfold norm_ports.
  set (a := if m mod 2 =? 0 then m else m + 1). set (b := if M mod 2 =? 0 then M - 2 else M - 1).
  assert (Ha : a mod 2 = 0 /\ m <= a <= m + 1) by (unfold a; destruct (Z.eqb_spec (m mod 2) 0); lia).
  assert (Hb : b mod 2 = 0 /\ b + 1 <= M) by (unfold b; destruct (Z.eqb_spec (M mod 2) 0); lia).
  clearbody a b. destruct (Z.ltb_spec b a) as [E|E]; [discriminate|].
  intros H. injection H as -> ->. repeat split; try lia.
  - unfold ports in H. apply in_map_iff in H. destruct H as (k & <- & Hk). apply in_seq in Hk. lia.
  - unfold ports in H. apply in_map_iff in H. destruct H as (k & <- & Hk). apply in_seq in Hk. lia.
  - unfold ports in H. apply in_map_iff in H. destruct H as (k & <- & Hk). apply in_seq in Hk. lia.
Qed.

(** * Listeners *)
Lemma filter_fresh (l : list (Z * Z)) fd : Forall (fun e => fst e < fd) l ->
  filter (fun e => negb (fst e =? fd)) l = l.
Proof.
  induction 1 as [|e l He Hl IH]; cbn; [reflexivity|].
  replace (fst e =? fd) with false by lia. cbn. f_equal; assumption.
Qed.
Lemma map_fresh (l : list (Z * Z)) fd p : Forall (fun e => fst e < fd) l ->
  map (fun e => if fst e =? fd then (fd, p) else e) l = l.
Proof.
  induction 1 as [|e l He Hl IH]; cbn; [reflexivity|].
  replace (fst e =? fd) with false by lia. f_equal; assumption.
Qed.

Lemma create_listener_ok n port : fresh_next n ->
  let '(r, fdo, n') := create_listener n port in
  fresh_next n' /\ n_next n <= n_next n' /\
  ((r = PtuOk /\ fdo = Some (n_next n) /\ n_open n' = n_open n ++ [(n_next n, port)] /\ n_next n' = n_next n + 1) \/
   (r <> PtuOk /\ fdo = None /\ n_open n' = n_open n)).
Proof.
  intros Hf. unfold create_listener. cbn [net_tick].
  unfold fresh_next in *.
  assert (Hf1 : Forall (fun e => fst e < n_next n + 1) (n_open n)) by (eapply Forall_impl; [|exact Hf]; cbn; lia).
  destruct (n_os n (n_ok n)); cbn; rewrite ?filter_app, ?map_app; cbn; rewrite ?Z.eqb_refl; cbn;
    rewrite ?map_app, ?filter_app; cbn; rewrite ?Z.eqb_refl; cbn;
    rewrite ?(map_fresh (n_open n)), ?(filter_fresh (n_open n)) by assumption; rewrite ?app_nil_r.
  - split; [assumption|]. split; [lia|]. right. repeat split; congruence.
  - split; [assumption|]. split; [lia|]. right. repeat split; congruence.
  - split; [assumption|]. split; [lia|]. right. repeat split; congruence.
  - split; [assumption|]. split; [lia|]. right. repeat split; congruence.
  - split; [|split; [lia|left; repeat split]].
    apply Forall_app. split; [assumption|]. repeat constructor; cbn; lia.
Qed.

(** The invariant of a whole allocation: every failed attempt leaves the open sockets alone. *)
Definition quiet (n0 : net) (w : wnet) : Prop :=
  fresh_next (fst w) /\ n_next n0 <= n_next (fst w) /\ n_open (fst w) = n_open n0 /\
  lo_fd0 (snd w) = None /\ lo_fd1 (snd w) = None.

Lemma twin_ok n0 w port : fresh_next n0 -> quiet n0 w ->
  let (r, w') := twinlistener w port in
  match r with
  | PtuOk => pair_open n0 (fst w') (snd w') port /\ fresh_next (fst w')
  | _ => quiet n0 w' /\ lo_port (snd w') = lo_port (snd w)
  end.
Proof.
  destruct w as [n lo]. intros Hf0 (Hf & Hn & Ho & _). cbn in Hf, Hn, Ho. unfold twinlistener.
  pose proof (create_listener_ok n port Hf) as H0.
  destruct (create_listener n port) as [[r0 f0] n1].
  destruct H0 as (F1 & N1 & [(-> & -> & O1 & X1)|(R0 & -> & O1)]).
  - pose proof (create_listener_ok n1 (port + 1) F1) as H1.
    destruct (create_listener n1 (port + 1)) as [[r1 f1] n2].
    destruct H1 as (F2 & N2 & [(-> & -> & O2 & X2)|(R1 & -> & O2)]).
    + split; [|assumption]. cbn. exists (n_next n), (n_next n1).
      split; [lia|]. split; [f_equal; lia|].
      assert (Hnot : forall f, n_next n0 <= f -> ~ In f (map fst (n_open n0))).
      { intros f Hle Hin. apply in_map_iff in Hin. destruct Hin as (e & <- & He).
        unfold fresh_next in Hf0. rewrite Forall_forall in Hf0. specialize (Hf0 e He). lia. }
      split; [apply Hnot; lia|]. split; [apply Hnot; lia|].
      rewrite O2, O1, Ho, <- app_assoc. reflexivity.
    + assert (Hq : quiet n0 (net_close (n_next n) n2, mkLo None None (lo_port lo))).
      { unfold quiet; unfold fresh_next in *; cbn [fst snd net_close n_open n_next lo_fd0 lo_fd1].
        rewrite Ho in Hf. rewrite !O2, !O1, !Ho.
        assert (Ef : filter (fun e : Z * Z => negb (fst e =? n_next n)) (n_open n0 ++ [(n_next n, port)]) = n_open n0).
        { rewrite filter_app; cbn. rewrite Z.eqb_refl; cbn. rewrite filter_fresh by assumption. apply app_nil_r. }
        rewrite !Ef.
        repeat split; try lia. eapply Forall_impl; [|exact Hf]. cbn; lia. }
      destruct r1; [congruence| |]; split; auto; reflexivity.
  - assert (Hq : quiet n0 (n1, mkLo None None (lo_port lo))).
    { unfold quiet; cbn. rewrite O1, Ho. repeat split; auto; lia. }
    destruct r0; [congruence| |]; split; auto; reflexivity.
Qed.

Lemma quiet_rnd n0 w r w' : wnet_rnd w = (r, w') -> quiet n0 w -> quiet n0 w' /\ lo_port (snd w') = lo_port (snd w).
Proof.
  destruct w as [n lo]. unfold wnet_rnd. cbn. intros H; injection H as <- <-. unfold quiet, fresh_next; cbn. auto.
Qed.
Lemma pair_rnd n0 w r w' p : wnet_rnd w = (r, w') -> pair_open n0 (fst w) (snd w) p -> pair_open n0 (fst w') (snd w') p.
Proof. destruct w as [n lo]. unfold wnet_rnd. cbn. intros H; injection H as <- <-. unfold pair_open; cbn. auto. Qed.

Lemma gp_listener n0 : fresh_next n0 -> forall k i pt w pt' w' offs rc,
  quiet n0 w -> gp_loop wnet_rnd twinlistener k i pt w = Some (pt', w', offs, rc) ->
  (rc = 0 /\ exists l p, offs = l ++ [(p, PtuOk)] /\ pair_open n0 (fst w') (snd w') p) \/
  (rc = -1 /\ quiet n0 w' /\ lo_port (snd w') = lo_port (snd w)).
Proof.
  intros Hf0. induction k as [|k IH]; intros i pt w pt' w' offs rc Hq H; cbn [gp_loop] in H.
  - injection H as <- <- <- <-. right. auto.
  - destruct (nth_error _ _) as [port|]; [|discriminate].
    destruct ((port =? pt_ctl pt) || (port =? pt_ctl pt - 1)); [eapply IH; eassumption|].
    pose proof (twin_ok n0 w port Hf0 Hq) as Ht.
    destruct (twinlistener w port) as [r w1].
    assert (Hs : forall tab' w2, (if pt_seq pt then Some (pt_tab pt, w1)
           else let (r, w2) := wnet_rnd w1 in
                match swap_at (pt_tab pt) (Z.to_nat (Z.rem (pt_idx pt + i) (Z.of_nat (length (pt_tab pt))))) (r mod length (pt_tab pt)) with
                | None => None
                | Some t => Some (t, w2)
                end) = Some (tab', w2) -> w2 = w1 \/ exists r, wnet_rnd w1 = (r, w2)).
    { intros tab' w2. destruct (pt_seq pt); [intros E; injection E; auto|].
      destruct (wnet_rnd w1) as [rr w3]. destruct (swap_at _ _ _); [|discriminate].
      intros E; injection E as <- <-. eauto. }
    destruct (if pt_seq pt then _ else _) as [[tab' w2]|]; [|discriminate].
    specialize (Hs tab' w2 eq_refl).
    destruct r.
    + injection H as <- <- <- <-. left. split; [reflexivity|]. exists [], port. split; [reflexivity|].
      destruct Ht as [Ht _]. destruct Hs as [->|[r Hr]]; [assumption|]. eapply pair_rnd; eassumption.
    + assert (Hq2 : quiet n0 w2 /\ lo_port (snd w2) = lo_port (snd w)).
      { destruct Ht as [Ht1 Ht2]. destruct Hs as [->|[r Hr]]; [auto|].
        destruct (quiet_rnd n0 _ _ _ Hr Ht1). split; [assumption|congruence]. }
      destruct Hq2 as [Hq2 Hp2].
      destruct (gp_loop wnet_rnd twinlistener k (i + 1) _ w2) as [[[[pt2 w3] offs2] rc2]|] eqn:E; [|discriminate].
      injection H as <- <- <- <-.
      destruct (IH _ _ _ _ _ _ _ Hq2 E) as [(-> & l & p & -> & Hp)|(-> & Hqq & Hpp)].
      * left. split; [reflexivity|]. exists ((port, PtuOneMore) :: l), p. auto.
      * right. split; [reflexivity|]. split; [assumption|congruence].
    + assert (Hq2 : quiet n0 w2 /\ lo_port (snd w2) = lo_port (snd w)).
      { destruct Ht as [Ht1 Ht2]. destruct Hs as [->|[r Hr]]; [auto|].
        destruct (quiet_rnd n0 _ _ _ Hr Ht1). split; [assumption|congruence]. }
      injection H as <- <- <- <-. right. tauto.
Qed.

Lemma listener_lemma mn mx ctl pt n p0 : good_range mn mx ctl ->
  Permutation (pt_tab pt) (ports mn mx) -> 0 <= pt_idx pt < Z.of_nat (length (pt_tab pt)) -> pt_ctl pt = ctl ->
  fresh_next n ->
  exists pt' n' lo offs rc, rtpp_create_listener pt n p0 = Some (pt', (n', lo), offs, rc) /\
    ((rc = 0 /\ exists p, In p (ports mn mx) /\ ~ hits_ctl ctl p /\ pair_open n n' lo p) \/
     (rc = -1 /\ n_open n' = n_open n /\ lo = mkLo None None p0)).
Proof.
  intros Hg Hp Hi Hc Hf.
  destruct (gp_loop_ok wnet_rnd twinlistener mn mx ctl (length (pt_tab pt) - 1) 1 pt (n, mkLo None None p0)) 
    as (pt' & [n' lo] & offs & rc & E & I1 & I2 & I3 & I4 & I5); [repeat split; auto; lia|lia|].
  exists pt', n', lo, offs, rc. split; [exact E|].
  assert (Hq : quiet n (n, mkLo None None p0)) by (unfold quiet; cbn; repeat split; auto; lia).
  destruct (gp_listener n Hf _ _ _ _ _ _ _ _ Hq E) as [(-> & l & p & -> & Hpo)|(-> & Hqq & Hpp)].
  - left. split; [reflexivity|]. exists p. apply Forall_app in I3. destruct I3 as [_ I3].
    inversion I3 as [|? ? [Ha Hb] _]; subst. cbn in Ha, Hb. auto.
  - right. split; [reflexivity|]. destruct Hqq as (_ & _ & Q1 & Q2 & Q3). cbn in *.
    split; [assumption|]. destruct lo as [a b c]; cbn in *. congruence.
Qed.
