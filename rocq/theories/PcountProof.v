From Verif Require Import Base PcountModel PcountSpec.

Definition wlocs (m : Z) (x : ploc) : Z := match fst x with Some p => if p =? m then snd x else 0 | None => 0 end.
Definition wthr (m : Z) (a : pc_at) : Z :=
  match a with PIdle => 0 | PLoad _ q | PCas _ q | PAdd _ q => if q =? m then 1 else 0 end.
Definition wthrT (a : pc_at) : Z := match a with PIdle => 0 | _ => 1 end.

Definition others_below (l : list ploc) (i : nat) (m : Z) : Prop :=
  forall j, (j < i)%nat -> exists p c, nth_error l j = Some (Some p, c) /\ p <> m.

Definition thr_ok (l : list ploc) (st : list pc_op) (a : pc_at) : Prop :=
  match a with
  | PIdle => True
  | PLoad i m => (i <= length l)%nat /\ others_below l i m /\ In (PDrop m) st
  | PCas i m => (i < length l)%nat /\ others_below l i m /\ In (PDrop m) st
  | PAdd i m => (exists c, nth_error l i = Some (Some m, c)) /\ In (PDrop m) st
  end.

Record pc_inv (s : pc_sys) (lost : Z -> Z) (lostT : Z) : Prop := {
  i_rel : nrelayed (ps_cnt s) = u64 (how_many is_reld (ps_started s));
  i_drp : ndropped (ps_cnt s) = u64 (how_many is_drop (ps_started s));
  i_ign : nignored (ps_cnt s) = u64 (how_many is_ignr (ps_started s));
  i_len : length (locs (ps_cnt s)) = TOP_DROPS_SIZE;
  i_thr : forall a, In a (ps_thr s) -> thr_ok (locs (ps_cnt s)) (ps_started s) a;
  i_pre : forall i j p c, nth_error (locs (ps_cnt s)) i = Some (Some p, c) -> (j < i)%nat ->
          exists p' c', nth_error (locs (ps_cnt s)) j = Some (Some p', c');
  i_dis : forall i j p c c', nth_error (locs (ps_cnt s)) i = Some (Some p, c) ->
          nth_error (locs (ps_cnt s)) j = Some (Some p, c') -> i = j;
  i_cnt : forall i q c, nth_error (locs (ps_cnt s)) i = Some (q, c) -> 0 <= c /\ (q = None -> c = 0);
  i_in : forall i p c, nth_error (locs (ps_cnt s)) i = Some (Some p, c) -> In (PDrop p) (ps_started s);
  i_sum : forall m, zsum (wlocs m) (locs (ps_cnt s)) + zsum (wthr m) (ps_thr s) + lost m
                    = how_many (is_drop_at m) (ps_started s);
  i_sumT : zsum snd (locs (ps_cnt s)) + zsum wthrT (ps_thr s) + lostT = how_many is_drop (ps_started s);
  i_lost : forall m, 0 <= lost m /\ (0 < lost m -> forall x, In x (locs (ps_cnt s)) ->
             exists p, fst x = Some p /\ p <> m);
  i_lostT : 0 <= lostT
}.

Lemma how_many_snoc f l o : how_many f (l ++ [o]) = how_many f l + (if f o then 1 else 0).
Proof. unfold how_many. rewrite filter_app, app_length. cbn. destruct (f o); cbn; lia. Qed.

Lemma how_many_le f l : 0 <= how_many f l <= Z.of_nat (length l).
Proof.
  unfold how_many. induction l as [|x l IH]; cbn [filter length]; [lia|].
  destruct (f x); cbn [length]; lia.
Qed.

Lemma in_upd {A} (l : list A) i x y : In y (upd l i x) -> y = x \/ In y l.
Proof.
  revert i; induction l as [|h t IH]; intros [|i]; cbn; intros H; try tauto.
  - destruct H as [->|H]; auto.
  - destruct H as [->|H]; auto. destruct (IH _ H); auto.
Qed.

Lemma u64_succ a b : a = u64 b -> u64 (a + 1) = u64 (b + 1).
Proof. intros ->. unfold u64. rewrite Zplus_mod_idemp_l. reflexivity. Qed.

(** Threads' facts survive: the table only gains pointers and started grows. *)
Lemma thr_ok_mono l l' st st' a :
  length l' = length l ->
  (forall i p c, nth_error l i = Some (Some p, c) -> exists c', nth_error l' i = Some (Some p, c')) ->
  (forall o, In o st -> In o st') -> thr_ok l st a -> thr_ok l' st' a.
Proof.
  intros Hl Hk Hs. assert (Hb : forall i m, others_below l i m -> others_below l' i m).
  { intros i m H j Hj. destruct (H j Hj) as (p & c & H1 & H2). destruct (Hk _ _ _ H1) as [c' H3]. eauto. }
  destruct a as [|i m|i m|i m]; cbn; try tauto.
  - intros (?&?&?); rewrite Hl; auto.
  - intros (?&?&?); rewrite Hl; auto.
  - intros ((c&H)&?); split; auto. destruct (Hk _ _ _ H) as [c' ?]; eauto.
Qed.

Lemma pc_inv_step s lost lostT e :
  pc_inv s lost lostT -> Z.of_nat (S (length (ps_started s))) <= 18446744073709551615 ->
  exists lost' lostT', pc_inv (pc_step s e) lost' lostT'.
Proof.
  intros I Hn. destruct e as [t o]. unfold pc_step; cbn [fst snd].
  destruct (nth_error (ps_thr s) t) as [a|] eqn:Et; [|exists lost, lostT; exact I].
  destruct I as [Irel Idrp Iign Ilen Ithr Ipre Idis Icnt Iin Isum IsumT Ilost IlostT].
  pose proof (nth_error_In _ _ Et) as Hin. pose proof (Ithr _ Hin) as Hok.
  destruct s as [p th st]. cbn [ps_cnt ps_thr ps_started] in *.
  destruct a as [|i m|i m|i m]; cbn [pc_access].
  - (* idle: start an operation *)
    destruct o as [|m|]; exists lost, lostT; constructor;
      cbn [ps_cnt ps_thr ps_started nrelayed ndropped nignored locs]; rewrite ?how_many_snoc;
      cbn [is_reld is_drop is_ignr]; rewrite ?Z.add_0_r; auto;
      try (apply u64_succ; assumption);
      try (intros a' Ha'; apply in_upd in Ha'; destruct Ha' as [->|Ha'];
           [cbn; repeat split; auto; try lia; try (intros j Hj; lia); apply in_or_app; cbn; auto
           |eapply thr_ok_mono; [reflexivity|eauto|intros; apply in_or_app; left; eassumption|auto]]);
      try (intros i' p' c' H; apply in_or_app; left; eauto);
      try (intros m'; rewrite how_many_snoc; cbn [is_drop_at]; rewrite (zsum_upd _ _ _ _ _ Et);
           cbn [wthr]; specialize (Isum m'); try destruct (m =? m'); lia);
      try (rewrite (zsum_upd _ _ _ _ _ Et); cbn [wthrT]; lia).
  - (* load *)
    cbn in Hok. destruct Hok as (Hi & Hob & Hst).
    destruct (nth_error (locs p) i) as [[q c]|] eqn:Ei.
    + destruct q as [q|].
      * destruct (Z.eqb_spec q m) as [->|Hqm]; exists lost, lostT; constructor;
        cbn [ps_cnt ps_thr ps_started]; auto;
        try (intros a' Ha'; apply in_upd in Ha'; destruct Ha' as [->|Ha'];
           [cbn; repeat split; eauto|apply Ithr; assumption]);
        try (intros m'; rewrite (zsum_upd _ _ _ _ _ Et); cbn [wthr]; specialize (Isum m'); lia);
        try (rewrite (zsum_upd _ _ _ _ _ Et); cbn [wthrT]; lia).
        -- pose proof (proj1 (nth_error_Some (locs p) i)) as X. rewrite Ei in X.
           assert (Y : (i < length (locs p))%nat) by (apply X; discriminate). lia.
        -- intros j Hj. destruct (Nat.eq_dec j i) as [->|]; [eauto|apply Hob; lia].
      * exists lost, lostT; constructor; cbn [ps_cnt ps_thr ps_started]; auto.
        -- intros a' Ha'; apply in_upd in Ha'; destruct Ha' as [->|Ha']; [|auto].
           cbn; repeat split; auto. apply nth_error_Some. rewrite Ei. discriminate.
        -- intros m'; rewrite (zsum_upd _ _ _ _ _ Et); cbn [wthr]; specialize (Isum m'); lia.
        -- rewrite (zsum_upd _ _ _ _ _ Et); cbn [wthrT]; lia.
    + (* ran off the end *)
      apply nth_error_None in Ei. assert (Hil : i = length (locs p)) by lia.
      exists (fun m' => lost m' + if m =? m' then 1 else 0), (lostT + 1).
      constructor; cbn [ps_cnt ps_thr ps_started]; auto; try lia.
      -- intros a' Ha'; apply in_upd in Ha'; destruct Ha' as [->|Ha']; [exact Logic.I|auto].
      -- intros m'; rewrite (zsum_upd _ _ _ _ _ Et); cbn [wthr]; specialize (Isum m'); lia.
      -- rewrite (zsum_upd _ _ _ _ _ Et); cbn [wthrT]; lia.
      -- intros m'. destruct (Ilost m') as [L1 L2]. split; [destruct (m =? m'); lia|].
         destruct (Z.eqb_spec m m') as [<-|]; [|intros; apply L2; [lia|assumption]].
         intros _ x Hx. apply In_nth_error in Hx. destruct Hx as [j Hj].
         assert (Hjl : (j < i)%nat).
         { rewrite Hil. apply nth_error_Some. rewrite Hj. discriminate. }
         destruct (Hob j Hjl) as (p' & c & H1 & H2). rewrite Hj in H1. injection H1 as ->. exists p'; auto.
  - (* cas *)
    cbn in Hok. destruct Hok as (Hi & Hob & Hst).
    destruct (nth_error (locs p) i) as [[[q|] c]|] eqn:Ei.
    + exists lost, lostT; constructor; cbn [ps_cnt ps_thr ps_started]; auto.
      -- intros a' Ha'; apply in_upd in Ha'; destruct Ha' as [->|Ha']; [|auto].
         cbn; repeat split; auto; lia.
      -- intros m'; rewrite (zsum_upd _ _ _ _ _ Et); cbn [wthr]; specialize (Isum m'); lia.
      -- rewrite (zsum_upd _ _ _ _ _ Et); cbn [wthrT]; lia.
    + destruct (Icnt _ _ _ Ei) as [_ Hc0]. specialize (Hc0 eq_refl). subst c.
      assert (Hup : forall k q' c', nth_error (upd (locs p) i (Some m, 0)) k = Some (q', c') ->
                (k = i /\ q' = Some m /\ c' = 0) \/ (k <> i /\ nth_error (locs p) k = Some (q', c'))).
      { intros k q' c' H. destruct (Nat.eq_dec k i) as [->|Hk].
        - rewrite nth_error_upd_same in H by assumption. injection H as <- <-. auto.
        - rewrite nth_error_upd_other in H by auto. auto. }
      assert (Hlow : forall k p' c', nth_error (locs p) k = Some (Some p', c') -> (k < i)%nat).
      { intros k p' c' H. destruct (Nat.lt_ge_cases k i) as [|Hge]; [assumption|].
        destruct (Nat.eq_dec k i) as [->|]; [congruence|].
        destruct (Ipre k i p' c' H ltac:(lia)) as (p2 & c2 & H2). congruence. }
      exists lost, lostT; constructor; cbn [ps_cnt ps_thr ps_started nrelayed ndropped nignored locs]; auto.
      -- rewrite upd_length; assumption.
      -- intros a' Ha'; apply in_upd in Ha'; destruct Ha' as [->|Ha'].
         ++ cbn. split; [|assumption]. exists 0. apply nth_error_upd_same; assumption.
         ++ apply (thr_ok_mono (locs p) _ st); [apply upd_length| |auto|apply Ithr; exact Ha'].
            intros k p' c' H. exists c'. rewrite nth_error_upd_other; [assumption|]. intros ->. congruence.
      -- intros k j p' c' H Hj. destruct (Hup _ _ _ H) as [(-> & _ & _)|(Hk & H1)].
         ++ destruct (Hob j Hj) as (p2 & c2 & H2 & _). rewrite nth_error_upd_other by lia. eauto.
         ++ destruct (Ipre _ _ _ _ H1 Hj) as (p2 & c2 & H2). pose proof (Hlow _ _ _ H1).
            rewrite nth_error_upd_other by lia. eauto.
      -- intros k j p' c1 c2 H1 H2. destruct (Hup _ _ _ H1) as [(-> & E1 & _)|(Hk & H1')];
         destruct (Hup _ _ _ H2) as [(-> & E2 & _)|(Hk2 & H2')]; auto.
         ++ injection E1 as ->. destruct (Hob j (Hlow _ _ _ H2')) as (p3 & c3 & H3 & H4). congruence.
         ++ injection E2 as ->. destruct (Hob k (Hlow _ _ _ H1')) as (p3 & c3 & H3 & H4). congruence.
         ++ eauto.
      -- intros k q' c' H. destruct (Hup _ _ _ H) as [(-> & -> & ->)|(Hk & H1)]; [split; [lia|discriminate]|eauto].
      -- intros k p' c' H. destruct (Hup _ _ _ H) as [(-> & E & ->)|(Hk & H1)]; [congruence|eauto].
      -- intros m'. rewrite (zsum_upd _ _ _ _ _ Et), (zsum_upd _ _ _ _ _ Ei). unfold wlocs; cbn [fst snd wthr].
         specialize (Isum m'). fold (wlocs m'). destruct (m =? m'); lia.
      -- rewrite (zsum_upd _ _ _ _ _ Et), (zsum_upd _ _ _ _ _ Ei). cbn [wthrT snd]. lia.
      -- intros m'. destruct (Ilost m') as [L1 L2]. split; [assumption|]. intros Hpos x Hx.
         exfalso. destruct (L2 Hpos (None, 0)) as (p' & E & _); [eapply nth_error_In; eassumption|discriminate].
    + apply nth_error_None in Ei. lia.
  - (* add *)
    cbn in Hok. destruct Hok as ((c & Ei) & Hst). rewrite Ei.
    assert (Hlt : (i < length (locs p))%nat) by (apply nth_error_Some; rewrite Ei; discriminate).
    assert (Hc : 0 <= c < Z.of_nat (length st)).
    { destruct (Icnt _ _ _ Ei) as [Hc0 _]. split; [assumption|].
      specialize (Isum m). pose proof (how_many_le (is_drop_at m) st) as Hle.
      assert (W1 : wlocs m (Some m, c) <= zsum (wlocs m) (locs p)).
      { clear - Icnt Ei. assert (Hpos : forall x, In x (locs p) -> 0 <= wlocs m x).
        { intros [q c'] Hx. apply In_nth_error in Hx. destruct Hx as [k Hk].
          destruct (Icnt _ _ _ Hk). unfold wlocs; cbn. destruct q as [q|]; [destruct (q =? m)|]; lia. }
        apply nth_error_In in Ei. clear Icnt. revert Hpos Ei.
        induction (locs p) as [|h l IH]; cbn [zsum In]; intros Hpos; [tauto|].
        assert (Hh : 0 <= wlocs m h) by auto.
        assert (Hl : 0 <= zsum (wlocs m) l).
        { clear - Hpos. induction l as [|h' l IH]; cbn; [lia|].
          assert (0 <= wlocs m h') by (apply Hpos; cbn; auto).
          assert (0 <= zsum (wlocs m) l) by (apply IH; intros x [->|Hx]; apply Hpos; cbn; auto). lia. }
        intros [->|Hx]; [lia|]. specialize (IH (fun x hx => Hpos x (or_intror hx)) Hx). lia. }
      unfold wlocs in W1 at 1; cbn [fst snd] in W1. rewrite Z.eqb_refl in W1.
      assert (W2 : wthr m (PAdd i m) <= zsum (wthr m) th).
      { apply zsum_ge_in; [|assumption]. intros a; destruct a; cbn; try destruct (_ =? _); lia. }
      cbn [wthr] in W2. rewrite Z.eqb_refl in W2. destruct (Ilost m) as [L1 _]. lia. }
    assert (Hu : u64 (c + 1) = c + 1) by (apply u64_small; lia).
    rewrite Hu.
    assert (Hup : forall k q' c', nth_error (upd (locs p) i (Some m, c + 1)) k = Some (q', c') ->
              (k = i /\ q' = Some m /\ c' = c + 1) \/ (k <> i /\ nth_error (locs p) k = Some (q', c'))).
    { intros k q' c' H. destruct (Nat.eq_dec k i) as [->|Hk].
      - rewrite nth_error_upd_same in H by assumption. injection H as <- <-. auto.
      - rewrite nth_error_upd_other in H by auto. auto. }
    assert (Hkeep : forall k p' c', nth_error (locs p) k = Some (Some p', c') ->
               exists c2, nth_error (upd (locs p) i (Some m, c + 1)) k = Some (Some p', c2)).
    { intros k p' c' H. destruct (Nat.eq_dec k i) as [->|Hk].
      - rewrite nth_error_upd_same by assumption. rewrite Ei in H. injection H as <- <-. eauto.
      - rewrite nth_error_upd_other by auto. eauto. }
    exists lost, lostT; constructor; cbn [ps_cnt ps_thr ps_started nrelayed ndropped nignored locs]; auto.
    + rewrite upd_length; assumption.
    + intros a' Ha'; apply in_upd in Ha'; destruct Ha' as [->|Ha']; [exact Logic.I|].
      apply (thr_ok_mono (locs p) _ st); [apply upd_length|exact Hkeep|auto|apply Ithr; exact Ha'].
    + intros k j p' c' H Hj.
      assert (exists c0, nth_error (locs p) k = Some (Some p', c0)) as [c0 H0].
      { destruct (Hup _ _ _ H) as [(-> & E & _)|(_ & H1)]; [|eauto]. injection E as ->. eauto. }
      destruct (Ipre _ _ _ _ H0 Hj) as (p2 & c2 & H2). destruct (Hkeep _ _ _ H2) as [c3 H3]. eauto.
    + intros k j p' c1 c2 H1 H2.
      assert (forall k' c', nth_error (upd (locs p) i (Some m, c + 1)) k' = Some (Some p', c') ->
        exists c0, nth_error (locs p) k' = Some (Some p', c0)) as X.
      { intros k' c' H. destruct (Hup _ _ _ H) as [(-> & E & _)|(_ & H3)]; [|eauto]. injection E as ->. eauto. }
      destruct (X _ _ H1), (X _ _ H2). eauto.
    + intros k q' c' H. destruct (Hup _ _ _ H) as [(-> & -> & ->)|(Hk & H1)]; [split; [lia|discriminate]|eauto].
    + intros k p' c' H. destruct (Hup _ _ _ H) as [(-> & E & ->)|(Hk & H1)]; [|eauto]. injection E as ->. eauto.
    + intros m'. rewrite (zsum_upd _ _ _ _ _ Et), (zsum_upd _ _ _ _ _ Ei). unfold wlocs; cbn [fst snd wthr].
      specialize (Isum m'). fold (wlocs m'). destruct (m =? m'); lia.
    + rewrite (zsum_upd _ _ _ _ _ Et), (zsum_upd _ _ _ _ _ Ei). cbn [wthrT snd]. lia.
    + intros m'. destruct (Ilost m') as [L1 L2]. split; [assumption|]. intros Hpos x Hx.
      apply in_upd in Hx. destruct Hx as [->|Hx]; [|apply L2; assumption].
      exists m. split; [reflexivity|]. destruct (L2 Hpos (Some m, c)) as (p' & E & Hne); [eapply nth_error_In; eassumption|].
      injection E as ->. assumption.
Qed.

Lemma pc_init_inv n : pc_inv (pc_init n) (fun _ => 0) 0.
Proof.
  assert (Hs : forall i q c, nth_error (locs (ps_cnt (pc_init n))) i = Some (q, c) -> q = None /\ c = 0).
  { intros i q c H. apply nth_error_In in H. cbn in H. intuition congruence. }
  assert (Hz : forall f, f PIdle = 0 -> zsum f (repeat PIdle n) = 0).
  { intros f Hf. apply zsum_zero. intros x Hx. apply repeat_spec in Hx. congruence. }
  constructor; try reflexivity.
  - intros a Ha. apply repeat_spec in Ha. subst. exact I.
  - intros i j p c H. apply Hs in H. destruct H; discriminate.
  - intros i j p c c' H. apply Hs in H. destruct H; discriminate.
  - intros i q c H. apply Hs in H. lia.
  - intros i p c H. apply Hs in H. destruct H; discriminate.
  - intros m. cbn [pc_init ps_thr ps_cnt ps_started]. rewrite Hz by reflexivity. reflexivity.
  - cbn [pc_init ps_thr ps_cnt ps_started]. rewrite Hz by reflexivity. reflexivity.
  - intros m. split; lia.
Qed.

Lemma pc_started_le sched n : (length (ps_started (pc_run n sched)) <= length sched)%nat.
Proof.
  induction sched as [|e s IH] using rev_ind; [cbn; lia|].
  unfold pc_run in *. rewrite fold_left_app, app_length. cbn [fold_left length].
  set (x := fold_left pc_step s (pc_init n)) in *. unfold pc_step.
  destruct (nth_error (ps_thr x) (fst e)) as [a|]; [|lia].
  destruct (pc_access (ps_cnt x) a (snd e)). cbn [ps_started].
  destruct a; try lia. rewrite app_length; cbn; lia.
Qed.

Lemma pc_run_inv n sched : Z.of_nat (length sched) < 18446744073709551616 ->
  exists lost lostT, pc_inv (pc_run n sched) lost lostT.
Proof.
  induction sched as [|e s IH] using rev_ind; intros H.
  - exists (fun _ => 0), 0. apply pc_init_inv.
  - rewrite app_length in H. cbn [length] in H. destruct IH as (lost & lostT & I); [lia|].
    unfold pc_run. rewrite fold_left_app. cbn [fold_left]. fold (pc_run n s). eapply pc_inv_step; [exact I|].
    pose proof (pc_started_le s n). lia.
Qed.

Lemma loc_ptrs_in l p : In p (loc_ptrs l) <-> exists c, In (Some p, c) l.
Proof.
  unfold loc_ptrs. rewrite in_flat_map. split.
  - intros ([[q|] c] & H1 & H2); cbn in H2; [|tauto]. destruct H2 as [->|[]]. eauto.
  - intros [c H]. exists (Some p, c). cbn. auto.
Qed.

Lemma loc_ptrs_nodup l :
  (forall i j p c c', nth_error l i = Some (Some p, c) -> nth_error l j = Some (Some p, c') -> i = j) ->
  NoDup (loc_ptrs l).
Proof.
  induction l as [|[q c] l IH]; cbn; intros H; [constructor|].
  assert (Hl : NoDup (loc_ptrs l)).
  { apply IH. intros i j p c1 c2 H1 H2. specialize (H (S i) (S j) p c1 c2 H1 H2). lia. }
  destruct q as [q|]; cbn; [|exact Hl]. constructor; [|exact Hl].
  rewrite loc_ptrs_in. intros [c' Hc]. apply In_nth_error in Hc. destruct Hc as [k Hk].
  specialize (H O (S k) q c c' eq_refl Hk). lia.
Qed.

Lemma wlocs_unique l m i c :
  (forall i j p c c', nth_error l i = Some (Some p, c) -> nth_error l j = Some (Some p, c') -> i = j) ->
  nth_error l i = Some (Some m, c) -> zsum (wlocs m) l = c.
Proof.
  revert i; induction l as [|[q c0] l IH]; intros [|i] Hd H; cbn in H; try discriminate.
  - injection H as -> ->. cbn [zsum]. unfold wlocs at 1. cbn. rewrite Z.eqb_refl.
    rewrite zsum_zero; [lia|]. intros [q c'] Hx. apply In_nth_error in Hx. destruct Hx as [k Hk].
    unfold wlocs; cbn. destruct q as [q|]; [|reflexivity]. destruct (Z.eqb_spec q m) as [->|]; [|reflexivity].
    specialize (Hd O (S k) m c c' eq_refl Hk). lia.
  - cbn [zsum]. unfold wlocs at 1. cbn. rewrite (IH i); [|intros i' j' p c1 c2 H1 H2; specialize (Hd (S i') (S j') p c1 c2 H1 H2); lia|exact H].
    destruct q as [q|]; [|lia]. destruct (Z.eqb_spec q m) as [->|]; [|lia].
    specialize (Hd O (S i) m c0 c eq_refl H). lia.
Qed.

Lemma wlocs_absent l m : (forall c, ~ In (Some m, c) l) -> zsum (wlocs m) l = 0.
Proof.
  intros H. apply zsum_zero. intros [[q|] c] Hx; unfold wlocs; cbn; [|reflexivity].
  destruct (Z.eqb_spec q m) as [->|]; [|reflexivity]. destruct (H _ Hx).
Qed.

Lemma pcount_main n sched : Z.of_nat (length sched) < 18446744073709551616 ->
  let s := pc_run n sched in let st := ps_started s in let l := locs (ps_cnt s) in
  pcount_get_stats (ps_cnt s) = (how_many is_reld st, how_many is_drop st, how_many is_ignr st) /\
  NoDup (loc_ptrs l) /\
  zsum snd l <= how_many is_drop st /\
  (forall m c, In (Some m, c) l -> 0 <= c <= how_many (is_drop_at m) st).
Proof.
  intros H. cbv zeta. destruct (pc_run_inv n sched H) as (lost & lostT & I).
  pose proof (pc_started_le sched n) as Hle. set (s := pc_run n sched) in *. clearbody s.
  destruct I. set (l := locs (ps_cnt s)) in *. set (st := ps_started s) in *. split; [|split; [|split]].
  - unfold pcount_get_stats. rewrite i_rel0, i_drp0, i_ign0.
    rewrite !u64_small; [reflexivity| | |];
    match goal with |- context [how_many ?f st] => pose proof (how_many_le f st); lia end.
  - apply loc_ptrs_nodup. exact i_dis0.
  - assert (0 <= zsum wthrT (ps_thr s)) by (apply zsum_nonneg; intros []; cbn; lia). lia.
  - intros m c Hc. apply In_nth_error in Hc. destruct Hc as [k Hk].
    pose proof (wlocs_unique l m k c i_dis0 Hk) as Hw. specialize (i_sum0 m).
    assert (0 <= zsum (wthr m) (ps_thr s)) by (apply zsum_nonneg; intros []; cbn; try destruct (_ =? _); lia).
    destruct (i_lost0 m). destruct (i_cnt0 _ _ _ Hk). lia.
Qed.

Lemma log_drops_in l : (forall i j p c, nth_error l i = Some (Some p, c) -> (j < i)%nat ->
          exists p' c', nth_error l j = Some (Some p', c')) ->
  forall m c, In (m, c) (pcount_log_drops l) <-> In (Some m, c) l /\ c <> 0.
Proof.
  induction l as [|[[q|] c0] l IH]; intros Hp m c; cbn [pcount_log_drops]; [cbn; tauto| |].
  - assert (IH' : In (m, c) (pcount_log_drops l) <-> In (Some m, c) l /\ c <> 0).
    { apply IH. intros i j p c1 H1 Hj. apply (Hp (S i) (S j) p c1 H1). lia. }
    destruct (Z.eqb_spec c0 0) as [->|Hc]; cbn [In]; rewrite IH'.
    + split; [tauto|]. intros [[E|H] Hn]; [congruence|tauto].
    + split; [|intros [[E|H] Hn]; [injection E as -> ->; auto|auto]].
      intros [E|H]; [injection E as -> ->; auto|tauto].
  - split; [cbn; tauto|]. intros [[E|H] _]; [discriminate|]. apply In_nth_error in H. destruct H as [k Hk].
    destruct (Hp (S k) O m c Hk ltac:(lia)) as (? & ? & E). discriminate.
Qed.

Lemma pcount_attr n sched locations : Z.of_nat (length sched) < 18446744073709551616 ->
  let s := pc_run n sched in let st := ps_started s in
  all_idle s -> (length locations <= 4)%nat -> (forall m, In (PDrop m) st -> In m locations) ->
  forall m c, In (m, c) (pcount_log_drops (locs (ps_cnt s))) <-> c = how_many (is_drop_at m) st /\ c <> 0.
Proof.
  intros H. cbv zeta. destruct (pc_run_inv n sched H) as (lost & lostT & I).
  set (s := pc_run n sched) in *. clearbody s. intros Hidle Hlen Hloc m c.
  destruct I. set (st := ps_started s) in *. set (l := locs (ps_cnt s)) in *.
  rewrite (log_drops_in l i_pre0).
  assert (Hw0 : forall m, zsum (wthr m) (ps_thr s) = 0).
  { intros m0. apply zsum_zero. intros a Ha. rewrite (Hidle _ Ha). reflexivity. }
  assert (Hl0 : In (PDrop m) st -> lost m = 0).
  { intros Hm. destruct (i_lost0 m) as [L1 L2]. destruct (Z.eq_dec (lost m) 0); [assumption|]. exfalso.
    assert (Hall : forall x, In x l -> exists p, fst x = Some p /\ p <> m) by (apply L2; lia).
    assert (Hpl : length (loc_ptrs l) = length l).
    { clear - Hall. unfold loc_ptrs. induction l as [|[q c] l IH]; [reflexivity|]. cbn.
      destruct (Hall (q, c)) as (p & E & _); [cbn; auto|]. cbn in E. subst q. cbn.
      f_equal. apply IH. intros x Hx. apply Hall. cbn; auto. }
    assert (Hnd : NoDup (m :: loc_ptrs l)).
    { constructor; [|apply loc_ptrs_nodup; exact i_dis0]. rewrite loc_ptrs_in. intros [c' Hc'].
      destruct (Hall _ Hc') as (p & E & Hne). cbn in E. congruence. }
    assert (Hinc : incl (m :: loc_ptrs l) locations).
    { intros x [<-|Hx]; [auto|]. apply loc_ptrs_in in Hx. destruct Hx as [c' Hc'].
      apply In_nth_error in Hc'. destruct Hc' as [k Hk]. apply Hloc. eapply i_in0; exact Hk. }
    pose proof (NoDup_incl_length Hnd Hinc) as Hl. cbn [length] in Hl. rewrite Hpl in Hl.
    rewrite i_len0 in Hl. unfold TOP_DROPS_SIZE in Hl. lia. }
  assert (Hpos : 0 < how_many (is_drop_at m) st -> In (PDrop m) st).
  { clear. unfold how_many. intros Hp. destruct (filter (is_drop_at m) st) as [|o f] eqn:E; [cbn in Hp; lia|].
    assert (Ho : In o (filter (is_drop_at m) st)) by (rewrite E; cbn; auto).
    apply filter_In in Ho. destruct Ho as [Ho1 Ho2]. destruct o; cbn in Ho2; try discriminate.
    apply Z.eqb_eq in Ho2. subst. assumption. }
  specialize (i_sum0 m). rewrite Hw0 in i_sum0. pose proof (how_many_le (is_drop_at m) st) as Hh.
  split.
  - intros [Hc Hn]. split; [|assumption]. apply In_nth_error in Hc. destruct Hc as [k Hk].
    rewrite (wlocs_unique l m k c i_dis0 Hk) in i_sum0. rewrite Hl0 in i_sum0 by (eapply i_in0; exact Hk). lia.
  - intros [-> Hn]. split; [|assumption]. rewrite Hl0 in i_sum0 by (apply Hpos; lia).
    destruct (in_dec Z.eq_dec m (loc_ptrs l)) as [Hi|Hi].
    + apply loc_ptrs_in in Hi. destruct Hi as [c' Hc']. pose proof Hc' as Hc2. apply In_nth_error in Hc2. destruct Hc2 as [k Hk].
      rewrite (wlocs_unique l m k c' i_dis0 Hk) in i_sum0. replace (how_many (is_drop_at m) st) with c' by lia. assumption.
    + rewrite wlocs_absent in i_sum0; [lia|]. intros c' Hc'. apply Hi. apply loc_ptrs_in. eauto.
Qed.

(** Per-stream arrival statistics. *)
Lemma reg_pktin_acc h : forall c, 0 < first_mono c -> 0 <= longest_ipi c ->
  npkts_in c + Z.of_nat (length h) < 18446744073709551616 -> 0 <= npkts_in c ->
  let r := fold_left reg_pktin h c in
  npkts_in r = npkts_in c + Z.of_nat (length h) /\ first_mono r = first_mono c /\
  first_wall r = first_wall c /\ last_mono r = max_time (last_mono c) h /\
  longest_ipi r = Z.max (longest_ipi c) (longest_gap (last_mono c) h) /\
  (last_mono r = last_mono c -> last_wall r = last_wall c) /\
  (last_mono r <> last_mono c -> In (last_mono r, last_wall r) h).
Proof.
  induction h as [|[m w] h IH]; intros c Hf Hl Hn Hp r.
  - unfold r. cbn. repeat split; auto; try lia.
  - cbn [length] in Hn. unfold r. cbn [fold_left]. set (c1 := reg_pktin c (m, w)).
    assert (E1 : npkts_in c1 = npkts_in c + 1).
    { unfold c1, reg_pktin. destruct (first_mono c =? 0), (last_mono c <? m); cbn [npkts_in]; apply u64_small; lia. }
    assert (E2 : first_mono c1 = first_mono c /\ first_wall c1 = first_wall c /\ longest_ipi c1 = Z.max (longest_ipi c) (Z.abs (m - last_mono c))).
    { unfold c1, reg_pktin. replace (first_mono c =? 0) with false by lia.
      destruct (last_mono c <? m); cbn [first_mono first_wall longest_ipi]; repeat split; auto;
      destruct (longest_ipi c <? Z.abs (m - last_mono c)) eqn:E; lia. }
    assert (E3 : last_mono c1 = Z.max (last_mono c) m /\ last_wall c1 = if last_mono c <? m then w else last_wall c).
    { unfold c1, reg_pktin. replace (first_mono c =? 0) with false by lia.
      destruct (last_mono c <? m) eqn:E; cbn [last_mono last_wall]; split; auto; lia. }
    destruct E2 as (E2a & E2b & E2c). destruct E3 as [E3a E3b].
    destruct (IH c1) as (A1 & A2 & A3 & A4 & A5 & A6 & A7); try lia.
    cbn [length max_time longest_gap]. rewrite <- E3a.
    assert (Hmono : last_mono c1 <= max_time (last_mono c1) h).
    { clear. revert h. intros h. generalize (last_mono c1). induction h as [|[x y] h IH]; intros z; cbn; [lia|].
      specialize (IH (Z.max z x)). lia. }
    split; [lia|]. split; [lia|]. split; [congruence|]. split; [exact A4|].
    split; [rewrite A5, E2c; lia|]. split.
    + intros Hs. assert (Hlt : (last_mono c <? m) = false) by lia.
      rewrite Hlt in E3b. rewrite <- E3b. apply A6. lia.
    + intros Hs. destruct (Z.eq_dec (last_mono (fold_left reg_pktin h c1)) (last_mono c1)) as [E|E].
      * left. rewrite (A6 E), E, E3b, E3a. assert (Hlt : (last_mono c <? m) = true) by lia.
        rewrite Hlt. f_equal. lia.
      * right. apply A7; exact E.
Qed.

Lemma pcnts_main m0 w0 h : Forall (fun x => 0 < fst x) ((m0, w0) :: h) ->
  Z.of_nat (length ((m0, w0) :: h)) < 18446744073709551616 ->
  let r := fold_left reg_pktin ((m0, w0) :: h) pcnts_ctor in
  npkts_in r = Z.of_nat (length ((m0, w0) :: h)) /\
  (first_mono r, first_wall r) = (m0, w0) /\
  In (last_mono r, last_wall r) ((m0, w0) :: h) /\
  (forall x, In x ((m0, w0) :: h) -> fst x <= last_mono r) /\
  longest_ipi r = longest_gap m0 h.
Proof.
  intros Hpos Hn r. inversion Hpos as [|? ? Hm0 Hh]; subst. cbn [fst] in Hm0. cbn [length] in Hn.
  assert (E0 : reg_pktin pcnts_ctor (m0, w0) = mkPcnts 1 m0 w0 m0 w0 0).
  { unfold reg_pktin, pcnts_ctor; cbn [first_mono last_mono npkts_in longest_ipi].
    replace (0 =? 0) with true by reflexivity. replace (0 <? m0) with true by lia. reflexivity. }
  unfold r. cbn [fold_left]. rewrite E0.
  destruct (reg_pktin_acc h (mkPcnts 1 m0 w0 m0 w0 0)) as (A1 & A2 & A3 & A4 & A5 & A6 & A7);
    cbn [npkts_in first_mono last_mono longest_ipi first_wall last_wall] in *; try lia.
  split; [cbn [length]; lia|]. split; [congruence|]. split; [|split].
  - cbn [In]. destruct (Z.eq_dec (last_mono (fold_left reg_pktin h (mkPcnts 1 m0 w0 m0 w0 0))) m0) as [E|E].
    + left. rewrite E, (A6 E). reflexivity.
    + right. exact (A7 E).
  - rewrite A4. clear. intros x [<-|Hx].
    + cbn. revert m0. induction h as [|[a b] h IH]; intros m0; cbn; [lia|]. specialize (IH (Z.max m0 a)). lia.
    + revert m0 Hx. induction h as [|[a b] h IH]; intros m0; cbn [In max_time]; [tauto|]. intros [<-|Hx]; [|auto].
      cbn [fst]. clear. revert m0. induction h as [|[x y] h IH]; intros m0; cbn; [lia|].
      specialize (IH (Z.max m0 x)). revert IH. replace (Z.max (Z.max m0 x) a) with (Z.max (Z.max m0 a) x) by lia. auto.
  - rewrite A5. assert (0 <= longest_gap m0 h); [|lia].
    clear. revert m0. induction h as [|[x y] h IH]; intros m0; cbn; [lia|]. specialize (IH (Z.max m0 x)). lia.
Qed.
