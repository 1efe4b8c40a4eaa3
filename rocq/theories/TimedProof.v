From Verif Require Import Base TimedModel TimedSpec.

Lemma fm_ok p l : match first_matching l p with
  | Some (x, r) => exists l1 l2, l = l1 ++ x :: l2 /\ r = l1 ++ l2 /\ p x = true
  | None => forall y, In y l -> p y = false
  end.
Proof.
  induction l as [|x l IH]; cbn [first_matching]; [intros y []|]. destruct (p x) eqn:P.
  - exists [], l. auto.
  - destruct (first_matching l p) as [[y r]|].
    + destruct IH as (l1 & l2 & -> & -> & A). exists (x :: l1), l2. auto.
    + intros y [<-|Hy]; auto.
Qed.

Lemma advance_ok fuel : forall w off ct, w <= ct ->
  match advance fuel w off ct with
  | Some r => exists k, 1 <= k /\ r = w + k * off /\ w + (k - 1) * off <= ct < w + k * off
  | None => off <= 0 \/ ct - w >= Z.of_nat fuel - 1
  end.
Proof.
  induction fuel as [|fuel IH]; intros w off ct H; cbn [advance].
  - right. lia.
  - replace (w <=? ct) with true by lia. destruct (Z.leb_spec (w + off) ct) as [L|L].
    + specialize (IH (w + off) off ct L). destruct (advance fuel (w + off) off ct).
      * destruct IH as (k & A & B & C). exists (k + 1). lia.
      * destruct (Z.le_gt_cases off 0); [auto|]. right. destruct IH; lia.
    + destruct fuel as [|fuel]; cbn [advance].
      * right. lia.
      * replace (w + off <=? ct) with false by lia. exists 1. lia.
Qed.

Definition over (st : life) : Prop := st = Finished \/ st = Hung.
Definition running (s : timed) : option task := match t_st s with TRun _ k => Some k | _ => None end.
Record Inv (s : timed) (tr : list obs) : Prop := {
  i_nd : NoDup (map k_id (t_q s));
  i_lt : forall k, In k (t_q s) -> 0 <= k_id k < t_next s;
  i_run : forall ct k, t_st s = TRun ct k -> 0 <= k_id k < t_next s /\ ~ In (k_id k) (map k_id (t_q s)) /\ k_when k <= ct /\ lives (k_id k) tr (Running ct (k_when k) (k_off k));
  i_q : forall k, In k (t_q s) -> lives (k_id k) tr (Due (k_when k) (k_off k));
  i_un : forall id, ~ (0 <= id < t_next s) -> lives id tr Unborn;
  i_fin : forall id, 0 <= id < t_next s -> ~ In id (map k_id (t_q s)) -> (forall ct k, t_st s = TRun ct k -> k_id k <> id) -> exists st, lives id tr st /\ over st;
  i_nx : 0 <= t_next s
}.

Lemma other id tr b st : lives id tr st -> (about id b -> False) -> lives id (tr ++ [b]) st.
Proof. intros. apply l_other; assumption. Qed.

Lemma inv_other s s' tr b : Inv s tr -> t_q s' = t_q s -> t_next s' = t_next s ->
  (t_st s' = t_st s \/ ((forall ct k, t_st s <> TRun ct k) /\ (forall ct k, t_st s' <> TRun ct k))) -> (forall id, ~ about id b) -> Inv s' (tr ++ [b]).
Proof.
  intros [A B C D E F G] Eq En Es Na. constructor; rewrite ?Eq, ?En; auto.
  - intros ct k H. destruct Es as [Es|[_ Es]]; [|exfalso; eapply Es; exact H]. rewrite Es in H. destruct (C ct k H) as (C1 & C2 & C3 & C4). repeat split; try lia; try exact C2. apply other; auto. apply Na.
  - intros k H. apply other; auto. apply Na.
  - intros id H. apply other; auto. apply Na.
  - intros id H1 H2 H3. destruct (F id H1 H2) as (st & L & O').
    + intros ct k H. destruct Es as [Es|[Es _]]; [|exfalso; eapply Es; exact H]. rewrite <- Es in H. eapply H3; exact H.
    + exists st. split; [|exact O']. apply other; auto. apply Na.
Qed.

Lemma inv_step s tr o : Inv s tr -> Inv (fst (step s o)) (tr ++ [snd (step s o)]).
Proof.
  intros H. pose proof H as [A B C D E F G]. destruct o as [off now|id| |ct| |more|]; cbn [step].
  - (* schedule *)
    cbn [fst snd]. constructor; cbn [t_q t_next t_st t_term].
    + rewrite map_app. cbn [map]. apply NoDup_Add with (a := t_next s) (l := map k_id (t_q s)); [rewrite <- (app_nil_r (map k_id (t_q s))) at 1; apply Add_app|].
      split; [exact A|]. intros X. apply in_map_iff in X. destruct X as (k & Ek & Hk). apply B in Hk. lia.
    + intros k Hk. apply in_app_iff in Hk. destruct Hk as [Hk|[<-|[]]]; [apply B in Hk; lia|cbn; lia].
    + intros ct k Hk. destruct (C ct k Hk) as (C1 & C2 & C3 & C4). split; [lia|]. split; [|split; [exact C3|apply other; [exact C4|cbn; lia]]].
      rewrite map_app. intros X. apply in_app_iff in X. destruct X as [X|[X|[]]]; [tauto|cbn in X; lia].
    + intros k Hk. apply in_app_iff in Hk. destruct Hk as [Hk|[<-|[]]]; [pose proof (B _ Hk); apply other; [auto|cbn; lia]|]. cbn. apply l_sched. apply E. lia.
    + intros id Hid. apply other; [apply E; lia|cbn; lia].
    + intros id Hid Hn Hr. rewrite map_app in Hn. assert (id <> t_next s) by (intros ->; apply Hn; apply in_app_iff; right; left; reflexivity).
      destruct (F id) as (st & L & O'); [lia|intros X; apply Hn; apply in_app_iff; auto|exact Hr|]. exists st. split; [|exact O']. apply other; [exact L|cbn; lia].
    + lia.
  - (* cancel *)
    pose proof (fm_ok (fun k => k_id k =? id) (t_q s)) as M. destruct (first_matching (t_q s) (fun k => k_id k =? id)) as [[k r]|]; cbn [fst snd].
    + destruct M as (l1 & l2 & Eq & -> & P). assert (k_id k = id) by lia. subst id. rewrite Eq in A, B, C, D, F. rewrite map_app in A. cbn [map] in A.
      assert (Hk : In k (l1 ++ k :: l2)) by (apply in_app_iff; right; left; reflexivity).
      assert (Sub : forall x, In x (l1 ++ l2) -> In x (l1 ++ k :: l2) /\ k_id x <> k_id k).
      { intros x Hx. split; [apply in_app_iff in Hx; apply in_app_iff; destruct Hx; [left|right; right]; assumption|]. intros Q. apply NoDup_remove_2 in A. apply A. rewrite <- Q, <- map_app. apply in_map. exact Hx. }
      constructor; cbn [t_q t_next t_st t_term].
      * rewrite map_app. eapply NoDup_remove_1. exact A.
      * intros x Hx. apply B. apply Sub. exact Hx.
      * intros ct x Hx. destruct (C ct x Hx) as (C1 & C2 & C3 & C4). split; [lia|]. split; [|split; [exact C3|apply other; [exact C4|cbn; intros Q; apply C2; rewrite <- Q; apply in_map; exact Hk]]].
        intros X. apply C2. apply in_map_iff in X. destruct X as (y & <- & Hy). apply in_map. apply Sub. exact Hy.
      * intros x Hx. destruct (Sub x Hx). apply other; [apply D; assumption|cbn; congruence].
      * intros id Hid. apply other; [apply E; exact Hid|cbn; intros Q; apply Hid; rewrite <- Q; apply B; exact Hk].
      * intros id Hid Hn Hr. destruct (Z.eq_dec (k_id k) id) as [Q|Q].
        -- exists Finished. split; [rewrite <- Q; eapply l_cancel; apply D; exact Hk|left; reflexivity].
        -- destruct (F id Hid) as (st & L & O'); [|exact Hr|exists st; split; [apply other; [exact L|cbn; congruence]|exact O']].
           intros X. apply Hn. rewrite map_app in *. cbn [map] in X. apply in_app_iff in X. apply in_app_iff. destruct X as [X|[X|X]]; [auto|congruence|auto].
      * exact G.
    + assert (Nq : forall k, In k (t_q s) -> k_id k <> id) by (intros k Hk; specialize (M k Hk); cbn in M; lia).
      assert (Late : forall i st, lives i tr st -> (i = id -> forall d off, st <> Due d off) -> lives i (tr ++ [OCancel id false]) st).
      { intros i st L Hd. destruct (Z.eq_dec i id) as [->|N]; [apply l_late; auto|apply other; [exact L|cbn; congruence]]. }
      constructor; auto.
      * intros ct k Hk. destruct (C ct k Hk) as (C1 & C2 & C3 & C4). split; [lia|]. split; [exact C2|]. split; [exact C3|]. apply Late; [exact C4|discriminate].
      * intros k Hk. apply Late; [auto|]. intros Q. exfalso. exact (Nq k Hk Q).
      * intros i Hi. apply Late; [auto|discriminate].
      * intros i Hi Hn Hr. destruct (F i Hi Hn Hr) as (st & L & O'). exists st. split; [|exact O']. apply Late; [exact L|]. intros _ d off ->. destruct O'; discriminate.
  - eapply inv_other; [exact H|reflexivity|reflexivity|left; reflexivity|intros id X; exact X].
  - destruct (t_st s) as [|ct'|ct' k| | | | |] eqn:Es; cbn [fst snd]; try (eapply inv_other; [exact H|reflexivity|reflexivity|left; reflexivity|intros id X; exact X]).
    eapply inv_other; [exact H|reflexivity|reflexivity| |intros id X; exact X]. right. rewrite Es. split; [discriminate|]. cbn. destruct (t_term s); discriminate.
  - (* fetch *)
    destruct (t_st s) as [|ct|ct k| | | | |] eqn:Es; cbn [fst snd]; try (eapply inv_other; [exact H|reflexivity|reflexivity|left; reflexivity|intros id X; exact X]).
    pose proof (fm_ok (fun k => k_when k <=? ct) (t_q s)) as M. destruct (first_matching (t_q s) (fun k => k_when k <=? ct)) as [[k r]|]; cbn [fst snd].
    + destruct M as (l1 & l2 & Eq & -> & P). rewrite Eq in A, B, C, D, F. rewrite map_app in A. cbn [map] in A.
      assert (Hk : In k (l1 ++ k :: l2)) by (apply in_app_iff; right; left; reflexivity).
      assert (Sub : forall x, In x (l1 ++ l2) -> In x (l1 ++ k :: l2) /\ k_id x <> k_id k).
      { intros x Hx. split; [apply in_app_iff in Hx; apply in_app_iff; destruct Hx; [left|right; right]; assumption|]. intros Q. apply NoDup_remove_2 in A. apply A. rewrite <- Q, <- map_app. apply in_map. exact Hx. }
      constructor; cbn [t_q t_next t_st t_term].
      * rewrite map_app. eapply NoDup_remove_1. exact A.
      * intros x Hx. apply B. apply Sub. exact Hx.
      * intros ct' x Q. injection Q as <- <-. split; [apply B; exact Hk|]. split; [rewrite map_app; apply NoDup_remove_2; exact A|]. split; [lia|]. apply l_fire; [apply D; exact Hk|lia].
      * intros x Hx. destruct (Sub x Hx). apply other; [apply D; assumption|cbn; congruence].
      * intros id Hid. apply other; [apply E; exact Hid|cbn; intros Q; apply Hid; rewrite <- Q; apply B; exact Hk].
      * intros id Hid Hn Hr. specialize (Hr ct k eq_refl).
        destruct (F id Hid) as (st & L & O'); [|discriminate|exists st; split; [apply other; [exact L|cbn; congruence]|exact O']].
        intros X. apply Hn. rewrite map_app in *. cbn [map] in X. apply in_app_iff in X. apply in_app_iff. destruct X as [X|[X|X]]; [auto|congruence|auto].
      * exact G.
    + assert (Rd : forall i st, lives i tr st -> (forall d off, st = Due d off -> ct < d) -> lives i (tr ++ [ORound ct]) st) by (intros; apply l_round; assumption).
      constructor; cbn [t_q t_next t_st t_term]; auto.
      * discriminate.
      * intros k Hk. apply Rd; [auto|]. intros d off Q. injection Q as <- <-. specialize (M k Hk). cbn in M. lia.
      * intros i Hi. apply Rd; [auto|discriminate].
      * intros i Hi Hn Hr. destruct (F i Hi Hn) as (st & L & O'); [discriminate|]. exists st. split; [|exact O']. apply Rd; [exact L|]. intros d off ->. destruct O'; discriminate.
  - (* return *)
    destruct (t_st s) as [|ct|ct k| | | | |] eqn:Es; cbn [fst snd]; try (eapply inv_other; [exact H|reflexivity|reflexivity|left; reflexivity|intros id X; exact X]).
    destruct (C ct k eq_refl) as (C1 & C2 & C3 & C4).
    assert (Oth : forall b, (forall i, about i b -> i = k_id k) -> forall st', lives (k_id k) (tr ++ [b]) st' -> over st' -> forall st2 : tstate, (forall c x, st2 <> TRun c x) -> Inv (mkT (t_q s) (t_next s) st2 (t_term s)) (tr ++ [b])).
    { intros b Hb st' L' Ov st2 N2. constructor; cbn [t_q t_next t_st t_term]; auto.
      - intros c x Q. exfalso. eapply N2. exact Q.
      - intros x Hx. apply other; [auto|]. intros Q. apply Hb in Q. apply C2. rewrite <- Q. apply in_map. exact Hx.
      - intros i Hi. apply other; [auto|]. intros Q. apply Hb in Q. lia.
      - intros i Hi Hn Hr. destruct (Z.eq_dec i (k_id k)) as [->|N]; [exists st'; auto|]. destruct (F i Hi Hn) as (st & L & O'); [intros c x Q; injection Q as <- <-; congruence|].
        exists st. split; [|exact O']. apply other; [exact L|]. intros Q. apply Hb in Q. congruence. }
    destruct more; cbn [fst snd].
    + pose proof (advance_ok (S (S (Z.to_nat (ct - k_when k)))) (k_when k) (k_off k) ct C3) as Ad. destruct (advance _ _ _ _) as [w|]; cbn [fst snd].
      * destruct Ad as (m & M1 & -> & M2). constructor; cbn [t_q t_next t_st t_term].
        -- rewrite map_app. cbn [map k_id]. apply NoDup_Add with (a := k_id k) (l := map k_id (t_q s)); [rewrite <- (app_nil_r (map k_id (t_q s))) at 1; apply Add_app|]. split; assumption.
        -- intros x Hx. apply in_app_iff in Hx. destruct Hx as [Hx|[<-|[]]]; [auto|cbn; lia].
        -- discriminate.
        -- intros x Hx. apply in_app_iff in Hx. destruct Hx as [Hx|[<-|[]]].
           ++ apply other; [auto|]. cbn. intros Q. apply C2. rewrite Q. apply in_map. exact Hx.
           ++ cbn [k_id k_when k_off]. eapply l_more; eassumption.
        -- intros i Hi. apply other; [auto|cbn; lia].
        -- intros i Hi Hn Hr. rewrite map_app in Hn. assert (i <> k_id k) by (intros ->; apply Hn; apply in_app_iff; right; left; reflexivity).
           destruct (F i Hi) as (st & L & O'); [intros X; apply Hn; apply in_app_iff; auto|intros c x Q; injection Q as <- <-; congruence|].
           exists st. split; [|exact O']. apply other; [exact L|cbn; congruence].
        -- exact G.
      * apply (Oth (OMore (k_id k))) with (st' := Hung); [cbn; auto| |right; reflexivity|discriminate]. eapply l_hang; [exact C4|]. destruct Ad; lia.
    + apply (Oth (OEnd (k_id k))) with (st' := Finished); [cbn; auto| |left; reflexivity|discriminate]. eapply l_end. exact C4.
  - (* drain *)
    destruct (t_st s) as [|ct|ct k| | | | |] eqn:Es; cbn [fst snd]; try (eapply inv_other; [exact H|reflexivity|reflexivity|left; reflexivity|intros id X; exact X]).
    + eapply inv_other; [exact H|reflexivity|reflexivity| |intros id X; exact X]. right. rewrite Es. split; [discriminate|]. cbn. destruct (t_q s); discriminate.
    + destruct (t_q s) as [|k r] eqn:Eq; cbn [fst snd].
      * eapply inv_other; [exact H|cbn; congruence|reflexivity| |intros id X; exact X]. right. rewrite Es. split; discriminate.
      * cbn [map] in A. inversion A as [|? ? A1 A2]; subst.
        constructor; cbn [t_q t_next t_st t_term].
        -- exact A2.
        -- intros x Hx. apply B. right. exact Hx.
        -- discriminate.
        -- intros x Hx. apply other; [apply D; right; exact Hx|]. cbn. intros Q. apply A1. rewrite Q. apply in_map. exact Hx.
        -- intros i Hi. apply other; [auto|]. cbn. intros <-. apply Hi. apply B. left. reflexivity.
        -- intros i Hi Hn Hr. destruct (Z.eq_dec (k_id k) i) as [Q|Q].
           ++ exists Finished. split; [rewrite <- Q; eapply l_drain; apply D; left; reflexivity|left; reflexivity].
           ++ destruct (F i Hi) as (st & L & O'); [cbn [map]; intros [X|X]; [congruence|tauto]|discriminate|]. exists st. split; [|exact O']. apply other; [exact L|cbn; congruence].
        -- exact G.
Qed.

Lemma inv_run os : forall s tr, Inv s tr -> Inv (fst (run s os)) (tr ++ snd (run s os)).
Proof.
  induction os as [|o os IH]; intros s tr H; cbn [run]; [cbn; rewrite app_nil_r; exact H|].
  pose proof (inv_step s tr o H) as H1. destruct (step s o) as [s1 b]. cbn [fst snd] in H1. specialize (IH s1 _ H1). destruct (run s1 os) as [s2 t2]. cbn [fst snd] in *.
  rewrite <- app_assoc in IH. exact IH.
Qed.
Lemma inv0 : Inv timed0 [].
Proof.
  constructor; cbn.
  - constructor.
  - intros k [].
  - discriminate.
  - intros k [].
  - intros. constructor.
  - intros; lia.
  - lia.
Qed.

Lemma run_lives os id : exists st, lives id (snd (run timed0 os)) st.
Proof.
  pose proof (inv_run os timed0 [] inv0) as H. cbn [app] in H. destruct H as [A B C D E F G]. set (s := fst (run timed0 os)) in *.
  destruct (in_dec Z.eq_dec id (map k_id (t_q s))) as [X|X].
  - apply in_map_iff in X. destruct X as (k & <- & Hk). eauto.
  - assert (T : (exists ct k, t_st s = TRun ct k /\ k_id k = id) \/ forall ct k, t_st s = TRun ct k -> k_id k <> id).
    { destruct (t_st s) as [|ct|ct k| | | | |]; try (right; discriminate). destruct (Z.eq_dec (k_id k) id); [left; eauto|right; intros c x Q; injection Q as <- <-; assumption]. }
    destruct T as [(ct & k & Es & <-)|T]; [exists (Running ct (k_when k) (k_off k)); apply (C ct k Es)|].
    assert (R : 0 <= id < t_next s \/ ~ (0 <= id < t_next s)) by lia. destruct R as [R|R]; [|eauto]. destruct (F id R X T) as (st & L & _). eauto.
Qed.

(** * What [lives] excludes *)
Lemma lives_snoc id tr b st : lives id (tr ++ [b]) st -> exists st0, lives id tr st0 /\
  ((~ about id b /\ st = st0) \/
   (exists off now, b = OSched id off now /\ st0 = Unborn /\ st = Due (now + off) off) \/
   (exists d off t, b = OFire id t /\ st0 = Due d off /\ d <= t /\ st = Running t d off) \/
   (exists t d off k, b = OMore id /\ st0 = Running t d off /\ 1 <= k /\ d + (k - 1) * off <= t < d + k * off /\ st = Due (d + k * off) off) \/
   (exists t d off, b = OMore id /\ st0 = Running t d off /\ off <= 0 /\ st = Hung) \/
   (exists t d off, b = OEnd id /\ st0 = Running t d off /\ st = Finished) \/
   (exists d off, (b = OCancel id true \/ b = ODrain id) /\ st0 = Due d off /\ st = Finished) \/
   (b = OCancel id false /\ st = st0 /\ forall d off, st0 <> Due d off) \/
   (exists t, b = ORound t /\ st = st0 /\ forall d off, st0 = Due d off -> t < d)).
Proof.
  intros H. remember (tr ++ [b]) as l eqn:El. destruct H; try (apply app_inj_tail in El; destruct El as [<- <-]).
  - destruct tr; discriminate.
  - exists st. auto.
  - eexists; split; [eassumption|]. right; left. eauto.
  - eexists; split; [eassumption|]. right; right; left. eauto 10.
  - eexists; split; [eassumption|]. do 3 right; left. eauto 10.
  - eexists; split; [eassumption|]. do 4 right; left. eauto 10.
  - eexists; split; [eassumption|]. do 5 right; left. eauto 10.
  - eexists; split; [eassumption|]. do 6 right; left. eauto 10.
  - eexists; split; [eassumption|]. do 6 right; left. eauto 10.
  - eexists; split; [eassumption|]. do 7 right; left. eauto 10.
  - eexists; split; [eassumption|]. do 8 right. eauto 10.
Qed.

Lemma lives_fun id tr : forall st st', lives id tr st -> lives id tr st' -> st = st'.
Proof.
  assert (Kk : forall d off t k k', d + (k - 1) * off <= t < d + k * off -> d + (k' - 1) * off <= t < d + k' * off -> k = k').
  { intros d off t k k' A B. nia. }
  induction tr as [|b tr IH] using rev_ind; intros st st' H H'.
  - inversion H; try (destruct tr; discriminate). inversion H'; try (destruct tr; discriminate). reflexivity.
  - apply lives_snoc in H. apply lives_snoc in H'. destruct H as (s0 & L & H), H' as (s0' & L' & H'). pose proof (IH _ _ L L') as <-.
    destruct H as [[N ->]|[(a1&a2&->&E&->)|[(a1&a2&a3&->&E&Hd&->)|[(a1&a2&a3&a4&->&E&Hk&Hm&->)|[(a1&a2&a3&->&E&Hm&->)|[(a1&a2&a3&->&E&->)|[(a1&a2&Hb&E&->)|[(->&->&Hn)|(a1&->&->&Hn)]]]]]]]];
    destruct H' as [[N' ->]|[(b1&b2&B&E'&->)|[(b1&b2&b3&B&E'&Hd'&->)|[(b1&b2&b3&b4&B&E'&Hk'&Hm'&->)|[(b1&b2&b3&B&E'&Hm'&->)|[(b1&b2&b3&B&E'&->)|[(b1&b2&B&E'&->)|[(B&->&Hn')|(b1&B&->&Hn')]]]]]]]];
    try reflexivity; subst; try congruence; try (exfalso; apply N; reflexivity); try (exfalso; apply N'; reflexivity);
    try (exfalso; apply N; exact I); try (exfalso; apply N'; exact I);
    repeat match goal with Q : _ \/ _ |- _ => destruct Q; subst end; try congruence; try (exfalso; apply N; reflexivity); try (exfalso; apply N'; reflexivity).
    + injection E' as <- <- <-. rewrite (Kk _ _ _ _ _ Hm Hm'). reflexivity.
    + exfalso. injection E' as <- <- <-. lia.
    + exfalso. injection E' as <- <- <-. lia.
Qed.

Lemma finished_quiet id tr2 : forall tr1 st, lives id tr1 st -> over st -> forall st2, lives id (tr1 ++ tr2) st2 -> st2 = st /\ (forall t, ~ In (OFire id t) tr2) /\ ~ In (OCancel id true) tr2 /\ ~ In (ODrain id) tr2 /\ ~ In (OMore id) tr2 /\ ~ In (OEnd id) tr2.
Proof.
  induction tr2 as [|b tr2 IH] using rev_ind; intros tr1 st L O' st2 L2.
  - rewrite app_nil_r in L2. rewrite (lives_fun _ _ _ _ L2 L). auto 10.
  - rewrite app_assoc in L2. apply lives_snoc in L2. destruct L2 as (s0 & L0 & H). destruct (IH tr1 st L O' s0 L0) as (-> & A1 & A2 & A3 & A4 & A5).
    assert (Nd : forall d off, st <> Due d off) by (destruct O' as [-> | ->]; discriminate). assert (Nr : forall t d off, st <> Running t d off) by (destruct O' as [-> | ->]; discriminate).
    assert (Nu : st <> Unborn) by (destruct O' as [-> | ->]; discriminate).
    assert (K : st2 = st /\ (forall t, b <> OFire id t) /\ b <> OCancel id true /\ b <> ODrain id /\ b <> OMore id /\ b <> OEnd id).
    { destruct H as [[N ->]|[(a1&a2&->&E&->)|[(a1&a2&a3&->&E&Hd&->)|[(a1&a2&a3&a4&->&E&Hk&Hm&->)|[(a1&a2&a3&->&E&Hm&->)|[(a1&a2&a3&->&E&->)|[(a1&a2&Hb&E&->)|[(->&->&Hn)|(a1&->&->&Hn)]]]]]]]]; try (exfalso; congruence).
      - repeat split; intros; intros ->; apply N; reflexivity.
      - repeat split; intros; discriminate.
      - repeat split; intros; discriminate. }
    destruct K as (-> & K1 & K2 & K3 & K4 & K5). split; [reflexivity|].
    repeat split; intros; intros X; apply in_app_iff in X; destruct X as [X|[X|[]]]; try tauto; try congruence; try (eapply A1; exact X); eapply K1; exact X.
Qed.

Lemma lives_prefix id tr2 : forall tr1 st, lives id (tr1 ++ tr2) st -> exists st1, lives id tr1 st1.
Proof.
  induction tr2 as [|b tr2 IH] using rev_ind; intros tr1 st L; [rewrite app_nil_r in L; eauto|].
  rewrite app_assoc in L. apply lives_snoc in L. destruct L as (s0 & L & _). eauto.
Qed.
Definition born (id : Z) (tr : list obs) (d off : Z) : Prop := exists now, In (OSched id off now) tr /\ now + off <= d.
Lemma born_app id tr b d off : born id tr d off -> born id (tr ++ [b]) d off.
Proof. intros (n & A & B). exists n. split; [apply in_app_iff; auto|exact B]. Qed.
Lemma lives_born id tr : forall st, lives id tr st -> (forall d off, st = Due d off -> born id tr d off) /\ (forall t d off, st = Running t d off -> born id tr d off).
Proof.
  induction tr as [|b tr IH] using rev_ind; intros st L.
  - inversion L; try (destruct tr; discriminate). split; discriminate.
  - apply lives_snoc in L. destruct L as (s0 & L & H). destruct (IH s0 L) as [D R].
    destruct H as [[N ->]|[(a1&a2&->&E&->)|[(a1&a2&a3&->&E&Hd&->)|[(a1&a2&a3&a4&->&E&Hk&Hm&->)|[(a1&a2&a3&->&E&Hm&->)|[(a1&a2&a3&->&E&->)|[(a1&a2&Hb&E&->)|[(->&->&Hn)|(a1&->&->&Hn)]]]]]]]];
      (split; [intros d off Q|intros t d off Q]); try discriminate; try (apply born_app; eauto; fail).
    + injection Q as <- <-. exists a2. split; [apply in_app_iff; right; left; reflexivity|lia].
    + injection Q as <- <- <-. apply born_app. eauto.
    + injection Q as <- <-. apply born_app. destruct (R _ _ _ E) as (n & A & B). exists n. split; [exact A|]. nia.
Qed.

(** a task that was scheduled and is neither running nor finished is waiting with its first due time, if
    it never fired *)
Lemma lives_waiting id tr : forall st off now, lives id tr st -> In (OSched id off now) tr -> (forall t, ~ In (OFire id t) tr) -> ~ In (OCancel id true) tr -> ~ In (ODrain id) tr -> st = Due (now + off) off.
Proof.
  assert (U : forall tr st, lives id tr st -> st = Unborn -> forall off now, ~ In (OSched id off now) tr).
  { clear. induction tr as [|b tr IH] using rev_ind; intros st L Q off now X; [exact X|].
    apply lives_snoc in L. destruct L as (s0 & L & H). apply in_app_iff in X.
    destruct H as [[N ->]|[(a1&a2&->&E&->)|[(a1&a2&a3&->&E&Hd&->)|[(a1&a2&a3&a4&->&E&Hk&Hm&->)|[(a1&a2&a3&->&E&Hm&->)|[(a1&a2&a3&->&E&->)|[(a1&a2&Hb&E&->)|[(->&->&Hn)|(a1&->&->&Hn)]]]]]]]]; try discriminate.
    - destruct X as [X|[X|[]]]; [eapply IH; eassumption|]. subst b. apply N. reflexivity.
    - destruct X as [X|[X|[]]]; [eapply IH; eassumption|discriminate].
    - destruct X as [X|[X|[]]]; [eapply IH; eassumption|discriminate]. }
  induction tr as [|b tr IH] using rev_ind; intros st off now L Hs Nf Nc Nd; [destruct Hs|].
  apply lives_snoc in L. destruct L as (s0 & L & H). apply in_app_iff in Hs.
  assert (Nf' : forall t, ~ In (OFire id t) tr) by (intros t X; apply (Nf t); apply in_app_iff; auto).
  assert (Nc' : ~ In (OCancel id true) tr) by (intros X; apply Nc; apply in_app_iff; auto).
  assert (Nd' : ~ In (ODrain id) tr) by (intros X; apply Nd; apply in_app_iff; auto).
  assert (Lb : forall y, b = y -> In y (tr ++ [b])) by (intros y <-; apply in_app_iff; right; left; reflexivity).
  destruct Hs as [Hs|[Hs|[]]].
  - specialize (IH s0 off now L Hs Nf' Nc' Nd'). subst s0.
    destruct H as [[N ->]|[(a1&a2&->&E&->)|[(a1&a2&a3&->&E&Hd&->)|[(a1&a2&a3&a4&->&E&Hk&Hm&->)|[(a1&a2&a3&->&E&Hm&->)|[(a1&a2&a3&->&E&->)|[(a1&a2&Hb&E&->)|[(->&->&Hn)|(a1&->&->&Hn)]]]]]]]]; try discriminate; try reflexivity.
    + exfalso. apply (Nf a3). apply Lb. reflexivity.
    + exfalso. destruct Hb as [-> | ->]; [apply Nc|apply Nd]; apply Lb; reflexivity.
  - subst b.
    destruct H as [[N ->]|[(a1&a2&Q&E&->)|[(a1&a2&a3&Q&E&Hd&->)|[(a1&a2&a3&a4&Q&E&Hk&Hm&->)|[(a1&a2&a3&Q&E&Hm&->)|[(a1&a2&a3&Q&E&->)|[(a1&a2&Hb&E&->)|[(Q&->&Hn)|(a1&Q&->&Hn)]]]]]]]]; try discriminate.
    + exfalso. apply N. reflexivity.
    + injection Q as <- <-. reflexivity.
    + exfalso. destruct Hb; discriminate.
Qed.
