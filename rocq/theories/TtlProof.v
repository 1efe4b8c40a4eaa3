From Verif Require Import Base TtlModel TtlSpec.

(** * TTL object alone *)


Lemma ttl_run_val : forall h n d t,
  0 <= n < 2147483648 -> 0 <= d -> ops_ok h -> d + Z.of_nat (length h) <= 2147483648 ->
  max_ttl t = n -> cur_ttl t = n - d ->
  cur_ttl (ttl_run t h) = ttl_set n h - decrs d h /\ max_ttl (ttl_run t h) = ttl_set n h.
Proof.
  induction h as [|o h IH]; intros n d t Hn Hd Hok Hl Hm Hc; cbn.
  - split; assumption.
  - inversion Hok as [|? ? Ho Hok']; subst. cbn [length] in Hl.
    destruct o as [|m| |]; cbn.
    + apply IH; cbn; auto; try lia.
    + apply IH; cbn; auto; try lia.
    + apply IH; cbn; auto; try lia. rewrite Hc. rewrite s32_small by lia. lia.
    + apply IH; cbn; auto; try lia.
Qed.

Lemma ttl_get_exact n h :
  0 <= n < 2147483648 -> ops_ok h -> Z.of_nat (length h) <= 2147483648 ->
  ttl_get (ttl_run (ttl_ctor n) h) = Z.max 0 (ttl_set n h - decrs 0 h) /\
  snd (ttl_decr (ttl_run (ttl_ctor n) h)) = Z.max 0 (ttl_set n h - decrs 0 h).
Proof.
  intros Hn Hok Hl.
  destruct (ttl_run_val h n 0 (ttl_ctor n)) as [H1 _]; auto; try lia; [cbn; lia|].
  unfold ttl_get, ttl_decr; cbn. rewrite H1.
  destruct (Z.ltb_spec (ttl_set n h - decrs 0 h) 0); lia.
Qed.

(** * Sessions *)
Definition sel (i : Z) (tab : list sess) : list sess := filter (fun s => se_id s =? i) tab.

Lemma sel_on_sess i j f tab : (forall s, se_id (f s) = se_id s) ->
  sel i (on_sess tab j f) = if i =? j then map f (sel i tab) else sel i tab.
Proof.
  intros Hf. unfold sel, on_sess. induction tab as [|s t IH]; cbn.
  - destruct (i =? j); reflexivity.
  - destruct (Z.eqb_spec (se_id s) j) as [E|E].
    + rewrite Hf. rewrite IH. destruct (Z.eqb_spec (se_id s) i) as [E2|E2].
      * replace (i =? j) with true by lia. reflexivity.
      * replace (i =? j) with false by lia. reflexivity.
    + rewrite IH. destruct (Z.eqb_spec (se_id s) i) as [E2|E2].
      * replace (i =? j) with false by lia. reflexivity.
      * reflexivity.
Qed.

Lemma sel_visit_other i j v : i <> j -> forall tab t n ns,
  visit tab j v = (t, n, ns) -> sel i t = sel i tab.
Proof.
  intros Hij. induction tab as [|s tab IH]; intros t n ns H; cbn in H.
  - inversion H; reflexivity.
  - destruct (Z.eqb_spec (se_id s) j) as [E|E].
    + unfold foreach_cb in H. destruct (pipe_get_ttl (se_ttl s) =? 0); inversion H; subst; unfold sel; cbn.
      * replace (se_id s =? i) with false by lia. reflexivity.
      * replace (se_id s =? i) with false by lia. reflexivity.
    + destruct (visit tab j v) as [[t' n'] ns'] eqn:Ev. inversion H; subst.
      unfold sel in *; cbn. rewrite (IH _ _ _ eq_refl). reflexivity.
Qed.

Lemma visit_ns j v : forall tab t n ns, visit tab j v = (t, n, ns) ->
  forall i, i <> j -> count_occ Z.eq_dec ns i = count_occ Z.eq_dec (sv_notified v) i.
Proof.
  induction tab as [|s tab IH]; intros t n ns H i Hij; cbn in H.
  - inversion H; reflexivity.
  - destruct (Z.eqb_spec (se_id s) j) as [E|E].
    + unfold foreach_cb in H. destruct (pipe_get_ttl (se_ttl s) =? 0); inversion H; subst; [|reflexivity].
      destruct (se_notify s); [|reflexivity].
      rewrite count_occ_app. cbn. destruct (Z.eq_dec (se_id s) i); [congruence|]. lia.
    + destruct (visit tab j v) as [[t' n'] ns'] eqn:Ev. inversion H; subst. eapply IH; eauto.
Qed.

Lemma visit_none i v : forall tab, sel i tab = [] -> visit tab i v = (tab, sv_ntimeout v, sv_notified v).
Proof.
  induction tab as [|s tab IH]; cbn; intros H; [reflexivity|].
  unfold sel in H. cbn in H. destruct (se_id s =? i); [discriminate|].
  rewrite (IH H). reflexivity.
Qed.

Lemma visit_one i v : forall tab s, sel i tab = [s] ->
  exists t, visit tab i v =
    (t, snd (fst (foreach_cb s v)), snd (foreach_cb s v)) /\
    sel i t = match fst (fst (foreach_cb s v)) with Some s' => [s'] | None => [] end.
Proof.
  induction tab as [|x tab IH]; cbn; intros s H; [discriminate|].
  unfold sel in H; cbn in H. destruct (Z.eqb_spec (se_id x) i) as [E|E].
  - injection H as -> H'. clear IH.
    destruct (foreach_cb s v) as [[o n] ns] eqn:Ec. cbn.
    eexists; split; [reflexivity|].
    unfold foreach_cb in Ec. destruct (pipe_get_ttl (se_ttl s) =? 0); inversion Ec; subst; unfold sel; cbn.
    + exact H'.
    + replace (se_id s =? se_id s) with true by lia. f_equal. exact H'.
  - destruct (IH s H) as (t & Ht & Hs). rewrite Ht.
    eexists; split; [reflexivity|]. unfold sel in *; cbn.
    destruct (Z.eqb_spec (se_id x) i); [lia|]. exact Hs.
Qed.

Lemma sel_filter_del i j tab :
  sel i (filter (fun s => negb (se_id s =? j)) tab) = if i =? j then [] else sel i tab.
Proof.
  unfold sel. induction tab as [|s t IH]; cbn.
  - destruct (i =? j); reflexivity.
  - destruct (Z.eqb_spec (se_id s) j) as [E|E]; cbn.
    + rewrite IH. destruct (Z.eqb_spec i j); [reflexivity|].
      replace (se_id s =? i) with false by lia. reflexivity.
    + destruct (Z.eqb_spec (se_id s) i) as [E2|E2]; rewrite IH.
      * replace (i =? j) with false by lia. reflexivity.
      * reflexivity.
Qed.

Lemma sel_app i a b : sel i (a ++ b) = sel i a ++ sel i b.
Proof. unfold sel; apply filter_app. Qed.

(** ** The specification functions, one event at a time *)
Lemma idle_snoc i sh s e : forall h acc, idle i sh s acc (h ++ [e]) =
  match e with
  | EVisit j => if j =? i then idle i sh s acc h + 1 else idle i sh s acc h
  | EPacket j s' => if (j =? i) && same_group sh s s' then 0 else idle i sh s acc h
  | ESetTtl j s' _ => if (j =? i) && same_group sh s s' then 0 else idle i sh s acc h
  | _ => idle i sh s acc h
  end.
Proof.
  induction h as [|x h IH]; intros acc.
  - destruct e; reflexivity.
  - destruct x; cbn [app idle]; apply IH.
Qed.

Lemma limit_snoc i sh s e : forall h cur, limit i sh s cur (h ++ [e]) =
  match e with
  | ESetTtl j s' m => if (j =? i) && same_group sh s s' then m else limit i sh s cur h
  | _ => limit i sh s cur h
  end.
Proof.
  induction h as [|x h IH]; intros cur.
  - destruct e; reflexivity.
  - destruct x; cbn [app limit]; apply IH.
Qed.

Lemma idle_nonneg i sh s : forall h acc, 0 <= acc -> 0 <= idle i sh s acc h.
Proof.
  induction h as [|x h IH]; intros acc Ha; cbn; [lia|].
  destruct x; cbn; apply IH; try lia.
  - destruct (_ && _); lia.
  - destruct (_ && _); lia.
  - destruct (_ =? _); lia.
Qed.

Lemma survives_snoc i sh n0 n1 h e :
  survives i sh n0 n1 (h ++ [e]) <->
  survives i sh n0 n1 h /\ e <> EDelete i /\ (e = EVisit i -> ~ expired i sh n0 n1 h).
Proof.
  split.
  - intros H. split.
    + intros h1 e' h2 E. apply (H h1 e' (h2 ++ [e])). rewrite E, <- app_assoc. reflexivity.
    + apply (H h e []). reflexivity.
  - intros (H1 & H2 & H3) h1 e' h2 E.
    destruct h2 as [|x h2] using rev_ind.
    + apply app_inj_tail in E. destruct E as [-> ->]. split; assumption.
    + rewrite app_comm_cons, app_assoc in E. apply app_inj_tail in E. destruct E as [-> ->].
      apply (H1 h1 e' h2). reflexivity.
Qed.

Lemma survives_nil i sh n0 n1 : survives i sh n0 n1 [].
Proof. intros h1 e h2 H. destruct h1; discriminate. Qed.

Lemma times_out_snoc i sh n0 n1 h e :
  times_out i sh n0 n1 (h ++ [e]) <->
  times_out i sh n0 n1 h \/ (e = EVisit i /\ survives i sh n0 n1 h /\ expired i sh n0 n1 h).
Proof.
  split.
  - intros (h1 & h2 & E & Hs & He).
    destruct h2 as [|x h2] using rev_ind.
    + apply app_inj_tail in E. destruct E as [-> ->]. right. auto.
    + left. rewrite app_comm_cons, app_assoc in E. apply app_inj_tail in E.
      destruct E as [-> ->]. exists h1, h2. auto.
  - intros [(h1 & h2 & -> & Hs & He)|(-> & Hs & He)].
    + exists h1, (h2 ++ [e]). rewrite <- app_assoc. auto.
    + exists h, []. auto.
Qed.

Lemma times_out_not_survives i sh n0 n1 h :
  times_out i sh n0 n1 h -> ~ survives i sh n0 n1 h.
Proof.
  intros (h1 & h2 & -> & Hs & He) H.
  destruct (H h1 (EVisit i) h2 eq_refl) as [_ Hn]. exact (Hn eq_refl He).
Qed.

(** ** Invariant *)

Definition ttl_ok (i : Z) (sh : bool) (s : side) (n : Z) (h : list event) (t : ttl) : Prop :=
  max_ttl t = limit i sh s n h /\ cur_ttl t = limit i sh s n h - idle i sh s 0 h /\ in_int (max_ttl t)
  /\ (idle i sh s 0 h <= Z.max 0 (limit i sh s n h)).

Definition pt_ok (i : Z) (sh : bool) (n0 n1 : Z) (h : list event) (p : pipe_ttl) : Prop :=
  match p with
  | Shared t => sh = true /\ ttl_ok i sh SideO n0 h t /\ ttl_ok i sh SideA n0 h t
  | Indep t0 t1 => sh = false /\ ttl_ok i sh SideO n0 h t0 /\ ttl_ok i sh SideA n1 h t1
  end.

Definition Rel (i : Z) (sh : bool) (n0 n1 : Z) (nt : bool) (h : list event) (v : srv) : Prop :=
  (survives i sh n0 n1 h /\ count_occ Z.eq_dec (sv_notified v) i = 0%nat /\
   exists s, sel i (sv_tab v) = [s] /\ se_id s = i /\ se_notify s = nt /\ pt_ok i sh n0 n1 h (se_ttl s))
  \/
  (~ survives i sh n0 n1 h /\ sel i (sv_tab v) = [] /\
   ((times_out i sh n0 n1 h /\ count_occ Z.eq_dec (sv_notified v) i = (if nt then 1 else 0)%nat) \/
    (~ times_out i sh n0 n1 h /\ count_occ Z.eq_dec (sv_notified v) i = 0%nat))).

Lemma pipe_zero_iff i sh n0 n1 h p : pt_ok i sh n0 n1 h p ->
  (pipe_get_ttl p = 0 <-> expired i sh n0 n1 h).
Proof.
  unfold expired. destruct p as [t|t0 t1]; cbn.
  - intros (-> & (H1 & H2 & H3 & H4) & (H5 & H6 & H7 & H8)).
    rewrite Z.min_id. unfold ttl_get.
    destruct (Z.ltb_spec (cur_ttl t) 0); lia.
  - intros (-> & (H1 & H2 & H3 & H4) & (H5 & H6 & H7 & H8)).
    unfold ttl_get.
    destruct (Z.ltb_spec (cur_ttl t0) 0); destruct (Z.ltb_spec (cur_ttl t1) 0); lia.
Qed.

Lemma limit_int i sh s : forall h n, in_int n -> ttls_are_ints h -> in_int (limit i sh s n h).
Proof.
  induction h as [|x h IH]; intros n Hn Hh; cbn; [assumption|].
  inversion Hh as [|? ? Hx Hh']; subst.
  destruct x; try (apply IH; assumption).
  apply IH; [|assumption]. destruct (_ && _); assumption.
Qed.

Lemma same_group_refl sh s : same_group sh s s = true.
Proof. unfold same_group. destruct s; apply orb_true_r. Qed.

Lemma ttl_ok_pkt i sh s s' n h t :
  ttl_ok i sh s n h t ->
  ttl_ok i sh s n (h ++ [EPacket i s']) (if same_group sh s s' then ttl_reset t else t).
Proof.
  intros (H1 & H2 & H3 & H4). unfold ttl_ok. rewrite idle_snoc, limit_snoc, Z.eqb_refl. cbn.
  destruct (same_group sh s s'); cbn; repeat split; try assumption; try apply H3; lia.
Qed.

Lemma ttl_ok_set i sh s s' n h t m : in_int m ->
  ttl_ok i sh s n h t ->
  ttl_ok i sh s n (h ++ [ESetTtl i s' m]) (if same_group sh s s' then ttl_reset_with t m else t).
Proof.
  intros Hm (H1 & H2 & H3 & H4). unfold ttl_ok. rewrite idle_snoc, limit_snoc, Z.eqb_refl. cbn.
  destruct (same_group sh s s'); cbn; repeat split; try assumption; try apply Hm; try apply H3; try lia.
Qed.

Lemma ttl_ok_visit i sh s n h t : 0 < cur_ttl t ->
  ttl_ok i sh s n h t -> ttl_ok i sh s n (h ++ [EVisit i]) (fst (ttl_decr t)).
Proof.
  intros Hp (H1 & H2 & H3 & H4). unfold ttl_ok. rewrite idle_snoc, limit_snoc, Z.eqb_refl. cbn.
  unfold in_int in *.
  pose proof (idle_nonneg i sh s h 0 ltac:(lia)).
  rewrite s32_small by lia. repeat split; try lia.
Qed.

Lemma pt_ok_irrelevant i sh n0 n1 h p e :
  (forall s acc, idle i sh s acc (h ++ [e]) = idle i sh s acc h) ->
  (forall s acc, limit i sh s acc (h ++ [e]) = limit i sh s acc h) ->
  pt_ok i sh n0 n1 h p -> pt_ok i sh n0 n1 (h ++ [e]) p.
Proof. intros Hi Hl. unfold pt_ok, ttl_ok. destruct p; rewrite ?Hi, ?Hl; auto. Qed.

Lemma Rel_step i sh n0 n1 nt h v e :
  in_int n0 -> in_int n1 -> ttls_are_ints [e] -> creates i e = false ->
  Rel i sh n0 n1 nt h v -> Rel i sh n0 n1 nt (h ++ [e]) (srv_step v e).
Proof.
  intros Hn0 Hn1 He Hc HR.
  (* events that do not concern session i *)
  assert (Hother : (forall s acc, idle i sh s acc (h ++ [e]) = idle i sh s acc h) ->
                   (forall s acc, limit i sh s acc (h ++ [e]) = limit i sh s acc h) ->
                   e <> EDelete i -> e <> EVisit i ->
                   sel i (sv_tab (srv_step v e)) = sel i (sv_tab v) ->
                   count_occ Z.eq_dec (sv_notified (srv_step v e)) i = count_occ Z.eq_dec (sv_notified v) i ->
                   Rel i sh n0 n1 nt (h ++ [e]) (srv_step v e)).
  { intros Hid Hli Hd Hv Hsel Hcnt.
    destruct HR as [(Hs & H0 & s & Hse & Hidn & Hnt & Hpt)|(Hs & Hse & Ht)].
    - left. split; [apply survives_snoc; split; [assumption|]; split; [assumption|]; congruence|].
      rewrite Hcnt, Hsel. split; [assumption|]. exists s. repeat split; auto.
      apply pt_ok_irrelevant; assumption.
    - right. split; [rewrite survives_snoc; tauto|]. rewrite Hsel, Hcnt. split; [assumption|].
      rewrite times_out_snoc. tauto. }
  destruct e as [j sh' m0 m1 nt'|j s'|j s' m|j|j]; cbn in Hc.
  - apply Hother; try discriminate; intros; try (rewrite idle_snoc; reflexivity); try (rewrite limit_snoc; reflexivity).
    + cbn [srv_step sv_tab]. rewrite sel_app. unfold sel at 2; cbn. rewrite Hc. apply app_nil_r.
    + reflexivity.
  - destruct (Z.eqb_spec j i) as [->|Hne].
    + clear Hother.
      destruct HR as [(Hs & H0 & s & Hse & Hidn & Hnt & Hpt)|(Hs & Hse & Ht)].
      * left. split; [apply survives_snoc; split; [assumption|]; split; discriminate|].
        split; [exact H0|]. cbn [srv_step sv_tab].
        rewrite sel_on_sess by reflexivity. rewrite Z.eqb_refl, Hse. cbn.
        eexists; split; [reflexivity|]. cbn. repeat split; auto.
        destruct (se_ttl s) as [t|t0 t1]; cbn in *.
        -- destruct Hpt as (-> & P1 & P2). split; [reflexivity|].
           split; [apply (ttl_ok_pkt i true SideO s') in P1|apply (ttl_ok_pkt i true SideA s') in P2]; assumption.
        -- destruct Hpt as (-> & P1 & P2).
           apply (ttl_ok_pkt i false SideO s') in P1. apply (ttl_ok_pkt i false SideA s') in P2.
           destruct s'; cbn in *; auto.
      * right. split; [rewrite survives_snoc; tauto|]. cbn [srv_step sv_tab sv_notified].
        rewrite sel_on_sess by reflexivity. rewrite Z.eqb_refl, Hse. split; [reflexivity|].
        rewrite times_out_snoc. destruct Ht as [[Ht1 Ht2]|[Ht1 Ht2]]; [left|right]; split; auto.
        intros [?|[? _]]; [tauto|discriminate].
    + apply Hother; try discriminate; intros; try rewrite idle_snoc; try rewrite limit_snoc;
        try (destruct (Z.eqb_spec j i); [congruence|]); try reflexivity.
      cbn [srv_step sv_tab]. rewrite sel_on_sess by reflexivity.
      destruct (Z.eqb_spec i j); [congruence|]. reflexivity.
  - destruct (Z.eqb_spec j i) as [->|Hne].
    + clear Hother.
      assert (Hm : in_int m) by (inversion He; assumption).
      destruct HR as [(Hs & H0 & s & Hse & Hidn & Hnt & Hpt)|(Hs & Hse & Ht)].
      * left. split; [apply survives_snoc; split; [assumption|]; split; discriminate|].
        split; [exact H0|]. cbn [srv_step sv_tab].
        rewrite sel_on_sess by reflexivity. rewrite Z.eqb_refl, Hse. cbn.
        eexists; split; [reflexivity|]. cbn. repeat split; auto.
        destruct (se_ttl s) as [t|t0 t1]; cbn in *.
        -- destruct Hpt as (-> & P1 & P2). split; [reflexivity|].
           split; [apply (ttl_ok_set i true SideO s' _ _ _ m Hm) in P1|apply (ttl_ok_set i true SideA s' _ _ _ m Hm) in P2]; assumption.
        -- destruct Hpt as (-> & P1 & P2).
           apply (ttl_ok_set i false SideO s' _ _ _ m Hm) in P1. apply (ttl_ok_set i false SideA s' _ _ _ m Hm) in P2.
           destruct s'; cbn in *; auto.
      * right. split; [rewrite survives_snoc; tauto|]. cbn [srv_step sv_tab sv_notified].
        rewrite sel_on_sess by reflexivity. rewrite Z.eqb_refl, Hse. split; [reflexivity|].
        rewrite times_out_snoc. destruct Ht as [[Ht1 Ht2]|[Ht1 Ht2]]; [left|right]; split; auto.
        intros [?|[? _]]; [tauto|discriminate].
    + apply Hother; try discriminate; intros; try rewrite idle_snoc; try rewrite limit_snoc;
        try (destruct (Z.eqb_spec j i); [congruence|]); try reflexivity.
      cbn [srv_step sv_tab]. rewrite sel_on_sess by reflexivity.
      destruct (Z.eqb_spec i j); [congruence|]. reflexivity.
  - destruct (Z.eq_dec j i) as [->|Hne].
    + clear Hother. cbn [srv_step].
      destruct HR as [(Hs & H0 & s & Hse & Hidn & Hnt & Hpt)|(Hs & Hse & Ht)].
      * destruct (visit_one i v _ _ Hse) as (t & Hv & Hsel). rewrite Hv.
        pose proof (pipe_zero_iff _ _ _ _ _ _ Hpt) as Hz.
        unfold foreach_cb in *. destruct (Z.eqb_spec (pipe_get_ttl (se_ttl s)) 0) as [E|E]; cbn [fst snd sv_tab sv_notified] in *.
        -- right. apply Hz in E. split; [rewrite survives_snoc; intros (_ & _ & Hc2); exact (Hc2 eq_refl E)|].
           split; [assumption|]. left. split; [rewrite times_out_snoc; right; auto|].
           rewrite Hnt. destruct nt; [|assumption].
           cbn [sv_notified]. rewrite count_occ_app, H0, Hidn. cbn. destruct (Z.eq_dec i i); [reflexivity|congruence].
        -- left. split; [apply survives_snoc; split; [assumption|]; split; [discriminate|intros _ Hx; apply E, Hz, Hx]|].
           split; [assumption|]. eexists; split; [exact Hsel|]. cbn. repeat split; auto.
           destruct (se_ttl s) as [t1|t1 t2]; cbn in *.
           ++ destruct Hpt as (-> & P1 & P2). rewrite Z.min_id in E. unfold ttl_get in E.
              destruct (Z.ltb_spec (cur_ttl t1) 0); [lia|].
              split; [reflexivity|]. split; apply (ttl_ok_visit i true); auto; lia.
           ++ destruct Hpt as (-> & P1 & P2). unfold ttl_get in E.
              destruct (Z.ltb_spec (cur_ttl t1) 0); destruct (Z.ltb_spec (cur_ttl t2) 0); try lia.
              split; [reflexivity|]. split; apply (ttl_ok_visit i false); auto; lia.
      * rewrite (visit_none _ v _ Hse). right. split; [rewrite survives_snoc; tauto|].
        cbn. split; [assumption|]. rewrite times_out_snoc.
        destruct Ht as [[Ht1 Ht2]|[Ht1 Ht2]]; [left|right]; split; auto.
        intros [?|(_ & ? & _)]; tauto.
    + destruct (visit (sv_tab v) j v) as [[t n] ns] eqn:Ev.
      apply Hother; try congruence; try discriminate; intros; try rewrite idle_snoc; try rewrite limit_snoc;
        try (destruct (Z.eqb_spec j i); [congruence|]); try reflexivity.
      * cbn [srv_step]. rewrite Ev. cbn. eapply sel_visit_other; [|eassumption]. congruence.
      * cbn [srv_step]. rewrite Ev. cbn. eapply visit_ns; [eassumption|congruence].
  - destruct (Z.eq_dec j i) as [->|Hne].
    + clear Hother. cbn [srv_step].
      right. split; [rewrite survives_snoc; tauto|]. cbn [sv_tab sv_notified].
      rewrite sel_filter_del, Z.eqb_refl. split; [reflexivity|].
      rewrite times_out_snoc.
      destruct HR as [(Hs & H0 & s & Hse & Hidn & Hnt & Hpt)|(Hs & Hse & Ht)].
      * right. split; [|assumption]. intros [Ht|[? _]]; [|discriminate].
        exact (times_out_not_survives _ _ _ _ _ Ht Hs).
      * destruct Ht as [[Ht1 Ht2]|[Ht1 Ht2]]; [left|right]; split; auto.
        intros [?|[? _]]; [tauto|discriminate].
    + apply Hother; try congruence; try discriminate; intros; try (rewrite idle_snoc; reflexivity); try (rewrite limit_snoc; reflexivity).
      cbn [srv_step sv_tab]. rewrite sel_filter_del. destruct (Z.eqb_spec i j); [congruence|]. reflexivity. reflexivity.
Qed.

(** Before the session is created. *)
Lemma not_created i : forall h v, existsb (creates i) h = false ->
  sel i (sv_tab v) = [] -> count_occ Z.eq_dec (sv_notified v) i = 0%nat ->
  sel i (sv_tab (fold_left srv_step h v)) = [] /\
  count_occ Z.eq_dec (sv_notified (fold_left srv_step h v)) i = 0%nat.
Proof.
  induction h as [|e h IH]; intros v Hc Hs Hn; cbn [fold_left]; [auto|].
  cbn in Hc. apply orb_false_iff in Hc. destruct Hc as [Hc1 Hc2].
  apply IH; [assumption| |].
  - destruct e as [j sh' m0 m1 nt'|j s'|j s' m|j|j]; cbn [srv_step sv_tab].
    + rewrite sel_app, Hs. unfold sel; cbn. cbn in Hc1. rewrite Hc1. reflexivity.
    + rewrite sel_on_sess by reflexivity. rewrite Hs. destruct (i =? j); reflexivity.
    + rewrite sel_on_sess by reflexivity. rewrite Hs. destruct (i =? j); reflexivity.
    + destruct (Z.eq_dec j i) as [->|Hne].
      * rewrite (visit_none _ v _ Hs). assumption.
      * destruct (visit (sv_tab v) j v) as [[t n] ns] eqn:Ev. cbn.
        rewrite <- Hs. eapply sel_visit_other; [|eassumption]. congruence.
    + rewrite sel_filter_del, Hs. destruct (i =? j); reflexivity.
  - destruct e as [j sh' m0 m1 nt'|j s'|j s' m|j|j]; cbn [srv_step sv_notified]; try assumption.
    destruct (Z.eq_dec j i) as [->|Hne].
    + rewrite (visit_none _ v _ Hs). assumption.
    + destruct (visit (sv_tab v) j v) as [[t n] ns] eqn:Ev. cbn.
      rewrite <- Hn. eapply visit_ns; [eassumption|congruence].
Qed.

Lemma Rel_run i sh n0 n1 nt pre h :
  in_int n0 -> in_int n1 -> ttls_are_ints h -> created_once i pre h ->
  Rel i sh n0 n1 nt h (srv_run (pre ++ ECreate i sh n0 n1 nt :: h)).
Proof.
  intros Hn0 Hn1 Hh [Hpre Hcr]. unfold srv_run. rewrite fold_left_app. cbn [fold_left].
  destruct (not_created i pre srv_init Hpre eq_refl eq_refl) as [Hs Hn].
  set (v0 := fold_left srv_step pre srv_init) in *. clearbody v0.
  induction h as [|e h IH] using rev_ind.
  - cbn [fold_left]. left. split; [apply survives_nil|]. split; [exact Hn|].
    cbn [srv_step sv_tab]. rewrite sel_app, Hs. unfold sel; cbn. rewrite Z.eqb_refl.
    eexists; split; [reflexivity|]. cbn. repeat split; auto.
    destruct sh; cbn; repeat split; cbn; try apply Hn0; try apply Hn1; lia.
  - rewrite fold_left_app. cbn [fold_left]. apply Forall_app in Hh. destruct Hh as [Hh He].
    rewrite existsb_app in Hcr. apply orb_false_iff in Hcr. destruct Hcr as [Hcr Hcre].
    apply Rel_step; auto.
    + cbn in Hcre. rewrite orb_false_r in Hcre. assumption.
Qed.

Lemma in_sel i tab : In i (map se_id tab) <-> sel i tab <> [].
Proof.
  unfold sel. induction tab as [|s t IH]; cbn; [tauto|].
  destruct (Z.eqb_spec (se_id s) i) as [E|E].
  - split; [discriminate|auto].
  - rewrite <- IH. split; [intros [?|?]; [contradiction|assumption]|auto].
Qed.

Lemma session_alive_iff i sh n0 n1 nt pre h :
  in_int n0 -> in_int n1 -> ttls_are_ints h -> created_once i pre h ->
  (In i (map se_id (sv_tab (srv_run (pre ++ ECreate i sh n0 n1 nt :: h)))) <-> survives i sh n0 n1 h).
Proof.
  intros H1 H2 H3 H4. rewrite in_sel.
  destruct (Rel_run i sh n0 n1 nt pre h H1 H2 H3 H4) as [(Hs & _ & s & Hse & _)|(Hs & Hse & _)];
    rewrite Hse; split; auto; try discriminate; tauto.
Qed.

Lemma session_notified i sh n0 n1 nt pre h :
  in_int n0 -> in_int n1 -> ttls_are_ints h -> created_once i pre h ->
  let c := count_occ Z.eq_dec (sv_notified (srv_run (pre ++ ECreate i sh n0 n1 nt :: h))) i in
  (c = 1%nat <-> nt = true /\ times_out i sh n0 n1 h) /\ (c <= 1)%nat.
Proof.
  intros H1 H2 H3 H4 c. unfold c; clear c.
  destruct (Rel_run i sh n0 n1 nt pre h H1 H2 H3 H4) as [(Hs & -> & _)|(Hs & _ & [[Ht ->]|[Ht ->]])].
  - split; [|lia]. split; [lia|]. intros [_ Ht]. destruct (times_out_not_survives _ _ _ _ _ Ht Hs).
  - destruct nt; split; try lia; split; intros; try lia; auto; destruct H; discriminate.
  - split; [|lia]. split; [lia|tauto].
Qed.

(** Every timeout counted is a session removed by the sweep. *)
Lemma visit_conserves j v : forall tab t n ns, visit tab j v = (t, n, ns) ->
  n = sv_ntimeout v + (Z.of_nat (length tab) - Z.of_nat (length t)).
Proof.
  induction tab as [|s tab IH]; intros t n ns H; cbn in H.
  - inversion H; cbn; lia.
  - destruct (Z.eqb_spec (se_id s) j) as [E|E].
    + unfold foreach_cb in H. destruct (pipe_get_ttl (se_ttl s) =? 0); inversion H; subst; cbn [length]; lia.
    + destruct (visit tab j v) as [[t' n'] ns'] eqn:Ev. inversion H; subst.
      rewrite (IH _ _ _ eq_refl). cbn [length]. lia.
Qed.



Lemma ntimeout_swept : forall h v, sv_ntimeout (fold_left srv_step h v) = sv_ntimeout v + swept v h.
Proof.
  induction h as [|e h IH]; intros v; cbn [fold_left swept]; [lia|].
  rewrite IH. destruct e as [j sh' m0 m1 nt'|j s'|j s' m|j|j]; cbn [is_visit srv_step sv_ntimeout]; try lia.
  destruct (visit (sv_tab v) j v) as [[t n] ns] eqn:Ev. cbn [sv_ntimeout sv_tab].
  pose proof (visit_conserves _ _ _ _ _ _ Ev). lia.
Qed.

(** The race of reset against reset_with. *)
Lemma reset_race : exists s,
  fold_left ttl_atom_step [RLoad; WMax 5; WTtl 5; RStore] s
  = mkRace (mkTtl 5 60) 60 /\ rc_t s = ttl_ctor 60.
Proof. exists (mkRace (ttl_ctor 60) 0). split; reflexivity. Qed.
