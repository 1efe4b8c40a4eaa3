(** Proofs: traces, logs, numbers of the modules, progress of the shutdown. *)
From Verif Require Import Base MifModel MifSpec MifProof MifProof2.
Open Scope nat_scope.

Lemma handed_app l r : handed (l ++ r) = handed l ++ handed r.
Proof. induction l as [|[] l IH]; cbn; rewrite ?IH; reflexivity. Qed.
Lemma waiting_app l r : waiting (l ++ r) = waiting l ++ waiting r.
Proof. apply filter_app. Qed.
Lemma taken_app i l r : taken i (l ++ r) = taken i l ++ taken i r.
Proof. induction l as [|[j a [| |]|j a [| |]] l IH]; cbn; rewrite ?IH; try reflexivity; now destruct (j =? i). Qed.
Lemma offers_app i a l r : offers i a (l ++ r) = offers i a l + offers i a r.
Proof. induction l as [|[j b p|j b p] l IH]; cbn; rewrite ?IH; lia. Qed.

(** ** Starting *)

Lemma cs_log m m' ok : construct_start m = (m', ok) -> m_made m = false -> m_log m = [] -> m_thr m = TNone ->
  m_log m' = [] /\ m_made m' = false /\ ok = false \/
  exists post, m_log m' = calls (m_d m) ++ post /\ m_made m' = (match d_ctor (m_d m) with Some _ => true | None => false end)
    /\ (ok = true -> post = []) /\ (post = [] \/ post = [EvDtor]).
Proof.
  intros H M L T. unfold construct_start in H. unfold calls.
  destruct (d_ctor (m_d m)) as [[|]|]; cbv iota zeta in H; [| injection H as <- <-; now left |];
    (destruct (d_config (m_d m)) as [[|]|]; cbv iota zeta in H;
     [| injection H as <- <-; right; exists (if d_dtor (m_d m) then [EvDtor] else []); unfold add_log; cbn [m_log m_made]; rewrite L;
        destruct (d_dtor (m_d m)); repeat split; auto; discriminate |]);
    (destruct (has_thread (m_d m)); try destruct (d_go (m_d m)); injection H as <- <-; right; exists []; unfold add_log; cbn [m_log m_made]; rewrite L;
     cbn; repeat split; auto).
Qed.

Lemma startall_each fuel : forall f k f' ok, startall f fuel k = (f', ok) ->
  (forall i, i < k \/ k + fuel <= i -> f' i = f i) /\
  (forall i, k <= i < k + fuel -> f' i = fst (construct_start (f i)) \/ (ok = false /\ f' i = f i)) /\
  (ok = true -> forall i, k <= i < k + fuel -> snd (construct_start (f i)) = true).
Proof.
  induction fuel as [|fuel IH]; intros f k f' ok H; cbn in H.
  - injection H as <- <-. split; [reflexivity|]. split; intros; lia.
  - destruct (construct_start (f k)) as [m okm] eqn:C. destruct okm.
    + apply IH in H. destruct H as (H1 & H2 & H3). split; [|split].
      * intros i D. rewrite H1 by lia. apply fupd_other. lia.
      * intros i D. destruct (Nat.eq_dec i k) as [->|E].
        -- left. rewrite H1 by lia. now rewrite fupd_same, C.
        -- specialize (H2 i ltac:(lia)). now rewrite fupd_other in H2 by assumption.
      * intros Ok i D. destruct (Nat.eq_dec i k) as [->|E]; [now rewrite C|].
        specialize (H3 Ok i ltac:(lia)). now rewrite fupd_other in H3 by assumption.
    + injection H as <- <-. split; [|split].
      * intros i D. apply fupd_other. lia.
      * intros i D. destruct (Nat.eq_dec i k) as [->|E]; [left; now rewrite fupd_same, C | right; split; [reflexivity | now apply fupd_other]].
      * discriminate.
Qed.

Lemma calls_handed d : handed (calls d) = [].
Proof. unfold calls. destruct (d_ctor d), (d_config d); reflexivity. Qed.

(** ** What has been handed over *)

Record traced (w : mw) (tr : list res) : Prop := Traced {
  t_in : forall i, i < w_n w -> handed (m_log (w_mod w i)) ++ waiting (m_q (w_mod w i)) = taken i tr;
  t_out : forall i, w_n w <= i -> taken i tr = [];
  t_offers : forall i a, offers i a tr =
    match w_sess w a with
    | SNone | SUp _ => 0
    | SEnd _ k => if (i <? k) && (i <? w_n w) && has_acct (m_d (w_mod w i)) then 1 else 0
    | SGone => if (i <? w_n w) && has_acct (m_d (w_mod w i)) then 1 else 0
    end }.

Lemma no_acct_mods f n : any_acct f n = false -> forall i, i < n -> has_acct (m_d (f i)) = false.
Proof.
  intros H i L. destruct (has_acct (m_d (f i))) eqn:E; [|reflexivity].
  now rewrite (any_acct_true f n i L E) in H.
Qed.

Lemma res_nil (tr : list res) : tr ++ [] = tr. Proof. apply app_nil_r. Qed.

(** One module changes; nothing new is offered *)
Lemma traced_one w w' tr i m : traced w tr -> i < w_n w -> w_n w' = w_n w -> w_mod w' = fupd (w_mod w) i m -> w_sess w' = w_sess w ->
  m_d m = m_d (w_mod w i) ->
  handed (m_log m) ++ waiting (m_q m) = handed (m_log (w_mod w i)) ++ waiting (m_q (w_mod w i)) -> traced w' tr.
Proof.
  intros T L N M S D Q. destruct T as [T1 T2 T3]. constructor; rewrite ?N, ?M, ?S; auto.
  - intros j Lj. destruct (Nat.eq_dec j i) as [->|E]; [rewrite fupd_same, Q; auto | rewrite fupd_other by assumption; auto].
  - intros j a. rewrite T3. destruct (Nat.eq_dec j i) as [->|E]; [now rewrite fupd_same, D | now rewrite fupd_other].
Qed.
Lemma traced_same w w' tr : traced w tr -> w_n w' = w_n w -> w_mod w' = w_mod w -> w_sess w' = w_sess w -> traced w' tr.
Proof. intros T N M S. destruct T as [T1 T2 T3]. constructor; rewrite ?N, ?M, ?S; auto. Qed.

Lemma andb_if (b : bool) (x y : nat) : x = y -> (if b then x else x) = y.
Proof. now destruct b. Qed.

(** The offers, when session [a] goes from module [k] to the next *)
Lemma offers_next w tr a k i b (n : nat) : traced w tr -> w_sess w a = SEnd true k -> k < w_n w ->
  n = (if (k =? i) && (a =? b) && has_acct (m_d (w_mod w k)) then 1 else 0) ->
  offers i b tr + n =
  match fupd (w_sess w) a (SEnd true (S k)) b with
  | SNone | SUp _ => 0
  | SEnd _ k => if (i <? k) && (i <? w_n w) && has_acct (m_d (w_mod w i)) then 1 else 0
  | SGone => if (i <? w_n w) && has_acct (m_d (w_mod w i)) then 1 else 0
  end.
Proof.
  intros T S L ->. rewrite (t_offers _ _ T). destruct (Nat.eq_dec b a) as [->|D].
  - rewrite fupd_same, S, Nat.eqb_refl, andb_true_r. destruct (Nat.eqb_spec k i) as [->|E].
    + rewrite Nat.ltb_irrefl. cbn [andb]. replace (i <? Datatypes.S i) with true by (symmetry; apply Nat.ltb_lt; lia).
      replace (i <? w_n w) with true by (symmetry; apply Nat.ltb_lt; lia). cbn [andb]. now destruct (has_acct (m_d (w_mod w i))).
    + cbn [andb]. rewrite Nat.add_0_r. replace (i <? Datatypes.S k) with (i <? k); [reflexivity|].
      destruct (Nat.ltb_spec i k), (Nat.ltb_spec i (Datatypes.S k)); lia || reflexivity.
  - rewrite fupd_other by assumption. replace (a =? b) with false by (symmetry; apply Nat.eqb_neq; congruence).
    rewrite andb_false_r. cbn [andb]. lia.
Qed.

Lemma traced_step w tr o w' r : base w -> kinds w -> traced w tr -> tr1 w o w' r -> traced w' (tr ++ r).
Proof.
  intros B K T H. destruct H; rewrite ?app_nil_r.
  - exact T.
  - (* load *) pose proof (b_phase _ B) as P. rewrite H in P. destruct P as [P _].
    assert (NS : forall a, w_sess w a = SNone).
    { intros a. destruct (w_sess w a) eqn:E; [reflexivity|..]; exfalso; assert (I : In a (w_used w)) by (apply (b_used _ B); congruence); rewrite P in I; destruct I. }
    destruct T as [T1 T2 T3]. constructor; cbn [load w_n w_mod w_sess].
    + intros i L. destruct (Nat.eq_dec i (w_n w)) as [->|D]; [rewrite fupd_same, T2 by lia; reflexivity | rewrite fupd_other by assumption; apply T1; lia].
    + intros i L. apply T2. lia.
    + intros i a. rewrite T3. now rewrite NS.
  - now apply (traced_same w).
  - (* start *) pose proof (b_mods _ B) as X. unfold mods_ok in X. rewrite H in X. pose proof (b_phase _ B) as P. rewrite H in P. destruct P as [P _].
    assert (NS : forall a, w_sess w a = SNone).
    { intros a. destruct (w_sess w a) eqn:E; [reflexivity|..]; exfalso; assert (I : In a (w_used w)) by (apply (b_used _ B); congruence); rewrite P in I; destruct I. }
    unfold start. destruct (startall (w_mod w) (w_n w) 0) as [f ok] eqn:E. pose proof (startall_each _ _ _ _ _ E) as (_ & EE & _).
    apply startall_spec in E; [|intros i Hi; apply X; lia]. destruct E as (E1 & _). destruct T as [T1 T2 T3]. constructor; cbn [w_n w_mod w_sess]; auto.
    + intros i L. rewrite <- (T1 i L). destruct (E1 i) as (_ & _ & _ & -> & _). f_equal.
      destruct (X i L) as (_ & X2 & _ & X4 & X5). rewrite X5. destruct (EE i ltac:(lia)) as [->|[_ ->]]; [|now rewrite X5].
      destruct (construct_start (w_mod w i)) as [m okm] eqn:C. cbn [fst].
      destruct (cs_log _ _ _ C X4 X5 X2) as [(-> & _)|(post & -> & _ & _ & Y)]; [reflexivity|].
      rewrite handed_app, calls_handed. destruct Y as [->| ->]; reflexivity.
    + intros i a. rewrite T3. now rewrite NS.
  - destruct T as [T1 T2 T3]. constructor; auto. intros i b. rewrite T3. cbn [sess_new w_sess w_n w_mod]. destruct (Nat.eq_dec b a) as [->|D].
    + rewrite fupd_same. destruct (w_sess w a) eqn:E; try reflexivity; exfalso; apply H1, (b_used _ B); congruence.
    + now rewrite fupd_other.
  - destruct T as [T1 T2 T3]. constructor; auto. intros i b. rewrite T3. cbn [with_sess w_sess w_n w_mod]. destruct (Nat.eq_dec b a) as [->|D].
    + rewrite fupd_same, H0. replace (i <? 0) with false by (symmetry; apply Nat.ltb_ge; lia). reflexivity.
    + now rewrite fupd_other.
  - pose proof T as T'. destruct T as [T1 T2 T3]. constructor; auto. intros i b. cbn [with_sess w_sess w_n w_mod].
    rewrite <- (offers_next w tr a k i b 0 T' H0 H1); [lia|]. rewrite H2. now rewrite andb_false_r.
  - pose proof T as T'. destruct T as [T1 T2 T3]. constructor; cbn [with_sess w_sess w_n w_mod].
    + intros i L. rewrite taken_app. cbn [taken]. rewrite app_nil_r. auto.
    + intros i L. rewrite taken_app. cbn [taken]. rewrite app_nil_r. auto.
    + intros i b. rewrite offers_app. apply offers_next; try assumption. cbn [offers]. rewrite H3, andb_true_r. destruct ((k =? i) && (a =? b)); reflexivity.
  - pose proof T as T'. dsame (incref (with_sess w a (SEnd true (S k))) a) a. destruct T as [T1 T2 T3].
    constructor; rewrite ?Dn, ?Dm, ?Ds; cbn [incref with_refs with_sess w_sess w_n w_mod].
    + intros i L. rewrite taken_app. cbn [taken]. rewrite app_nil_r. auto.
    + intros i L. rewrite taken_app. cbn [taken]. rewrite app_nil_r. auto.
    + intros i b. rewrite offers_app. apply offers_next; try assumption. cbn [offers]. rewrite H3, andb_true_r. destruct ((k =? i) && (a =? b)); reflexivity.
  - pose proof T as T'. destruct T as [T1 T2 T3]. constructor; cbn [with_mod incref with_refs with_sess w_sess w_n w_mod].
    + intros i L. rewrite taken_app. cbn [taken]. destruct (Nat.eq_dec i k) as [->|D].
      * rewrite fupd_same, Nat.eqb_refl. cbn [with_q m_log m_q]. rewrite waiting_app. cbn. rewrite app_assoc. f_equal. now apply T1.
      * rewrite fupd_other by assumption. replace (k =? i) with false by (symmetry; apply Nat.eqb_neq; congruence). rewrite app_nil_r. auto.
    + intros i L. rewrite taken_app. cbn [taken]. replace (k =? i) with false by (symmetry; apply Nat.eqb_neq; lia). rewrite app_nil_r. auto.
    + intros i b. rewrite offers_app.
      rewrite (offers_next w tr a k i b (offers i b [RAcct k a Taken]) T' H1 H2).
      * destruct (fupd (w_sess w) a (SEnd true (S k)) b); try reflexivity; (destruct (Nat.eq_dec i k) as [->|D]; [now rewrite fupd_same | now rewrite fupd_other]).
      * cbn [offers]. rewrite H3, andb_true_r. destruct ((k =? i) && (a =? b)); reflexivity.
  - dsame (release (with_sess w a SGone)) a. destruct T as [T1 T2 T3].
    constructor; rewrite ?Dn, ?Dm, ?Ds; cbn [release with_sess w_sess w_n w_mod]; auto.
    intros i b. rewrite T3. destruct (Nat.eq_dec b a) as [->|D]; [rewrite fupd_same, H0 | now rewrite fupd_other].
    destruct (Nat.ltb_spec i (w_n w)), (Nat.ltb_spec i k); try reflexivity; lia.
  - dsame (with_sess w a SGone) a. pose proof (b_hold _ B a) as HH. rewrite H0 in HH. destruct T as [T1 T2 T3].
    constructor; rewrite ?Dn, ?Dm, ?Ds; cbn [with_sess w_sess w_n w_mod]; auto.
    intros i b. rewrite T3. destruct (Nat.eq_dec b a) as [->|D]; [rewrite fupd_same, H0 | now rewrite fupd_other].
    destruct (Nat.ltb_spec i (w_n w)); cbn [andb]; [|now rewrite andb_false_r].
    rewrite (no_acct_mods _ _ (eq_sym HH) i) by assumption. now rewrite andb_false_r.
  - destruct T as [T1 T2 T3]. constructor; cbn [with_rtcp w_sess w_n w_mod].
    + intros j L. rewrite taken_app. cbn [taken]. rewrite app_nil_r. auto.
    + intros j L. rewrite taken_app. cbn [taken]. rewrite app_nil_r. auto.
    + intros j b. rewrite offers_app. cbn [offers]. rewrite Nat.add_0_r. auto.
  - destruct T as [T1 T2 T3]. constructor; cbn [with_rtcp w_sess w_n w_mod].
    + intros j L. rewrite taken_app. cbn [taken]. rewrite app_nil_r. auto.
    + intros j L. rewrite taken_app. cbn [taken]. rewrite app_nil_r. auto.
    + intros j b. rewrite offers_app. cbn [offers]. rewrite Nat.add_0_r. auto.
  - destruct T as [T1 T2 T3]. constructor; cbn [with_rtcp with_mod w_sess w_n w_mod].
    + intros j L. rewrite taken_app. cbn [taken]. destruct (Nat.eq_dec j i) as [->|D].
      * rewrite fupd_same, Nat.eqb_refl. cbn [with_q m_log m_q]. rewrite waiting_app. cbn. rewrite app_assoc. f_equal. now apply T1.
      * rewrite fupd_other by assumption. replace (i =? j) with false by (symmetry; apply Nat.eqb_neq; congruence). rewrite app_nil_r. auto.
    + intros j L. rewrite taken_app. cbn [taken]. replace (i =? j) with false by (symmetry; apply Nat.eqb_neq; lia). rewrite app_nil_r. auto.
    + intros j b. rewrite offers_app. cbn [offers]. rewrite Nat.add_0_r, T3.
      destruct (w_sess w b); try reflexivity; (destruct (Nat.eq_dec j i) as [->|D]; [now rewrite fupd_same | now rewrite fupd_other]).
  - eapply traced_one with (i := i); try exact T; try reflexivity; try assumption. cbn [after_item m_log m_q]. rewrite app_nil_r, H2. reflexivity.
  - match goal with |- traced (decref ?x ?a) _ => dsame x a end.
    assert (IQ : In (IAcct a) (m_q (w_mod w i))) by (rewrite H2; now left). destruct (K i _ H0 IQ) as [HA _]. unfold has_acct in HA. apply andb_true_iff in HA. destruct HA as [_ HA].
    eapply traced_one with (i := i); try exact T; rewrite ?Dn, ?Dm, ?Ds; try reflexivity; try assumption. cbn [after_item m_log m_q]. rewrite HA, handed_app, H2. cbn. now rewrite <- app_assoc.
  - assert (IQ : In (IRtcp r) (m_q (w_mod w i))) by (rewrite H2; now left). pose proof (K i _ H0 IQ) as HA. cbn in HA. unfold has_rtcp in HA. apply andb_true_iff in HA. destruct HA as [_ HA].
    eapply traced_one with (i := i); try exact T; try reflexivity; try assumption. cbn [after_item m_log m_q]. rewrite HA, handed_app, H2. cbn. now rewrite <- app_assoc.
  - now apply (traced_same w).
  - eapply traced_one with (i := k); try exact T; try reflexivity; try assumption. cbn [with_q m_log m_q]. rewrite waiting_app. cbn. now rewrite app_nil_r.
  - assert (E : m_q (w_mod w k) = []).
    { pose proof (b_mods _ B) as X. unfold mods_ok in X. rewrite H in X. destruct X as (_ & _ & X). specialize (X k H0).
      rewrite Nat.ltb_irrefl, Nat.eqb_refl in X. cbn [andb] in X.
      destruct wt; destruct X as [_ [[X1 X2]|[X1 X2]]]; congruence. }
    eapply traced_one with (i := k); try exact T; try reflexivity; try assumption. cbn [finish m_log m_q]. rewrite E, handed_app.
    destruct (d_dtor (m_d (w_mod w k)) && m_made (w_mod w k)); cbn; now rewrite ?app_nil_r.
  - now apply (traced_same w).
Qed.

(** ** The logs *)

Definition log_ok (ph : phase) (m : mst) : Prop :=
  exists pre mid post, m_log m = pre ++ mid ++ post
    /\ (pre = [] \/ pre = calls (m_d m)) /\ (forall e, In e mid -> delivery e)
    /\ (m_thr m <> TNone -> pre = calls (m_d m)) /\ (m_thr m = TNone -> mid = [])
    /\ (m_made m = true <-> In EvCtor pre) /\ (post = [] \/ post = [EvDtor])
    /\ (ph <> PFail -> post = if m_gone m && d_dtor (m_d m) && m_made m then [EvDtor] else []).
Definition logs (w : mw) : Prop := forall i, i < w_n w -> log_ok (w_phase w) (w_mod w i).

Lemma logs_one w w' i m : logs w -> w_phase w <> PFail -> w_phase w' <> PFail -> w_n w' = w_n w -> w_mod w' = fupd (w_mod w) i m ->
  log_ok (w_phase w') m -> logs w'.
Proof.
  intros G P P' N M L j Lj. rewrite M. rewrite N in Lj. destruct (Nat.eq_dec j i) as [->|D]; [now rewrite fupd_same|].
  rewrite fupd_other by assumption. destruct (G j Lj) as (pre & mid & post & X). exists pre, mid, post. intuition.
Qed.
Lemma logs_same w w' : logs w -> w_phase w <> PFail -> w_n w' = w_n w -> w_mod w' = w_mod w -> logs w'.
Proof.
  intros G P N M j Lj. rewrite M. rewrite N in Lj. destruct (G j Lj) as (pre & mid & post & X). exists pre, mid, post. intuition.
Qed.

Lemma run_there w i : base w -> w_phase w <> PFail -> i < w_n w -> m_thr (w_mod w i) = TRun -> m_gone (w_mod w i) = false.
Proof.
  intros B P L T. pose proof (b_mods _ B) as X. unfold mods_ok in X. destruct (w_phase w) as [| | |k wt|]; try congruence.
  - now destruct (X i L).
  - now destruct (X i L) as [[X1 _] _].
  - destruct X as (_ & _ & X). specialize (X i L). destruct (i <? k); [destruct X as (_ & X & _); congruence|].
    destruct ((i =? k) && wt); now destruct X.
  - destruct (X i L) as (_ & X1 & _). congruence.
Qed.

Lemma calls_ctor d : In EvCtor (calls d) <-> d_ctor d <> None.
Proof. unfold calls. destruct (d_ctor d), (d_config d); cbn; intuition congruence. Qed.

Lemma log_queue ph ph' m t q l : log_ok ph m -> ph <> PFail -> m_gone m = false -> m_thr m = TRun -> t <> TNone -> (forall e, In e l -> delivery e) ->
  log_ok ph' (MS (m_d m) (m_inst m) (m_idx m) q t (m_made m) (m_gone m) (m_log m ++ l)).
Proof.
  intros (pre & mid & post & X1 & X2 & X3 & X4 & X5 & X6 & X7 & X8) P G T TN D. specialize (X8 P). rewrite G in X8. cbn [andb] in X8. subst post.
  exists pre, (mid ++ l), []. cbn [m_log m_d m_thr m_made m_gone]. rewrite X1, G. repeat split; auto.
  - now rewrite !app_nil_r, app_assoc.
  - intros e I. apply in_app_iff in I. destruct I; auto.
  - intros _. apply X4. congruence.
  - intros E. congruence.
  - apply X6.
  - apply X6.
Qed.

Lemma logs_step w o w' r : base w -> logs w -> tr1 w o w' r -> logs w'.
Proof.
  intros B G H. assert (RT : forall i, w_phase w <> PFail -> i < w_n w -> m_thr (w_mod w i) = TRun -> m_gone (w_mod w i) = false) by (intros; now apply run_there).
  assert (MP : forall i, w_phase w = PRun -> i < w_n w -> has_thread (m_d (w_mod w i)) = true -> m_thr (w_mod w i) = TRun).
  { intros i P L. pose proof (b_mods _ B) as X. unfold mods_ok in X. rewrite P in X. apply (X i L). }
  destruct H.
  - exact G.
  - intros i L. cbn [load w_n w_mod w_phase] in *. destruct (Nat.eq_dec i (w_n w)) as [->|D].
    + rewrite fupd_same. exists [], [], []. cbn. intuition congruence.
    + rewrite fupd_other by assumption. apply G. lia.
  - intros i L. cbn [load_failed with_phase with_refs w_n w_mod w_phase] in *. destruct (G i L) as (pre & mid & post & X). exists pre, mid, post. intuition congruence.
  - (* start *) pose proof (b_mods _ B) as X. unfold mods_ok in X. rewrite H in X. unfold start.
    destruct (startall (w_mod w) (w_n w) 0) as [f ok] eqn:E. pose proof (startall_each _ _ _ _ _ E) as (_ & EE & EO).
    apply startall_spec in E; [|intros i Hi; apply X; lia]. destruct E as (E1 & _ & E3 & _).
    intros i L. cbn [w_n w_mod w_phase] in *. destruct (X i L) as (X1 & X2 & X3 & X4 & X5).
    destruct (E1 i) as (Y1 & Y2 & Y3 & Y4 & Y5).
    destruct (EE i ltac:(lia)) as [F|[-> F]].
    + destruct (construct_start (w_mod w i)) as [m okm] eqn:C. cbn [fst] in F. pose proof (cs_spec _ _ _ C X2) as (_ & _ & _ & _ & _ & C6 & C7).
      destruct (cs_log _ _ _ C X4 X5 X2) as [(Z1 & Z2 & Z3)|(post & Z1 & Z2 & Z3 & Z4)].
      * exists [], [], []. rewrite F in *. rewrite Z1, Z2. specialize (C7 Z3). rewrite C7. cbn. rewrite andb_false_r. intuition congruence.
      * exists (calls (m_d (w_mod w i))), [], post. rewrite F in *. rewrite Y1, Z1, Z2, Y5, X1. rewrite calls_ctor.
        split; [reflexivity|]. split; [now right|]. split; [intros e []|]. split; [reflexivity|]. split; [reflexivity|].
        split; [destruct (d_ctor (m_d (w_mod w i))); intuition congruence|]. split; [exact Z4|]. cbn [andb].
        intros P. destruct ok; [|congruence]. apply Z3. specialize (EO eq_refl i ltac:(lia)). now rewrite C in EO.
    + exists [], [], []. rewrite F, X1, X2, X4, X5. cbn. intuition congruence.
  - apply (logs_same w); auto; congruence.
  - now apply (logs_same w).
  - now apply (logs_same w).
  - now apply (logs_same w).
  - dsame (incref (with_sess w a (SEnd true (S k))) a) a. apply (logs_same w); rewrite ?Dn, ?Dm; auto.
  - pose proof (holder_runs w a k B H0 H1) as PR.
    assert (TR : m_thr (w_mod w k) = TRun) by (apply MP; auto; unfold has_thread; unfold has_acct in H3; now destruct (d_aapi (m_d (w_mod w k)))).
    eapply logs_one with (i := k); try exact G; try reflexivity; try assumption.
    unfold with_q. rewrite <- (app_nil_r (m_log (w_mod w k))).
    apply log_queue with (w_phase w) ; auto; try congruence. intros e [].
  - dsame (release (with_sess w a SGone)) a. apply (logs_same w); rewrite ?Dn, ?Dm; auto.
  - dsame (with_sess w a SGone) a. apply (logs_same w); rewrite ?Dn, ?Dm; auto.
  - apply (logs_same w); auto; congruence.
  - apply (logs_same w); auto; congruence.
  - assert (TR : m_thr (w_mod w i) = TRun) by (apply MP; auto; unfold has_thread; unfold has_rtcp in H2; now destruct (d_aapi (m_d (w_mod w i)))).
    eapply logs_one with (i := i); try exact G; try reflexivity; try congruence; [cbn; congruence|].
    unfold with_q. rewrite <- (app_nil_r (m_log (w_mod w i))).
    apply log_queue with (w_phase w); auto; try congruence; [apply RT; auto; congruence | intros e []].
  - eapply logs_one with (i := i); try exact G; try reflexivity; try assumption. unfold after_item.
    apply log_queue with (w_phase w); auto; try congruence. intros e [].
  - match goal with |- logs (decref ?x ?a) => dsame x a end.
    eapply logs_one with (i := i); try exact G; rewrite ?Dn, ?Dm, ?Dp; try reflexivity; try assumption. unfold after_item.
    apply log_queue with (w_phase w); auto; try congruence. destruct (d_send (m_d (w_mod w i))); intros e I; [destruct I as [<-|[]]; exact Logic.I | destruct I].
  - eapply logs_one with (i := i); try exact G; try reflexivity; try assumption. unfold after_item.
    apply log_queue with (w_phase w); auto; try congruence. destruct (d_rcvd (m_d (w_mod w i))); intros e I; [destruct I as [<-|[]]; exact Logic.I | destruct I].
  - apply (logs_same w); auto. destruct H; congruence.
  - eapply logs_one with (i := k); try exact G; try reflexivity; [congruence | cbn; congruence|].
    unfold with_q. rewrite <- (app_nil_r (m_log (w_mod w k))).
    apply log_queue with (w_phase w); auto; try congruence; [apply RT; auto; congruence | intros e []].
  - assert (GN : m_gone (w_mod w k) = false).
    { pose proof (b_mods _ B) as X. unfold mods_ok in X. rewrite H in X. destruct X as (_ & _ & X). specialize (X k H0).
      rewrite Nat.ltb_irrefl, Nat.eqb_refl in X. cbn [andb] in X. destruct wt; now destruct X. }
    eapply logs_one with (i := k); try exact G; try reflexivity; [congruence | cbn; congruence|].
    destruct (G k H0) as (pre & mid & post & X1 & X2 & X3 & X4 & X5 & X6 & X7 & X8). specialize (X8 ltac:(congruence)). rewrite GN in X8. cbn [andb] in X8. subst post.
    exists pre, mid, (if d_dtor (m_d (w_mod w k)) && m_made (w_mod w k) then [EvDtor] else []).
    unfold finish. cbn [m_log m_d m_thr m_made m_gone]. rewrite X1, app_nil_r, <- app_assoc. cbn [andb].
    split; [reflexivity|]. split; [exact X2|]. split; [exact X3|]. split; [exact X4|]. split; [exact X5|]. split; [exact X6|].
    split; [|reflexivity]. destruct (d_dtor (m_d (w_mod w k)) && m_made (w_mod w k)); auto.
  - apply (logs_same w); auto; congruence.
Qed.

(** ** Numbers *)

Lemma next_id_filter f n id : next_id f n id = S (length (filter (fun j => d_id (m_d (f j)) =? id) (seq 0 n))).
Proof.
  induction n as [|n IH]; [reflexivity|]. rewrite seq_S, filter_app, app_length. cbn [next_id]. rewrite IH. cbn [Nat.add filter].
  destruct (d_id (m_d (f n)) =? id); cbn [length]; lia.
Qed.

Lemma descs w o w' r : base w -> tr1 w o w' r ->
  (exists d, w' = load w d) \/ (w_n w' = w_n w /\ forall i, m_d (w_mod w' i) = m_d (w_mod w i) /\ m_inst (w_mod w' i) = m_inst (w_mod w i)).
Proof.
  intros B H.
  assert (ONE : forall i m, m_d m = m_d (w_mod w i) -> m_inst m = m_inst (w_mod w i) -> forall j, m_d (fupd (w_mod w) i m j) = m_d (w_mod w j) /\ m_inst (fupd (w_mod w) i m j) = m_inst (w_mod w j)).
  { intros i m D E j. destruct (Nat.eq_dec j i) as [->|N]; [rewrite fupd_same; auto | rewrite fupd_other; auto]. }
  destruct H; try (right; split; [reflexivity|]; intros; split; reflexivity); try (left; eexists; reflexivity); right.
  - unfold start. pose proof (b_mods _ B) as X. unfold mods_ok in X. rewrite H in X.
    destruct (startall (w_mod w) (w_n w) 0) as [f ok] eqn:E. apply startall_spec in E; [|intros i Hi; apply X; lia].
    destruct E as (E1 & _). split; [reflexivity|]. intros i. cbn [w_mod]. destruct (E1 i) as (? & ? & _). auto.
  - dsame (incref (with_sess w a (SEnd true (S k))) a) a. rewrite Dn, Dm. split; [reflexivity|]. intros; split; reflexivity.
  - split; [reflexivity|]. intros j. apply (ONE k); reflexivity.
  - dsame (release (with_sess w a SGone)) a. rewrite Dn, Dm. split; [reflexivity|]. intros; split; reflexivity.
  - dsame (with_sess w a SGone) a. rewrite Dn, Dm. split; [reflexivity|]. intros; split; reflexivity.
  - split; [reflexivity|]. intros j. apply (ONE i); reflexivity.
  - split; [reflexivity|]. intros j. apply (ONE i); reflexivity.
  - match goal with |- context[decref ?x ?a] => dsame x a end. rewrite Dn, Dm. split; [reflexivity|]. intros j. apply (ONE i); reflexivity.
  - split; [reflexivity|]. intros j. apply (ONE i); reflexivity.
  - split; [reflexivity|]. intros j. apply (ONE k); reflexivity.
  - split; [reflexivity|]. intros j. apply (ONE k); reflexivity.
Qed.

Definition numbered (w : mw) : Prop := forall i, i < w_n w -> m_inst (w_mod w i) = S (length (earlier w i)).
Lemma earlier_ext w w' i : (forall j, j <= i -> m_d (w_mod w' j) = m_d (w_mod w j)) -> earlier w' i = earlier w i.
Proof.
  intros H. unfold earlier. rewrite (H i) by lia. apply filter_ext_in. intros j I. apply in_seq in I. now rewrite (H j) by lia.
Qed.
Lemma numbered_step w o w' r : base w -> numbered w -> tr1 w o w' r -> numbered w'.
Proof.
  intros B N H i L. destruct (descs _ _ _ _ B H) as [[d ->]|[E1 E2]].
  - cbn [load w_n] in L. destruct (Nat.eq_dec i (w_n w)) as [->|D].
    + unfold earlier. cbn [load w_mod]. rewrite fupd_same. cbn [m_inst m_d]. rewrite next_id_filter. do 2 f_equal.
      apply filter_ext_in. intros j I. apply in_seq in I. now rewrite fupd_other by lia.
    + rewrite (earlier_ext w). { cbn [load w_mod]. rewrite fupd_other by assumption. apply N. lia. }
      intros j Lj. cbn [load w_mod]. now rewrite fupd_other by lia.
  - rewrite E1 in L. rewrite (proj2 (E2 i)), (earlier_ext w); [now apply N|]. intros j _. apply E2.
Qed.

Lemma filter_seq_lt (p : nat -> bool) i j : i < j -> p i = true -> length (filter p (seq 0 i)) < length (filter p (seq 0 j)).
Proof.
  intros L P. replace j with (i + S (j - S i)) by lia. rewrite seq_app, filter_app, app_length. cbn [seq filter Nat.add]. rewrite P. cbn [length]. lia.
Qed.

Lemma numbers_distinct w i j : numbered w -> i < w_n w -> j < w_n w ->
  d_id (m_d (w_mod w i)) = d_id (m_d (w_mod w j)) -> m_inst (w_mod w i) = m_inst (w_mod w j) -> i = j.
Proof.
  intros N Li Lj D E. rewrite (N i Li), (N j Lj) in E. unfold earlier in E. rewrite D in E. injection E as E.
  assert (H : forall x y, x < y -> x < w_n w -> y < w_n w -> d_id (m_d (w_mod w x)) = d_id (m_d (w_mod w j)) ->
    length (filter (fun z => d_id (m_d (w_mod w z)) =? d_id (m_d (w_mod w j))) (seq 0 x)) <> length (filter (fun z => d_id (m_d (w_mod w z)) =? d_id (m_d (w_mod w j))) (seq 0 y))).
  { intros x y Lxy _ _ Ex. pose proof (filter_seq_lt (fun z => d_id (m_d (w_mod w z)) =? d_id (m_d (w_mod w j))) x y Lxy) as X.
    cbv beta in X. rewrite Ex, Nat.eqb_refl in X. specialize (X eq_refl). lia. }
  destruct (lt_eq_lt_dec i j) as [[L| ->]|L]; [exfalso; exact (H i j L Li Lj D E)|reflexivity|exfalso; exact (H j i L Lj Li eq_refl (eq_sym E))].
Qed.

Lemma lookup_from_spec f id inst fuel : forall k,
  match lookup_from f fuel k id inst with
  | Some i => k <= i < k + fuel /\ d_id (m_d (f i)) = id /\ m_inst (f i) = inst /\ d_ul (m_d (f i)) = true
  | None => forall i, k <= i < k + fuel -> d_id (m_d (f i)) = id -> m_inst (f i) = inst ->
      exists j, k <= j <= i /\ d_id (m_d (f j)) = id /\ m_inst (f j) = inst /\ d_ul (m_d (f j)) = false
  end.
Proof.
  induction fuel as [|fuel IH]; intros k; cbn [lookup_from].
  - intros; lia.
  - destruct (Nat.eqb_spec (d_id (m_d (f k))) id) as [D|D]; destruct (Nat.eqb_spec (m_inst (f k)) inst) as [E|E]; cbn [negb orb].
    2,3,4: specialize (IH (S k)); destruct (lookup_from f fuel (S k) id inst); [intuition lia|]; intros i L D' E';
      assert (NE : i <> k) by (intros ->; congruence); destruct (IH i ltac:(lia) D' E') as (j & X); exists j; intuition lia.
    destruct (d_ul (m_d (f k))) eqn:U; [repeat split; auto; lia|]. intros i L D' E'. exists k. repeat split; auto; lia.
Qed.

(** ** The shutdown ends *)

Definition len (w : mw) : nat := total (fun i => length (m_q (w_mod w i))) (w_n w).
Lemma len_one w w' i q' : i < w_n w -> w_n w' = w_n w -> (forall j, j <> i -> w_mod w' j = w_mod w j) -> m_q (w_mod w' i) = q' ->
  len w' + length (m_q (w_mod w i)) = len w + length q'.
Proof.
  intros L N M Q. unfold len. rewrite N, <- Q.
  apply (total_upd (fun j => length (m_q (w_mod w' j))) (fun j => length (m_q (w_mod w j))) (w_n w) i L). intros j _ D. now rewrite M.
Qed.

Lemma todo_eq w k wt : w_phase w = PKap k wt -> todo w = S (len w + 3 * (w_n w - k) - (if wt then 2 else 0)).
Proof. intros H. unfold todo. now rewrite H. Qed.

Lemma todo_step w o w' r k wt : base w -> w_phase w = PKap k wt -> shutdown_op o = true -> tr1 w o w' r -> w' = w \/ todo w' < todo w.
Proof.
  intros B P O H. pose proof (b_mods _ B) as X. unfold mods_ok in X. rewrite P in X. destruct X as (X1 & X2 & X3).
  destruct H; try discriminate; try (now left); right; rewrite (todo_eq w k wt P).
  - erewrite todo_eq by (cbn; exact P). cbn [with_mod w_n].
    pose proof (len_one w (with_mod w i (after_item (w_mod w i) TEnd q [])) i q H0 eq_refl) as Y. rewrite H2 in Y. cbn [length] in Y.
    assert (len (with_mod w i (after_item (w_mod w i) TEnd q [])) + S (length q) = len w + length q) by (apply Y; [intros j D; cbn; now rewrite fupd_other | cbn; now rewrite fupd_same]).
    destruct wt; [specialize (X2 eq_refl)|]; lia.
  - match goal with |- todo (decref ?x ?a) < _ => dsame x a; set (w1 := x) in * end.
    erewrite todo_eq by (rewrite Dp; exact P). rewrite Dn. change (w_n w1) with (w_n w).
    pose proof (len_one w (decref w1 a) i q H0) as Y. rewrite H2 in Y. cbn [length] in Y.
    assert (len (decref w1 a) + S (length q) = len w + length q) by (apply Y; [now rewrite Dn | intros j D; rewrite Dm; cbn; now rewrite fupd_other | rewrite Dm; cbn; now rewrite fupd_same]).
    destruct wt; [specialize (X2 eq_refl)|]; lia.
  - match goal with |- todo ?x < _ => set (w1 := x) in * end.
    erewrite todo_eq by (exact P). change (w_n w1) with (w_n w).
    pose proof (len_one w w1 i q H0 eq_refl) as Y. rewrite H2 in Y. cbn [length] in Y.
    assert (len w1 + S (length q) = len w + length q) by (apply Y; [intros j D; cbn; now rewrite fupd_other | cbn; now rewrite fupd_same]).
    destruct wt; [specialize (X2 eq_refl)|]; lia.
  - rewrite P in H. injection H as <- ->. match goal with |- todo ?x < _ => set (w1 := x) in * end.
    rewrite (todo_eq w1 k true eq_refl). change (w_n w1) with (w_n w).
    pose proof (len_one w w1 k (m_q (w_mod w k) ++ [ITerm]) H0 eq_refl) as Y. rewrite app_length in Y. cbn [length] in Y.
    assert (len w1 + length (m_q (w_mod w k)) = len w + (length (m_q (w_mod w k)) + 1)) by (apply Y; [intros j D; cbn; now rewrite fupd_other | cbn; now rewrite fupd_same]).
    lia.
  - rewrite P in H. injection H as <- <-. match goal with |- todo ?x < _ => set (w1 := x) in * end.
    rewrite (todo_eq w1 (S k) false eq_refl). change (w_n w1) with (w_n w).
    pose proof (len_one w w1 k [] H0 eq_refl) as Y. cbn [length] in Y.
    assert (len w1 + length (m_q (w_mod w k)) = len w + 0) by (apply Y; [intros j D; cbn; now rewrite fupd_other | cbn; now rewrite fupd_same]).
    destruct wt; lia.
  - unfold todo. cbn. lia.
Qed.

Lemma wm_moves w i m : m_thr (w_mod w i) <> m_thr m \/ length (m_q (w_mod w i)) <> length (m_q m) \/ m_gone (w_mod w i) <> m_gone m -> fupd (w_mod w) i m <> w_mod w.
Proof. intros H E. assert (F : w_mod w i = m) by (rewrite <- E; apply fupd_same). rewrite F in H. intuition. Qed.

Lemma todo_moves w k wt : base w -> w_phase w = PKap k wt -> exists o, shutdown_op o = true /\ fst (step w o) <> w.
Proof.
  intros B P. pose proof (b_mods _ B) as X. unfold mods_ok in X. rewrite P in X. destruct X as (X1 & X2 & X3).
  destruct (Nat.ltb_spec k (w_n w)) as [L|L].
  2:{ exists OMain. split; [reflexivity|]. unfold step. rewrite P. unfold kaput. destruct (Nat.ltb_spec k (w_n w)); [lia|]. cbn [fst].
      intros E. apply (f_equal w_phase) in E. rewrite P in E. discriminate. }
  specialize (X3 k L). rewrite Nat.ltb_irrefl, Nat.eqb_refl in X3. cbn [andb] in X3.
  assert (WK : m_thr (w_mod w k) = TRun -> m_q (w_mod w k) <> [] -> fst (step w (OWork k)) <> w).
  { intros T Q. unfold step. rewrite P. cbn [fst]. destruct (Nat.ltb_spec k (w_n w)); [|lia]. unfold work. rewrite T.
    destruct (m_q (w_mod w k)) as [|x q] eqn:E; [congruence|]. destruct x as [a|r|].
    - match goal with |- decref ?x ?a <> _ => dsame x a end. intros F. apply (f_equal w_mod) in F. rewrite Dm in F. refine (wm_moves w k _ _ F).
      right. left. rewrite E. cbn. lia.
    - intros F. apply (f_equal w_mod) in F. refine (wm_moves w k _ _ F). right. left. rewrite E. cbn. lia.
    - intros F. apply (f_equal w_mod) in F. refine (wm_moves w k _ _ F). right. left. rewrite E. cbn. lia. }
  assert (FIN : m_thr (w_mod w k) <> TRun -> fst (step w OMain) <> w).
  { intros T. unfold step. rewrite P. cbn [fst]. unfold kaput. destruct (Nat.ltb_spec k (w_n w)); [|lia].
    destruct (m_thr (w_mod w k)); try congruence; intros F; apply (f_equal w_phase) in F; rewrite P in F; cbn in F; injection F as F _; lia. }
  destruct wt.
  - destruct X3 as [_ [[T (l & Q & _)]|[T _]]].
    + exists (OWork k). split; [reflexivity|]. apply WK; [exact T|]. rewrite Q. now destruct l.
    + exists OMain. split; [reflexivity|]. apply FIN. congruence.
  - destruct X3 as [_ [[T _]|[T _]]].
    + exists OMain. split; [reflexivity|]. apply FIN. congruence.
    + destruct (Nat.leb_spec maxlen (length (m_q (w_mod w k)))) as [M|M].
      * exists (OWork k). split; [reflexivity|]. apply WK; [exact T|]. destruct (m_q (w_mod w k)); [|discriminate]. unfold maxlen in M. cbn in M. lia.
      * exists OMain. split; [reflexivity|]. unfold step. rewrite P. cbn [fst]. unfold kaput. destruct (Nat.ltb_spec k (w_n w)); [|lia]. rewrite T.
        unfold put_item. destruct (Nat.leb_spec maxlen (length (m_q (w_mod w k)))); [lia|]. intros F. apply (f_equal w_phase) in F. rewrite P in F. discriminate.
Qed.

(** ** All of it *)

Record all_ok (w : mw) (tr : list res) : Prop := AllOk {
  a_base : base w; a_kinds : kinds w; a_refs : refs w; a_traced : traced w tr; a_logs : logs w; a_num : numbered w }.

Lemma all_init : all_ok winit [].
Proof.
  constructor; [apply base_init|..].
  - intros i x L. cbn in L. lia.
  - constructor; cbn; auto; try constructor; try tauto; try (intros; tauto).
  - constructor; cbn; intros; try lia; reflexivity.
  - intros i L. cbn in L. lia.
  - intros i L. cbn in L. lia.
Qed.

Lemma all_run ops : existsb is_load_fail ops = false -> all_ok (fst (run winit ops)) (snd (run winit ops)).
Proof.
  intros NF. apply (run_inv_ok all_ok) with (tr := []); [|exact NF|apply all_init].
  intros w tr o w' r F [A1 A2 A3 A4 A5 A6] H. constructor.
  - eapply base_step; eauto.
  - eapply kinds_step; eauto.
  - eapply refs_step; eauto.
  - eapply traced_step; eauto.
  - eapply logs_step; eauto.
  - eapply numbered_step; eauto.
Qed.
