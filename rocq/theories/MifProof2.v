(** Proofs: references, what is in the queues, what has been handed over, and the logs. *)
From Verif Require Import Base MifModel MifSpec MifProof.
Open Scope nat_scope.

Lemma item_dec (x y : item) : {x = y} + {x <> y}.
Proof. decide equality; apply Nat.eq_dec. Defined.
Definition cnt (x : item) (q : list item) : nat := count_occ item_dec q x.
Lemma cnt_app x q r : cnt x (q ++ r) = cnt x q + cnt x r.
Proof. apply count_occ_app. Qed.
Lemma cnt_cons x y q : cnt x (y :: q) = (if item_dec y x then 1 else 0) + cnt x q.
Proof. unfold cnt. cbn. destruct (item_dec y x); lia. Qed.

Lemma total_ext f g n : (forall i, i < n -> f i = g i) -> total f n = total g n.
Proof. induction n as [|n IH]; intros H; [reflexivity|]. cbn. rewrite (H n), IH by (intros; try apply H; lia). reflexivity. Qed.
Lemma total_upd f g n i : i < n -> (forall j, j < n -> j <> i -> f j = g j) -> total f n + g i = total g n + f i.
Proof.
  induction n as [|n IH]; intros L E; [lia|]. cbn. destruct (Nat.eq_dec i n) as [->|D].
  - rewrite (total_ext f g n); [lia|]. intros j Lj. apply E; lia.
  - rewrite (E n) by lia. specialize (IH ltac:(lia) ltac:(intros; apply E; lia)). lia.
Qed.
Lemma total_zero f n : (forall i, i < n -> f i = 0) -> total f n = 0.
Proof. induction n as [|n IH]; intros H; [reflexivity|]. cbn. rewrite (H n), IH by (intros; try apply H; lia). reflexivity. Qed.
Lemma total_le f n i : i < n -> f i <= total f n.
Proof. induction n as [|n IH]; intros L; [lia|]. cbn. destruct (Nat.eq_dec i n) as [->|]; [lia|]. specialize (IH ltac:(lia)). lia. Qed.

Definition qt (w : mw) (x : item) : nat := total (fun i => cnt x (m_q (w_mod w i))) (w_n w).
Definition live (s : sess) : nat := match s with SUp _ | SEnd _ _ => 1 | _ => 0 end.

(** one queue changes *)
Lemma qt_one w w' i x q' : i < w_n w -> w_n w' = w_n w -> (forall j, j <> i -> w_mod w' j = w_mod w j) -> m_q (w_mod w' i) = q' ->
  qt w' x + cnt x (m_q (w_mod w i)) = qt w x + cnt x q'.
Proof.
  intros L N M Q. unfold qt. rewrite N. rewrite <- Q.
  apply (total_upd (fun j => cnt x (m_q (w_mod w' j))) (fun j => cnt x (m_q (w_mod w j))) (w_n w) i L). intros j _ D. now rewrite M.
Qed.
Lemma qt_same w w' x : w_n w' = w_n w -> (forall j, j < w_n w -> m_q (w_mod w' j) = m_q (w_mod w j)) -> qt w' x = qt w x.
Proof. intros N M. unfold qt. rewrite N. apply total_ext. intros i L. now rewrite M. Qed.
Lemma qt_has w x i : i < w_n w -> In x (m_q (w_mod w i)) -> 1 <= qt w x.
Proof.
  intros L I. apply (count_occ_In item_dec) in I. pose proof (total_le (fun j => cnt x (m_q (w_mod w j))) (w_n w) i L) as X.
  cbv beta in X. unfold cnt in X at 1. unfold qt. lia.
Qed.

(** ** The queues *)

Definition kinds (w : mw) : Prop := forall i x, i < w_n w -> In x (m_q (w_mod w i)) ->
  match x with IAcct a => has_acct (m_d (w_mod w i)) = true /\ In a (w_used w) | IRtcp _ => has_rtcp (m_d (w_mod w i)) = true | ITerm => True end.

Lemma kinds_one w w' i m : kinds w -> i < w_n w -> w_n w' = w_n w -> w_mod w' = fupd (w_mod w) i m -> w_used w' = w_used w ->
  m_d m = m_d (w_mod w i) ->
  (forall x, In x (m_q m) -> In x (m_q (w_mod w i)) \/
    match x with IAcct a => has_acct (m_d (w_mod w i)) = true /\ In a (w_used w) | IRtcp _ => has_rtcp (m_d (w_mod w i)) = true | ITerm => True end) -> kinds w'.
Proof.
  intros K L N M U D Q j x Lj I. rewrite M in *. rewrite U. rewrite N in Lj. destruct (Nat.eq_dec j i) as [->|E].
  - rewrite fupd_same in *. rewrite D. destruct (Q x I) as [Q'|Q']; [apply (K i x L Q') | exact Q'].
  - rewrite fupd_other in * by assumption. apply (K j x Lj I).
Qed.
Lemma kinds_same w w' : kinds w -> w_n w' = w_n w -> w_mod w' = w_mod w -> w_used w' = w_used w -> kinds w'.
Proof. intros K N M U i x. rewrite N, M, U. apply K. Qed.

Lemma kinds_step w o w' r : base w -> kinds w -> tr1 w o w' r -> kinds w'.
Proof.
  intros B K H. assert (US : forall a, w_sess w a <> SNone -> In a (w_used w)) by (intros; now apply (b_used _ B)).
  destruct H; try (now apply (kinds_same w)); try exact K.
  - intros i x L I. cbn [load w_n w_mod w_used] in *. destruct (Nat.eq_dec i (w_n w)) as [->|D].
    + rewrite fupd_same in I. destruct I.
    + rewrite fupd_other in * by assumption. apply K; [lia|exact I].
  - pose proof (b_mods _ B) as X. unfold mods_ok in X. rewrite H in X. unfold start.
    destruct (startall (w_mod w) (w_n w) 0) as [f ok] eqn:E. apply startall_spec in E; [|intros i Hi; apply X; lia].
    destruct E as (E1 & _). intros i x L I. cbn [w_n w_mod w_used] in *. destruct (E1 i) as (Y1 & Y2 & Y3 & Y4 & Y5). rewrite Y4 in I. rewrite Y1. now apply K.
  - intros i x L I. cbn [sess_new w_n w_mod w_used] in *. specialize (K i x L I). destruct x; auto. split; [tauto|]. right. tauto.
  - dsame (incref (with_sess w a (SEnd true (S k))) a) a. apply (kinds_same w); rewrite ?Dn, ?Dm, ?Du; auto.
  - eapply (kinds_one w) with (i := k); try exact K; try reflexivity; try assumption. cbn [with_q m_q]. intros x I. rewrite in_app_iff in I.
    destruct I as [I|[<-|[]]]; [now left|]. right. split; [assumption|]. apply US. congruence.
  - dsame (release (with_sess w a SGone)) a. apply (kinds_same w); rewrite ?Dn, ?Dm, ?Du; auto.
  - dsame (with_sess w a SGone) a. apply (kinds_same w); rewrite ?Dn, ?Dm, ?Du; auto.
  - eapply (kinds_one w) with (i := i); try exact K; try reflexivity; try assumption. cbn [with_q m_q]. intros x I. rewrite in_app_iff in I.
    destruct I as [I|[<-|[]]]; [now left|]. right. assumption.
  - eapply (kinds_one w) with (i := i); try exact K; try reflexivity; try assumption. cbn [after_item m_q]. intros x I. left. rewrite H2. now right.
  - match goal with |- kinds (decref ?x ?a) => dsame x a end.
    eapply (kinds_one w) with (i := i); try exact K; rewrite ?Dn, ?Dm, ?Du; try reflexivity; try assumption. cbn [after_item m_q]. intros x I. left. rewrite H2. now right.
  - eapply (kinds_one w) with (i := i); try exact K; try reflexivity; try assumption. cbn [after_item m_q]. intros x I. left. rewrite H2. now right.
  - eapply (kinds_one w) with (i := k); try exact K; try reflexivity; try assumption. cbn [with_q m_q]. intros x I. rewrite in_app_iff in I.
    destruct I as [I|[<-|[]]]; [now left|]. right. exact Logic.I.
  - eapply (kinds_one w) with (i := k); try exact K; try reflexivity; try assumption. cbn [finish m_q]. intros x [].
Qed.

(** ** References *)

Record refs (w : mw) : Prop := Refs {
  r_refs : forall a, w_refs w a = live (w_sess w a) + qt w (IAcct a);
  r_nodup : NoDup (w_freed w);
  r_freed : forall a, In a (w_freed w) <-> In a (w_used w) /\ w_refs w a = 0;
  r_rtcp : forall r, count_occ Nat.eq_dec (w_rmade w) r = count_occ Nat.eq_dec (w_rfreed w) r + qt w (IRtcp r);
  r_bad : w_bad w = false }.

Lemma refs_none w a : base w -> kinds w -> refs w -> ~ In a (w_used w) -> w_refs w a = 0.
Proof.
  intros B K R N. rewrite (r_refs _ R). destruct (w_sess w a) eqn:E; try (exfalso; apply N, (b_used _ B); congruence).
  cbn. apply total_zero. intros i L. apply count_occ_not_In. intros I. apply N. now apply (K i (IAcct a) L I).
Qed.

Lemma decref_refs w a k : w_refs w a = S k ->
  w_refs (decref w a) = fupd (w_refs w) a k /\ w_freed (decref w a) = (if k =? 0 then a :: w_freed w else w_freed w) /\ w_bad (decref w a) = w_bad w.
Proof. intros H. unfold decref. rewrite H. auto. Qed.

(** The queues are as long, for every item, as before *)
Lemma refs_same w w' : refs w -> (forall x, qt w' x = qt w x) -> (forall a, live (w_sess w' a) = live (w_sess w a)) ->
  (forall a, w_refs w' a = w_refs w a) -> w_freed w' = w_freed w -> w_used w' = w_used w -> w_rmade w' = w_rmade w -> w_rfreed w' = w_rfreed w ->
  w_bad w' = w_bad w -> refs w'.
Proof.
  intros R Q S RR F U M RF BD. destruct R as [R1 R2 R3 R4 R5]. constructor; rewrite ?F, ?M, ?RF, ?BD; auto.
  - intros a. rewrite RR, Q, S. apply R1.
  - intros a. rewrite U, RR. apply R3.
  - intros r. rewrite Q. apply R4.
Qed.

(** A reference is dropped: the session's or the queue's *)
Lemma refs_drop w w' a : refs w -> In a (w_used w) -> 
  (forall b, live (w_sess w' b) + qt w' (IAcct b) + (if Nat.eq_dec b a then 1 else 0) = live (w_sess w b) + qt w (IAcct b)) ->
  (forall r, qt w' (IRtcp r) = qt w (IRtcp r)) ->
  (forall k, w_refs w a = S k -> w_refs w' = fupd (w_refs w) a k /\ w_freed w' = (if k =? 0 then a :: w_freed w else w_freed w) /\ w_bad w' = w_bad w) ->
  w_used w' = w_used w -> w_rmade w' = w_rmade w -> w_rfreed w' = w_rfreed w -> refs w'.
Proof.
  intros R I L QR D U M RF. destruct R as [R1 R2 R3 R4 R5].
  pose proof (L a) as La. destruct (Nat.eq_dec a a) as [_|]; [|congruence].
  destruct (w_refs w a) as [|k] eqn:E. { rewrite R1 in E. lia. }
  destruct (D k eq_refl) as (D1 & D2 & D3). constructor; rewrite ?D1, ?D2, ?D3, ?U, ?M, ?RF; auto.
  - intros b. specialize (L b). destruct (Nat.eq_dec b a) as [->|N].
    + rewrite fupd_same. rewrite R1 in E. lia.
    + rewrite fupd_other by assumption. rewrite R1. lia.
  - destruct (Nat.eqb_spec k 0) as [Z|Z]; [|exact R2]. constructor; [|exact R2]. rewrite R3. lia.
  - intros b. destruct (Nat.eqb_spec k 0) as [Z|Z]; cbn [In]; destruct (Nat.eq_dec b a) as [->|N].
    + rewrite fupd_same. tauto.
    + rewrite fupd_other, R3 by assumption. intuition congruence.
    + rewrite fupd_same, R3. lia.
    + rewrite fupd_other by assumption. apply R3.
  - intros r. rewrite QR. apply R4.
Qed.

Lemma live_fupd_same w a s b : live s = live (w_sess w a) -> live (fupd (w_sess w) a s b) = live (w_sess w b).
Proof. intros H. destruct (Nat.eq_dec b a) as [->|D]; [now rewrite fupd_same | now rewrite fupd_other]. Qed.

Lemma refs_step w o w' r : is_load_fail o = false -> base w -> kinds w -> refs w -> tr1 w o w' r -> refs w'.
Proof.
  intros NF B K R H. assert (US : forall a, w_sess w a <> SNone -> In a (w_used w)) by (intros; now apply (b_used _ B)).
  destruct H.
  - exact R.
  - apply (refs_same w); auto. intros x. unfold qt. cbn [load w_n w_mod total]. rewrite fupd_same. cbn [m_q cnt]. cbn.
    apply total_ext. intros i L. rewrite fupd_other by lia. reflexivity.
  - discriminate.
  - pose proof (b_mods _ B) as X. unfold mods_ok in X. rewrite H in X. unfold start.
    destruct (startall (w_mod w) (w_n w) 0) as [f ok] eqn:E. apply startall_spec in E; [|intros i Hi; apply X; lia].
    destruct E as (E1 & _). apply (refs_same w); auto. intros x. apply qt_same; [reflexivity|]. intros j _. cbn [w_mod]. apply E1.
  - (* new session *) pose proof (refs_none w a B K R H1) as Z. pose proof (r_refs _ R a) as RA. destruct R as [R1 R2 R3 R4 R5].
    constructor; cbn [sess_new w_refs w_sess w_freed w_used w_rmade w_rfreed w_bad]; auto.
    + intros b. change (qt (sess_new w a) (IAcct b)) with (qt w (IAcct b)). destruct (Nat.eq_dec b a) as [->|D].
      * rewrite !fupd_same. cbn [live]. lia.
      * rewrite !fupd_other by assumption. apply R1.
    + intros b. cbn [In]. destruct (Nat.eq_dec b a) as [->|D].
      * rewrite fupd_same, R3. intuition congruence.
      * rewrite fupd_other by assumption. rewrite R3. intuition congruence.
  - apply (refs_same w); auto. intros b. cbn [with_sess w_sess]. apply live_fupd_same. now rewrite H0.
  - apply (refs_same w); auto. intros b. cbn [with_sess w_sess]. apply live_fupd_same. now rewrite H0.
  - apply (refs_same w); auto. intros b. cbn [with_sess w_sess]. apply live_fupd_same. now rewrite H1.
  - (* full *) pose proof (r_refs _ R a) as RA. rewrite H1 in RA. cbn [live] in RA.
    set (w1 := incref (with_sess w a (SEnd true (S k))) a). dsame w1 a.
    destruct (decref_refs w1 a (w_refs w a)) as (X1 & X2 & X3). { unfold w1. cbn [incref with_sess with_refs w_refs]. now rewrite fupd_same. }
    apply (refs_same w); rewrite ?X2, ?X3, ?Du, ?Drm, ?Drf; auto.
    + intros x. apply qt_same; rewrite ?Dn, ?Dm; auto.
    + intros b. rewrite Ds. unfold w1. cbn [incref with_sess with_refs w_sess]. apply live_fupd_same. now rewrite H1.
    + intros b. rewrite X1. unfold w1. cbn [incref with_sess with_refs w_refs].
      destruct (Nat.eq_dec b a) as [->|D]; [now rewrite fupd_same | now rewrite !fupd_other].
    + unfold w1. cbn [incref with_sess with_refs w_freed]. destruct (Nat.eqb_spec (w_refs w a) 0); [lia|reflexivity].
    + unfold w1. cbn [incref with_sess with_refs w_bad w_refs]. destruct (Nat.eqb_spec (w_refs w a) 0); [lia|apply orb_false_r].
  - (* taken *) pose proof (r_refs _ R a) as RA. rewrite H1 in RA. cbn [live] in RA.
    set (w1 := with_mod _ _ _). assert (Q : forall x, qt w1 x = qt w x + if item_dec (IAcct a) x then 1 else 0).
    { intros x. pose proof (qt_one w w1 k x (m_q (w_mod w k) ++ [IAcct a]) H2 eq_refl) as X. rewrite cnt_app, cnt_cons in X. change (cnt x []) with 0 in X.
      assert (Y : qt w1 x + cnt x (m_q (w_mod w k)) = qt w x + (cnt x (m_q (w_mod w k)) + ((if item_dec (IAcct a) x then 1 else 0) + 0))).
      { apply X; [intros j D; unfold w1; cbn [with_mod incref with_refs with_sess w_mod]; now rewrite fupd_other
                 | unfold w1; cbn [with_mod incref with_refs with_sess w_mod]; now rewrite fupd_same]. }
      lia. }
    destruct R as [R1 R2 R3 R4 R5]. constructor.
    + intros b. rewrite Q. unfold w1. cbn [with_mod incref with_refs with_sess w_refs w_sess].
      rewrite live_fupd_same by (now rewrite H1). destruct (Nat.eq_dec b a) as [->|D].
      * rewrite fupd_same, R1. destruct (item_dec (IAcct a) (IAcct a)); [lia|congruence].
      * rewrite fupd_other, R1 by assumption. destruct (item_dec (IAcct a) (IAcct b)); [congruence|lia].
    + exact R2.
    + intros b. unfold w1. cbn [with_mod incref with_refs with_sess w_refs w_freed w_used]. rewrite R3. destruct (Nat.eq_dec b a) as [->|D].
      * rewrite fupd_same. lia.
      * now rewrite fupd_other.
    + intros x. rewrite Q. unfold w1. cbn [with_mod incref with_refs with_sess w_rmade w_rfreed]. destruct (item_dec (IAcct a) (IRtcp x)); [congruence|]. rewrite R4. lia.
    + unfold w1. cbn [with_mod incref with_refs with_sess w_bad w_refs]. rewrite R5. cbn [orb]. apply Nat.eqb_neq. lia.
  - (* last *) set (w1 := release (with_sess w a SGone)). dsame w1 a.
    apply (refs_drop w (decref w1 a) a); rewrite ?Du, ?Drm, ?Drf; auto.
    + apply US. congruence.
    + intros b. rewrite Ds. rewrite (qt_same w) by (rewrite ?Dn, ?Dm; auto). unfold w1. cbn [release with_sess w_sess].
      destruct (Nat.eq_dec b a) as [->|D]; [rewrite fupd_same, H0 | rewrite fupd_other by assumption]; cbn [live]; lia.
    + intros x. rewrite (qt_same w) by (rewrite ?Dn, ?Dm; auto). reflexivity.
    + intros j E. exact (decref_refs w1 a j E).
  - set (w1 := with_sess w a SGone). dsame w1 a.
    apply (refs_drop w (decref w1 a) a); rewrite ?Du, ?Drm, ?Drf; auto.
    + apply US. congruence.
    + intros b. rewrite Ds. rewrite (qt_same w) by (rewrite ?Dn, ?Dm; auto). unfold w1. cbn [release with_sess w_sess].
      destruct (Nat.eq_dec b a) as [->|D]; [rewrite fupd_same, H0 | rewrite fupd_other by assumption]; cbn [live]; lia.
    + intros x. rewrite (qt_same w) by (rewrite ?Dn, ?Dm; auto). reflexivity.
    + intros j E. exact (decref_refs w1 a j E).
  - destruct R as [R1 R2 R3 R4 R5]. constructor; auto. intros x. change (qt (with_rtcp w (r :: w_rmade w) (r :: w_rfreed w)) (IRtcp x)) with (qt w (IRtcp x)).
    cbn [with_rtcp w_rmade w_rfreed count_occ]. specialize (R4 x). destruct (Nat.eq_dec r x); lia.
  - destruct R as [R1 R2 R3 R4 R5]. constructor; auto. intros x. change (qt (with_rtcp w (r :: w_rmade w) (r :: w_rfreed w)) (IRtcp x)) with (qt w (IRtcp x)).
    cbn [with_rtcp w_rmade w_rfreed count_occ]. specialize (R4 x). destruct (Nat.eq_dec r x); lia.
  - set (w1 := with_rtcp _ _ _). assert (Q : forall x, qt w1 x = qt w x + if item_dec (IRtcp r) x then 1 else 0).
    { intros x. pose proof (qt_one w w1 i x (m_q (w_mod w i) ++ [IRtcp r]) H1 eq_refl) as X. rewrite cnt_app, cnt_cons in X. change (cnt x []) with 0 in X.
      assert (Y : qt w1 x + cnt x (m_q (w_mod w i)) = qt w x + (cnt x (m_q (w_mod w i)) + ((if item_dec (IRtcp r) x then 1 else 0) + 0))).
      { apply X; [intros j D; unfold w1; cbn [with_rtcp with_mod w_mod]; now rewrite fupd_other
                 | unfold w1; cbn [with_rtcp with_mod w_mod]; now rewrite fupd_same]. }
      lia. }
    destruct R as [R1 R2 R3 R4 R5]. constructor; auto.
    + intros b. rewrite Q. destruct (item_dec (IRtcp r) (IAcct b)); [congruence|]. rewrite Nat.add_0_r. apply R1.
    + intros x. rewrite Q. unfold w1. cbn [with_rtcp w_rmade w_rfreed count_occ]. specialize (R4 x).
      destruct (Nat.eq_dec r x), (item_dec (IRtcp r) (IRtcp x)); try congruence; unfold w1; cbn [with_rtcp with_mod w_rfreed]; lia.
  - set (w1 := with_mod _ _ _). assert (Q : forall x, x <> ITerm -> qt w1 x = qt w x).
    { intros x D. pose proof (qt_one w w1 i x q H0 eq_refl) as X. rewrite H2, cnt_cons in X. destruct (item_dec ITerm x); [congruence|].
      assert (Y : qt w1 x + (0 + cnt x q) = qt w x + cnt x q).
      { apply X; [intros j E; unfold w1; cbn [with_mod w_mod]; now rewrite fupd_other | unfold w1; cbn [with_mod w_mod]; now rewrite fupd_same]. }
      lia. }
    destruct R as [R1 R2 R3 R4 R5]. constructor; auto.
    + intros b. rewrite Q by discriminate. apply R1.
    + intros x. rewrite Q by discriminate. apply R4.
  - (* a session's accounting is handed over *)
    assert (IQ : In (IAcct a) (m_q (w_mod w i))) by (rewrite H2; now left).
    destruct (K i _ H0 IQ) as [_ UA]. pose proof (qt_has w _ i H0 IQ) as QP. pose proof (r_refs _ R a) as RA.
    set (w1 := with_mod _ _ _). dsame w1 a.
    assert (Q : forall x, qt (decref w1 a) x + (if item_dec (IAcct a) x then 1 else 0) = qt w x).
    { intros x. pose proof (qt_one w (decref w1 a) i x q H0) as X. rewrite H2, cnt_cons in X.
      assert (Y : qt (decref w1 a) x + ((if item_dec (IAcct a) x then 1 else 0) + cnt x q) = qt w x + cnt x q).
      { apply X; [now rewrite Dn | intros j E; rewrite Dm; unfold w1; cbn [with_mod with_refs w_mod]; now rewrite fupd_other
                 | rewrite Dm; unfold w1; cbn [with_mod with_refs w_mod]; now rewrite fupd_same]. }
      lia. }
    apply (refs_drop w (decref w1 a) a); rewrite ?Du, ?Drm, ?Drf; auto.
    + intros b. rewrite Ds. specialize (Q (IAcct b)). change (w_sess w1 b) with (w_sess w b).
      destruct (Nat.eq_dec b a), (item_dec (IAcct a) (IAcct b)); try congruence; lia.
    + intros x. specialize (Q (IRtcp x)). destruct (item_dec (IAcct a) (IRtcp x)); [congruence|lia].
    + intros j E. destruct (decref_refs w1 a j E) as (X1 & X2 & X3). split; [exact X1|]. split; [exact X2|]. rewrite X3.
      unfold w1. cbn [with_mod with_refs w_bad]. rewrite (r_bad _ R). cbn [orb]. apply Nat.eqb_neq. lia.
  - set (w1 := with_rtcp _ _ _). assert (Q : forall x, qt w1 x + (if item_dec (IRtcp r) x then 1 else 0) = qt w x).
    { intros x. pose proof (qt_one w w1 i x q H0 eq_refl) as X. rewrite H2, cnt_cons in X.
      assert (Y : qt w1 x + ((if item_dec (IRtcp r) x then 1 else 0) + cnt x q) = qt w x + cnt x q).
      { apply X; [intros j E; unfold w1; cbn [with_rtcp with_mod w_mod]; now rewrite fupd_other | unfold w1; cbn [with_rtcp with_mod w_mod]; now rewrite fupd_same]. }
      lia. }
    destruct R as [R1 R2 R3 R4 R5]. constructor; auto.
    + intros b. specialize (Q (IAcct b)). destruct (item_dec (IRtcp r) (IAcct b)); [congruence|]. change (w_refs w1 b) with (w_refs w b). rewrite R1.
      change (w_sess w1 b) with (w_sess w b). lia.
    + intros x. specialize (Q (IRtcp x)). specialize (R4 x). unfold w1 at 1 2. cbn [with_rtcp w_rmade w_rfreed count_occ with_mod].
      destruct (Nat.eq_dec r x), (item_dec (IRtcp r) (IRtcp x)); try congruence; lia.
  - apply (refs_same w); auto.
  - set (w1 := with_phase _ _). assert (Q : forall x, x <> ITerm -> qt w1 x = qt w x).
    { intros x D. pose proof (qt_one w w1 k x (m_q (w_mod w k) ++ [ITerm]) H0 eq_refl) as X. rewrite cnt_app, cnt_cons in X.
      destruct (item_dec ITerm x); [congruence|]. change (cnt x []) with 0 in X.
      assert (Y : qt w1 x + cnt x (m_q (w_mod w k)) = qt w x + (cnt x (m_q (w_mod w k)) + (0 + 0))).
      { apply X; [intros j E; unfold w1; cbn [with_phase with_mod w_mod]; now rewrite fupd_other | unfold w1; cbn [with_phase with_mod w_mod]; now rewrite fupd_same]. }
      lia. }
    destruct R as [R1 R2 R3 R4 R5]. constructor; auto.
    + intros b. rewrite Q by discriminate. apply R1.
    + intros x. rewrite Q by discriminate. apply R4.
  - (* the queue is destroyed, and it is empty *)
    assert (E : m_q (w_mod w k) = []).
    { pose proof (b_mods _ B) as X. unfold mods_ok in X. rewrite H in X. destruct X as (_ & _ & X). specialize (X k H0).
      rewrite Nat.ltb_irrefl, Nat.eqb_refl in X. cbn [andb] in X.
      destruct wt; destruct X as [_ [[X1 X2]|[X1 X2]]]; congruence. }
    set (w1 := with_phase _ _). apply (refs_same w); auto. intros x. apply qt_same; [reflexivity|]. intros j L. unfold w1. cbn [with_phase with_mod w_mod].
    destruct (Nat.eq_dec j k) as [->|D]; [rewrite fupd_same; cbn [finish m_q]; congruence | now rewrite fupd_other].
  - apply (refs_same w); auto.
Qed.
