From Coq Require Import List Arith Lia Bool.
From Verif Require Import RrcModel RrcSpec.
Import ListNotations.

Lemma setn_len : forall {A} (l : list A) i f, length (setn l i f) = length l.
Proof. induction l; intros [|i] f; cbn; auto. Qed.

Lemma setn_nth : forall {A} (l : list A) i f j d, i < length l ->
  nth j (setn l i f) d = if j =? i then f (nth i l d) else nth j l d.
Proof.
  induction l as [|a l IH]; intros i f j d H; cbn in H; [lia|].
  destruct i, j; cbn; auto. apply IH; lia.
Qed.

Lemma setn_nth_err : forall {A} (l : list A) i f j,
  nth_error (setn l i f) j = if j =? i then option_map f (nth_error l j) else nth_error l j.
Proof.
  induction l as [|a l IH]; intros i f j.
  - destruct i; cbn; destruct j; cbn; auto; destruct (j =? i); auto.
  - destruct i, j; cbn; auto.
Qed.

Lemma setn_out : forall {A} (l : list A) i f, length l <= i -> setn l i f = l.
Proof. induction l as [|a l IH]; intros [|i] f H; cbn in *; auto; try lia. f_equal; apply IH; lia. Qed.

Definition eqs (p x p' x' : bool) : bool := Bool.eqb p p' && Bool.eqb x x'.

Lemma sget_sset : forall se p x v p' x',
  sget (sset se p x v) p' x' = if eqs p x p' x' then v else sget se p' x'.
Proof. intros se [] [] v [] []; reflexivity. Qed.

Definition inb (s : st) (i : nat) : Prop := i < length (ses s).

Lemma getr_setr : forall s i p x v j p' x', inb s i ->
  getr (setr s i p x v) j p' x' =
  if (j =? i) && eqs p x p' x' then v else getr s j p' x'.
Proof.
  intros s i p x v j p' x' H; unfold getr, setr, inb in *; cbn [ses].
  rewrite setn_nth by auto. destruct (j =? i) eqn:E; cbn [andb]; auto.
  apply Nat.eqb_eq in E; subst j. apply sget_sset.
Qed.

Lemma held_sset : forall se p x v k,
  held_in (sset se p x v) k + holds (sget se p x) k = held_in se k + holds v k.
Proof. intros se [] [] v k; unfold held_in; cbn; lia. Qed.

Lemma holders_setr : forall s i p x v k, inb s i ->
  holders (ses (setr s i p x v)) k + holds (getr s i p x) k = holders (ses s) k + holds v k.
Proof.
  intros s i p x v k H. unfold inb in H. unfold getr, setr; cbn [ses].
  revert i H. induction (ses s) as [|se l IH]; intros i H; cbn in H; [lia|].
  destruct i as [|i].
  - cbn. pose proof (held_sset se p x v k). lia.
  - cbn. specialize (IH i ltac:(lia)). lia.
Qed.

Lemma holders_ge : forall s i p x k, getr s i p x = Some k -> 1 <= holders (ses s) k.
Proof.
  intros s i p x k H. assert (inb s i) as B.
  { unfold inb, getr in *. destruct (Nat.lt_ge_cases i (length (ses s))); auto.
    rewrite nth_overflow in H by auto. destruct p, x; discriminate. }
  pose proof (holders_setr s i p x None k B) as E. rewrite H in E.
  cbn in E. rewrite Nat.eqb_refl in E. lia.
Qed.

Definition refs (s : st) (k : nat) : nat := r_refs (nth k (recs s) norec).

Definition Bal (s : st) : Prop := forall k, refs s k = holders (ses s) k.

Lemma refs_setn : forall (l : list recorder) k f j, (forall r, r_place (f r) = r_place r) ->
  k < length l ->
  r_refs (nth j (setn l k f) norec) = if j =? k then r_refs (f (nth k l norec)) else r_refs (nth j l norec).
Proof. intros. rewrite setn_nth by auto. destruct (j =? k); auto. Qed.

Lemma refs_in : forall s k, refs s k <> 0 -> k < length (recs s).
Proof.
  intros s k H. destruct (Nat.lt_ge_cases k (length (recs s))); auto.
  unfold refs in H. rewrite nth_overflow in H by auto. destruct H; reflexivity.
Qed.

(* what an operation may do to the recorders: keep their places *)
Definition keeps (s s' : st) : Prop :=
  (forall k p, option_map r_place (nth_error (recs s) k) = Some p ->
               option_map r_place (nth_error (recs s') k) = Some p) /\
  length (ses s') = length (ses s).

Lemma keeps_refl : forall s, keeps s s.
Proof. split; auto. Qed.
Lemma keeps_trans : forall a b c, keeps a b -> keeps b c -> keeps a c.
Proof. intros a b c [H1 L1] [H2 L2]; split; [auto|congruence]. Qed.
Lemma keeps_setr : forall s i p x v, keeps s (setr s i p x v).
Proof. intros; split; [auto|apply setn_len]. Qed.

Lemma keeps_setn : forall s k f, (forall r, r_place (f r) = r_place r) ->
  keeps s (mkst (ses s) (setn (recs s) k f)).
Proof.
  intros s k f F; split; auto. intros j p H; cbn [recs].
  rewrite setn_nth_err. destruct (j =? k); auto.
  destruct (nth_error (recs s) j); cbn in *; [|discriminate]. rewrite F; auto.
Qed.

(* the stream takes a reference to an open recorder *)
Lemma take : forall s i p x k, Bal s -> inb s i -> getr s i p x = None -> refs s k <> 0 ->
  exists s1, incref s k = Ok s1 /\ ses s1 = ses s /\ Bal (setr s1 i p x (Some k)) /\
             keeps s (setr s1 i p x (Some k)).
Proof.
  intros s i p x k B I G R. unfold incref. fold (refs s k).
  destruct (refs s k =? 0) eqn:E; [apply Nat.eqb_eq in E; contradiction|].
  eexists; split; [reflexivity|]. split; [reflexivity|]. split.
  - intro j. pose proof (holders_setr s i p x (Some k) j I) as H. rewrite G in H.
    unfold setr in *; cbn [ses recs] in *. unfold refs; cbn [recs].
    rewrite refs_setn by (auto; apply refs_in; auto).
    specialize (B j). unfold refs in B. cbn [holds] in H.
    rewrite (Nat.eqb_sym k j) in H. destruct (j =? k) eqn:F; cbn [r_refs].
    + apply Nat.eqb_eq in F; subst j. lia.
    + lia.
  - eapply keeps_trans; [|apply keeps_setr]. apply keeps_setn; intros; reflexivity.
Qed.

(* the stream takes the only reference to a new recorder *)
Lemma make : forall s i p x t o kd, Bal s -> inb s i -> getr s i p x = None ->
  let r := record_ctor s i t o kd true in
  snd r = Some (length (recs s)) /\ ses (fst r) = ses s /\
  Bal (setr (fst r) i p x (Some (length (recs s)))) /\
  keeps s (setr (fst r) i p x (Some (length (recs s)))).
Proof.
  intros s i p x t o kd B I G r; subst r; cbn [record_ctor fst snd].
  split; [auto|]. split; [auto|]. split.
  - intro j. pose proof (holders_setr s i p x (Some (length (recs s))) j I) as H. rewrite G in H.
    unfold setr in *; cbn [ses recs] in *. unfold refs; cbn [recs].
    specialize (B j). unfold refs in B. cbn [holds] in H.
    destruct (Nat.lt_trichotomy j (length (recs s))) as [L|[L|L]].
    + rewrite app_nth1 by auto. destruct (length (recs s) =? j) eqn:F; [apply Nat.eqb_eq in F; lia|]. lia.
    + subst j. rewrite nth_overflow in B by lia. rewrite app_nth2, Nat.sub_diag by lia.
      rewrite Nat.eqb_refl in H. cbn in *. lia.
    + rewrite nth_overflow in B by lia. rewrite nth_overflow by (rewrite app_length; cbn; lia).
      destruct (length (recs s) =? j) eqn:F; [apply Nat.eqb_eq in F; lia|]. lia.
  - eapply keeps_trans; [|apply keeps_setr]. split; auto. intros j q H; cbn [recs].
    destruct (nth_error (recs s) j) eqn:E; [|discriminate].
    rewrite nth_error_app1 by (apply nth_error_Some; congruence). rewrite E; auto.
Qed.

Lemma drop : forall s i p x k, Bal s -> inb s i -> getr s i p x = Some k ->
  exists s1, decref s k = Ok s1 /\ ses s1 = ses s /\ Bal (setr s1 i p x None) /\
             keeps s (setr s1 i p x None).
Proof.
  intros s i p x k B I G. unfold decref. fold (refs s k).
  assert (refs s k <> 0) as R by (rewrite B; pose proof (holders_ge s i p x k G); lia).
  destruct (refs s k =? 0) eqn:E; [apply Nat.eqb_eq in E; contradiction|].
  eexists; split; [reflexivity|]. split; [reflexivity|]. split.
  - intro j. pose proof (holders_setr s i p x None j I) as H. rewrite G in H.
    unfold setr in *; cbn [ses recs] in *. unfold refs; cbn [recs].
    rewrite refs_setn by (auto; apply refs_in; auto).
    pose proof (B k) as Bk. specialize (B j). unfold refs in *. cbn [holds] in H.
    rewrite (Nat.eqb_sym k j) in H. destruct (j =? k) eqn:F; cbn [r_refs].
    + apply Nat.eqb_eq in F; subst j. lia.
    + lia.
  - eapply keeps_trans; [|apply keeps_setr]. apply keeps_setn; intros; reflexivity.
Qed.

Lemma getr_ses : forall s s' i p x, ses s' = ses s -> getr s' i p x = getr s i p x.
Proof. intros s s' i p x H; unfold getr; rewrite H; auto. Qed.
Lemma inb_ses : forall s s' i, ses s' = ses s -> inb s i -> inb s' i.
Proof. intros s s' i H; unfold inb; rewrite H; auto. Qed.

Definition Tog (c : bool) (s : st) : Prop :=
  forall i idx, present (getr s i true idx) = c && present (getr s i false idx).

Record Inv (c : bool) (s : st) : Prop := { i_bal : Bal s; i_tog : Tog c s }.

Lemma inv_init : forall c, Inv c init.
Proof.
  intro c; constructor.
  - intro k; unfold refs; cbn. destruct k; auto.
  - intros i idx; unfold getr; cbn. destruct i, idx, c; reflexivity.
Qed.

Lemma eqs_refl : forall p x, eqs p x p x = true.
Proof. intros [] []; reflexivity. Qed.

(* the recorder of the other streams is left alone *)
Definition aside (s s' : st) (i : nat) (idx : bool) : Prop :=
  forall j p x, (j <> i \/ x <> idx) -> getr s' j p x = getr s j p x.

Lemma aside_refl : forall s i idx, aside s s i idx.
Proof. intros s i idx j p x _; auto. Qed.

Lemma setr_aside : forall s i p idx v s0, inb s i -> aside s0 s i idx ->
  aside s0 (setr s i p idx v) i idx.
Proof.
  intros s i p idx v s0 I A j p' x H. rewrite getr_setr by auto.
  destruct (j =? i) eqn:E; cbn [andb]; [|apply A; auto].
  apply Nat.eqb_eq in E; subst j. destruct H as [H|H]; [congruence|].
  unfold eqs. destruct (Bool.eqb p p'); cbn [andb]; [|apply A; auto].
  destruct (Bool.eqb idx x) eqn:F; [apply eqb_prop in F; congruence|apply A; auto].
Qed.

Lemma ses_aside : forall s s' s0 i idx, ses s' = ses s -> aside s0 s i idx -> aside s0 s' i idx.
Proof. intros s s' s0 i idx H A j p x N. rewrite (getr_ses s s') by auto. apply A; auto. Qed.

Lemma tog_of : forall c s s' i idx, Tog c s -> aside s s' i idx ->
  present (getr s' i true idx) = c && present (getr s' i false idx) -> Tog c s'.
Proof.
  intros c s s' i idx T A H j x.
  destruct (Nat.eq_dec j i) as [->|N].
  - destruct (Bool.bool_dec x idx) as [->|N]; [exact H|].
    rewrite !A by auto. apply T.
  - rewrite !A by auto. apply T.
Qed.

Lemma ctor_false : forall s i t o kd, record_ctor s i t o kd false = (s, None).
Proof. reflexivity. Qed.

Definition same_rrc (s s' : st) : Prop := forall j p x, getr s' j p x = getr s j p x.

(* what a call of handle_copy comes to *)
Definition copy_post (c : bool) (s s' : st) (i : nat) (idx : bool) (t : target)
    (single port : bool) (e : env) (b : bool) : Prop :=
  Inv c s' /\ keeps s s' /\ aside s s' i idx /\
  (b = true -> present (getr s' i false idx) = true) /\
  (b = false -> port = false \/ e_reply e = true -> same_rrc s s') /\
  (b = true -> getr s i false idx = None ->
     (single = false \/ is_udp t = true \/ getr s i false (negb idx) = None) ->
     recorded_to s' i false idx =
       Some (place_of (nth i (ses s) nosess) t idx (if single && negb (is_udp t) then KBoth else KRtp)) /\
     (c = true -> recorded_to s' i true idx =
       Some (place_of (nth i (ses s) nosess) t idx (if single && negb (is_udp t) then KBoth else KRtcp)))) /\
  (b = true -> getr s i false idx <> None ->
     getr s' i false idx = getr s i false idx /\ getr s' i true idx = getr s i true idx) /\
  (b = true -> getr s i false idx = None -> single = true -> is_udp t = false ->
     getr s i false (negb idx) <> None ->
     getr s' i false idx = getr s i false (negb idx)).

Lemma copy_same : forall c s i idx t single port e, Inv c s ->
  copy_post c s s i idx t single port e false.
Proof.
  intros c s i idx t single port e I. unfold copy_post.
  repeat (split; [first [exact I|apply keeps_refl|apply aside_refl|intros; discriminate|
                         intros; intros j p x; reflexivity]|]).
  intros; discriminate.
Qed.

Lemma rec_new : forall s i p x t o kd, inb s i ->
  let s1 := fst (record_ctor s i t o kd true) in
  recorded_to (setr s1 i p x (Some (length (recs s)))) i p x =
  Some (place_of (nth i (ses s) nosess) t o kd).
Proof.
  intros s i p x t o kd I s1. unfold recorded_to.
  rewrite getr_setr by (apply inb_ses with s; auto).
  rewrite Nat.eqb_refl, eqs_refl. cbn [andb]. subst s1. cbn [setr recs record_ctor fst].
  rewrite nth_error_app2, Nat.sub_diag by lia. reflexivity.
Qed.

Lemma rec_keep : forall s s' j p x j' p' x', keeps s s' -> getr s' j' p' x' = getr s j p x ->
  forall q, recorded_to s j p x = Some q -> recorded_to s' j' p' x' = Some q.
Proof.
  intros s s' j p x j' p' x' [K _] G q H. unfold recorded_to in *. rewrite G.
  destruct (getr s j p x); [|discriminate]. apply K; auto.
Qed.

Lemma nth_ses_eq : forall s s' i, ses s' = ses s -> nth i (ses s') nosess = nth i (ses s) nosess.
Proof. congruence. Qed.

Lemma nth_setr : forall s i p x v, s_call (nth i (ses (setr s i p x v)) nosess) = s_call (nth i (ses s) nosess)
  /\ s_tag (nth i (ses (setr s i p x v)) nosess) = s_tag (nth i (ses s) nosess).
Proof.
  intros. unfold setr; cbn [ses].
  destruct (Nat.lt_ge_cases i (length (ses s))) as [H|H].
  - rewrite setn_nth by auto. rewrite Nat.eqb_refl. destruct p, x; auto.
  - rewrite setn_out by auto. auto.
Qed.

Lemma place_setr : forall s i p x v t o k,
  place_of (nth i (ses (setr s i p x v)) nosess) t o k = place_of (nth i (ses s) nosess) t o k.
Proof.
  intros. destruct (nth_setr s i p x v) as [A B]. unfold place_of. rewrite A, B. reflexivity.
Qed.

(* the second recorder of a pair when the first is there *)
Lemma eqs_ft : forall x, eqs false x true x = false.
Proof. intros []; reflexivity. Qed.
Lemma eqs_tf : forall x, eqs true x false x = false.
Proof. intros []; reflexivity. Qed.

Ltac gs := repeat (rewrite getr_setr by (unfold inb in *; cbn [setr ses]; rewrite ?setn_len; auto);
  rewrite ?Nat.eqb_refl, ?eqs_refl, ?eqs_ft, ?eqs_tf; cbn [andb]).

Lemma inb_setr : forall s i p x v j, inb s j -> inb (setr s i p x v) j.
Proof. intros; unfold inb in *; cbn [setr ses]; rewrite setn_len; auto. Qed.

Lemma copy_ok : forall c s i idx t single port e, Inv c s -> inb s i ->
  exists s' b, handle_copy c s i idx t single port e = Ok (s', b) /\
               copy_post c s s' i idx t single port e b.
Proof.
  intros c s i idx t single port e [B T] I. unfold handle_copy.
  destruct (port && negb (is_udp t)) eqn:P0.
  { exists s, false; split; auto. apply copy_same; constructor; auto. }
  destruct (negb (is_udp t) && single) eqn:S0.
  - apply andb_true_iff in S0; destruct S0 as [U ->]. apply negb_true_iff in U. rewrite U in *.
    cbn [negb andb] in *. rewrite andb_true_r in P0.
    destruct (getr s i false idx) as [k0|] eqn:G.
    { exists s, false; split; auto. apply copy_same; constructor; auto. }
    assert (getr s i true idx = None) as G'.
    { pose proof (T i idx) as H. rewrite G, andb_false_r in H. destruct (getr s i true idx); auto; discriminate. }
    destruct (getr s i false (negb idx)) as [k|] eqn:GN.
    + (* share *)
      assert (refs s k <> 0) as R by (rewrite B; pose proof (holders_ge s i _ _ k GN); lia).
      destruct (take s i false idx k B I G R) as (s1 & E1 & Z1 & B1 & K1).
      rewrite E1; cbn [bindr negb].
      assert (I1 : inb s1 i) by (apply inb_ses with s; auto).
      assert (G1 : getr s1 i true idx = None) by (rewrite (getr_ses s s1); auto).
      set (s2 := setr s1 i false idx (Some k)) in *.
      assert (I2 : inb s2 i) by (apply inb_setr; auto).
      assert (G2 : getr s2 i true idx = None) by (unfold s2; gs; auto).
      assert (F2 : getr s2 i false idx = Some k) by (unfold s2; gs; auto).
      assert (A2 : aside s s2 i idx) by (apply setr_aside; auto; eapply ses_aside; eauto; apply aside_refl).
      rewrite G2, F2. destruct c.
      * assert (refs s2 k <> 0) as R2 by (rewrite B1; pose proof (holders_ge s2 i _ _ k F2); lia).
        destruct (take s2 i true idx k B1 I2 G2 R2) as (s3 & E3 & Z3 & B3 & K3).
        rewrite E3; cbn [bindr]. exists (setr s3 i true idx (Some k)), true; split; auto.
        assert (I3 : inb s3 i) by (apply inb_ses with s2; auto).
        assert (F4 : getr (setr s3 i true idx (Some k)) i false idx = Some k)
          by (gs; rewrite (getr_ses s2 s3); auto).
        assert (A4 : aside s (setr s3 i true idx (Some k)) i idx)
          by (apply setr_aside; auto; eapply ses_aside; eauto).
        assert (G4 : getr (setr s3 i true idx (Some k)) i true idx = Some k) by (gs; auto).
        unfold copy_post. split; [constructor; auto; eapply tog_of; eauto; rewrite F4, G4; auto|].
        split; [eapply keeps_trans; eauto|]. split; [auto|].
        split; [intros _; rewrite F4; auto|]. split; [intros; discriminate|].
        split; [intros _ _ [H|[H|H]]; congruence|]. split; [intros; congruence|].
        intros. rewrite F4, GN; auto.
      * exists s2, true; split; auto. unfold copy_post.
        split; [constructor; auto; eapply tog_of; eauto; rewrite F2, G2; auto|].
        split; [auto|]. split; [auto|].
        split; [intros _; rewrite F2; auto|]. split; [intros; discriminate|].
        split; [intros _ _ [H|[H|H]]; congruence|]. split; [intros; congruence|].
        intros. rewrite F2, GN; auto.
    + (* a new one *)
      destruct (e_rtp e) eqn:ER.
      2:{ rewrite ctor_false; cbn [bindr negb]. exists s, false; split; auto.
          apply copy_same; constructor; auto. }
      destruct (make s i false idx t idx KBoth B I G) as (M1 & M2 & M3 & M4).
      pose proof (rec_new s i false idx t idx KBoth I) as RN. cbv zeta in RN.
      destruct (record_ctor s i t idx KBoth true) as [s1 r]. cbn [fst snd] in *. subst r.
      cbn [bindr negb]. set (k := length (recs s)) in *.
      assert (I1 : inb s1 i) by (apply inb_ses with s; auto).
      assert (G1 : getr s1 i true idx = None) by (rewrite (getr_ses s s1); auto).
      set (s2 := setr s1 i false idx (Some k)) in *.
      assert (I2 : inb s2 i) by (apply inb_setr; auto).
      assert (G2 : getr s2 i true idx = None) by (unfold s2; gs; auto).
      assert (F2 : getr s2 i false idx = Some k) by (unfold s2; gs; auto).
      assert (A2 : aside s s2 i idx) by (apply setr_aside; auto; eapply ses_aside; eauto; apply aside_refl).
      rewrite G2, F2. destruct c.
      * assert (refs s2 k <> 0) as R2 by (rewrite M3; pose proof (holders_ge s2 i _ _ k F2); lia).
        destruct (take s2 i true idx k M3 I2 G2 R2) as (s3 & E3 & Z3 & B3 & K3).
        rewrite E3; cbn [bindr]. exists (setr s3 i true idx (Some k)), true; split; auto.
        assert (I3 : inb s3 i) by (apply inb_ses with s2; auto).
        assert (F4 : getr (setr s3 i true idx (Some k)) i false idx = Some k)
          by (gs; rewrite (getr_ses s2 s3); auto).
        assert (A4 : aside s (setr s3 i true idx (Some k)) i idx)
          by (apply setr_aside; auto; eapply ses_aside; eauto).
        assert (G4 : getr (setr s3 i true idx (Some k)) i true idx = Some k) by (gs; auto).
        unfold copy_post. split; [constructor; auto; eapply tog_of; eauto; rewrite F4, G4; auto|].
        split; [eapply keeps_trans; eauto|]. split; [auto|].
        split; [intros _; rewrite F4; auto|]. split; [intros; discriminate|].
        rewrite U; cbn [andb negb].
        split.
        { intros _ _ _. split; [|intros _]; (eapply rec_keep; [exact K3| |exact RN]); congruence. }
        split; intros; congruence.
      * exists s2, true; split; auto. unfold copy_post.
        split; [constructor; auto; eapply tog_of; eauto; rewrite F2, G2; auto|].
        split; [auto|]. split; [auto|].
        split; [intros _; rewrite F2; auto|]. split; [intros; discriminate|].
        rewrite U; cbn [andb negb].
        split; [intros _ _ _; split; [exact RN|intros; discriminate]|].
        split; intros; congruence.
  - destruct (is_udp t && negb (e_sock e)) eqn:US.
    { exists s, false; split; auto. apply copy_same; constructor; auto. }
    assert (single && negb (is_udp t) = false) as S1 by (rewrite andb_comm; auto).
    assert (getr s i false idx = None -> getr s i true idx = None) as GT.
    { intro G. pose proof (T i idx) as H. rewrite G, andb_false_r in H. destruct (getr s i true idx); auto; discriminate. }
    destruct (getr s i false idx) as [k0|] eqn:G.
    + (* already recorded *)
      cbn [negb].
      assert (exists b, bindr match getr s i true idx with
        | Some _ => Ok (s, true)
        | None => if c then
            let '(s2, r) := record_ctor s i t idx KRtcp (e_rtcp e) in
            match r with
            | Some k => Ok (setr s2 i true idx (Some k), true)
            | None => match getr s2 i false idx with
                      | Some k => bindr (decref s2 k) (fun s3 => Ok (setr s3 i false idx None, false))
                      | None => Freed
                      end
            end else Ok (s, true)
        end (fun '(s2, b2) => if negb b2 then Ok (s2, false)
             else if port && negb (e_reply e) then Ok (s2, false) else Ok (s2, true)) = Ok (s, b)) as [b E].
      { pose proof (T i idx) as H. rewrite G in H. cbn [present] in H. rewrite andb_true_r in H.
        destruct (getr s i true idx); cbn [present] in H.
        - cbn [bindr negb]. destruct (port && negb (e_reply e)); eexists; reflexivity.
        - subst c. cbn [bindr negb]. destruct (port && negb (e_reply e)); eexists; reflexivity. }
      rewrite E. exists s, b; split; auto. unfold copy_post.
      split; [constructor; auto|]. split; [apply keeps_refl|]. split; [apply aside_refl|].
      split; [rewrite G; auto|]. split; [intros _ _ j p x; auto|].
      split; [intros; congruence|]. split; [auto|]. intros; congruence.
    + specialize (GT eq_refl).
      destruct (e_rtp e) eqn:ER.
      2:{ rewrite ctor_false; cbn [negb]. exists s, false; split; auto.
          apply copy_same; constructor; auto. }
      destruct (make s i false idx t idx KRtp B I G) as (M1 & M2 & M3 & M4).
      pose proof (rec_new s i false idx t idx KRtp I) as RN. cbv zeta in RN.
      destruct (record_ctor s i t idx KRtp true) as [s1 r]. cbn [fst snd] in *. subst r.
      cbn [negb]. set (k := length (recs s)) in *.
      assert (I1 : inb s1 i) by (apply inb_ses with s; auto).
      assert (G1 : getr s1 i true idx = None) by (rewrite (getr_ses s s1); auto).
      set (s2 := setr s1 i false idx (Some k)) in *.
      assert (I2 : inb s2 i) by (apply inb_setr; auto).
      assert (G2 : getr s2 i true idx = None) by (unfold s2; gs; auto).
      assert (F2 : getr s2 i false idx = Some k) by (unfold s2; gs; auto).
      assert (A2 : aside s s2 i idx) by (apply setr_aside; auto; eapply ses_aside; eauto; apply aside_refl).
      rewrite G2. destruct c.
      * destruct (e_rtcp e) eqn:ET.
        -- destruct (make s2 i true idx t idx KRtcp M3 I2 G2) as (N1 & N2 & N3 & N4).
           pose proof (rec_new s2 i true idx t idx KRtcp I2) as RN2. cbv zeta in RN2.
           destruct (record_ctor s2 i t idx KRtcp true) as [s3 r]. cbn [fst snd] in *. subst r.
           cbn [bindr negb]. set (k2 := length (recs s2)) in *.
           assert (I3 : inb s3 i) by (apply inb_ses with s2; auto).
           assert (F4 : getr (setr s3 i true idx (Some k2)) i false idx = Some k)
             by (gs; rewrite (getr_ses s2 s3); auto).
           assert (A4 : aside s (setr s3 i true idx (Some k2)) i idx)
             by (apply setr_aside; auto; eapply ses_aside; eauto).
           assert (G4 : getr (setr s3 i true idx (Some k2)) i true idx = Some k2) by (gs; auto).
           assert (Q : copy_post true s (setr s3 i true idx (Some k2)) i idx t single port e true).
           { unfold copy_post. split; [constructor; auto; eapply tog_of; eauto; rewrite F4, G4; auto|].
             split; [eapply keeps_trans; eauto|]. split; [auto|].
             split; [intros _; rewrite F4; auto|]. split; [intros; discriminate|].
             rewrite S1. split.
             { intros _ _ _. split.
               - eapply rec_keep; [exact N4| |exact RN]; congruence.
               - intros _. rewrite RN2. unfold s2. rewrite place_setr. rewrite (nth_ses_eq s s1); auto. }
             split; [intros; congruence|]. intros _ _ E1 E2. exfalso. rewrite E1, E2 in S1. discriminate. }
           destruct (port && negb (e_reply e)) eqn:PR.
           ++ exists (setr s3 i true idx (Some k2)), false; split; auto.
              destruct Q as (Q1 & Q2 & Q3 & _). unfold copy_post.
              split; [auto|]. split; [auto|]. split; [auto|].
              split; [intros; discriminate|].
              split; [intros _ [H|H]; rewrite H in PR; cbn in PR; rewrite ?andb_false_r in PR; discriminate|].
              split; [intros; discriminate|]. split; intros; discriminate.
           ++ eexists _, true; split; [reflexivity|exact Q].
        -- rewrite ctor_false. rewrite F2.
           destruct (drop s2 i false idx k M3 I2 F2) as (s3 & E3 & Z3 & B3 & K3).
           rewrite E3; cbn [bindr negb]. exists (setr s3 i false idx None), false; split; auto.
           assert (I3 : inb s3 i) by (apply inb_ses with s2; auto).
           assert (SM : same_rrc s (setr s3 i false idx None)).
           { intros j p x. rewrite getr_setr by auto. destruct ((j =? i) && eqs false idx p x) eqn:E.
             - apply andb_true_iff in E; destruct E as [E1 E2]. apply Nat.eqb_eq in E1; subst j.
               unfold eqs in E2; apply andb_true_iff in E2; destruct E2 as [E2 E4].
               apply eqb_prop in E2, E4; subst. auto.
             - rewrite (getr_ses s2 s3) by auto. unfold s2. rewrite getr_setr by auto. rewrite E.
               rewrite (getr_ses s s1) by auto. auto. }
           unfold copy_post.
           split; [constructor; auto; intros j x; rewrite !SM; apply T|].
           split; [eapply keeps_trans; eauto|].
           split; [intros j p x _; apply SM|]. split; [intros; discriminate|].
           split; [auto|]. split; [intros; discriminate|]. split; intros; discriminate.
      * cbn [bindr negb].
        assert (Q : copy_post false s s2 i idx t single port e true).
        { unfold copy_post. split; [constructor; auto; eapply tog_of; eauto; rewrite F2, G2; auto|].
          split; [auto|]. split; [auto|].
          split; [intros _; rewrite F2; auto|]. split; [intros; discriminate|].
          rewrite S1. split; [intros _ _ _; split; [exact RN|intros; discriminate]|].
          split; [intros; congruence|]. intros _ _ E1 E2. exfalso. rewrite E1, E2 in S1. discriminate. }
        destruct (port && negb (e_reply e)) eqn:PR.
        -- exists s2, false; split; auto.
           destruct Q as (Q1 & Q2 & Q3 & _). unfold copy_post.
           split; [auto|]. split; [auto|]. split; [auto|].
           split; [intros; discriminate|].
           split; [intros _ [H|H]; rewrite H in PR; cbn in PR; rewrite ?andb_false_r in PR; discriminate|].
           split; [intros; discriminate|]. split; intros; discriminate.
        -- eexists _, true; split; [reflexivity|exact Q].
Qed.

Lemma stop_ok : forall c s i idx, Inv c s -> inb s i ->
  exists s', handle_stop c s i idx = Ok (s', present (getr s i false idx)) /\
    Inv c s' /\ keeps s s' /\ aside s s' i idx /\
    getr s' i false idx = None /\ getr s' i true idx = None.
Proof.
  intros c s i idx [B T] I. unfold handle_stop.
  pose proof (T i idx) as TI.
  destruct (getr s i false idx) as [k|] eqn:G; cbn [present] in *.
  2:{ exists s. split; auto. split; [constructor; auto|]. split; [apply keeps_refl|].
      split; [apply aside_refl|]. split; [auto|]. rewrite andb_false_r in TI.
      destruct (getr s i true idx); auto; discriminate. }
  rewrite andb_true_r in TI. destruct c.
  - destruct (getr s i true idx) as [j|] eqn:G'; cbn [present] in TI; [|discriminate].
    destruct (drop s i true idx j B I G') as (s1 & E1 & Z1 & B1 & K1).
    rewrite E1; cbn [bindr].
    assert (I1 : inb s1 i) by (apply inb_ses with s; auto).
    set (s2 := setr s1 i true idx None) in *.
    assert (I2 : inb s2 i) by (apply inb_setr; auto).
    assert (F2 : getr s2 i false idx = Some k) by (unfold s2; gs; rewrite (getr_ses s s1); auto).
    assert (H2 : getr s2 i true idx = None) by (unfold s2; gs; auto).
    assert (A2 : aside s s2 i idx) by (apply setr_aside; auto; eapply ses_aside; eauto; apply aside_refl).
    destruct (drop s2 i false idx k B1 I2 F2) as (s3 & E3 & Z3 & B3 & K3).
    rewrite E3; cbn [bindr]. exists (setr s3 i false idx None). split; auto.
    assert (I3 : inb s3 i) by (apply inb_ses with s2; auto).
    assert (A4 : aside s (setr s3 i false idx None) i idx)
      by (apply setr_aside; auto; eapply ses_aside; eauto).
    assert (F4 : getr (setr s3 i false idx None) i false idx = None) by (gs; auto).
    assert (G4 : getr (setr s3 i false idx None) i true idx = None)
      by (gs; rewrite (getr_ses s2 s3); auto).
    split; [constructor; auto; eapply tog_of; eauto; rewrite F4, G4; auto|].
    split; [eapply keeps_trans; eauto|]. auto.
  - cbn [bindr].
    destruct (drop s i false idx k B I G) as (s3 & E3 & Z3 & B3 & K3).
    rewrite E3; cbn [bindr]. exists (setr s3 i false idx None). split; auto.
    assert (I3 : inb s3 i) by (apply inb_ses with s; auto).
    assert (A4 : aside s (setr s3 i false idx None) i idx)
      by (apply setr_aside; auto; eapply ses_aside; eauto; apply aside_refl).
    assert (F4 : getr (setr s3 i false idx None) i false idx = None) by (gs; auto).
    assert (G4 : getr (setr s3 i false idx None) i true idx = None).
    { gs. rewrite (getr_ses s s3) by auto. destruct (getr s i true idx); auto; discriminate. }
    split; [constructor; auto; eapply tog_of; eauto; rewrite F4, G4; auto|].
    split; [auto|]. auto.
Qed.

Lemma drop1_ok : forall s i p x, Bal s -> inb s i ->
  exists s', drop1 s i p x = Ok s' /\ Bal s' /\ keeps s s' /\
    forall j p' x', getr s' j p' x' = if (j =? i) && eqs p x p' x' then None else getr s j p' x'.
Proof.
  intros s i p x B I. unfold drop1. destruct (getr s i p x) as [k|] eqn:G.
  - destruct (drop s i p x k B I G) as (s1 & E & Z & B1 & K). rewrite E; cbn [bindr].
    eexists; split; [reflexivity|]. split; [auto|]. split; [auto|].
    intros j p' x'. rewrite getr_setr by (apply inb_ses with s; auto).
    destruct (_ && _); auto. apply getr_ses; auto.
  - exists s. split; [auto|]. split; [auto|]. split; [apply keeps_refl|].
    intros j p' x'. destruct ((j =? i) && eqs p x p' x') eqn:E; auto.
    apply andb_true_iff in E; destruct E as [E1 E2]. apply Nat.eqb_eq in E1; subst j.
    unfold eqs in E2; apply andb_true_iff in E2; destruct E2 as [E2 E4].
    apply eqb_prop in E2, E4; subst. auto.
Qed.

Lemma end_ok : forall c s i, Inv c s -> inb s i ->
  exists s', handle_end s i = Ok s' /\ Inv c s' /\ keeps s s' /\
    forall j p x, getr s' j p x = if j =? i then None else getr s j p x.
Proof.
  intros c s i [B T] I. unfold handle_end.
  destruct (drop1_ok s i false false B I) as (s1 & E1 & B1 & K1 & G1). rewrite E1; cbn [bindr].
  assert (I1 : inb s1 i) by (unfold inb in *; destruct K1 as [_ ->]; auto).
  destruct (drop1_ok s1 i false true B1 I1) as (s2 & E2 & B2 & K2 & G2). rewrite E2; cbn [bindr].
  assert (I2 : inb s2 i) by (unfold inb in *; destruct K2 as [_ ->]; auto).
  destruct (drop1_ok s2 i true false B2 I2) as (s3 & E3 & B3 & K3 & G3). rewrite E3; cbn [bindr].
  assert (I3 : inb s3 i) by (unfold inb in *; destruct K3 as [_ ->]; auto).
  destruct (drop1_ok s3 i true true B3 I3) as (s4 & E4 & B4 & K4 & G4).
  exists s4. split; [auto|].
  assert (GG : forall j p x, getr s4 j p x = if j =? i then None else getr s j p x).
  { intros j p x. rewrite G4, G3, G2, G1. destruct (j =? i); cbn [andb]; auto.
    destruct p, x; reflexivity. }
  split; [constructor; auto|].
  - intros j x. rewrite !GG. destruct (j =? i); [cbn; rewrite andb_false_r; auto|apply T].
  - split; auto. eapply keeps_trans; eauto. eapply keeps_trans; eauto. eapply keeps_trans; eauto.
Qed.

Lemma holders_app : forall a b k, holders (a ++ b) k = holders a k + holders b k.
Proof. induction a; intros; cbn; auto. rewrite IHa; lia. Qed.

Lemma new_ok : forall c s a t, Inv c s ->
  Inv c (mkst (ses s ++ [mksess a t None None None None]) (recs s)) /\
  forall j p x, getr (mkst (ses s ++ [mksess a t None None None None]) (recs s)) j p x = getr s j p x.
Proof.
  intros c s a t [B T].
  assert (GG : forall j p x, getr (mkst (ses s ++ [mksess a t None None None None]) (recs s)) j p x = getr s j p x).
  { intros j p x. unfold getr; cbn [ses].
    destruct (Nat.lt_trichotomy j (length (ses s))) as [L|[L|L]].
    - rewrite app_nth1 by auto; auto.
    - subst j. rewrite app_nth2, Nat.sub_diag by lia. rewrite (nth_overflow (ses s)) by lia.
      destruct p, x; reflexivity.
    - rewrite (nth_overflow (ses s)) by lia. rewrite nth_overflow; [reflexivity|].
      rewrite app_length; cbn [length]; lia. }
  split; auto. constructor.
  - intro k. unfold refs; cbn [recs ses]. rewrite holders_app. cbn.
    specialize (B k); unfold refs in B. lia.
  - intros j x. rewrite !GG. apply T.
Qed.

(* the streams an operation is about *)
Definition about (o : op) (i : nat) (idx : bool) : Prop :=
  match o with
  | RNew _ _ => False
  | RCopy j x _ _ _ _ => j = i /\ x = idx
  | RStop j x => j = i /\ x = idx
  | REnd j => j = i
  end.

Lemma step_ok : forall c s o, Inv c s ->
  exists s', step c s o = Ok s' /\ Inv c s' /\
    (forall k p, option_map r_place (nth_error (recs s) k) = Some p ->
                 option_map r_place (nth_error (recs s') k) = Some p) /\
    (forall i idx p, ~ about o i idx -> getr s' i p idx = getr s i p idx).
Proof.
  intros c s o I; destruct o as [a t|i idx t single port e|i idx|i]; cbn [step about].
  - destruct (new_ok c s a t I) as [I' G]. eexists; split; [reflexivity|]. auto.
  - destruct (i <? length (ses s)) eqn:L; [|eexists; split; [reflexivity|]; auto].
    apply Nat.ltb_lt in L.
    destruct (copy_ok c s i idx t single port e I L) as (s' & b & E & P). rewrite E; cbn [bindr fst].
    exists s'; split; auto. destruct P as (P1 & [P2 _] & P3 & _). split; [auto|]. split; [auto|].
    intros j x p N. apply P3. destruct (Nat.eq_dec j i) as [->|D]; [right; intros ->; apply N; auto|left; exact D].
  - destruct (i <? length (ses s)) eqn:L; [|eexists; split; [reflexivity|]; auto].
    apply Nat.ltb_lt in L.
    destruct (stop_ok c s i idx I L) as (s' & E & P1 & [P2 _] & P3 & _). rewrite E; cbn [bindr fst].
    exists s'; split; auto. split; [auto|]. split; [auto|].
    intros j x p N. apply P3. destruct (Nat.eq_dec j i) as [->|D]; [right; intros ->; apply N; auto|left; exact D].
  - destruct (i <? length (ses s)) eqn:L; [|eexists; split; [reflexivity|]; auto].
    apply Nat.ltb_lt in L.
    destruct (end_ok c s i I L) as (s' & E & P1 & [P2 _] & P3). rewrite E.
    exists s'; split; auto. split; [auto|]. split; [auto|].
    intros j x p N. rewrite P3. destruct (j =? i) eqn:F; auto.
    apply Nat.eqb_eq in F; subst; contradiction N; auto.
Qed.

Lemma run_ok : forall c os s, Inv c s -> exists s', run c s os = Ok s' /\ Inv c s'.
Proof.
  intros c; induction os as [|o os IH]; intros s I; cbn [run]; [eauto|].
  destruct (step_ok c s o I) as (s1 & E & I1 & _). rewrite E; cbn [bindr]. apply IH; auto.
Qed.

Lemma run_kept : forall c os s s' i idx p q, Inv c s -> run c s os = Ok s' ->
  (forall o, In o os -> ~ about o i idx) ->
  recorded_to s i p idx = Some q -> recorded_to s' i p idx = Some q.
Proof.
  intros c; induction os as [|o os IH]; intros s s' i idx p q I R N H; cbn [run] in R.
  - injection R as <-; auto.
  - destruct (step_ok c s o I) as (s1 & E & I1 & K & G). rewrite E in R; cbn [bindr] in R.
    eapply IH; eauto; [intros; apply N; right; auto|].
    unfold recorded_to in *. rewrite G by (apply N; left; auto).
    destruct (getr s i p idx); [|discriminate]. apply K; auto.
Qed.
