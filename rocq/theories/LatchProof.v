From Verif Require Import Base AddrModel LatchModel LatchSpec.

Lemma sa_eqb_eq a b : sa_eqb a b = true <-> a = b.
Proof.
  destruct a as [h p|h p|f], b as [h' p'|h' p'|f']; cbn; split; intros H; try discriminate.
  - f_equal; lia.
  - injection H as -> ->. lia.
  - apply andb_true_iff in H as [H1 H2]. apply bytes_eqb_eq in H1. f_equal; auto. lia.
  - injection H as -> ->. rewrite bytes_eqb_refl. lia.
  - f_equal; lia.
  - injection H as ->. lia.
Qed.
Lemma sa_eqb_refl a : sa_eqb a a = true.
Proof. apply sa_eqb_eq; auto. Qed.
Lemma sa_eqb_neq a b : a <> b -> sa_eqb a b = false.
Proof. intros N. destruct (sa_eqb a b) eqn:E; auto. apply sa_eqb_eq in E. tauto. Qed.

Lemma seq_dist_mod a b : 0 <= a < 65536 -> 0 <= b < 65536 -> seq_dist a b = (b - a) mod 65536.
Proof. unfold seq_dist. intros. destruct (b >=? a) eqn:E; lia. Qed.

(** The fields the helpers do not touch. *)
Lemma latch_sync_rem s now p : l_rem (latch_sync s now p) = l_rem s.
Proof.
  unfold latch_sync. destruct (l_pipe s), (l_ssrc s); auto.
  destruct (now - l_sync s <? SEQ_SYNC_IVAL); auto. destruct (p_rtp p) as [[v q]|]; auto.
  destruct (negb (z =? v)); auto.
Qed.
Lemma latch_sync_keeps s now p :
  l_latched (latch_sync s now p) = l_latched s /\ l_asym (latch_sync s now p) = l_asym s /\
  l_mode (latch_sync s now p) = l_mode s /\ l_pipe (latch_sync s now p) = l_pipe s /\
  l_ssrc (latch_sync s now p) = l_ssrc s /\ l_update (latch_sync s now p) = l_update s.
Proof.
  unfold latch_sync. destruct (l_pipe s) eqn:P, (l_ssrc s) eqn:E; auto 7.
  destruct (now - l_sync s <? SEQ_SYNC_IVAL); auto 7. destruct (p_rtp p) as [[v q]|]; auto 7.
  destruct (negb (z =? v)); cbn; auto 7.
Qed.

Lemma override_some s now p s1 : override s now p = Some s1 ->
  l_rem s1 = l_rem s /\ l_latched s1 = l_latched s /\ l_asym s1 = l_asym s /\ l_mode s1 = l_mode s /\
  l_pipe s1 = l_pipe s /\ l_prev s1 = l_prev s.
Proof.
  unfold override. destruct (l_pipe s) eqn:P; [|discriminate]. destruct (l_ssrc s); [|discriminate].
  destruct (l_mode s) eqn:M; try discriminate;
    (destruct (p_rtp p) as [[v q]|]; [|discriminate]);
    (destruct (_ && _)); try discriminate; intros H; injection H as <-; cbn; auto 7.
Qed.

Lemma override_iff s p : wf_stream s -> wf_packet p -> l_mode s <> FORCE_OFF ->
  override s (p_time p) p <> None <-> continues s p \/ in_update_window s p.
Proof.
  intros (WQ & _ & _) (_ & WP & _) M. unfold override, continues, in_update_window.
  destruct (l_pipe s) eqn:P.
  2: { split; [congruence|]. intros [(X & _)|(X & _)]; discriminate. }
  destruct (l_ssrc s) as [v|] eqn:S.
  2: { split; [congruence|]. intros [(_ & _ & v & q & X & _)|(_ & _ & X & _)]; congruence. }
  destruct (l_mode s) eqn:Md.
  2: congruence.
  2: { split; [congruence|]. intros [(_ & X & _)|(_ & X & _)]; discriminate. }
  destruct (p_rtp p) as [[v' q]|] eqn:R.
  2: { split; [congruence|]. intros [(_ & _ & ? & ? & _ & X & _)|(_ & _ & _ & X & _)]; congruence. }
  unfold UPDATE_WINDOW.
  match goal with |- context [if ?b then _ else _] => destruct b eqn:B end.
  - split; [congruence|]. apply andb_true_iff in B as [B1 B2].
    intros [(_ & _ & w & r & E1 & E2 & D)|(_ & _ & _ & _ & U & W)].
    + injection E1 as <-. injection E2 as -> <-. rewrite seq_dist_mod in B2 by auto. lia.
    + lia.
  - split; [|discriminate]. intros _. apply andb_false_iff in B as [B|B].
    + right. repeat split; auto; try discriminate; lia.
    + left. repeat split; auto. exists v, q. rewrite seq_dist_mod in B by auto.
      assert (v' = v) by lia. subst v'. repeat split; auto. lia.
Qed.

Lemma ishostseq_total a b : inet a = true -> inet b = true -> ishostseq a b <> None.
Proof.
  unfold ishostseq. destruct a, b; cbn; intros; try discriminate.
Qed.

(** *** Another address *)
Lemma other_address_lemma s c p a s' c' v : wf_stream s -> wf_packet p -> protected s a ->
  p_from p <> a -> rx s c false p = (s', c', v) ->
  (v = Discard /\ s' = s /\ c' = c /\ ~ continues s p /\ ~ in_update_window s p) \/
  (v = Accept /\ l_rem s' = Some (p_from p) /\ (continues s p \/ in_update_window s p)).
Proof.
  intros WS WP (R & L & A & M) N E. unfold rx in E. rewrite R, L, A in E. cbn [negb] in E.
  rewrite (sa_eqb_neq a (p_from p)) in E by congruence. cbn [negb] in E.
  pose proof (override_iff s p WS WP M) as O.
  destruct (l_mode s) eqn:Md; [|congruence|].
  - destruct (override s (p_time p) p) as [s1|] eqn:V.
    + cbn in E. injection E as <- <- <-. right. split; auto. rewrite latch_sync_rem. split; auto.
      apply O. discriminate.
    + injection E as <- <- <-. left. repeat split; auto; intros X; assert (@None stream <> None) by (apply O; auto); tauto.
  - destruct (override s (p_time p) p) as [s1|] eqn:V.
    + cbn in E. injection E as <- <- <-. right. split; auto. rewrite latch_sync_rem. split; auto.
      apply O. discriminate.
    + injection E as <- <- <-. left. repeat split; auto; intros X; assert (@None stream <> None) by (apply O; auto); tauto.
Qed.

Lemma off_path_discard s c p a : wf_stream s -> wf_packet p -> protected s a -> off_path s p ->
  rx s c false p = (s, c, Discard).
Proof.
  intros WS WP P (N & C & W).
  assert (p_from p <> a). { intros X. apply N. rewrite X. apply P. }
  destruct (rx s c false p) as [[s' c'] v] eqn:E.
  destruct (other_address_lemma _ _ _ _ _ _ _ WS WP P H E) as [(-> & -> & -> & _)|(_ & _ & X)]; auto.
  tauto.
Qed.

(** *** The peer itself *)
Lemma latch_keeps s now p : l_mode s <> FORCE_ON ->
  l_rem (latch s now p) = l_rem s /\ l_asym (latch s now p) = l_asym s /\
  l_mode (latch s now p) = l_mode s /\ l_pipe (latch s now p) = l_pipe s.
Proof.
  unfold latch. intros M. destruct (l_mode s) eqn:Md; [| |tauto].
  - destruct (negb (l_update s =? 0) && (now - l_update s <? UPDATE_WINDOW)); [auto|].
    destruct (l_pipe s) eqn:P; [destruct (p_rtp p) as [[v q]|]|]; cbn; auto.
  - destruct (negb (l_update s =? 0) && (now - l_update s <? UPDATE_WINDOW)); [auto|].
    destruct (l_pipe s) eqn:P; [destruct (p_rtp p) as [[v q]|]|]; cbn; auto.
Qed.
Lemma latch_latched s now p : l_mode s <> FORCE_ON -> l_latched s = true ->
  match p_rtp p with Some (v, _) => v <> 0 | None => True end -> l_latched (latch s now p) = true.
Proof.
  unfold latch, SSRC_BAD. intros M L B. destruct (l_mode s) eqn:Md; [| |tauto].
  - destruct (negb (l_update s =? 0) && (now - l_update s <? UPDATE_WINDOW)); [auto|].
    destruct (l_pipe s) eqn:P; [destruct (p_rtp p) as [[v q]|]|]; cbn; auto. lia.
  - destruct (negb (l_update s =? 0) && (now - l_update s <? UPDATE_WINDOW)); [auto|].
    destruct (l_pipe s) eqn:P; [destruct (p_rtp p) as [[v q]|]|]; cbn; auto. lia.
Qed.

Lemma peer_rx s c p a : protected s a -> p_from p = a ->
  rx s c false p = (latch_sync s (p_time p) p, c, Accept).
Proof.
  intros (R & L & A & M) <-. unfold rx. rewrite R, L, A, sa_eqb_refl. cbn [negb].
  destruct (l_mode s); auto. congruence.
Qed.

Lemma protected_sync s a now p : protected s a -> protected (latch_sync s now p) a.
Proof.
  intros (R & L & A & M). destruct (latch_sync_keeps s now p) as (X1 & X2 & X3 & _).
  unfold protected. rewrite latch_sync_rem, X1, X2, X3. auto.
Qed.
Lemma protected_analyze s a chg p : protected s a ->
  match p_rtp p with Some (v, _) => v <> 0 | None => True end -> protected (analyze s chg p) a.
Proof.
  intros (R & L & A & M) B. unfold analyze. destruct (p_rtp p) as [[v q]|] eqn:E; [|split; auto].
  destruct (l_mode s) eqn:Md; [|congruence|repeat split; auto; congruence].
  destruct chg; [|repeat split; auto; congruence].
  assert (M' : l_mode s <> FORCE_ON) by congruence.
  destruct (latch_keeps s (p_time p) p M') as (X1 & X2 & X3 & _).
  unfold protected. rewrite X1, X2, X3, Md. repeat split; auto.
  apply latch_latched; auto. rewrite E. auto.
Qed.

(** *** Well-formedness is kept *)
Lemma wf_latch_sync s now p : wf_stream s -> wf_packet p -> wf_stream (latch_sync s now p).
Proof.
  intros (W1 & W2 & W3) (_ & WP & _). unfold latch_sync, wf_stream.
  destruct (l_pipe s) eqn:P, (l_ssrc s) eqn:S; auto; try (rewrite P, S; auto).
  - destruct (now - l_sync s <? SEQ_SYNC_IVAL); [rewrite P; repeat split; auto; try lia; try discriminate|].
    destruct (p_rtp p) as [[v q]|]; [|rewrite P; repeat split; auto; try lia; try discriminate].
    destruct (negb (z =? v)); [rewrite P; repeat split; auto; try lia; try discriminate|].
    cbn. rewrite P. repeat split; auto; try lia; try discriminate.
Qed.
Lemma wf_latch s now p : wf_stream s -> wf_packet p -> wf_stream (latch s now p).
Proof.
  intros (W1 & W2 & W3) (WI & WP & WQ). unfold latch.
  destruct (l_mode s) eqn:M.
  3: { unfold fill_addr0, wf_stream; cbn. repeat split; auto; try lia; try discriminate. }
  - destruct (negb (l_update s =? 0) && (now - l_update s <? UPDATE_WINDOW)); [split; auto|].
    destruct (l_pipe s) eqn:P; [destruct (p_rtp p) as [[v q]|]|]; unfold wf_stream; cbn; rewrite P;
      repeat split; auto; try lia; try discriminate.
  - destruct (negb (l_update s =? 0) && (now - l_update s <? UPDATE_WINDOW)); [split; auto|].
    destruct (l_pipe s) eqn:P; [destruct (p_rtp p) as [[v q]|]|]; unfold wf_stream; cbn; rewrite P;
      repeat split; auto; try lia; try discriminate.
Qed.
Lemma wf_fill0 s p : wf_stream s -> wf_packet p -> wf_stream (fill_addr0 s p).
Proof. intros (W1 & W2 & W3) (WI & WP & WQ). unfold fill_addr0, wf_stream; cbn. repeat split; auto; try lia; try discriminate. Qed.
Lemma wf_guess s p : wf_stream s -> wf_packet p -> wf_stream (guess_addr s p).
Proof.
  intros (W1 & W2 & W3) (WI & WP & WQ). unfold guess_addr.
  destruct (match l_rem s with Some _ => _ | None => _ end); [split; auto|].
  destruct (getport (p_from p)) as [x|] eqn:G; [|split; auto].
  destruct (x =? 65535) eqn:X; [split; auto|].
  unfold setport. destruct ((x + 1 <=? 0) || (x + 1 >? 65535)) eqn:Y; [split; auto|].
  destruct (p_from p); cbn in G; try discriminate; unfold wf_stream, wf_addr; cbn; repeat split; auto; try lia; try discriminate.
Qed.
Lemma wf_override s now p s1 : wf_stream s -> wf_packet p -> override s now p = Some s1 -> wf_stream s1.
Proof.
  intros (W1 & W2 & W3) (WI & WP & WQ). unfold override.
  destruct (l_pipe s) eqn:P; [|discriminate]. destruct (l_ssrc s) eqn:S; [|discriminate].
  destruct (l_mode s) eqn:M; try discriminate;
    (destruct (p_rtp p) as [[v q]|]; [|discriminate]);
    (destruct (_ && _)); try discriminate; intros H; injection H as <-; unfold wf_stream; cbn; rewrite P;
    repeat split; auto; try lia; discriminate.
Qed.
Lemma wf_rx s c e p s' c' v : wf_stream s -> match c with Some r => wf_stream r | None => True end ->
  wf_packet p -> rx s c e p = (s', c', v) ->
  wf_stream s' /\ match c' with Some r => wf_stream r | None => True end.
Proof.
  intros W WC WP. unfold rx, fill_addr.
  assert (F : forall s0, wf_stream s0 ->
     wf_stream (latch_sync (fill_addr0 s0 p) (p_time p) p)) by (intros; apply wf_latch_sync; auto using wf_fill0).
  assert (G : match match c with Some r => Some (guess_addr r p) | None => None end with Some r => wf_stream r | None => True end).
  { destruct c; auto using wf_guess. }
  destruct (l_mode s); [|intros H; injection H as <- <- <-; auto|];
  (destruct (l_rem s) as [a|] eqn:R; [|intros H; injection H as <- <- <-; auto]);
  (destruct e; [intros H; injection H as <- <- <-; auto|]);
  (destruct (l_asym s); cbn [negb];
    [destruct (ishostseq a (p_from p)) as [[|]|]; intros H; injection H as <- <- <-; auto using wf_latch_sync|]);
  (destruct (sa_eqb a (p_from p)); cbn [negb];
    [destruct (l_latched s); intros H; injection H as <- <- <-; auto using wf_latch_sync, wf_latch|]);
  (destruct (l_latched s); [destruct (override s (p_time p) p) eqn:O|]);
  intros H; injection H as <- <- <-; eauto using wf_override, wf_latch.
Qed.
Lemma wf_analyze s chg p : wf_stream s -> wf_packet p -> wf_stream (analyze s chg p).
Proof.
  intros W WP. unfold analyze. destruct (p_rtp p), (l_mode s), chg; auto using wf_latch.
Qed.
Lemma wf_prefill s a now : wf_stream s -> wf_addr a -> wf_stream (prefill s a now).
Proof.
  intros (W1 & W2 & W3) WA. unfold prefill, wf_stream.
  destruct (l_untrusted s); [cbn; auto|]. destruct (l_rem s) as [r|]; [|cbn; auto].
  destruct (match isaddrseq r a with Some _ => _ | None => _ end); cbn; auto.
Qed.


Lemma guess_pipe s p : l_pipe (guess_addr s p) = l_pipe s.
Proof.
  unfold guess_addr. destruct (match l_rem s with Some _ => _ | None => _ end); auto.
  destruct (getport (p_from p)); auto. destruct (z =? 65535); auto. destruct (setport _ _); auto.
Qed.
Lemma latch_pipe s now p : l_pipe (latch s now p) = l_pipe s.
Proof.
  destruct (l_mode s) eqn:M.
  - apply latch_keeps. congruence.
  - apply latch_keeps. congruence.
  - unfold latch. rewrite M. reflexivity.
Qed.
Lemma rx_pipe s c e p s' c' v : rx s c e p = (s', c', v) -> l_pipe s' = l_pipe s /\
  match c, c' with Some r, Some r' => l_pipe r' = l_pipe r | None, None => True | _, _ => False end.
Proof.
  assert (SY : forall s0, l_pipe (latch_sync s0 (p_time p) p) = l_pipe s0) by (intros; apply latch_sync_keeps).
  assert (C0 : match c, c with Some r, Some r' => l_pipe r' = l_pipe r | None, None => True | _, _ => False end) by (destruct c; auto).
  assert (C1 : match c, match c with Some r => Some (guess_addr r p) | None => None end with Some r, Some r' => l_pipe r' = l_pipe r | None, None => True | _, _ => False end) by (destruct c; auto using guess_pipe).
  unfold rx, fill_addr.
  destruct (l_mode s); [|intros H; injection H as <- <- <-; auto|];
  (destruct (l_rem s) as [a|] eqn:R; [|intros H; injection H as <- <- <-; rewrite SY; auto]);
  (destruct e; [intros H; injection H as <- <- <-; rewrite SY; auto|]);
  (destruct (l_asym s); cbn [negb];
    [destruct (ishostseq a (p_from p)) as [[|]|]; intros H; injection H as <- <- <-; rewrite ?SY; auto|]);
  (destruct (sa_eqb a (p_from p)); cbn [negb];
    [destruct (l_latched s); intros H; injection H as <- <- <-; rewrite ?SY, ?latch_pipe; auto|]);
  (destruct (l_latched s); [destruct (override s (p_time p) p) eqn:O|]);
  intros H; injection H as <- <- <-; rewrite ?SY; cbn; rewrite ?latch_pipe; auto.
  - apply override_some in O. split; [apply O|auto].
  - apply override_some in O. split; [apply O|auto].
Qed.

Lemma wf_step g e : wf_leg g -> wf_event e -> wf_leg (fst (step g e)).
Proof.
  intros (W1 & W2 & W3) WE. destruct e as [p em chg|p em|a b now| |r m]; cbn [step wf_event] in *.
  - destruct (rx (g_rtp g) (Some (g_rtcp g)) em p) as [[s c] v] eqn:E.
    destruct (wf_rx _ (Some (g_rtcp g)) _ _ _ _ _ W1 W2 WE E) as [X Y].
    destruct (rx_pipe _ _ _ _ _ _ _ E) as [_ Z]. destruct c as [c|]; [|tauto].
    cbn [fst]. split; [|split]; cbn; auto.
    + destruct v; auto using wf_analyze.
    + congruence.
  - destruct (rx (g_rtcp g) None em p) as [[s c] v] eqn:E.
    destruct (wf_rx _ None _ _ _ _ _ W2 I WE E) as [X Y].
    destruct (rx_pipe _ _ _ _ _ _ _ E) as [Z _].
    split; [|split]; cbn; auto. congruence.
  - destruct WE. split; [|split]; cbn; auto using wf_prefill.
    unfold prefill. destruct (l_untrusted (g_rtcp g)); auto. destruct (l_rem (g_rtcp g)); auto.
    destruct (match isaddrseq s b with Some _ => _ | None => _ end); auto.
  - split; [|split]; cbn; auto; destruct W1 as (?&?&?), W2 as (?&?&?); unfold wf_stream; cbn; auto.
  - destruct r; (split; [|split]); cbn; auto; destruct W1 as (?&?&?), W2 as (?&?&?); unfold wf_stream; cbn; auto.
Qed.

(** *** Attacks have no effect *)
Lemma attack_step g e : wf_leg g -> wf_event e -> attack g e -> step g e = (g, Some Discard).
Proof.
  intros (W1 & W2 & W3) WE A. destruct e as [p em chg|p em| | |]; cbn [attack] in A; try tauto;
    destruct A as (-> & (a & P) & O); cbn [step wf_event] in *.
  - rewrite (off_path_discard _ _ _ _ W1 WE P O). destruct g; auto.
  - rewrite (off_path_discard _ _ _ _ W2 WE P O). destruct g; auto.
Qed.

Lemma mixed_lemma g es fs vs : wf_leg g -> Forall wf_event es -> mixed g es fs vs ->
  run g es = (fst (run g fs), vs).
Proof.
  intros W F M; revert W F; induction M as [g|g e es fs vs M IH|g e es fs vs A M IH]; intros W F.
  - reflexivity.
  - inversion F as [|? ? F1 F2]; subst. cbn [run].
    specialize (IH (wf_step _ _ W F1) F2).
    destruct (step g e) as [g1 v] eqn:E. cbn [fst snd] in *. rewrite IH.
    destruct (run g1 fs). reflexivity.
  - inversion F as [|? ? F1 F2]; subst. cbn [run].
    rewrite (attack_step _ _ W F1 A). rewrite (IH W F2). reflexivity.
Qed.

(** *** Peace *)
Lemma peace_lemma g es a b : wf_leg g -> Forall wf_event es ->
  protected (g_rtp g) a -> protected (g_rtcp g) b -> peaceful g es ->
  protected (g_rtp (fst (run g es))) a /\ protected (g_rtcp (fst (run g es))) b.
Proof.
  intros W F PA PB P; revert W F PA PB; induction P as [g|g e es H P IH]; intros W F PA PB; auto.
  inversion F as [|? ? F1 F2]; subst. cbn [run].
  pose proof (wf_step g e W F1) as W'.
  assert (K : protected (g_rtp (fst (step g e))) a /\ protected (g_rtcp (fst (step g e))) b).
  { destruct H as [H|H].
    - rewrite (attack_step _ _ W F1 H). auto.
    - destruct e as [p em chg|p em| | |]; try tauto; destruct H as [-> [R B]]; cbn [step].
      + assert (p_from p = a) by (destruct PA; congruence).
        rewrite (peer_rx _ _ _ a PA H). cbn. split; auto.
        apply protected_analyze; auto. apply protected_sync; auto.
      + assert (p_from p = b) by (destruct PB; congruence).
        rewrite (peer_rx _ _ _ b PB H). cbn. split; auto. apply protected_sync; auto. }
  destruct K as [K1 K2].
  destruct (step g e) as [g1 v] eqn:E. cbn [fst] in *. specialize (IH W' F2 K1 K2).
  destruct (run g1 es). exact IH.
Qed.

Lemma peer_lemma g p a chg : protected (g_rtp g) a -> p_from p = a ->
  snd (step g (RtpIn p false chg)) = Some Accept /\
  l_rem (g_rtp (fst (step g (RtpIn p false chg)))) = Some a /\
  g_rtcp (fst (step g (RtpIn p false chg))) = g_rtcp g.
Proof.
  intros P E. cbn [step]. rewrite (peer_rx _ _ _ a P E). cbn. split; auto. split; auto.
  pose proof (protected_sync _ _ (p_time p) p P) as P'. destruct P' as (R & L & A & M).
  unfold analyze. destruct (p_rtp p) as [[v q]|]; auto.
  destruct (l_mode (latch_sync (g_rtp g) (p_time p) p)) eqn:Md; auto.
  - destruct chg; auto.
    assert (M' : l_mode (latch_sync (g_rtp g) (p_time p) p) <> FORCE_ON) by (rewrite Md; discriminate).
    rewrite (proj1 (latch_keeps _ (p_time p) p M')). auto.
  - congruence.
Qed.

(** *** Asymmetric clients *)
Lemma asym_lemma s c p a s' c' v : l_rem s = Some a -> l_asym s = true -> l_mode s <> FORCE_OFF ->
  rx s c false p = (s', c', v) ->
  (v = Accept <-> ishostseq a (p_from p) = Some true) /\
  l_rem s' = l_rem s /\ l_latched s' = l_latched s /\ c' = c.
Proof.
  intros R A M E. unfold rx in E. rewrite R, A in E. cbn [negb] in E.
  assert (K : match ishostseq a (p_from p) with
              | Some true => (latch_sync s (p_time p) p, c, Accept)
              | _ => (s, c, Discard) end = (s', c', v)) by (destruct (l_mode s); auto; congruence).
  destruct (ishostseq a (p_from p)) as [[|]|]; injection K as <- <- <-.
  - rewrite latch_sync_rem. destruct (latch_sync_keeps s (p_time p) p) as (-> & _). repeat split; auto.
  - repeat split; auto; discriminate.
  - repeat split; auto; discriminate.
Qed.

(** *** Latching in *)
Lemma latch_in_lemma s c p a s' c' v : l_rem s = Some a -> l_latched s = false -> l_asym s = false ->
  l_mode s = NORMAL -> (l_update s = 0 \/ p_time p - l_update s >= 10000000) ->
  match p_rtp p with Some (x, _) => x <> 0 | None => True end ->
  rx s c false p = (s', c', v) ->
  v = Accept /\ l_rem s' = Some (p_from p) /\ l_latched s' = true /\
  (l_pipe s = PIPE_RTP -> l_ssrc s' = match p_rtp p with Some (x, _) => Some x | None => None end).
Proof.
  intros R L A M U B E. unfold rx in E. rewrite R, L, A, M in E. cbn [negb] in E.
  assert (LT : l_latched (latch s (p_time p) p) = true /\ l_rem (latch s (p_time p) p) = Some a /\
     (l_pipe s = PIPE_RTP -> l_ssrc (latch s (p_time p) p) = match p_rtp p with Some (x, _) => Some x | None => None end)).
  { unfold latch. rewrite M. unfold UPDATE_WINDOW, SSRC_BAD.
    destruct (negb (l_update s =? 0) && (p_time p - l_update s <? 10000000)) eqn:W; [lia|].
    destruct (l_pipe s) eqn:P; [destruct (p_rtp p) as [[x q]|]|]; cbn; repeat split; auto; try lia; discriminate. }
  destruct LT as (L1 & L2 & L3).
  destruct (sa_eqb a (p_from p)) eqn:Q; cbn [negb] in E.
  - apply sa_eqb_eq in Q. injection E as <- <- <-. rewrite latch_sync_rem.
    destruct (latch_sync_keeps (latch s (p_time p) p) (p_time p) p) as (-> & _ & _ & _ & -> & _).
    rewrite <- Q. auto.
  - injection E as <- <- <-. rewrite latch_sync_rem.
    destruct (latch_sync_keeps (fill_addr0 (latch s (p_time p) p) p) (p_time p) p) as (-> & _ & _ & _ & -> & _).
    split; auto. split; auto. split; auto. unfold fill_addr0; cbn [l_latched with_addr]. rewrite L1.
    destruct (match l_prev (latch s (p_time p) p) with Some _ => _ | None => _ end); auto.
Qed.

Lemma learn_lemma s c p s' c' v e : l_rem s = None -> l_mode s = NORMAL -> l_prev s = None ->
  rx s c e p = (s', c', v) ->
  v = Accept /\ l_rem s' = Some (p_from p) /\ l_latched s' = true.
Proof.
  intros R M P E. unfold rx in E. rewrite R, M in E. cbn in E. injection E as <- <- <-.
  rewrite latch_sync_rem. destruct (latch_sync_keeps (fill_addr0 s p) (p_time p) p) as (-> & _).
  cbn. rewrite P. auto.
Qed.

Lemma wf_run g es : wf_leg g -> Forall wf_event es -> wf_leg (fst (run g es)).
Proof.
  intros W F; revert g W; induction F as [|e es F1 F2 IH]; intros g W; auto.
  cbn [run]. pose proof (wf_step g e W F1) as X. destruct (step g e) as [g1 v]. cbn [fst] in X.
  specialize (IH g1 X). destruct (run g1 es). exact IH.
Qed.

(** *** Where the noted sequence number comes from *)
Definition noted (s : stream) (ps : list packet) : Prop :=
  forall v, l_ssrc s = Some v -> exists p v', In p ps /\ p_rtp p = Some (v', l_seq s) /\ (v' = v \/ l_update s <> 0).
Lemma noted_more s ps qs : incl ps qs -> noted s ps -> noted s qs.
Proof. intros H N v E. destruct (N v E) as (p & v' & I & R). exists p, v'. auto. Qed.
Lemma noted_sync s now p ps : noted s ps -> In p ps -> noted (latch_sync s now p) ps.
Proof.
  intros N I. unfold latch_sync. destruct (l_pipe s), (l_ssrc s) as [v|] eqn:E; auto.
  destruct (now - l_sync s <? SEQ_SYNC_IVAL); auto. destruct (p_rtp p) as [[v' q]|] eqn:R; auto.
  destruct (negb (v =? v')) eqn:Q; auto. intros w. cbn. intros X. exists p, v'. split; auto. split; auto.
  left. injection X as <-. lia.
Qed.
Lemma noted_fill s p ps : noted s ps -> noted (fill_addr0 s p) ps.
Proof. intros N v E. exact (N v E). Qed.
Lemma noted_latch s now p ps : noted s ps -> In p ps -> noted (latch s now p) ps.
Proof.
  intros N I. unfold latch. destruct (l_mode s); [| |apply noted_fill; auto].
  - destruct (negb (l_update s =? 0) && (now - l_update s <? UPDATE_WINDOW)); auto.
    destruct (l_pipe s); [destruct (p_rtp p) as [[v q]|] eqn:R|]; intros w; cbn; intros X; try discriminate.
    injection X as <-. exists p, v. auto.
  - destruct (negb (l_update s =? 0) && (now - l_update s <? UPDATE_WINDOW)); auto.
    destruct (l_pipe s); [destruct (p_rtp p) as [[v q]|] eqn:R|]; intros w; cbn; intros X; try discriminate.
    injection X as <-. exists p, v. auto.
Qed.
Lemma noted_override s now p s1 ps : noted s ps -> In p ps -> override s now p = Some s1 -> noted s1 ps.
Proof.
  intros N I. unfold override. destruct (l_pipe s); [|discriminate]. destruct (l_ssrc s) as [v|] eqn:S; [|discriminate].
  assert (K : forall v' q, p_rtp p = Some (v', q) ->
     (if ((l_update s =? 0) || (now - l_update s >? UPDATE_WINDOW)) && (negb (v' =? v) || (seq_dist (l_seq s) q >? 536))
      then None else Some (with_latch s (l_latched s) (Some v) q (p_time p))) = Some s1 -> noted s1 ps).
  { intros v' q R. destruct (_ && _) eqn:B; [discriminate|]. intros X; injection X as <-.
    intros w. cbn. intros X. exists p, v'. split; auto. split; auto.
    apply andb_false_iff in B as [B|B]; [right; lia|left]. injection X as <-. lia. }
  destruct (l_mode s); try discriminate; (destruct (p_rtp p) as [[v' q]|] eqn:R; [|discriminate]); apply K; auto.
Qed.
Lemma noted_rx s c e p s' c' v ps : noted s ps -> In p ps -> rx s c e p = (s', c', v) -> noted s' ps.
Proof.
  intros N I. unfold rx, fill_addr.
  assert (F : forall s0, noted s0 ps -> noted (latch_sync (fill_addr0 s0 p) (p_time p) p) ps)
    by (intros; apply noted_sync; auto using noted_fill).
  destruct (l_mode s); [|intros H; injection H as <- <- <-; auto|];
  (destruct (l_rem s) as [a|] eqn:R; [|intros H; injection H as <- <- <-; auto]);
  (destruct e; [intros H; injection H as <- <- <-; auto|]);
  (destruct (l_asym s); cbn [negb];
    [destruct (ishostseq a (p_from p)) as [[|]|]; intros H; injection H as <- <- <-; auto using noted_sync|]);
  (destruct (sa_eqb a (p_from p)); cbn [negb];
    [destruct (l_latched s); intros H; injection H as <- <- <-; auto using noted_sync, noted_latch|]);
  (destruct (l_latched s); [destruct (override s (p_time p) p) eqn:O|]);
  intros H; injection H as <- <- <-; eauto using noted_override, noted_latch.
Qed.

Definition rtp_packets (es : list event) : list packet :=
  flat_map (fun e => match e with RtpIn p _ _ => [p] | _ => [] end) es.

Lemma noted_step g e ps : timed_event e -> noted (g_rtp g) ps ->
  noted (g_rtp (fst (step g e))) (ps ++ rtp_packets [e]).
Proof.
  intros T N. assert (N' : noted (g_rtp g) (ps ++ rtp_packets [e])) by (apply (noted_more _ ps); auto; apply incl_appl, incl_refl).
  destruct e as [p em chg|p em|a b t| |r m]; cbn [step] in *.
  - destruct (rx (g_rtp g) (Some (g_rtcp g)) em p) as [[s c] v] eqn:E.
    assert (I : In p (ps ++ rtp_packets [RtpIn p em chg])) by (apply in_or_app; right; left; auto).
    pose proof (noted_rx _ _ _ _ _ _ _ _ N' I E) as X. cbn [fst g_rtp]. destruct v; auto.
    unfold analyze. destruct (p_rtp p); auto. destruct (l_mode s); auto; destruct chg; auto using noted_latch.
  - destruct (rx (g_rtcp g) None em p) as [[s c] v]. auto.
  - cbn [fst g_rtp]. cbn [timed_event] in T.
    assert (K : forall rm pv, noted (with_update (g_rtp g) rm pv (match l_rem (g_rtp g) with Some _ => t | None => l_update (g_rtp g) end)) (ps ++ rtp_packets [Update a b t])).
    { intros rm pv v E. cbn in E. destruct (N' v E) as (q & v' & I & R & H). exists q, v'. cbn.
      split; [exact I|]. split; auto. destruct H; auto. right. destruct (l_rem (g_rtp g)); auto. lia. }
    unfold prefill. destruct (l_untrusted (g_rtp g)); [apply K|].
    destruct (l_rem (g_rtp g)) as [r|]; [|apply K].
    destruct (match isaddrseq r a with Some _ => _ | None => _ end); apply K.
  - exact N'.
  - destruct r; exact N'.
Qed.

Lemma noted_run es : forall g ps, Forall timed_event es -> noted (g_rtp g) ps ->
  noted (g_rtp (fst (run g es))) (ps ++ rtp_packets es).
Proof.
  induction es as [|e es IH]; intros g ps F N; [cbn; rewrite app_nil_r; auto|].
  inversion F as [|? ? F1 F2]; subst. cbn [run].
  pose proof (noted_step g e ps F1 N) as X. destruct (step g e) as [g1 v]. cbn [fst] in X.
  specialize (IH g1 _ F2 X). rewrite <- app_assoc in IH.
  assert (Q : rtp_packets [e] ++ rtp_packets es = rtp_packets (e :: es)).
  { unfold rtp_packets. cbn. rewrite app_nil_r. auto. }
  rewrite Q in IH. destruct (run g1 es). exact IH.
Qed.

Lemma noted_lemma asym es v :
  Forall timed_event es ->
  let s := g_rtp (fst (run {| g_rtp := new_stream PIPE_RTP asym; g_rtcp := new_stream PIPE_RTCP asym |} es)) in
  l_ssrc s = Some v ->
  exists p em chg v', In (RtpIn p em chg) es /\ p_rtp p = Some (v', l_seq s) /\ (v' = v \/ l_update s <> 0).
Proof.
  intros F s E. set (g := {| g_rtp := new_stream PIPE_RTP asym; g_rtcp := new_stream PIPE_RTCP asym |}) in *.
  assert (N0 : noted (g_rtp g) []) by (intros w X; discriminate).
  destruct (noted_run es g [] F N0 v E) as (p & v' & I & R). cbn [app] in I.
  unfold rtp_packets in I. apply in_flat_map in I as (e & I & J).
  destruct e as [p0 em chg| | | |]; cbn in J; try tauto. destruct J as [->|[]].
  exists p, em, chg, v'. auto.
Qed.

(** *** RTCP follows RTP *)
Lemma guess_lemma r p : wf_packet p ->
  (guess_addr r p = r /\
   (getport (p_from p) = Some 65535 \/ exists b, l_rem r = Some b /\ ishostseq b (p_from p) = Some true)) \/
  (exists b, l_rem (guess_addr r p) = Some b /\ next_port (p_from p) b /\ l_latched (guess_addr r p) = l_asym r).
Proof.
  intros (WI & _ & WQ). unfold guess_addr.
  destruct (l_rem r) as [b|] eqn:R.
  - destruct (ishostseq b (p_from p)) as [[|]|] eqn:H.
    + left. split; auto. right. exists b. auto.
    + destruct (p_from p) as [h x|h x|f]; cbn in *; [| |discriminate];
        (destruct (x =? 65535) eqn:X; [left; split; auto; left; f_equal; lia|]);
        unfold setport; (destruct ((x + 1 <=? 0) || (x + 1 >? 65535)) eqn:Y; [lia|]); right; eexists; cbn; auto.
    + destruct (p_from p) as [h x|h x|f]; cbn in *; [| |discriminate];
        (destruct (x =? 65535) eqn:X; [left; split; auto; left; f_equal; lia|]);
        unfold setport; (destruct ((x + 1 <=? 0) || (x + 1 >? 65535)) eqn:Y; [lia|]); right; eexists; cbn; auto.
  - destruct (p_from p) as [h x|h x|f]; cbn in *; [| |discriminate];
        (destruct (x =? 65535) eqn:X; [left; split; auto; left; f_equal; lia|]);
        unfold setport; (destruct ((x + 1 <=? 0) || (x + 1 >? 65535)) eqn:Y; [lia|]); right; eexists; cbn; auto.
Qed.

Lemma rx_addr s c e p s' c' v : rx s c e p = (s', c', v) -> l_rem s' = l_rem s \/ l_rem s' = Some (p_from p).
Proof.
  assert (LR : l_rem (latch s (p_time p) p) = l_rem s \/ l_rem (latch s (p_time p) p) = Some (p_from p)).
  { unfold latch. destruct (l_mode s); auto; (destruct (negb (l_update s =? 0) && _); auto);
      destruct (l_pipe s); try destruct (p_rtp p) as [[? ?]|]; auto. }
  unfold rx, fill_addr.
  destruct (l_mode s) eqn:Md; [|intros H; injection H as <- <- <-; auto|];
  (destruct (l_rem s) as [a|] eqn:R; [|intros H; injection H as <- <- <-; rewrite ?latch_sync_rem; auto]);
  (destruct e; [intros H; injection H as <- <- <-; rewrite ?latch_sync_rem; auto|]);
  (destruct (l_asym s); cbn [negb];
    [destruct (ishostseq a (p_from p)) as [[|]|]; intros H; injection H as <- <- <-; rewrite ?latch_sync_rem; auto|]);
  (destruct (sa_eqb a (p_from p)) eqn:Q; cbn [negb];
    [destruct (l_latched s); intros H; injection H as <- <- <-; rewrite ?latch_sync_rem, ?R; auto|]);
  (destruct (l_latched s); [destruct (override s (p_time p) p) eqn:O|]);
  intros H; injection H as <- <- <-; rewrite ?latch_sync_rem; auto.
Qed.

Lemma rx_guess s r e p s' r' v : rx s (Some r) e p = (s', Some r', v) ->
  (l_rem s' = l_rem s \/ r' = guess_addr r p) /\ (r' = r \/ (r' = guess_addr r p /\ l_rem s' = Some (p_from p) /\ v = Accept)).
Proof.
  unfold rx, fill_addr.
  assert (LR : l_mode s <> FORCE_OFF -> forall a, l_rem s = Some a -> sa_eqb a (p_from p) = true ->
            l_rem (latch s (p_time p) p) = l_rem s).
  { intros M a Ra E. unfold latch. apply sa_eqb_eq in E.
    destruct (l_mode s) eqn:Md; [|congruence|cbn; congruence].
    destruct (negb (l_update s =? 0) && _); auto.
    destruct (l_pipe s); [destruct (p_rtp p) as [[? ?]|]|]; auto. }
  destruct (l_mode s) eqn:Md; [|intros H; injection H as <- <- <-; auto|];
  (destruct (l_rem s) as [a|] eqn:R; [|intros H; injection H as <- <- <-; rewrite ?latch_sync_rem; auto 6]);
  (destruct e; [intros H; injection H as <- <- <-; rewrite ?latch_sync_rem; auto 6|]);
  (destruct (l_asym s); cbn [negb];
    [destruct (ishostseq a (p_from p)) as [[|]|]; intros H; injection H as <- <- <-; rewrite ?latch_sync_rem; auto|]);
  (destruct (sa_eqb a (p_from p)) eqn:Q; cbn [negb];
    [destruct (l_latched s); intros H; injection H as <- <- <-; rewrite ?latch_sync_rem, ?R; auto|]);
  try (rewrite (LR ltac:(congruence) a eq_refl Q); auto; fail);
  (destruct (l_latched s); [destruct (override s (p_time p) p) eqn:O|]);
  intros H; injection H as <- <- <-; rewrite ?latch_sync_rem; auto 6.
Qed.

Lemma analyze_rem s chg p : l_rem (analyze s chg p) = l_rem s.
Proof.
  unfold analyze. destruct (p_rtp p); auto. destruct (l_mode s) eqn:M; auto; destruct chg; auto;
    apply (latch_keeps s (p_time p) p); congruence.
Qed.

Lemma rtcp_follows_lemma g p em chg : wf_packet p ->
  let g' := fst (step g (RtpIn p em chg)) in
  let r := g_rtcp g in let r' := g_rtcp g' in
  (l_rem (g_rtp g') = l_rem (g_rtp g) \/ l_rem (g_rtp g') = Some (p_from p)) /\
  ((l_rem (g_rtp g') = l_rem (g_rtp g) /\ r' = r) \/
   (r' = r /\ (getport (p_from p) = Some 65535 \/
               exists b, l_rem r = Some b /\ ishostseq b (p_from p) = Some true)) \/
   (exists b, l_rem r' = Some b /\ next_port (p_from p) b /\ l_latched r' = l_asym r)).
Proof.
  intros W. cbn [step]. destruct (rx (g_rtp g) (Some (g_rtcp g)) em p) as [[s c] v] eqn:E.
  destruct (rx_pipe _ _ _ _ _ _ _ E) as [_ Z]. destruct c as [c|]; [|tauto]. cbn [fst g_rtp g_rtcp].
  destruct (rx_guess _ _ _ _ _ _ _ E) as [X Y].
  assert (A : l_rem (match v with Accept => analyze s chg p | Discard => s end) = l_rem s).
  { destruct v; auto using analyze_rem. }
  rewrite A. pose proof (guess_lemma (g_rtcp g) p W) as G.
  split.
  - destruct Y as [Y|(_ & Y & _)]; auto. destruct X as [X|X]; auto.
    destruct (rx_addr _ _ _ _ _ _ _ E); auto.
  - destruct Y as [Y|(Y & _)].
    + destruct X as [X|X]; auto. right. rewrite Y in *. clear Y. rewrite <- X in G. exact G.
    + subst c. tauto.
Qed.

Lemma isaddrseq_eq a b : isaddrseq a b = Some true -> a = b.
Proof.
  unfold isaddrseq, ishostseq. destruct (negb (family a =? family b)) eqn:F; [discriminate|].
  destruct a as [h p|h p|f], b as [h' p'|h' p'|f']; cbn; try discriminate.
  - destruct (h =? h') eqn:H; [|discriminate]. intros X. injection X as X. f_equal; lia.
  - destruct (bytes_eqb h h') eqn:H; [|discriminate]. intros X. injection X as X. apply bytes_eqb_eq in H.
    f_equal; auto. lia.
Qed.
Lemma command_lemma g a b t : l_untrusted (g_rtp g) = false ->
  l_rem (g_rtp (fst (step g (Update a b t)))) = Some a.
Proof.
  intros U. cbn. unfold prefill. rewrite U. destruct (l_rem (g_rtp g)) as [r|] eqn:R; [|reflexivity].
  destruct (isaddrseq r a) as [[|]|] eqn:E; cbn; auto. apply isaddrseq_eq in E. congruence.
Qed.
