From Verif Require Import Base RtpModel RtpSpec SrvModel SrvSpec.

Lemma frame_codecs pt b ms : In (pt, (b, ms)) codecs -> frame pt = Some (b, ms) /\ 0 < b <= 33 /\ 0 < ms <= 30 /\ 0 <= pt < 128.
Proof. cbn. intuition; match goal with H : _ = _ |- _ => injection H as <- <- <- end; cbn; repeat split; lia. Qed.
Lemma frame_none pt : 0 <= pt -> (forall b ms, ~ In (pt, (b, ms)) codecs) -> frame pt = None.
Proof.
  intros P N. unfold frame.
  destruct pt as [|p|p]; [exfalso; apply (N 8 1); cbn; auto| |lia].
  destruct p as [p|p|]; auto; destruct p as [p|p|]; auto; try destruct p as [p|p|]; auto; try destruct p as [p|p|]; auto; try destruct p as [p|p|]; auto; exfalso.
  all: try (apply (N 8 1); cbn; tauto).
  all: try (apply (N 10 10); cbn; tauto).
  all: try (apply (N 24 30); cbn; tauto).
  all: try (apply (N 33 20); cbn; tauto).
Qed.

Lemma nframes_frames ptime ms : 0 < ms -> nframes ptime ms = frames ptime ms.
Proof. 
  intros H. unfold nframes, frames. pose proof (Z.div_mod ptime ms ltac:(lia)) as D.
  pose proof (Z.mod_pos_bound ptime ms H) as M.
  destruct (ptime mod ms =? 0) eqn:E.
  - apply Z.div_unique with (r := ms - 1); lia.
  - apply Z.div_unique with (r := ptime mod ms - 1); lia.
Qed.
Lemma frames_pos p ms : 0 < p -> 0 < ms -> 0 < frames p ms.
Proof. unfold frames. intros. assert (ms * 1 <= p + ms - 1) by lia. assert (1 <= (p + ms - 1) / ms) by (apply Z.div_le_lower_bound; lia). lia. Qed.

(** What reading the media leaves alone. *)
Definition same_hdr (s s' : server) : Prop :=
  sv_btime s' = sv_btime s /\ sv_started s' = sv_started s /\ sv_ptime s' = sv_ptime s /\
  sv_mbt s' = sv_mbt s /\ sv_pt s' = sv_pt s /\ sv_seq s' = sv_seq s /\ sv_ts s' = sv_ts s /\ sv_ssrc s' = sv_ssrc s.

Lemma read_media_frame file s rlen i s' r : read_media file s rlen i = (s', r) ->
  same_hdr s s' /\ sv_dts s' = sv_dts s /\ match r with RdGot b => Z.of_nat (length b) = rlen | _ => True end.
Proof.
  unfold read_media, same_hdr. intros H.
  repeat match type of H with (if ?b then _ else _) = _ => destruct b eqn:?B end;
    injection H as <- <-; cbn; repeat split; auto; lia.
Qed.

Lemma get_cases file s t i s' g : get file s t i = (s', g) ->
  match g with
  | GPkt d => exists b ms k bt, frame (sv_pt s) = Some (b, ms) /\ k = nframes (sv_ptime s) ms /\
      d = header s ++ bt /\ Z.of_nat (length bt) = b * k /\
      sv_started s = true /\ sv_btime s + sv_dts s * 1000 <= t /\
      sv_btime s' = sv_btime s /\ sv_started s' = true /\ sv_ptime s' = sv_ptime s /\ sv_mbt s' = 0 /\
      sv_pt s' = sv_pt s /\ sv_seq s' = u16 (sv_seq s + 1) /\
      sv_ts s' = u32 (sv_ts s + RTPS_SRATE * (ms * k) / 1000) /\ sv_ssrc s' = sv_ssrc s /\
      sv_dts s' = sv_dts s + ms * k
  | _ => same_hdr s s' /\ (sv_dts s' = sv_dts s \/ exists b ms, frame (sv_pt s) = Some (b, ms) /\
           sv_dts s' = sv_dts s + ms * nframes (sv_ptime s) ms)
  end.
Proof.
  unfold get. intros H.
  destruct (negb (sv_started s) || (sv_btime s + sv_dts s * 1000 >? t)) eqn:D.
  { injection H as <- <-. split; [repeat split|auto]. }
  destruct (frame (sv_pt s)) as [[b ms]|] eqn:F.
  2: { injection H as <- <-. split; [repeat split|auto]. }
  destruct (negb (io_alloc i)).
  { injection H as <- <-. split; [repeat split|]. right. exists b, ms. auto. }
  destruct (read_media file (with_dts s (sv_dts s + ms * nframes (sv_ptime s) ms)) (b * nframes (sv_ptime s) ms) i) as [s2 r] eqn:R.
  destruct (read_media_frame _ _ _ _ _ _ R) as (S & T & L).
  destruct r as [bt| |]; injection H as <- <-.
  - exists b, ms, (nframes (sv_ptime s) ms), bt. destruct S as (S1&S2&S3&S4&S5&S6&S7&S8). cbn in *.
    repeat split; auto; try lia.
    + unfold header. rewrite S4, S5, S6, S7, S8. reflexivity.
    + destruct (sv_started s); auto.
    + rewrite S2. destruct (sv_started s); auto.
    + rewrite S6. auto.
    + rewrite S7. auto.
  - split; [exact S|]. right. exists b, ms. auto.
  - split; [exact S|]. right. exists b, ms. auto.
Qed.


Definition wf_srv (s : server) : Prop :=
  0 <= sv_mbt s <= 1 /\ 0 <= sv_pt s < 128 /\ 0 <= sv_seq s < 65536 /\
  0 <= sv_ts s < 4294967296 /\ 0 <= sv_ssrc s < 4294967296.
Lemma header_encodes s bt : wf_srv s ->
  header s ++ bt = encode (mkRtp (sv_mbt s) (sv_pt s) (sv_seq s) (sv_ts s) (sv_ssrc s) [] None bt []).
Proof.
  intros (M & P & S & T & R). unfold encode, hdr_of, header, be16, be32, ext_of, flag, has_pad, has_ext. cbn.
  rewrite app_nil_r.
  assert (E : forall x, 0 <= x < 4294967296 -> x / 16777216 = x / 65536 / 256 /\ x / 256 mod 256 = x mod 65536 / 256 /\ x mod 256 = (x mod 65536) mod 256) by (intros; lia).
  destruct (E _ T) as (-> & -> & ->). destruct (E _ R) as (-> & -> & ->). reflexivity.
Qed.

(** The state after [n] packets, [s0] being the state before the first. *)
Definition after (s0 : server) (ms n : Z) (s : server) : Prop :=
  sv_btime s = sv_btime s0 /\ sv_ptime s = sv_ptime s0 /\ sv_pt s = sv_pt s0 /\ sv_ssrc s = sv_ssrc s0 /\
  sv_mbt s = (if n =? 0 then 1 else 0) /\
  sv_seq s = (sv_seq s0 + n) mod 65536 /\ sv_ts s = (sv_ts s0 + 8 * ms * n) mod 4294967296 /\
  sv_dts s >= ms * n.

Lemma after_get file s0 b ms k n s t i s' g :
  frame (sv_pt s0) = Some (b, ms) -> k = nframes (sv_ptime s0) ms -> 0 < ms * k -> 0 <= n ->
  after s0 (ms * k) n s -> get file s t i = (s', g) ->
  match g with
  | GPkt d => after s0 (ms * k) (n + 1) s' /\ sv_btime s0 + ms * k * n * 1000 <= t /\
      exists bt, Z.of_nat (length bt) = b * k /\ d = header s ++ bt
  | _ => after s0 (ms * k) n s'
  end.
Proof.
  intros F K M N (A1&A2&A3&A4&A5&A6&A7&A8) G. pose proof (get_cases _ _ _ _ _ _ G) as C.
  destruct g as [d| | | | |].
  1: { destruct C as (b' & ms' & k' & bt & F' & K' & D & L & _ & T & C1 & _ & C2 & C3 & C4 & C5 & C6 & C7 & C8).
       rewrite A3, F in F'. injection F' as <- <-. rewrite A2 in K'. subst k k'.
       set (k := nframes (sv_ptime s0) ms) in *. clearbody k. unfold u16, u32, RTPS_SRATE in *.
       split; [|split].
       - unfold after. rewrite C1, C2, C4, C7, C3, C5, C6, C8, A6, A7. repeat split; auto.
         + destruct (n + 1 =? 0) eqn:Q; lia.
         + lia.
         + assert (E : 8000 * (ms * k) / 1000 = 8 * (ms * k)) by lia. rewrite E. set (x := ms * k) in *. clearbody x.
           replace (8 * x * (n + 1)) with (8 * x * n + 8 * x) by lia. set (y := 8 * x * n). clearbody y. lia.
         + lia.
       - set (x := ms * k) in *. clearbody x. set (y := x * n) in *. clearbody y. lia.
       - exists bt. split; auto. }
  all: destruct C as ((C1&C2&C3&C4&C5&C6&C7&C8) & D); unfold after;
    rewrite C1, C3, C4, C5, C6, C7, C8; repeat split; auto;
    (destruct D as [D|(b' & ms' & F' & D)];
     [rewrite D; auto|rewrite A3, F in F'; injection F' as <- <-; rewrite D, A2, <- K; lia]).
Qed.

Lemma run_sent file s0 b ms k : frame (sv_pt s0) = Some (b, ms) -> k = nframes (sv_ptime s0) ms ->
  0 < ms * k -> wf_srv s0 ->
  forall cs s n s' gs, 0 <= n -> after s0 (ms * k) n s -> run file s cs = (s', gs) ->
  forall j t d, nth_error (sent cs gs) j = Some (t, d) ->
  sv_btime s0 + ms * k * (n + Z.of_nat j) * 1000 <= t /\
  exists bt, Z.of_nat (length bt) = b * k /\
    d = encode (mkRtp (if n + Z.of_nat j =? 0 then 1 else 0) (sv_pt s0) ((sv_seq s0 + (n + Z.of_nat j)) mod 65536)
                 ((sv_ts s0 + 8 * (ms * k) * (n + Z.of_nat j)) mod 4294967296) (sv_ssrc s0) [] None bt []).
Proof.
  intros F K M W. induction cs as [|[t0 i] cs IH]; intros s n s' gs N A R j t d E.
  { cbn in R. injection R as <- <-. destruct j; discriminate. }
  cbn [run] in R. destruct (get file s t0 i) as [s1 g] eqn:G. destruct (run file s1 cs) as [s2 gs'] eqn:R'.
  injection R as <- <-. pose proof (after_get _ _ _ _ _ _ _ _ _ _ _ F K M N A G) as C.
  destruct g as [d0| | | | |]; cbn [sent] in E; try (apply (IH s1 n s2 gs'); auto; fail).
  destruct C as (A' & T & bt & L & D).
  destruct j as [|j].
  - cbn in E. injection E as <- <-. replace (n + Z.of_nat 0) with n by lia. split; auto.
    exists bt. split; auto. rewrite D. destruct A as (A1&A2&A3&A4&A5&A6&A7&A8).
    assert (W' : wf_srv s).
    { destruct W as (W1&W2&W3&W4&W5). unfold wf_srv. rewrite A3, A4, A5, A6, A7.
      repeat split; try lia; destruct (n =? 0); lia. }
    rewrite (header_encodes s bt W'). rewrite A3, A4, A5, A6, A7. reflexivity.
  - cbn in E. replace (n + Z.of_nat (S j)) with (n + 1 + Z.of_nat j) by lia.
    apply (IH s1 (n + 1) s2 gs'); auto. lia.
Qed.

Lemma player_wf codec loop ptime r1 r2 r3 st : wf_srv (player codec loop ptime r1 r2 r3 st).
Proof. unfold player, server_start, server_new, wf_srv; cbn. unfold u16, u32. repeat split; try lia. Qed.
Lemma player_ptime codec loop ptime r1 r2 r3 st : sv_ptime (player codec loop ptime r1 r2 r3 st) = used_ptime ptime.
Proof. unfold player, used_ptime; cbn. unfold RTPS_TICKS_MIN. destruct (ptime >? 0) eqn:E, (ptime <=? 0) eqn:E'; lia. Qed.
Lemma used_pos p : 0 < used_ptime p.
Proof. unfold used_ptime. destruct (p <=? 0) eqn:E; lia. Qed.
Lemma player_after codec loop ptime r1 r2 r3 st ms : after (player codec loop ptime r1 r2 r3 st) ms 0 (player codec loop ptime r1 r2 r3 st).
Proof. unfold after, player; cbn. unfold u16, u32. repeat split; auto; lia. Qed.

Lemma headers_lemma file codec b ms loop ptime r1 r2 r3 st cs j t d :
  In (codec, (b, ms)) codecs ->
  let k := frames (used_ptime ptime) ms in
  let s := player codec loop ptime r1 r2 r3 st in
  nth_error (sent cs (snd (run file s cs))) j = Some (t, d) ->
  st + Z.of_nat j * (ms * k) * 1000 <= t /\
  exists bt, Z.of_nat (length bt) = b * k /\
    d = encode (mkRtp (if (j =? 0)%nat then 1 else 0) codec ((r2 + Z.of_nat j) mod 65536)
                 ((r1 + Z.of_nat j * (8 * ms * k)) mod 4294967296) (r3 mod 4294967296) [] None bt []).
Proof.
  intros C k s E. destruct (frame_codecs _ _ _ C) as (F & B & M & P).
  destruct (run file s cs) as [s' gs] eqn:R. cbn [snd] in E.
  assert (K : k = nframes (sv_ptime s) ms).
  { unfold s. rewrite player_ptime, nframes_frames by lia. reflexivity. }
  assert (KP : 0 < k) by (apply frames_pos; [apply used_pos|lia]).
  assert (FS : frame (sv_pt s) = Some (b, ms)).
  { unfold s, player, server_start, server_new; cbn [sv_pt]. rewrite Z.mod_small by lia. exact F. }
  destruct (run_sent file s b ms k FS K ltac:(lia) (player_wf _ _ _ _ _ _ _) cs s 0 s' gs ltac:(lia)
              (player_after _ _ _ _ _ _ _ _) R j t d E) as (T & bt & L & D).
  clearbody k. split.
  - unfold s in T. cbn [sv_btime player server_start] in T. set (x := ms * k) in *. clearbody x.
    replace (x * (0 + Z.of_nat j)) with (Z.of_nat j * x) in T by lia. exact T.
  - exists bt. split; auto. rewrite D. unfold s, player, server_start, server_new; cbn [sv_pt sv_seq sv_ts sv_ssrc].
    rewrite (Z.mod_small codec 128) by lia. unfold u16, u32.
    rewrite Zplus_mod_idemp_l, Zplus_mod_idemp_l. replace (0 + Z.of_nat j) with (Z.of_nat j) by lia.
    replace (8 * (ms * k) * Z.of_nat j) with (Z.of_nat j * (8 * ms * k)) by lia.
    assert (X : (Z.of_nat j =? 0) = (j =? 0)%nat) by lia. rewrite X. reflexivity.
Qed.

(** *** The media *)
Lemma rd_file_len file pos n : 0 <= pos -> 0 <= n ->
  Z.of_nat (length (rd_file file pos n)) = Z.min n (Z.max 0 (Z.of_nat (length file) - pos)).
Proof. intros. unfold rd_file. rewrite firstn_length, skipn_length. lia. Qed.

Definition mleft (file : list Z) (len L0 n : Z) (s : server) : Prop :=
  let q := Z.of_nat (length file) / len in
  exists c j, 0 <= j <= q /\ 0 <= c /\ n = c * q + j /\
    (j < q -> sv_pos s = j * len) /\ (j = q -> q * len <= sv_pos s <= Z.of_nat (length file)) /\
    (0 <= L0 -> sv_loop s = L0 - c /\ c <= L0) /\ (L0 < 0 -> sv_loop s < 0).

Lemma mod_round c q j : 0 <= j < q -> (c * q + j) mod q = j.
Proof. intros. rewrite Z.add_comm, Z.mod_add by lia. apply Z.mod_small; lia. Qed.

Lemma read_media_ok file s len L0 n s' r :
  0 < len <= 8180 -> mleft file len L0 n s -> read_media file s len io_ok = (s', r) ->
  let q := Z.of_nat (length file) / len in
  if (q =? 0) || ((0 <=? L0) && (n =? (L0 + 1) * q)) then r = RdEof /\ mleft file len L0 n s'
  else r = RdGot (piece file len (n mod q)) /\ mleft file len L0 (n + 1) s'.
Proof.
  intros LN M R q. unfold mleft in *. cbv zeta in *. fold q in M. fold q.
  destruct M as (c & j & J & C & N & P1 & P2 & L1 & L2).
  assert (Q : q * len <= Z.of_nat (length file) < q * len + len).
  { pose proof (Z.div_mod (Z.of_nat (length file)) len ltac:(lia)) as D.
    pose proof (Z.mod_pos_bound (Z.of_nat (length file)) len ltac:(lia)). fold q in D. lia. }
  assert (QP : 0 <= q) by (apply Z.div_pos; lia).
  clearbody q. unfold read_media, io_ok in R. cbn [io_read1 io_seek io_read2 andb negb] in R.
  cbn [with_pos sv_loop sv_pos] in R.
  destruct (Z_lt_dec j q) as [JQ|JQ].
  - (* in the middle *)
    specialize (P1 JQ). assert (JL : 0 <= j * len /\ j * len + len <= Z.of_nat (length file)).
    { assert (j * len + len = (j + 1) * len) by lia. assert ((j + 1) * len <= q * len) by (apply Z.mul_le_mono_nonneg_r; lia).
      assert (0 <= j * len) by (apply Z.mul_nonneg_nonneg; lia). lia. }
    assert (E : Z.of_nat (length (rd_file file (sv_pos s) len)) = len) by (rewrite rd_file_len; lia).
    rewrite E in R. unfold hlen, MAX_RPKT_LEN in R.
    destruct (12 + len <=? 8192) eqn:X; [|lia]. cbn [negb] in R. rewrite Z.eqb_refl in R.
    injection R as <- <-.
    assert (NE : (q =? 0) || ((0 <=? L0) && (n =? (L0 + 1) * q)) = false).
    { destruct (q =? 0) eqn:Q0; [lia|]. destruct (0 <=? L0) eqn:L; [|reflexivity]. cbn.
      apply Z.eqb_neq. intros E2. destruct (L1 ltac:(lia)) as [_ CL].
      assert (c * q <= L0 * q) by (apply Z.mul_le_mono_nonneg_r; lia). lia. }
    rewrite NE. subst n. rewrite mod_round by lia. split.
    + unfold piece, rd_file. rewrite P1. reflexivity.
    + exists c, (j + 1). cbn [with_pos sv_pos sv_loop]. rewrite ?E, ?P1. repeat split; try lia; try (apply L1; lia); try (apply L2; lia).
  - (* at the end *)
    assert (j = q) by lia. subst j. specialize (P2 eq_refl).
    assert (E : Z.of_nat (length (rd_file file (sv_pos s) len)) = Z.of_nat (length file) - sv_pos s)
      by (rewrite rd_file_len; try lia; assert (0 <= q * len) by (apply Z.mul_nonneg_nonneg; lia); lia).
    rewrite E in R. unfold hlen, MAX_RPKT_LEN in R.
    destruct (12 + (Z.of_nat (length file) - sv_pos s) <=? 8192) eqn:X; [|lia]. cbn [negb] in R.
    destruct (Z.of_nat (length file) - sv_pos s =? len) eqn:Y; [lia|].
    destruct (sv_loop s =? 0) eqn:LO.
    + injection R as <- <-.
      assert (L0 >= 0) by (destruct (Z_lt_dec L0 0) as [N0|]; [specialize (L2 N0); lia|lia]).
      destruct (L1 ltac:(lia)) as [L1a L1b].
      assert (n =? (L0 + 1) * q = true) by (apply Z.eqb_eq; subst n; replace c with L0 by lia; lia).
      rewrite H0. destruct (0 <=? L0) eqn:LL; [|lia]. rewrite orb_true_r. split; auto.
      exists c, q. cbn [with_pos sv_pos sv_loop]. rewrite ?E. repeat split; try lia.
    + assert (E2 : Z.of_nat (length (rd_file file 0 len)) = Z.min len (Z.of_nat (length file))) by (rewrite rd_file_len; lia).
      rewrite E2 in R.
      destruct (12 + Z.min len (Z.of_nat (length file)) <=? 8192) eqn:X2; [|lia]. cbn [negb] in R.
      destruct (Z.min len (Z.of_nat (length file)) =? len) eqn:Y2.
      * assert (1 <= q).
        { destruct (Z.eq_dec q 0) as [->|]; lia. }
        destruct (q =? 0) eqn:Q0; [lia|]. cbn [orb].
        assert (NE : (0 <=? L0) && (n =? (L0 + 1) * q) = false).
        { destruct (0 <=? L0) eqn:L; [|reflexivity]. cbn. apply Z.eqb_neq. intros E3.
          destruct (L1 ltac:(lia)) as [L1a L1b]. assert ((c + 1) * q = (L0 + 1) * q) by lia.
          apply Z.mul_reg_r in H0; lia. }
        rewrite NE. injection R as <- <-.
        assert (NM : n mod q = 0) by (subst n; replace (c * q + q) with ((c + 1) * q) by lia; apply Z.mod_mul; lia).
        rewrite NM. split; [unfold piece, rd_file; rewrite Z.mul_0_l; reflexivity|].
        exists (c + 1), 1. cbn [with_pos sv_pos sv_loop]. rewrite ?E2. repeat split; try lia.
        -- destruct (sv_loop s =? -1) eqn:M; cbn; destruct (L1 ltac:(lia)); lia.
        -- intros N0. specialize (L2 N0). destruct (sv_loop s =? -1) eqn:M; cbn; lia.
      * injection R as <- <-.
        assert (q = 0).
        { destruct (Z.eq_dec q 0); auto. assert (len <= q * len) by (assert (1 * len <= q * len) by (apply Z.mul_le_mono_nonneg_r; lia); lia). lia. }
        subst q. cbn [Z.eqb orb]. split; auto. exists c, 0. cbn [with_pos sv_pos sv_loop]. rewrite ?E2. repeat split; try lia; try (apply L1; lia); try (apply L2; lia).
Qed.

(** One call, exactly, in a healthy run. *)
Definition hstate (file : list Z) (s0 : server) (ms b k L0 n : Z) (s : server) : Prop :=
  after s0 (ms * k) n s /\ sv_started s = true /\ sv_dts s = ms * k * n /\ mleft file (b * k) L0 n s.

Lemma get_ok file s0 b ms k L0 n s t s' g :
  frame (sv_pt s0) = Some (b, ms) -> k = nframes (sv_ptime s0) ms -> 0 < ms * k -> 0 < b * k <= 8180 -> 0 <= n ->
  hstate file s0 ms b k L0 n s -> get file s t io_ok = (s', g) ->
  let q := Z.of_nat (length file) / (b * k) in
  if sv_btime s0 + ms * k * n * 1000 >? t then g = GLater /\ s' = s
  else if (q =? 0) || ((0 <=? L0) && (n =? (L0 + 1) * q)) then g = GEof
  else g = GPkt (header s ++ piece file (b * k) (n mod q)) /\ hstate file s0 ms b k L0 (n + 1) s'.
Proof.
  intros F K M LN N (A & ST & DT & ML) G q. pose proof (after_get _ _ _ _ _ _ _ _ _ _ _ F K M N A G) as AG.
  destruct A as (A1&A2&A3&A4&A5&A6&A7&A8). pose proof G as G0.
  unfold get in G. rewrite ST, A1, DT, A3, F, A2 in G. cbn [negb orb] in G. change (io_alloc io_ok) with true in G. cbn [negb] in G.
  destruct (sv_btime s0 + ms * k * n * 1000 >? t); [injection G as <- <-; auto|].
  rewrite <- K in G.
  destruct (read_media file (with_dts s (ms * k * n + ms * k)) (b * k) io_ok) as [s2 r] eqn:R.
  assert (ML' : mleft file (b * k) L0 n (with_dts s (ms * k * n + ms * k))).
  { destruct ML as (c & j & X). exists c, j. exact X. }
  pose proof (read_media_ok _ _ _ _ _ _ _ LN ML' R) as O. cbv zeta in O. fold q in O.
  destruct (read_media_frame _ _ _ _ _ _ R) as ((S1&S2&S3&S4&S5&S6&S7&S8) & S9 & _).
  destruct ((q =? 0) || ((0 <=? L0) && (n =? (L0 + 1) * q))).
  - destruct O as [-> _]. injection G as <- <-. auto.
  - destruct O as [-> O]. injection G as <- <-.
    split.
    + f_equal. unfold header. rewrite S4, S5, S6, S7, S8. reflexivity.
    + split; [apply AG|]. split; [cbn; rewrite S2; exact ST|]. split; [cbn; rewrite S9; cbn; lia|].
      destruct O as (c & j & X). exists c, j. exact X.
Qed.

Lemma run_ok file s0 b ms k L0 :
  frame (sv_pt s0) = Some (b, ms) -> k = nframes (sv_ptime s0) ms -> 0 < ms * k -> 0 < b * k <= 8180 ->
  forall cs s n s' gs, 0 <= n -> healthy cs -> hstate file s0 ms b k L0 n s -> run file s cs = (s', gs) ->
  ~ In GEof gs -> hstate file s0 ms b k L0 (n + Z.of_nat (length (sent cs gs))) s'.
Proof.
  intros F K M LN. induction cs as [|[t i] cs IH]; intros s n s' gs N H HS R E.
  { cbn in R. injection R as <- <-. cbn [sent length]. replace (n + Z.of_nat 0) with n by lia. auto. }
  inversion H as [|? ? H1 H2]; subst. cbn in H1. subst i. cbn [run] in R.
  destruct (get file s t io_ok) as [s1 g] eqn:G. destruct (run file s1 cs) as [s2 gs'] eqn:R'.
  injection R as <- <-. assert (E' : ~ In GEof gs') by (intros X; apply E; right; auto).
  pose proof (get_ok _ _ _ _ _ _ _ _ _ _ _ F eq_refl M LN N HS G) as C. cbv zeta in C.
  destruct (sv_btime s0 + _ >? t).
  - destruct C as [-> ->]. cbn [sent]. apply (IH s n s2 gs'); auto.
  - destruct (_ || _).
    + subst g. exfalso. apply E. left; auto.
    + destruct C as [-> C]. cbn [sent length].
      replace (n + Z.of_nat (S (length (sent cs gs')))) with (n + 1 + Z.of_nat (length (sent cs gs'))) by lia.
      apply (IH s1 (n + 1) s2 gs'); auto. lia.
Qed.

Lemma packet_fits codec b ms ptime : In (codec, (b, ms)) codecs -> good_ptime ptime ->
  0 < b * frames (used_ptime ptime) ms <= 8180.
Proof.
  intros C G. assert (U : 0 < used_ptime ptime <= 999).
  { unfold used_ptime, good_ptime in *. destruct (ptime <=? 0) eqn:E; lia. }
  set (p := used_ptime ptime) in *. clearbody p. unfold frames.
  cbn in C. intuition; match goal with H : _ = _ |- _ => injection H as <- <- <- end; lia.
Qed.

Lemma player_hstate file codec b ms loop ptime r1 r2 r3 st :
  In (codec, (b, ms)) codecs -> good_ptime ptime ->
  let k := frames (used_ptime ptime) ms in
  let s := player codec loop ptime r1 r2 r3 st in
  hstate file s ms b k (if loop >? 0 then loop - 1 else loop) 0 s.
Proof.
  intros C G k s. split; [apply player_after|]. split; [reflexivity|].
  split; [unfold s, player; cbn; lia|].
  pose proof (packet_fits _ _ _ _ C G) as LN. fold k in LN.
  exists 0, 0. assert (0 <= Z.of_nat (length file) / (b * k)) by (apply Z.div_pos; lia).
  unfold s, player, server_start, server_new. cbn [sv_pos sv_loop].
  repeat split; try lia.
Qed.

Lemma exact_lemma file codec b ms loop ptime r1 r2 r3 st cs :
  In (codec, (b, ms)) codecs -> good_ptime ptime -> loop <> 0 -> healthy cs ->
  let k := frames (used_ptime ptime) ms in
  let q := Z.of_nat (length file) / (b * k) in
  let '(s, gs) := run file (player codec loop ptime r1 r2 r3 st) cs in
  let n := Z.of_nat (length (sent cs gs)) in
  ~ In GEof gs -> forall t,
  snd (get file s t io_ok) =
    if t <? st + n * (ms * k) * 1000 then GLater
    else if (q =? 0) || ((0 <? loop) && (n =? loop * q)) then GEof
    else GPkt (encode (mkRtp (if n =? 0 then 1 else 0) codec ((r2 + n) mod 65536)
                 ((r1 + n * (8 * ms * k)) mod 4294967296) (r3 mod 4294967296) []
                 None (piece file (b * k) (n mod q)) [])).
Proof.
  intros C G L H k q. pose proof (player_hstate file codec b ms loop ptime r1 r2 r3 st C G) as HS.
  cbv zeta in HS. fold k in HS. set (s0 := player codec loop ptime r1 r2 r3 st) in *.
  destruct (frame_codecs _ _ _ C) as (F & B & M & P).
  pose proof (packet_fits _ _ _ _ C G) as LN. fold k in LN.
  assert (K : k = nframes (sv_ptime s0) ms).
  { unfold s0. rewrite player_ptime, nframes_frames by lia. reflexivity. }
  assert (KP : 0 < k) by (apply frames_pos; [apply used_pos|lia]).
  assert (FS : frame (sv_pt s0) = Some (b, ms)).
  { unfold s0, player, server_start, server_new; cbn [sv_pt]. rewrite Z.mod_small by lia. exact F. }
  destruct (run file s0 cs) as [s gs] eqn:R. intros n E t.
  pose proof (run_ok _ _ _ _ _ _ FS K ltac:(lia) LN _ _ _ _ _ (Z.le_refl 0) H HS R E) as HS'.
  replace (0 + Z.of_nat (length (sent cs gs))) with n in HS' by (unfold n; lia).
  assert (NP : 0 <= n) by (unfold n; lia). clearbody n.
  destruct (get file s t io_ok) as [s' g] eqn:GE. cbn [snd].
  pose proof (get_ok _ _ _ _ _ _ _ _ _ _ _ FS K ltac:(lia) LN NP HS' GE) as O.
  cbv zeta in O. fold q in O.
  assert (X1 : (sv_btime s0 + ms * k * n * 1000 >? t) = (t <? st + n * (ms * k) * 1000)).
  { unfold s0. cbn [sv_btime player server_start]. rewrite Z.gtb_ltb. f_equal. lia. }
  rewrite X1 in O.
  assert (X2 : (0 <=? (if loop >? 0 then loop - 1 else loop)) && (n =? ((if loop >? 0 then loop - 1 else loop) + 1) * q)
               = (0 <? loop) && (n =? loop * q)).
  { destruct (loop >? 0) eqn:LG.
    - destruct (0 <=? loop - 1) eqn:?, (0 <? loop) eqn:?; try lia.
    - destruct (0 <=? loop) eqn:?, (0 <? loop) eqn:?; try lia; reflexivity. }
  rewrite X2 in O.
  destruct (t <? st + n * (ms * k) * 1000); [apply O|].
  destruct ((q =? 0) || ((0 <? loop) && (n =? loop * q))); [exact O|].
  destruct O as [-> _]. f_equal.
  destruct HS' as ((A1&A2&A3&A4&A5&A6&A7&A8) & _).
  pose proof (player_wf codec loop ptime r1 r2 r3 st) as W. fold s0 in W.
  assert (W' : wf_srv s).
  { destruct W as (W1&W2&W3&W4&W5). unfold wf_srv. rewrite A3, A4, A5, A6, A7.
    repeat split; try lia; destruct (n =? 0); lia. }
  rewrite (header_encodes s _ W'). rewrite A3, A4, A5, A6, A7.
  unfold s0, player, server_start, server_new; cbn [sv_pt sv_seq sv_ts sv_ssrc].
  rewrite (Z.mod_small codec 128) by lia. unfold u16, u32. rewrite !Zplus_mod_idemp_l.
  replace (8 * (ms * k) * n) with (n * (8 * ms * k)) by lia. reflexivity.
Qed.

(** *** The packet buffer *)
Lemma read_media_fits file s rlen i s' r : rlen <= 8180 -> read_media file s rlen i = (s', r) -> r <> RdOverrun.
Proof.
  intros LN R. unfold read_media, rd_file, hlen, MAX_RPKT_LEN in R.
  match type of R with (if negb (?x <=? ?y) then _ else _) = _ => assert (X : x <=? y = true) by
    (destruct (io_read1 i); [rewrite firstn_length|cbn [length]]; lia) end.
  rewrite X in R. cbn [negb] in R.
  destruct (io_read1 i && _); [injection R as <- <-; discriminate|].
  destruct (_ =? 0); [injection R as <- <-; discriminate|].
  destruct (negb (io_seek i)); [injection R as <- <-; discriminate|].
  match type of R with (if negb (?x <=? ?y) then _ else _) = _ => assert (X2 : x <=? y = true) by
    (destruct (io_read2 i); [rewrite firstn_length|cbn [length]]; lia) end.
  rewrite X2 in R. cbn [negb] in R.
  destruct (io_read2 i && _); injection R as <- <-; discriminate.
Qed.

Lemma get_keeps file s t i s' g : get file s t i = (s', g) -> sv_pt s' = sv_pt s /\ sv_ptime s' = sv_ptime s.
Proof.
  intros G. pose proof (get_cases _ _ _ _ _ _ G) as C. destruct g.
  - destruct C as (b&ms&k&bt&_&_&_&_&_&_&_&_&C2&_&C4&_). auto.
  - destruct C as ((_&_&A&_&B&_)&_). auto.
  - destruct C as ((_&_&A&_&B&_)&_). auto.
  - destruct C as ((_&_&A&_&B&_)&_). auto.
  - destruct C as ((_&_&A&_&B&_)&_). auto.
  - destruct C as ((_&_&A&_&B&_)&_). auto.
Qed.

Lemma run_fits file : forall cs s s' gs, 0 <= sv_pt s -> sv_ptime s <= 999 -> 0 < sv_ptime s -> run file s cs = (s', gs) -> ~ In GOverrun gs.
Proof.
  induction cs as [|[t i] cs IH]; intros s s' gs P T T' R; cbn [run] in R.
  { injection R as <- <-. intros []. }
  destruct (get file s t i) as [s1 g] eqn:G. destruct (run file s1 cs) as [s2 gs'] eqn:R'. injection R as <- <-.
  destruct (get_keeps _ _ _ _ _ _ G) as [K1 K2].
  assert (NG : g <> GOverrun).
  { unfold get in G. destruct (negb (sv_started s) || _); [injection G as <- <-; discriminate|].
    destruct (frame (sv_pt s)) as [[b ms]|] eqn:F; [|injection G as <- <-; discriminate].
    destruct (negb (io_alloc i)); [injection G as <- <-; discriminate|].
    destruct (read_media _ _ _ _) as [s3 r] eqn:R.
    assert (LN : b * nframes (sv_ptime s) ms <= 8180).
    { destruct (in_dec Z.eq_dec (sv_pt s) (map fst codecs)) as [I|I].
      - apply in_map_iff in I as ([pt [b' ms']] & E & I). cbn in E. subst pt.
        destruct (frame_codecs _ _ _ I) as (F' & ? & ? & ?). rewrite F in F'. injection F' as <- <-.
        rewrite nframes_frames by lia. pose proof (packet_fits _ _ _ (sv_ptime s) I T) as PF.
        unfold used_ptime in PF. destruct (sv_ptime s <=? 0) eqn:Z0; lia.
      - rewrite frame_none in F; [discriminate|auto|]. intros b' ms' X. apply I.
        apply in_map_iff. exists (sv_pt s, (b', ms')). auto. }
    pose proof (read_media_fits _ _ _ _ _ _ LN R) as NO.
    destruct r; injection G as <- <-; try discriminate. congruence. }
  intros [X|X]; [congruence|]. revert X. apply (IH s1 s2 gs'); auto; try congruence; lia.
Qed.

Lemma fits_lemma file codec loop ptime r1 r2 r3 st cs : good_ptime ptime ->
  ~ In GOverrun (snd (run file (player codec loop ptime r1 r2 r3 st) cs)).
Proof.
  intros G. destruct (run file _ cs) as [s gs] eqn:R. cbn [snd]. revert R. apply run_fits.
  - cbn. lia.
  - rewrite player_ptime. unfold used_ptime, good_ptime in *. destruct (ptime <=? 0) eqn:E; lia.
  - rewrite player_ptime. apply used_pos.
Qed.

(** *** A codec that is not known *)
Lemma unknown_lemma file codec loop ptime r1 r2 r3 st cs :
  (forall b ms, ~ In (codec mod 128, (b, ms)) codecs) ->
  Forall (fun g => g = GLater \/ g = GError) (snd (run file (player codec loop ptime r1 r2 r3 st) cs)).
Proof.
  intros N. set (s := player codec loop ptime r1 r2 r3 st).
  assert (F : frame (sv_pt s) = None) by (apply frame_none; auto; cbn; lia). clearbody s.
  induction cs as [|[t i] cs IH]; cbn [run]; [constructor|].
  assert (X : get file s t i = (s, GLater) \/ get file s t i = (s, GError)).
  { unfold get. rewrite F. destruct (negb (sv_started s) || _); auto. }
  destruct (run file s cs) as [s2 gs'] eqn:R. cbn [snd] in IH.
  destruct X as [-> | ->]; rewrite R; cbn [snd]; constructor; auto.
Qed.

(** *** One turn of the player thread *)
Lemma drain_run file : forall fuel s t s' ds e, drain fuel file s t = (s', ds, e) ->
  exists m, run file s (repeat (t, io_ok) m) =
    (s', map GPkt ds ++ match e with Some g => [g] | None => [] end) /\
    match e with Some (GPkt _) => False | _ => True end.
Proof.
  induction fuel as [|f IH]; intros s t s' ds e D; cbn [drain] in D.
  { injection D as <- <- <-. exists 0%nat. cbn. auto. }
  destruct (get file s t io_ok) as [s1 g] eqn:G.
  assert (K : forall g0, g = g0 -> match g0 with GPkt _ => False | _ => True end -> (s1, [], Some g0) = (s', ds, e) ->
    exists m, run file s (repeat (t, io_ok) m) = (s', map GPkt ds ++ match e with Some g => [g] | None => [] end) /\
    match e with Some (GPkt _) => False | _ => True end).
  { intros g0 -> NP X. injection X as <- <- <-. exists 1%nat. cbn [repeat run]. rewrite G. cbn. auto. }
  destruct g as [d| | | | |]; try (eapply K; [reflexivity|exact I|exact D]).
  destruct (drain f file s1 t) as [[s2 ds'] e'] eqn:D'. injection D as <- <- <-.
  destruct (IH _ _ _ _ _ D') as (m & R & NP). exists (S m). cbn [repeat run]. rewrite G, R. cbn. auto.
Qed.

Lemma drain_ends file : forall fuel s t s' ds e b ms,
  frame (sv_pt s) = Some (b, ms) -> 0 < ms * nframes (sv_ptime s) ms -> sv_started s = true ->
  (t - sv_btime s) / 1000 - sv_dts s + 2 <= Z.of_nat fuel -> 0 < Z.of_nat fuel ->
  drain fuel file s t = (s', ds, e) ->
  e <> None /\ e <> Some GError /\
  (e = Some GLater -> sv_btime s' + sv_dts s' * 1000 > t /\ sv_btime s' = sv_btime s).
Proof.
  induction fuel as [|f IH]; intros s t s' ds e b ms F M ST FU FP D; cbn [drain] in D; [lia|].
  destruct (get file s t io_ok) as [s1 g] eqn:G.
  pose proof (get_cases _ _ _ _ _ _ G) as C.
  assert (NE : g <> GError).
  { intros ->. unfold get in G. rewrite F in G. destruct (_ || _); [discriminate|].
    destruct (negb (io_alloc io_ok)); [discriminate|]. destruct (read_media _ _ _ _) as [? [| |]]; discriminate. }
  assert (LT : g = GLater -> s1 = s /\ sv_btime s + sv_dts s * 1000 > t).
  { intros ->. unfold get in G. rewrite ST in G. cbn [negb orb] in G.
    destruct (sv_btime s + sv_dts s * 1000 >? t) eqn:X; [injection G as <-; split; auto; lia|].
    rewrite F in G. destruct (negb (io_alloc io_ok)); [discriminate|]. destruct (read_media _ _ _ _) as [? [| |]]; discriminate. }
  destruct g as [d| | | | |].
  - destruct C as (b' & ms' & k' & bt & F' & K' & _ & _ & _ & T & C1 & C0 & C2 & C3 & C4 & _ & _ & _ & C8).
    rewrite F in F'. injection F' as <- <-. subst k'.
    destruct (drain f file s1 t) as [[s2 ds'] e'] eqn:D'. injection D as <- <- <-.
    rewrite <- C1. apply (IH s1 t s2 ds' e' b ms); auto; try (rewrite ?C4, ?C2; auto; fail); rewrite ?C1, ?C8; lia.
  - injection D as <- <- <-. split; [discriminate|]. split; [discriminate|]. intros _. destruct (LT eq_refl) as [-> ?]. auto.
  - injection D as <- <- <-. repeat split; intros; discriminate.
  - congruence.
  - injection D as <- <- <-. repeat split; intros; discriminate.
  - injection D as <- <- <-. repeat split; intros; discriminate.
Qed.

Lemma run_length file : forall cs s s' gs, run file s cs = (s', gs) -> length gs = length cs.
Proof.
  induction cs as [|[t i] cs IH]; intros s s' gs R; cbn [run] in R; [injection R as <- <-; auto|].
  destruct (get file s t i) as [s1 g]. destruct (run file s1 cs) as [s2 gs'] eqn:R'. injection R as <- <-.
  cbn. f_equal. apply (IH s1 s2); auto.
Qed.
Lemma sent_repeat t e : match e with GPkt _ => False | _ => True end -> forall ds m, (length ds + 1 = m)%nat ->
  sent (repeat (t, io_ok) m) (map GPkt ds ++ [e]) = map (fun d => (t, d)) ds.
Proof.
  intros NE. induction ds as [|d ds IH]; intros m M; destruct m; try (cbn in M; lia).
  - cbn in M. assert (m = 0%nat) by lia. subst m. destruct e; cbn; tauto.
  - cbn [repeat map app sent]. f_equal. apply IH. cbn in M. lia.
Qed.

Lemma turn_lemma file codec b ms loop ptime r1 r2 r3 st cs t :
  In (codec, (b, ms)) codecs -> good_ptime ptime -> loop <> 0 -> healthy cs ->
  let k := frames (used_ptime ptime) ms in
  let '(s, gs) := run file (player codec loop ptime r1 r2 r3 st) cs in
  let n := Z.of_nat (length (sent cs gs)) in
  ~ In GEof gs ->
  exists fuel s' ds e, drain fuel file s t = (s', ds, Some e) /\
    (forall more, drain (fuel + more) file s t = (s', ds, Some e)) /\
    (e = GEof \/ e = GLater /\ t < st + (n + Z.of_nat (length ds)) * (ms * k) * 1000).
Proof.
  intros C G L H k. pose proof (player_hstate file codec b ms loop ptime r1 r2 r3 st C G) as HS.
  pose proof (fits_lemma file codec loop ptime r1 r2 r3 st) as FIT.
  cbv zeta in HS. fold k in HS. set (s0 := player codec loop ptime r1 r2 r3 st) in *.
  destruct (frame_codecs _ _ _ C) as (F & B & M & P).
  pose proof (packet_fits _ _ _ _ C G) as LN. fold k in LN.
  assert (K : k = nframes (sv_ptime s0) ms).
  { unfold s0. rewrite player_ptime, nframes_frames by lia. reflexivity. }
  assert (KP : 0 < k) by (apply frames_pos; [apply used_pos|lia]).
  assert (FS : frame (sv_pt s0) = Some (b, ms)).
  { unfold s0, player, server_start, server_new; cbn [sv_pt]. rewrite Z.mod_small by lia. exact F. }
  destruct (run file s0 cs) as [s gs] eqn:R. intros n E.
  pose proof (run_ok _ _ _ _ _ _ FS K ltac:(lia) LN _ _ _ _ _ (Z.le_refl 0) H HS R E) as HS'.
  replace (0 + Z.of_nat (length (sent cs gs))) with n in HS' by (unfold n; lia).
  assert (NP : 0 <= n) by (unfold n; lia). clearbody n.
  set (fuel := Z.to_nat (Z.max 1 ((t - sv_btime s) / 1000 - sv_dts s + 2))).
  destruct (drain fuel file s t) as [[s' ds] e] eqn:D.
  pose proof HS' as ((A1&A2&A3&A4&A5&A6&A7&A8) & ST & DT & ML).
  destruct (drain_ends file fuel s t s' ds e b ms) as (D1 & D2 & D3); auto; try (unfold fuel; lia).
  { rewrite A3; auto. } { rewrite A2, <- K. lia. }
  destruct e as [e|]; [|congruence].
  destruct (drain_run _ _ _ _ _ _ _ D) as (m & RN & NG).
  exists fuel, s', ds, e. split; auto. split.
  { clear - D. intros more. clearbody fuel. revert s s' ds e D.
    induction fuel as [|f IH]; intros s s' ds e D; cbn [drain Nat.add] in *; [discriminate|].
    destruct (get file s t io_ok) as [s1 g]. destruct g; auto.
    destruct (drain f file s1 t) as [[s2 ds'] e'] eqn:D'. injection D as D0 D1 D2. subst.
    rewrite (IH _ _ _ _ D'). reflexivity. }
  pose proof (run_length _ _ _ _ _ RN) as RL. rewrite app_length, map_length, repeat_length in RL. cbn in RL.
  assert (HR : healthy (repeat (t, io_ok) m)).
  { unfold healthy. apply Forall_forall. intros x X. apply repeat_spec in X. subst x. reflexivity. }
  destruct e as [d| | | | |]; auto; try tauto.
  - right. split; auto. destruct (D3 eq_refl) as [D4 D5].
    assert (NEOF : ~ In GEof (map GPkt ds ++ [GLater])).
    { intros X. apply in_app_or in X as [X|[X|[]]]; [|discriminate]. apply in_map_iff in X as (? & ? & _). discriminate. }
    pose proof (run_ok _ _ _ _ _ _ FS K ltac:(lia) LN _ _ _ _ _ NP HR HS' RN NEOF) as (HA & _ & HD & _).
    rewrite (sent_repeat t GLater I ds m RL), map_length in HD. rewrite HD in D4.
    rewrite D5, A1 in D4. unfold s0 in D4. cbn [sv_btime player server_start] in D4.
    replace (ms * k * (n + Z.of_nat (length ds))) with ((n + Z.of_nat (length ds)) * (ms * k)) in D4 by lia. lia.
  - exfalso. assert (X : forall c l s0 s1 g1, healthy c -> run file s0 c = (s1, l ++ [g1]) -> g1 <> GNomem).
    { clear. induction c as [|[t i] c IH]; intros l s0 s1 g1 HC RC; cbn [run] in RC; [destruct l; discriminate|].
      inversion HC as [|? ? H1 H2]; subst. cbn in H1. subst i.
      destruct (get file s0 t io_ok) as [s3 g3] eqn:G3. destruct (run file s3 c) as [s4 gs4] eqn:R4.
      injection RC as RC1 RC2. destruct l as [|x l].
      - cbn in RC2. injection RC2 as -> _. intros ->. unfold get in G3. destruct (_ || _); [discriminate|].
        destruct (frame _) as [[? ?]|]; [|discriminate]. cbn [io_ok io_alloc negb] in G3.
        destruct (read_media _ _ _ _) as [? [| |]]; discriminate.
      - cbn in RC2. injection RC2 as _ RC2. subst. apply (IH l s3 s1 g1); auto. }
    exact (X _ _ _ _ _ HR RN eq_refl).
  - exfalso. specialize (FIT (cs ++ repeat (t, io_ok) m) G).
    assert (RA : forall c1 c2 a a1 g1 a2 g2, run file a c1 = (a1, g1) -> run file a1 c2 = (a2, g2) -> run file a (c1 ++ c2) = (a2, g1 ++ g2)).
    { clear. induction c1 as [|[t i] c IH]; intros c2 a a1 g1 a2 g2 R1 R2; cbn [run app] in *; [injection R1 as <- <-; auto|].
      destruct (get file a t i) as [b g]. destruct (run file b c) as [b2 gs] eqn:R3. injection R1 as <- <-.
      rewrite (IH c2 b b2 gs a2 g2); auto. }
    rewrite (RA _ _ _ _ _ _ _ R RN) in FIT. cbn [snd] in FIT. apply FIT.
    apply in_or_app; right. apply in_or_app; right. left; auto.
Qed.
