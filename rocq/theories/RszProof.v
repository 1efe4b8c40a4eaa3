From Coq Require Import Permutation.
From Verif Require Import Base RtpModel RtpSpec RtpProof RszModel RszSpec.

Local Opaque BUF.
Lemma BUF_eq : BUF = 8192. Proof. reflexivity. Qed.

(** * Packets in buffers *)
Definition pre (r : rtp_pkt) : list Z := hdr_of r ++ r_csrc r ++ ext_of r.
Definition plen (r : rtp_pkt) : Z := Z.of_nat (length (r_payload r)).
Definition hwf (r : rtp_pkt) : Prop :=
  0 <= r_marker r < 2 /\ 0 <= r_pt r < 128 /\ 0 <= r_seq r < 65536 /\
  0 <= r_ts r < 4294967296 /\ 0 <= r_ssrc r < 4294967296 /\
  (exists cc, Z.of_nat (length (r_csrc r)) = 4 * cc /\ 0 <= cc < 16) /\
  match r_ext r with
  | None => True
  | Some (id, ws) => 0 <= id < 65536 /\ exists n, Z.of_nat (length ws) = 4 * n /\ 0 <= n < 65536
  end.

Record rep (z : zp) (r : rtp_pkt) (n : Z) : Prop := {
  p_buf : exists g, z_buf z = pre r ++ r_payload r ++ g;
  p_len : Z.of_nat (length (z_buf z)) = BUF;
  p_off : z_off z = Z.of_nat (length (pre r));
  p_dsz : z_dsize z = plen r;
  p_ns : z_ns z = n;
  p_ts : z_ts z = r_ts r;
  p_seq : ri_seq (z_i z) = r_seq r;
  p_ssrc : ri_ssrc (z_i z) = r_ssrc r;
  p_pt : z_pt z = r_pt r;
  p_app : r_pt r = 18 -> plen r mod 10 <> 0 -> ri_appendable (z_i z) = 0;
  p_size : z_off z + z_dsize z <= z_size z <= BUF;
  p_nopad : r_pad r = [] -> z_size z = z_off z + z_dsize z;
  p_wf : hwf r }.

Definition with_pl (r : rtp_pkt) (pl : list Z) : rtp_pkt := mkRtp (r_marker r) (r_pt r) (r_seq r) (r_ts r) (r_ssrc r) (r_csrc r) (r_ext r) pl (r_pad r).
Definition with_ts (r : rtp_pkt) (ts : Z) : rtp_pkt := mkRtp (r_marker r) (r_pt r) (r_seq r) ts (r_ssrc r) (r_csrc r) (r_ext r) (r_payload r) (r_pad r).
Definition with_seq (r : rtp_pkt) (s : Z) : rtp_pkt := mkRtp (r_marker r) (r_pt r) s (r_ts r) (r_ssrc r) (r_csrc r) (r_ext r) (r_payload r) (r_pad r).
Definition unmarked (r : rtp_pkt) : rtp_pkt := mkRtp 0 (r_pt r) (r_seq r) (r_ts r) (r_ssrc r) (r_csrc r) (r_ext r) (r_payload r) (r_pad r).

Lemma pre_length r : (12 <= length (pre r))%nat.
Proof. unfold pre. rewrite app_length, hdr_len. lia. Qed.
Lemma pre_pl r pl : pre (with_pl r pl) = pre r. Proof. reflexivity. Qed.

Lemma poke_seq r s x : poke (pre r ++ x) 2 [s / 256; s mod 256] = pre (with_seq r s) ++ x.
Proof. unfold poke, pre, hdr_of, be16, be32. cbn. reflexivity. Qed.
Lemma poke_ts r ts x : poke (pre r ++ x) 4 [ts / 65536 / 256; ts / 65536 mod 256; ts mod 65536 / 256; ts mod 65536 mod 256] = pre (with_ts r ts) ++ x.
Proof. unfold poke, pre, hdr_of, be16, be32. cbn. reflexivity. Qed.
Lemma poke_mbt r x : 0 <= r_pt r < 128 -> poke (pre r ++ x) 1 [nth 1 (pre r ++ x) 0 mod 128] = pre (unmarked r) ++ x.
Proof.
  intros P. unfold poke, pre, hdr_of, be16, be32. cbn. do 2 f_equal.
  replace (r_marker r * 128 + r_pt r) with (r_pt r + r_marker r * 128) by lia. rewrite Z_mod_plus_full. apply Z.mod_small. exact P.
Qed.

Ltac zs := unfold z_off, z_dsize, z_ns, z_ts, z_pt, plen in *;
  cbn [z_buf z_size z_i set_ts set_seq clear_mbt set_len ri_data_size ri_data_offset ri_nsamples ri_ts ri_seq ri_ssrc ri_appendable ri_pt
       with_pl with_ts with_seq unmarked r_marker r_pt r_seq r_ts r_ssrc r_csrc r_ext r_payload r_pad] in *.
Lemma rep_set_ts z r n ts : rep z r n -> 0 <= ts < 4294967296 -> rep (set_ts z ts) (with_ts r ts) n.
Proof.
  intros [(g & B) L OF D N TS SQ SS PT AP0 SZ NP (W1 & W2 & W3 & W4 & W5 & W6)] H.
  constructor; zs; auto.
  - exists g. rewrite B. apply poke_ts.
  - rewrite B, poke_ts. rewrite B in L. rewrite <- L, !app_length. reflexivity.
  - repeat split; tauto.
Qed.
Lemma rep_set_seq z r n s : rep z r n -> 0 <= s < 65536 -> rep (set_seq z s) (with_seq r s) n.
Proof.
  intros [(g & B) L OF D N TS SQ SS PT AP0 SZ NP (W1 & W2 & W3 & W4 & W5 & W6)] H.
  constructor; zs; auto.
  - exists g. rewrite B. apply poke_seq.
  - rewrite B, poke_seq. rewrite B in L. rewrite <- L, !app_length. reflexivity.
  - repeat split; tauto.
Qed.
Lemma rep_clear z r n : rep z r n -> rep (clear_mbt z) (unmarked r) n.
Proof.
  intros [(g & B) L OF D N TS SQ SS PT AP0 SZ NP (W1 & W2 & W3 & W4 & W5 & W6)].
  constructor; zs; auto.
  - exists g. rewrite B. apply poke_mbt. exact W2.
  - rewrite B, poke_mbt by exact W2. rewrite B in L. rewrite <- L, !app_length. reflexivity.
  - repeat split; try tauto; cbn; lia.
Qed.

Lemma load_ok z r n a b : rep z r n -> 0 <= a -> 0 <= b -> a + b <= plen r ->
  load (z_buf z) (z_off z + a) b = Some (firstn (Z.to_nat b) (skipn (Z.to_nat a) (r_payload r))).
Proof.
  intros [(g & B) L OF D N TS SQ SS PT AP0 SZ NP W] H1 H2 H3. unfold load.
  replace ((0 <=? z_off z + a) && (0 <=? b) && (z_off z + a + b <=? Z.of_nat (length (z_buf z)))) with true by lia.
  f_equal. rewrite B. replace (Z.to_nat (z_off z + a)) with (length (pre r) + Z.to_nat a)%nat by lia.
  rewrite <- skipn_skipn'. rewrite skipn_app_len by reflexivity.
  rewrite skipn_app, firstn_app. unfold plen in H3. rewrite skipn_length.
  replace (Z.to_nat b - (length (r_payload r) - Z.to_nat a))%nat with O by lia. cbn [firstn]. apply app_nil_r.
Qed.

Lemma store_ok (p x g bs : list Z) : (length p + length x + length bs <= length (p ++ x ++ g))%nat ->
  exists g', store (p ++ x ++ g) (length p + length x) bs = Some (p ++ x ++ bs ++ g') /\ (length (p ++ x ++ bs ++ g') = length (p ++ x ++ g)).
Proof.
  intros H. unfold store. destruct (Nat.leb_spec (length p + length x + length bs) (length (p ++ x ++ g))) as [_|X]; [|lia].
  exists (skipn (length p + length x + length bs) (p ++ x ++ g)). split.
  - f_equal. rewrite (app_assoc p x). rewrite <- app_length. rewrite firstn_app, Nat.sub_diag, firstn_all, firstn_O, app_nil_r.
    rewrite <- !app_assoc. reflexivity.
  - rewrite !app_length, skipn_length, !app_length in *. lia.
Qed.

(** copying into a packet, after the first [k] bytes of its payload *)
Lemma rep_put z r n k bs size ns app : rep z r n -> 0 <= k <= plen r -> z_off z + k + Z.of_nat (length bs) <= size <= BUF ->
  (r_pad r = [] -> size = z_off z + k + Z.of_nat (length bs)) ->
  (r_pt r = 18 -> (k + Z.of_nat (length bs)) mod 10 <> 0 -> app = 0) ->
  exists b, store (z_buf z) (Z.to_nat (z_off z + k)) bs = Some b /\
    rep (set_len (mkZ b 0 (z_i z)) size (k + Z.of_nat (length bs)) ns app) (with_pl r (firstn (Z.to_nat k) (r_payload r) ++ bs)) ns.
Proof.
  intros [(g & B) L OF D N TS SQ SS PT AP0 SZ NP W] K SZ2 NP2 AP. unfold plen in *.
  assert (E : z_buf z = pre r ++ firstn (Z.to_nat k) (r_payload r) ++ (skipn (Z.to_nat k) (r_payload r) ++ g)).
  { rewrite B. rewrite (app_assoc (firstn _ _)), firstn_skipn. reflexivity. }
  assert (LF : length (firstn (Z.to_nat k) (r_payload r)) = Z.to_nat k) by (rewrite firstn_length; lia).
  destruct (store_ok (pre r) (firstn (Z.to_nat k) (r_payload r)) (skipn (Z.to_nat k) (r_payload r) ++ g) bs) as (g' & ST & LN).
  { rewrite <- E, LF. lia. }
  rewrite <- E in ST, LN. rewrite LF in ST. replace (length (pre r) + Z.to_nat k)%nat with (Z.to_nat (z_off z + k)) in ST by lia.
  eexists. split; [exact ST|]. constructor; zs; auto.
  - exists g'. rewrite pre_pl, <- !app_assoc. reflexivity.
  - rewrite LN. exact L.
  - rewrite app_length, LF. lia.
  - rewrite app_length, LF, Nat2Z.inj_add, Z2Nat.id by lia. exact AP.
  - lia.
  - intros H. rewrite NP2 by exact H. lia.
Qed.

Definition joinp (r s : rtp_pkt) : rtp_pkt := with_pl r (r_payload r ++ r_payload s).
Definition headp (r : rtp_pkt) (b : Z) : rtp_pkt := with_pl r (firstn (Z.to_nat b) (r_payload r)).
Definition tailp (r : rtp_pkt) (b m : Z) : rtp_pkt := with_pl (with_ts r (u32 (r_ts r + m))) (skipn (Z.to_nat b) (r_payload r)).

Lemma firstn_len_Z {A} (l : list A) b : 0 <= b <= Z.of_nat (length l) -> Z.of_nat (length (firstn (Z.to_nat b) l)) = b.
Proof. intros H. rewrite firstn_length. lia. Qed.
Lemma skipn_len_Z {A} (l : list A) b : 0 <= b <= Z.of_nat (length l) -> Z.of_nat (length (skipn (Z.to_nat b) l)) = Z.of_nat (length l) - b.
Proof. intros H. rewrite skipn_length. lia. Qed.
Lemma firstn_plen r : firstn (Z.to_nat (plen r)) (r_payload r) = r_payload r.
Proof. unfold plen. rewrite Nat2Z.id. apply firstn_all. Qed.

Lemma append_ok d rd n s rs m : rep d rd n -> rep s rs m -> z_size d + z_dsize s <= BUF ->
  r_pt rd = r_pt rs -> (r_pt rd = 18 -> plen rd mod 10 = 0) ->
  exists d', append_packet d s = Some d' /\ rep d' (joinp rd rs) (n + m).
Proof.
  intros D S SZ PT TEN. unfold append_packet, copy.
  replace (z_off s) with (z_off s + 0) by lia. rewrite (p_dsz _ _ _ S). rewrite (load_ok _ _ _ _ _ S) by (unfold plen; lia). cbn [skipn Z.to_nat].
  rewrite firstn_plen. rewrite (p_dsz _ _ _ D).
  destruct (rep_put d rd n (plen rd) (r_payload rs) (z_size d + plen rs) (z_ns d + z_ns s) (ri_appendable (z_i s)) D) as (b & ST & R).
  - unfold plen. lia.
  - pose proof (p_size _ _ _ D). rewrite (p_dsz _ _ _ D) in *. rewrite (p_dsz _ _ _ S) in SZ. fold (plen rs). lia.
  - intros H. rewrite (p_nopad _ _ _ D H), (p_dsz _ _ _ D). fold (plen rs). lia.
  - intros X Y. fold (plen rs) in Y. apply (p_app _ _ _ S); [congruence|]. specialize (TEN X). lia.
  - rewrite ST. eexists. split; [reflexivity|]. rewrite firstn_plen in R. rewrite (p_ns _ _ _ D), (p_ns _ _ _ S) in *. exact R.
Qed.

Lemma cut_ok s rs m b k : rep s rs m -> 0 <= b <= plen rs -> (r_pt rs = 18 -> b mod 10 = 0) ->
  exists s', cut_head s b k = Some s' /\ rep s' (tailp rs b k) (m - k).
Proof.
  intros S B TEN. unfold cut_head, copy. rewrite (p_ts _ _ _ S).
  pose proof (rep_set_ts s rs m (u32 (r_ts rs + k)) S (u32_range _)) as S1. set (s1 := set_ts s (u32 (r_ts rs + k))) in *.
  assert (PL : plen (with_ts rs (u32 (r_ts rs + k))) = plen rs) by reflexivity.
  rewrite (p_dsz _ _ _ S1), PL. rewrite (load_ok _ _ _ _ _ S1) by (rewrite ?PL; lia). cbn [with_ts r_payload].
  assert (E : firstn (Z.to_nat (plen rs - b)) (skipn (Z.to_nat b) (r_payload rs)) = skipn (Z.to_nat b) (r_payload rs)).
  { apply firstn_all2. rewrite skipn_length. unfold plen in *. lia. }
  rewrite E. replace (z_off s1) with (z_off s1 + 0) by lia.
  pose proof (skipn_len_Z (r_payload rs) b B) as LK. fold (plen rs) in LK.
  destruct (rep_put s1 _ m 0 (skipn (Z.to_nat b) (r_payload rs)) (z_size s1 - b) (z_ns s1 - k) (ri_appendable (z_i s1)) S1) as (b' & ST & R).
  - unfold plen. lia.
  - rewrite LK. pose proof (p_size _ _ _ S1). rewrite (p_dsz _ _ _ S1), PL in *. lia.
  - intros H. rewrite (p_nopad _ _ _ S1 H), (p_dsz _ _ _ S1), PL, LK. lia.
  - rewrite LK. intros X Y. apply (p_app _ _ _ S1); [exact X|]. rewrite PL. specialize (TEN X). lia.
  - rewrite ST. eexists. split; [reflexivity|]. rewrite LK in R. cbn [Z.to_nat firstn app] in R. rewrite (p_ns _ _ _ S1) in *. exact R.
Qed.

Lemma chunk_ok d rd n s rs m b k : rep d rd n -> rep s rs m -> 0 <= b <= plen rs -> z_size d + b <= BUF ->
  (r_pt rs = 18 -> b mod 10 = 0) -> (r_pt rd = 18 -> b mod 10 = 0) ->
  exists d' s', append_chunk d s b k = Some (d', s') /\ rep d' (joinp rd (headp rs b)) (n + k) /\ rep s' (tailp rs b k) (m - k).
Proof.
  intros D S B SZ TEN TEN2. unfold append_chunk, copy.
  replace (z_off s) with (z_off s + 0) by lia. rewrite (load_ok _ _ _ _ _ S) by lia. cbn [skipn Z.to_nat]. rewrite (p_dsz _ _ _ D).
  pose proof (firstn_len_Z (r_payload rs) b B) as LF.
  destruct (rep_put d rd n (plen rd) (firstn (Z.to_nat b) (r_payload rs)) (z_size d + b) (z_ns d + k) (ri_appendable (z_i d)) D) as (b' & ST & R).
  - unfold plen. lia.
  - rewrite LF. pose proof (p_size _ _ _ D). rewrite (p_dsz _ _ _ D) in *. lia.
  - intros H. rewrite LF, (p_nopad _ _ _ D H), (p_dsz _ _ _ D). lia.
  - rewrite LF. intros X Y. apply (p_app _ _ _ D); [exact X|]. specialize (TEN2 X). lia.
  - rewrite ST. destruct (cut_ok s rs m b k S B TEN) as (s' & CU & RS). rewrite CU. eexists _, _. split; [reflexivity|].
    rewrite LF, firstn_plen in R. rewrite (p_ns _ _ _ D) in *. split; [exact R|exact RS].
Qed.


Lemma off_len z a b c d : z_off (set_len z a b c d) = z_off z. Proof. reflexivity. Qed.
Lemma buf_len z a b c d : z_buf (set_len z a b c d) = z_buf z. Proof. reflexivity. Qed.
Lemma i_dup z : z_i (dup_hdr z) = mkRi 0 (z_off z) 0 (z_ts z) (ri_seq (z_i z)) (ri_ssrc (z_i z)) (ri_appendable (z_i z)) (ri_pt (z_i z)).
Proof. reflexivity. Qed.
Lemma off_dup z : z_off (dup_hdr z) = z_off z. Proof. unfold z_off at 1. rewrite i_dup. reflexivity. Qed.
Lemma rep_hdr b r i g : b = pre r ++ g -> Z.of_nat (length b) = BUF -> ri_data_offset i = Z.of_nat (length (pre r)) ->
  ri_ts i = r_ts r -> ri_seq i = r_seq r -> ri_ssrc i = r_ssrc r -> ri_pt i = r_pt r -> hwf r -> ri_data_offset i <= BUF ->
  rep (set_len (mkZ b 0 i) (ri_data_offset i) 0 0 1) (with_pl r []) 0.
Proof.
  intros B L OF TS SQ SS PT W LE. constructor; zs; cbn [length]; try assumption; try reflexivity; try (intros; lia); try discriminate.
  exists g. exact B.
Qed.
Lemma dup_ok s rs m : rep s rs m -> rep (set_len (dup_hdr s) (z_off s) 0 0 1) (with_pl rs []) 0.
Proof.
  intros [(g & BB) L OF D N TS SQ SS PT AP0 SZ NP W].
  assert (LH : Z.of_nat (length (firstn (Z.to_nat (z_size s - z_dsize s)) (z_buf s))) = z_size s - z_dsize s) by (rewrite firstn_length; unfold plen in *; lia).
  unfold dup_hdr. set (h := firstn (Z.to_nat (z_size s - z_dsize s)) (z_buf s)) in *.
  apply (rep_hdr (h ++ repeat 0 (Z.to_nat BUF - length h)) rs (z_i s)
    (firstn (Z.to_nat (z_size s - z_dsize s) - length (pre rs)) (r_payload rs ++ g) ++ repeat 0 (Z.to_nat BUF - length h))); try assumption.
  - rewrite app_assoc. f_equal. unfold h. rewrite BB, firstn_app. rewrite (firstn_all2 (pre rs)) by lia. reflexivity.
  - rewrite app_length, repeat_length. unfold plen in *; lia.
  - change (ri_data_offset (z_i s)) with (z_off s). unfold plen in *; lia.
Qed.
Lemma move_ok s rs m b k : rep s rs m -> 0 <= b <= plen rs -> (r_pt rs = 18 -> b mod 10 = 0) ->
  exists d' s', move_chunk (dup_hdr s) (clear_mbt s) b k = Some (d', s') /\ rep d' (headp rs b) k /\ rep s' (tailp (unmarked rs) b k) (m - k).
Proof.
  intros S B TEN. pose proof (rep_clear _ _ _ S) as C. unfold move_chunk, copy.
  pose proof (dup_ok s rs m S) as DS.
  replace (z_off (clear_mbt s)) with (z_off (clear_mbt s) + 0) by lia. rewrite (load_ok _ _ _ _ _ C) by (try lia; exact (proj2 B)).
  cbn [skipn Z.to_nat unmarked r_payload]. pose proof (firstn_len_Z (r_payload rs) b B) as LF.
  destruct (rep_put _ _ 0 0 (firstn (Z.to_nat b) (r_payload rs)) (b + z_off s) k (ri_appendable (z_i s)) DS) as (b' & ST & R).
  - cbn. lia.
  - rewrite LF. pose proof (p_size _ _ _ S). pose proof (p_dsz _ _ _ S). rewrite off_len, off_dup. lia.
  - rewrite LF. intros _. rewrite off_len, off_dup. lia.
  - rewrite LF. intros X Y. cbn [with_pl r_pt] in X. specialize (TEN X). lia.
  - rewrite off_len, buf_len, Z.add_0_r in ST. rewrite ST.
    destruct (cut_ok (clear_mbt s) (unmarked rs) m b k C B TEN) as (s' & CU & RS). rewrite CU. eexists _, _. split; [reflexivity|].
    rewrite LF in R. split; [|exact RS]. unfold set_len in R |- *. cbn [z_i z_buf] in R |- *. rewrite i_dup, off_dup in *. exact R.
Qed.

(** * Samples *)
Notation sp := (prod rtp_pkt Z).
Definition nsok (p : sp) : Prop :=
  let pt := r_pt (fst p) in let n := snd p in let len := plen (fst p) in
  (0 < len) /\ 0 <= n <= 491520 /\
  ((pt = 0 \/ pt = 8) /\ n = len \/ pt = 9 /\ 0 < n <= len \/ pt = 18 /\ n = 80 * ((len + 9) / 10) \/
   pt = 3 /\ n = 160 * (len / 33) \/ pt = 4 /\ exists f, g723_frames (r_payload (fst p)) f /\ n = 240 * f).

(** [j] frames of G.723.1 at the start of [pl], [b] bytes together *)
Inductive walk : list Z -> Z -> nat -> Prop :=
| wk0 : forall pl, walk pl 0 0
| wkS : forall ch l len b j, (ch mod 4 = 0 /\ len = 24 \/ ch mod 4 = 1 /\ len = 20 \/ ch mod 4 = 2 /\ len = 4) ->
    walk (skipn (Z.to_nat len) (ch :: l)) b j -> walk (ch :: l) (len + b) (S j).
(** where a packet may be cut: after [b] bytes that last [k] samples *)
Definition cut (p : sp) (b k : Z) : Prop :=
  let pt := r_pt (fst p) in
  0 <= b < plen (fst p) /\ 0 < k < snd p /\
  ((pt = 0 \/ pt = 8) /\ k = b \/ pt = 9 /\ b = k / 2 \/ pt = 18 /\ b mod 10 = 0 /\ k = 8 * b \/
   pt = 3 /\ b mod 33 = 0 /\ k = 160 * (b / 33) \/
   pt = 4 /\ exists j, k = 240 * Z.of_nat j /\ walk (r_payload (fst p)) b j).

Lemma walk_nonneg pl b j : walk pl b j -> 0 <= b.
Proof. induction 1; lia. Qed.
Lemma skipn_plus {A} (l : list A) a b : 0 <= a -> 0 <= b -> skipn (Z.to_nat (a + b)) l = skipn (Z.to_nat b) (skipn (Z.to_nat a) l).
Proof. intros. rewrite skipn_skipn'. f_equal. lia. Qed.
Lemma g723_inv ch l f len : (ch mod 4 = 0 /\ len = 24 \/ ch mod 4 = 1 /\ len = 20 \/ ch mod 4 = 2 /\ len = 4) ->
  g723_frames (ch :: l) f -> g723_frames (skipn (Z.to_nat len) (ch :: l)) (f - 1).
Proof.
  intros H G. inversion G as [|ch' l' len' n' H' G' E1 E2]; subst. replace (n' + 1 - 1) with n' by lia. replace len with len' by lia. exact G'.
Qed.
Lemma walk_frames pl b j : walk pl b j -> forall f, g723_frames pl f -> g723_frames (skipn (Z.to_nat b) pl) (f - Z.of_nat j).
Proof.
  induction 1 as [pl|ch l len b j H W IH]; intros f G.
  - cbn [Z.to_nat skipn]. replace (f - Z.of_nat 0) with f by lia. exact G.
  - rewrite skipn_plus by (pose proof (walk_nonneg _ _ _ W); lia). replace (f - Z.of_nat (S j)) with (f - 1 - Z.of_nat j) by lia.
    apply IH. apply g723_inv; assumption.
Qed.
Lemma frames_nil f : g723_frames [] f -> f = 0.
Proof. inversion 1. reflexivity. Qed.
Lemma frames_nonneg l f : g723_frames l f -> 0 <= f <= Z.of_nat (length l).
Proof. induction 1 as [|ch l len n H G IH]; [cbn; lia|]. rewrite skipn_length in IH. cbn [length] in *. lia. Qed.
Lemma frames_bound l f : g723_frames l f -> 4 * f <= Z.of_nat (length l) + 3.
Proof. induction 1 as [|ch l len n H G IH]; [cbn; lia|]. rewrite skipn_length in IH. cbn [length] in *.
  destruct (Nat.le_gt_cases (S (length l)) (Z.to_nat len)).
  - assert (L0 : skipn (Z.to_nat len) (ch :: l) = []) by (apply skipn_all2; cbn [length]; lia). rewrite L0 in G. apply frames_nil in G. lia.
  - lia.
Qed.

Lemma g723_find_ok z r n : rep z r n -> forall fuel samples pos found f,
  0 <= pos -> (Z.to_nat (plen r - pos) <= fuel)%nat -> g723_frames (skipn (Z.to_nat pos) (r_payload r)) f ->
  exists b j, g723_find fuel z samples pos found = Some (pos + b, found + 240 * Z.of_nat j) /\
    walk (skipn (Z.to_nat pos) (r_payload r)) b j /\ Z.of_nat j <= f /\
    (samples <= found + 240 * Z.of_nat j \/ plen r <= pos + b) /\ (found < samples -> pos < plen r -> (0 < j)%nat) /\
    (found + 240 * Z.of_nat j < samples + 240 \/ j = O).
Proof.
  intros R. induction fuel as [|fuel IH]; intros samples pos found f P FU G; cbn [g723_find]; rewrite (p_dsz _ _ _ R).
  - replace (pos <? plen r) with false by (unfold plen in *; lia). cbn [andb]. exists 0, O. rewrite Z.add_0_r, Z.add_0_r.
    pose proof (frames_nonneg _ _ G). split; [reflexivity|]. split; [constructor|]. lia.
  - destruct (Z.ltb_spec pos (plen r)) as [LT|]; cbn [andb].
    2:{ exists 0, O. rewrite Z.add_0_r, Z.add_0_r. pose proof (frames_nonneg _ _ G). split; [reflexivity|]. split; [constructor|]. lia. }
    destruct (Z.ltb_spec found samples) as [LT2|].
    2:{ exists 0, O. rewrite Z.add_0_r, Z.add_0_r. pose proof (frames_nonneg _ _ G). split; [reflexivity|]. split; [constructor|]. lia. }
    assert (NE : exists ch l, skipn (Z.to_nat pos) (r_payload r) = ch :: l).
    { destruct (skipn (Z.to_nat pos) (r_payload r)) as [|ch l] eqn:E; [|eauto]. apply (f_equal (@length Z)) in E. rewrite skipn_length in E. unfold plen in LT. cbn in E. lia. }
    destruct NE as (ch & l & E). rewrite E in G.
    assert (RD : rd (z_buf z) (z_off z + pos) = Some ch).
    { unfold rd. destruct (p_buf _ _ _ R) as (g & B). rewrite (p_off _ _ _ R), B. destruct (Z.ltb_spec (Z.of_nat (length (pre r)) + pos) 0); [lia|].
      replace (Z.to_nat (Z.of_nat (length (pre r)) + pos)) with (length (pre r) + Z.to_nat pos)%nat by lia.
      rewrite nth_error_app2 by lia. replace (length (pre r) + Z.to_nat pos - length (pre r))%nat with (Z.to_nat pos) by lia.
      rewrite nth_error_app1 by (unfold plen in LT; lia). rewrite <- (firstn_skipn (Z.to_nat pos) (r_payload r)), E.
      rewrite nth_error_app2 by (rewrite firstn_length; lia). rewrite firstn_length. unfold plen in LT.
      replace (Z.to_nat pos - Nat.min (Z.to_nat pos) (length (r_payload r)))%nat with O by lia. reflexivity. }
    rewrite RD. inversion G as [|ch' l' len n' H G' E1 E2]; subst.
    assert (GL : g723_len ch = len) by (unfold g723_len; destruct H as [[H ->]|[[H ->]|[H ->]]]; rewrite H; reflexivity).
    rewrite GL. unfold NS_UNKNOWN. destruct (Z.eqb_spec len (-1)); [lia|].
    assert (SK : skipn (Z.to_nat (pos + len)) (r_payload r) = skipn (Z.to_nat len) (ch :: l)) by (rewrite skipn_plus by lia; rewrite E; reflexivity).
    destruct (IH samples (pos + len) (found + 240) n') as (b & j & EQ & W & JF & ST & PR & UP); [lia|lia|rewrite SK; exact G'|].
    exists (len + b), (S j). rewrite EQ, E. split; [do 2 f_equal; lia|]. split; [econstructor; [exact H|rewrite <- SK; exact W]|].
    split; [lia|]. split; [lia|]. split; [lia|]. left. destruct UP as [UP| ->]; lia.
Qed.

Lemma chunk_find_ok z r n min : rep z r n -> nsok (r, n) -> 0 < min < n ->
  exists o, chunk_find z min = Some o /\ match o with None => True | Some (b, k) => cut (r, n) b k /\ min <= k end.
Proof.
  intros R (NE & NB & K) M. cbn [fst snd] in *. unfold chunk_find. rewrite (p_ns _ _ _ R), (p_pt _ _ _ R), (p_dsz _ _ _ R).
  destruct (Z.leb_spec n min); [lia|]. unfold cut. cbn [fst snd].
  destruct K as [[K E]|[[K E]|[[K E]|[[K E]|[K E]]]]].
  - eexists. split; [destruct K as [-> | ->]; reflexivity|]. cbv beta iota. split; [|lia]. split; [lia|]. split; [lia|]. left. auto.
  - rewrite K. eexists. split; [reflexivity|]. cbv beta iota. split; [|lia]. split; [lia|]. split; [lia|]. right. left. auto.
  - rewrite K. set (fr := min / 80 + (if min mod 80 =? 0 then 0 else 1)).
    assert (FB : min <= 80 * fr < min + 80) by (unfold fr; destruct (Z.eqb_spec (min mod 80) 0); lia).
    destruct (Z.leb_spec n (fr * 80)); [eexists; split; [reflexivity|exact Logic.I]|]. eexists. split; [reflexivity|]. cbv beta iota.
    split; [|lia]. split; [lia|]. split; [lia|]. right. right. left. split; [reflexivity|]. rewrite Z.mod_mul by lia. lia.
  - rewrite K. set (fr := min / 160 + (if min mod 160 =? 0 then 0 else 1)).
    assert (FB : min <= 160 * fr < min + 160) by (unfold fr; destruct (Z.eqb_spec (min mod 160) 0); lia).
    destruct (Z.leb_spec n (fr * 160)); [eexists; split; [reflexivity|exact Logic.I]|]. eexists. split; [reflexivity|]. cbv beta iota.
    split; [|lia]. split; [lia|]. split; [lia|]. right. right. right. left. split; [reflexivity|]. rewrite Z.mod_mul, Z.div_mul by lia. lia.
  - destruct E as (f & G & E). rewrite K. set (fr := min / 240 + (if min mod 240 =? 0 then 0 else 1)).
    assert (FB : min <= 240 * fr < min + 240) by (unfold fr; destruct (Z.eqb_spec (min mod 240) 0); lia).
    destruct (Z.leb_spec n (fr * 240)); [eexists; split; [reflexivity|exact Logic.I]|].
    destruct (g723_find_ok z r n R (Z.to_nat (plen r)) (fr * 240) 0 0 f) as (b & j & EQ & W & JF & ST & PR & UP); [lia|lia|exact G|].
    rewrite EQ. cbn [Z.to_nat skipn] in W. rewrite !Z.add_0_l in *. pose proof (walk_nonneg _ _ _ W) as B0. eexists. split; [reflexivity|].
    assert (BL : b < plen r).
    { destruct (Z.lt_ge_cases b (plen r)) as [|GE]; [assumption|exfalso].
      pose proof (walk_frames _ _ _ W _ G) as G2. rewrite skipn_all2 in G2 by (unfold plen in *; lia). apply frames_nil in G2.
      destruct UP as [UP|UP]; [lia|]. specialize (PR ltac:(lia) ltac:(lia)). lia. }
    destruct (Z.ltb_spec b (plen r)); [|lia]. assert (JJ : (0 < j)%nat) by (apply PR; lia).
    split; [|lia]. split; [lia|]. split; [destruct UP; lia|]. right. right. right. right. split; [reflexivity|]. exists j. split; [reflexivity|exact W].
Qed.

(** * What an output packet is made of *)
Definition repp (z : zp) (p : sp) : Prop := rep z (fst p) (snd p).
Definition join (a b : sp) : sp := (joinp (fst a) (fst b), snd a + snd b).
Definition head (p : sp) (b k : Z) : sp := (headp (fst p) b, k).
Definition tail (p : sp) (b k : Z) : sp := (tailp (fst p) b k, snd p - k).
Definition unm (p : sp) : sp := (unmarked (fst p), snd p).
Definition joinable (a b : sp) : Prop :=
  r_pt (fst a) = r_pt (fst b) /\ u32 (r_ts (fst a) + snd a) = r_ts (fst b) /\ (r_pt (fst a) = 18 -> plen (fst a) mod 10 = 0).
Inductive ext : sp -> list sp -> sp -> list sp -> Prop :=
| ex0 : forall c q, ext c q c q
| ex_all : forall c p q x q', joinable c p -> ext (join c p) q x q' -> ext c (p :: q) x q'
| ex_part : forall c p q b k, joinable c p -> cut p b k -> ext c (p :: q) (join c (head p b k)) (tail p b k :: q).
Inductive pull : list sp -> sp -> list sp -> Prop :=
| pl0 : forall p q x q', ext p q x q' -> pull (p :: q) x q'
| pl1 : forall p q b k, cut p b k -> pull (p :: q) (head p b k) (tail (unm p) b k :: q).

Lemma cut_ten p b k : cut p b k -> r_pt (fst p) = 18 -> b mod 10 = 0.
Proof. intros (B & K & C) E. rewrite E in C. destruct C as [[C _]|[[C _]|[[_ C]|[[C _]|[C _]]]]]; lia. Qed.

Lemma nsok_tail p b k : nsok p -> cut p b k -> nsok (tail p b k).
Proof.
  intros (NE & NB & N) (B & K & C). unfold nsok, tail, tailp. cbn [fst snd with_pl with_ts r_pt r_payload].
  assert (PL : plen (with_pl (with_ts (fst p) (u32 (r_ts (fst p) + k))) (skipn (Z.to_nat b) (r_payload (fst p)))) = plen (fst p) - b).
  { unfold plen. cbn [with_pl r_payload]. apply skipn_len_Z. unfold plen in B. lia. }
  rewrite PL. split; [lia|]. split; [lia|].
  destruct C as [[C E]|[[C E]|[[C E]|[[C E]|[C E]]]]]; rewrite ?C in N |- *.
  - left. split; [exact C|]. destruct C as [C|C]; rewrite C in N; lia.
  - right. left. split; [reflexivity|]. destruct N as [N|[N|N]]; lia.
  - right. right. left. split; [reflexivity|]. destruct N as [N|[N|[[_ N]|N]]]; lia.
  - right. right. right. left. split; [reflexivity|]. destruct N as [N|[N|[N|[[_ N]|N]]]]; [lia..| |lia].
    destruct E as [E1 E2]. rewrite N, E2. assert (b = 33 * (b / 33)) as X by lia. generalize dependent (b / 33). intros; subst b. replace (plen (fst p) - 33 * z) with (plen (fst p) + (- z) * 33) by lia. rewrite Z.div_add by lia. lia.
  - right. right. right. right. split; [reflexivity|]. destruct N as [N|[N|[N|[N|[_ (f & G & N)]]]]]; [lia..|].
    destruct E as (j & E & W). exists (f - Z.of_nat j). split; [exact (walk_frames _ _ _ W _ G)|lia].
Qed.
Lemma nsok_unm p : nsok p -> nsok (unm p). Proof. exact (fun H => H). Qed.
Lemma cut_unm p b k : cut p b k -> cut (unm p) b k. Proof. exact (fun H => H). Qed.

Lemma ext_nsok c q x q' : ext c q x q' -> Forall nsok q -> Forall nsok q'.
Proof.
  induction 1; intros F; auto.
  - inversion F; auto.
  - inversion F; subst. constructor; [apply nsok_tail|]; assumption.
Qed.
Lemma pull_nsok q x q' : pull q x q' -> Forall nsok q -> Forall nsok q'.
Proof.
  destruct 1; intros F; inversion F; subst.
  - eapply ext_nsok; eassumption.
  - constructor; [apply nsok_tail; [apply nsok_unm|apply cut_unm]|]; assumption.
Qed.

Lemma agg_some out mem : forall q ps z c, Forall2 repp q ps -> Forall nsok ps -> repp z c -> (r_pt (fst c) = 18 -> plen (fst c) mod 10 = 0) ->
  exists r q' x ps', aggregate out mem (Some z) q = Some (Some r, q') /\ repp r x /\ Forall2 repp q' ps' /\ ext c ps x ps'.
Proof.
  induction q as [|z1 q IH]; intros ps z c Q N R TEN; inversion Q as [|z1' p1 q1 ps1 R1 Q1 E1 E2]; subst; cbn [aggregate].
  - exists z, [], c, []. repeat (split; [first [reflexivity|assumption|constructor]|]). constructor.
  - assert (STOP : exists r q' x ps', Some (Some z, z1 :: q) = Some (Some r, q') /\ repp r x /\ Forall2 repp q' ps' /\ ext c (p1 :: ps1) x ps').
    { exists z, (z1 :: q), c, (p1 :: ps1). split; [reflexivity|]. split; [exact R|]. split; [exact Q|constructor]. }
    destruct (Z.leb_spec out (z_ns z)) as [|LT]; [exact STOP|].
    destruct (negb (u32 (z_ts z + z_ns z) =? z_ts z1) || negb (z_pt z =? z_pt z1)) eqn:HOLE; [exact STOP|].
    assert (J : joinable c p1).
    { unfold repp in *. rewrite (p_ts _ _ _ R), (p_ns _ _ _ R), (p_ts _ _ _ R1), (p_pt _ _ _ R), (p_pt _ _ _ R1) in HOLE.
      split; [lia|]. split; [lia|exact TEN]. }
    destruct J as (J1 & J2 & J3). inversion N as [|p1' ps1' N1 N2]; subst.
    assert (WHOLE : z_size z + z_dsize z1 <= BUF -> exists r', append_packet z z1 = Some r' /\ repp r' (join c p1)).
    { intros SZ. exact (append_ok z (fst c) (snd c) z1 (fst p1) (snd p1) R R1 SZ J1 J3). }
    destruct (Z.ltb_spec 0 (out - z_ns z)) as [_|X]; [cbn [andb]|lia].
    destruct (Z.ltb_spec (out - z_ns z) (z_ns z1)) as [LT2|GE].
    + destruct p1 as [r1 n1]. destruct (chunk_find_ok z1 r1 n1 (out - z_ns z) R1 N1) as (o & CF & CO).
      { rewrite (p_ns _ _ _ R1) in LT2. cbn [snd] in LT2. lia. }
      rewrite CF. destruct o as [[b k]|].
      * destruct (Z.ltb_spec BUF (z_size z + b)); [exact STOP|]. destruct CO as (CO & _). pose proof CO as (CB & CK & _). cbn [fst snd] in CB, CK.
        destruct (chunk_ok z (fst c) (snd c) z1 r1 n1 b k R R1) as (d' & s' & AC & RD & RS); [lia|assumption| | |].
        { apply (cut_ten _ _ _ CO). } { intros X. apply (cut_ten _ _ _ CO). congruence. }
        rewrite AC. exists d', (s' :: q), (join c (head (r1, n1) b k)), (tail (r1, n1) b k :: ps1).
        split; [reflexivity|]. split; [exact RD|]. split; [constructor; [exact RS|exact Q1]|]. apply ex_part; [repeat split; assumption|exact CO].
      * destruct (Z.ltb_spec BUF (z_size z + z_dsize z1)); [exact STOP|]. destruct WHOLE as (r' & AP & RR); [lia|]. rewrite AP.
        eexists _, _, _, _. split; [reflexivity|]. split; [exact RR|]. split; [exact Q1|]. eapply ex_all; [repeat split; assumption|constructor].
    + destruct (Z.ltb_spec BUF (z_size z + z_dsize z1)); [exact STOP|]. destruct WHOLE as (r' & AP & RR); [lia|]. rewrite AP.
      destruct (Z.eqb_spec (ri_appendable (z_i r')) 0) as [A0|A0].
      * eexists _, _, _, _. split; [reflexivity|]. split; [exact RR|]. split; [exact Q1|]. eapply ex_all; [repeat split; assumption|constructor].
      * destruct (IH ps1 r' (join c p1) Q1 N2 RR) as (r2 & q2 & x2 & ps2 & AG & R2 & F2 & E2).
        { intros X. destruct (Z.eq_dec (plen (fst (join c p1)) mod 10) 0) as [|NZ]; [assumption|]. exfalso. apply A0. exact (p_app _ _ _ RR X NZ). }
        exists r2, q2, x2, ps2. split; [exact AG|]. split; [exact R2|]. split; [exact F2|]. eapply ex_all; [repeat split; assumption|exact E2].
Qed.

Lemma agg_none out mem q ps : 0 < out -> Forall2 repp q ps -> Forall nsok ps ->
  exists o q', aggregate out mem None q = Some (o, q') /\
    match o with
    | None => q' = q /\ (q = [] \/ mem = false)
    | Some r => exists x ps', repp r x /\ Forall2 repp q' ps' /\ pull ps x ps'
    end.
Proof.
  intros O0 Q N. destruct Q as [|z p q ps R Q]; cbn [aggregate].
  - eexists _, _. split; [reflexivity|]. split; auto.
  - inversion N as [|p' ps' N1 N2]; subst.
    assert (ONE : exists o q', Some (Some z, q) = Some (o, q') /\ match o with None => q' = z :: q /\ (z :: q = [] \/ mem = false)
       | Some r => exists x ps', repp r x /\ Forall2 repp q' ps' /\ pull (p :: ps) x ps' end).
    { eexists _, _. split; [reflexivity|]. exists p, ps. split; [exact R|]. split; [exact Q|]. constructor. constructor. }
    destruct (Z.ltb_spec out (z_ns z)) as [LT|GE].
    + destruct p as [r n]. destruct (chunk_find_ok z r n out R N1) as (o & CF & CO).
      { rewrite (p_ns _ _ _ R) in LT. cbn [snd] in LT. lia. }
      rewrite CF. destruct o as [[b k]|]; [|exact ONE].
      destruct mem; [|eexists _, _; split; [reflexivity|]; split; [reflexivity|right; reflexivity]].
      destruct CO as (CO & _). pose proof CO as (CB & CK & _). cbn [fst snd] in CB, CK.
      destruct (move_ok z r n b k R) as (d' & s' & MC & RD & RS); [lia|apply (cut_ten _ _ _ CO)|]. rewrite MC.
      eexists _, _. split; [reflexivity|]. exists (head (r, n) b k), (tail (unm (r, n)) b k :: ps).
      split; [exact RD|]. split; [constructor; [exact RS|exact Q]|]. apply pl1. exact CO.
    + destruct (Z.eqb_spec (ri_appendable (z_i z)) 0) as [A0|A0]; [exact ONE|].
      destruct (agg_some out mem q ps z p Q N2 R) as (r & q' & x & ps' & AG & R2 & F2 & E2).
      { intros X. destruct (Z.eq_dec (plen (fst p) mod 10) 0) as [|NZ]; [assumption|]. exfalso. apply A0. exact (p_app _ _ _ R X NZ). }
      rewrite AG. eexists _, _. split; [reflexivity|]. exists x, ps'. split; [exact R2|]. split; [exact F2|]. constructor. exact E2.
Qed.

(** * The same machine over packets, without buffers and clocks *)
Record abs := mkA { a_q : list sp; a_last : option Z; a_seq : option Z; a_ssrc : option Z }.
Inductive aobs := AIn (p : sp) | ALate (r : rtp_pkt) | AOut (p : sp) | ANone.
Fixpoint aplace (p : sp) (rq : list sp) : list sp :=
  match rq with
  | [] => [p]
  | x :: t => if ts_less (r_ts (fst p)) (r_ts (fst x)) then x :: aplace p t else p :: rq
  end.
Definition kept (a : abs) (r : rtp_pkt) : option Z :=
  match a_ssrc a with None => a_last a | Some x => if x =? r_ssrc r then a_last a else None end.
Definition late (a : abs) (r : rtp_pkt) : bool := match kept a r with Some l => ts_less (r_ts r) l | None => false end.
Definition withseq (p : sp) (s : Z) : sp := (with_seq (fst p) s, snd p).
Inductive astep : abs -> aobs -> abs -> Prop :=
| as_none : forall a, astep a ANone a
| as_late : forall a r, late a r = true -> astep a (ALate r) (mkA (a_q a) (kept a r) (a_seq a) (Some (r_ssrc r)))
| as_in : forall a p, late a (fst p) = false ->
    astep a (AIn p) (mkA (rev (aplace p (rev (a_q a)))) (kept a (fst p)) (a_seq a) (Some (r_ssrc (fst p))))
| as_out : forall a x q' seq, pull (a_q a) x q' -> seq = match a_seq a with Some v => v | None => r_seq (fst x) end ->
    astep a (AOut (withseq x seq)) (mkA q' (Some (u32 (r_ts (fst x) + snd x))) (Some (u16 (seq + 1))) (a_ssrc a)).

Record sim (s : rsz) (a : abs) : Prop := {
  m_q : Forall2 repp (s_q s) (a_q a);
  m_ns : Forall nsok (a_q a);
  m_last : s_last s = a_last a;
  m_seq : s_seq s = a_seq a;
  m_ssrc : s_ssrc s = a_ssrc a;
  m_total : s_total s = zsum snd (a_q a);
  m_sq : match a_seq a with Some v => 0 <= v < 65536 | None => True end;
  m_out : 0 < s_out s }.
(** What is observed: a padded output packet need not be a packet any more *)
Inductive osim : obs -> aobs -> Prop :=
| os_back : forall d, osim (OEnq d EBack) ANone
| os_late : forall d r, is d r -> osim (OEnq d ELate) (ALate r)
| os_in : forall d p, is d (fst p) -> nsok p -> osim (OEnq d ETaken) (AIn p)
| os_none : osim ONone ANone
| os_out : forall d p, (r_pad (fst p) = [] -> is d (fst p)) -> osim (OOut d) (AOut p).

Lemma wf_hwf r : wf r -> hwf r.
Proof. intros (H1 & H2 & H3 & H4 & H5 & H6 & H7 & _). unfold hwf. tauto. Qed.
Lemma enc_pre r : encode r = pre r ++ r_payload r ++ r_pad r.
Proof. unfold encode, pre. rewrite <- !app_assoc. reflexivity. Qed.

Lemma parse_rep d i : Forall byte d -> Z.of_nat (length d) <= 8192 -> packet_parse d = POk i -> ri_nsamples i <> NS_UNKNOWN ->
  exists r, is d r /\ r_ssrc r = ri_ssrc i /\ r_ts r = ri_ts i /\ nsok (r, ri_nsamples i) /\
    rep (mkZ (d ++ repeat 0 (Z.to_nat BUF - length d)) (Z.of_nat (length d)) i) r (ri_nsamples i).
Proof.
  intros B L P NS. apply (packet_parse_iff d i B) in P. destruct P as (_ & P). destruct (parse_iff d i B P) as (r & W & E & D).
  destruct D as (D1 & D2 & D3 & D4 & D5 & D6 & D7 & D8 & _). exists r. split; [split; assumption|]. split; [congruence|]. split; [congruence|].
  assert (LD : Z.of_nat (length d) = Z.of_nat (length (pre r)) + plen r + Z.of_nat (length (r_pad r))).
  { rewrite <- E, enc_pre, !app_length. unfold plen. lia. }
  pose proof BUF_eq as BE. split.
  - unfold nsok. cbn [fst snd]. destruct (r_payload r) as [|c pl] eqn:PL; [exfalso; apply NS; exact D7|]. rewrite <- PL in *.
    assert (0 < plen r) by (unfold plen; rewrite PL; cbn [length]; lia). split; [assumption|].
    unfold samples_of in D7. fold (plen r) in D7. unfold NS_UNKNOWN in NS.
    destruct (Z.eqb_spec (r_pt r) 0); [cbn [orb] in D7; lia|]. destruct (Z.eqb_spec (r_pt r) 8); [cbn [orb] in D7; lia|].
    destruct (Z.eqb_spec (r_pt r) 9); [cbn [orb] in D7; lia|]. cbn [orb] in D7.
    destruct (Z.eqb_spec (r_pt r) 18); [lia|]. destruct (Z.eqb_spec (r_pt r) 3); [lia|].
    destruct (Z.eqb_spec (r_pt r) 4); [|lia]. destruct D7 as [(f & G & F)|(_ & F)]; [|lia].
    pose proof (frames_nonneg _ _ G). pose proof (frames_bound _ _ G). unfold plen in *. split; [lia|]. do 4 right. split; [assumption|]. exists f. split; assumption.
  - constructor; zs; try congruence; try lia; try exact (wf_hwf _ W); try (intros X Y; apply D8; split; assumption).
    + exists (r_pad r ++ repeat 0 (Z.to_nat BUF - length d)). rewrite <- E at 1. rewrite enc_pre, <- !app_assoc. reflexivity.
    + rewrite app_length, repeat_length. lia.
    + exact D1.
    + unfold pre. rewrite D1, D2. fold (pre r). lia.
    + intros X. rewrite X in LD. cbn [length] in LD. rewrite D1, D2. fold (pre r). lia.
Qed.

Lemma wire_ok z p : repp z p -> r_pad (fst p) = [] -> is (wire z) (fst p).
Proof.
  intros [(g & B) L OF D N TS SQ SS PT AP0 SZ NP W] PD. unfold is. split.
  - destruct W as (W1 & W2 & W3 & W4 & W5 & W6 & W7). unfold wf. repeat (split; [assumption|]). left. exact PD.
  - unfold wire. rewrite (NP PD), enc_pre, PD, app_nil_r, B, OF, D. rewrite app_assoc, firstn_app.
    unfold plen. rewrite firstn_all2 by (rewrite app_length; lia).
    replace (Z.to_nat (Z.of_nat (length (pre (fst p))) + Z.of_nat (length (r_payload (fst p)))) - length (pre (fst p) ++ r_payload (fst p)))%nat with O by (rewrite app_length; lia).
    cbn [firstn]. rewrite app_nil_r. reflexivity.
Qed.

Lemma place_sim z p : repp z p -> forall rq rps, Forall2 repp rq rps -> Forall2 repp (place z rq) (aplace p rps).
Proof.
  intros R rq rps F. induction F as [|z1 p1 rq rps R1 F IH]; cbn [place aplace].
  - constructor; [exact R|constructor].
  - rewrite (p_ts _ _ _ R), (p_ts _ _ _ R1). destruct (ts_less _ _); constructor; auto.
Qed.
Lemma Forall2_rev' {A B} (P : A -> B -> Prop) l l' : Forall2 P l l' -> Forall2 P (rev l) (rev l').
Proof. induction 1; cbn [rev]; [constructor|]. apply Forall2_app; [assumption|]. constructor; [assumption|constructor]. Qed.
Lemma aplace_split p rq : exists a b, rq = a ++ b /\ aplace p rq = a ++ p :: b.
Proof.
  induction rq as [|x t (a & b & E1 & E2)]; cbn [aplace]; [exists [], []; auto|].
  destruct (ts_less _ _); [exists (x :: a), b; subst; split; [reflexivity|rewrite E2; reflexivity]|exists [], (x :: t); auto].
Qed.
Lemma place_split p q : exists a b, q = a ++ b /\ rev (aplace p (rev q)) = a ++ p :: b.
Proof.
  destruct (aplace_split p (rev q)) as (a & b & E1 & E2). exists (rev b), (rev a). split.
  - rewrite <- (rev_involutive q), E1, rev_app_distr. reflexivity.
  - rewrite E2, rev_app_distr. cbn [rev]. rewrite <- app_assoc. reflexivity.
Qed.
Lemma zsum_mid {A} (f : A -> Z) a b x : zsum f (a ++ x :: b) = zsum f (a ++ b) + f x.
Proof. induction a as [|y a IH]; cbn [app zsum] in *; lia. Qed.

Lemma ext_sum c q x q' : ext c q x q' -> snd x + zsum snd q' = snd c + zsum snd q.
Proof. induction 1; cbn [zsum join head tail snd] in *; lia. Qed.
Lemma pull_sum q x q' : pull q x q' -> snd x + zsum snd q' = zsum snd q.
Proof. destruct 1 as [p q x q' E|p q b k C]; cbn [zsum]; [apply ext_sum in E; lia|]. cbn [head tail unm snd]. lia. Qed.

Lemma kept_eq s a r x : s_ssrc s = a_ssrc a -> s_last s = a_last a -> r_ssrc r = x ->
  (if match s_ssrc s with None => true | Some y => y =? x end then s_last s else None) = kept a r.
Proof. intros E1 E2 <-. unfold kept. rewrite E1, E2. destruct (a_ssrc a) as [y|]; reflexivity. Qed.

Lemma ns_len l : Forall nsok l -> 0 <= zsum snd l.
Proof. induction 1 as [|p l (_ & N & _) _ IH]; cbn [zsum]; lia. Qed.
Lemma round_pos out pt : 0 < out -> 0 < round_out out (min_nsamples pt).
Proof.
  intros H. unfold round_out. assert (0 < min_nsamples pt) by (unfold min_nsamples; repeat destruct (_ =? _); lia).
  destruct (Z.ltb_spec out (min_nsamples pt)); [assumption|]. destruct (_ =? 0); [assumption|].
  pose proof (Z.mod_pos_bound out (min_nsamples pt) ltac:(assumption)). lia.
Qed.
Lemma pull_seq q x q' : pull q x q' -> exists p, In p q /\ r_seq (fst x) = r_seq (fst p).
Proof.
  assert (EX : forall c q x q', ext c q x q' -> r_seq (fst x) = r_seq (fst c)).
  { induction 1; try reflexivity. rewrite IHext. reflexivity. }
  destruct 1 as [p q x q' E|p q b k C]; exists p; (split; [left; reflexivity|]); [exact (EX _ _ _ _ E)|reflexivity].
Qed.

Lemma step_sim s a o : sim s a -> valid o -> exists s' b a' ab, step s o = Some (s', b) /\ sim s' a' /\ osim b ab /\ astep a ab a'.
Proof.
  intros [Q NS LS SQ SS TO SR OU] V. destruct o as [d its|now mem|n]; cbn [valid step] in *.
  - destruct V as (VB & VL). unfold enqueue. destruct (packet_parse d) as [|e|i] eqn:P.
    + exfalso. unfold packet_parse in P. destruct (is_rtcp_total d) as ([|] & RT); rewrite RT in P; [discriminate|]. exact (parse_no_oob d VB P).
    + exists s, (OEnq d EBack), a, ANone. split; [reflexivity|]. split; [constructor; assumption|]. split; constructor.
    + destruct (Z.eqb_spec (ri_nsamples i) NS_UNKNOWN) as [|NU].
      { exists s, (OEnq d EBack), a, ANone. split; [reflexivity|]. split; [constructor; assumption|]. split; constructor. }
      destruct (parse_rep d i VB VL P NU) as (r & IS & SSR & TSR & NOK & R). cbv zeta. cbn [z_ts z_i].
      set (z := mkZ (d ++ repeat 0 (Z.to_nat BUF - length d)) (Z.of_nat (length d)) i) in *.
      rewrite (kept_eq s a r (ri_ssrc i) SS LS SSR).
      assert (ZT : z_ts z = r_ts r) by (symmetry; exact TSR). rewrite ZT.
      assert (LE : match kept a r with Some l => ts_less (r_ts r) l | None => false end = late a r) by reflexivity.
      rewrite LE. destruct (late a r) eqn:LA.
      * eexists _, _, _, (ALate r). split; [reflexivity|]. split; [|split; [constructor; exact IS|apply as_late; exact LA]].
        constructor; cbn [s_q a_q s_last a_last s_seq a_seq s_ssrc a_ssrc s_total s_out]; try assumption; congruence.
      * eexists _, _, _, (AIn (r, ri_nsamples i)). split; [reflexivity|]. split; [|split; [constructor; assumption|apply as_in; exact LA]].
        destruct (place_split (r, ri_nsamples i) (a_q a)) as (q1 & q2 & E1 & E2).
        constructor; cbn [s_q a_q s_last a_last s_seq a_seq s_ssrc a_ssrc s_total s_out fst]; try assumption; try congruence; try reflexivity.
        -- apply Forall2_rev', place_sim; [exact R|]. apply Forall2_rev'. exact Q.
        -- rewrite E2. rewrite E1 in NS. apply Forall_app in NS. apply Forall_app. split; [apply NS|]. constructor; [exact NOK|apply NS].
        -- rewrite E2, zsum_mid, TO, E1. reflexivity.
  - unfold get. destruct (s_q s) as [|z q] eqn:SQE.
    + exists s, ONone, a, ANone. split; [reflexivity|]. split; [constructor; rewrite ?SQE; assumption|]. split; constructor.
    + destruct (_ && _).
      { exists s, ONone, a, ANone. split; [reflexivity|]. split; [constructor; rewrite ?SQE; assumption|]. split; constructor. }
      destruct (agg_none (round_out (s_out s) (min_nsamples (z_pt z))) mem (z :: q) (a_q a) (round_pos _ _ OU) Q NS) as (o & q' & AG & HO).
      rewrite AG. destruct o as [r|].
      * destruct HO as (x & ps' & RX & FQ & PU). set (seq := match s_seq s with Some x => x | None => ri_seq (z_i r) end).
        assert (SE : seq = match a_seq a with Some v => v | None => r_seq (fst x) end).
        { unfold seq. rewrite SQ, (p_seq _ _ _ RX). reflexivity. }
        assert (SB : 0 <= seq < 65536).
        { rewrite SE. destruct (a_seq a); [exact SR|]. destruct (p_wf _ _ _ RX) as (_ & _ & W & _). exact W. }
        eexists _, _, _, (AOut (withseq x seq)). split; [reflexivity|]. split; [|split; [constructor|apply as_out; eassumption]].
        -- constructor; cbn [s_q a_q s_last a_last s_seq a_seq s_ssrc a_ssrc s_total s_out]; try assumption; try reflexivity.
           ++ exact (pull_nsok _ _ _ PU NS).
           ++ rewrite (p_ts _ _ _ RX), (p_ns _ _ _ RX). reflexivity.
           ++ apply pull_sum in PU. rewrite TO, (p_ns _ _ _ RX). lia.
           ++ apply u16_range.
        -- intros PD. apply wire_ok; [|exact PD]. exact (rep_set_seq _ _ _ seq RX SB).
      * destruct HO as (-> & _). eexists _, _, a, ANone. split; [reflexivity|]. split; [constructor; cbn [s_q s_last s_seq s_ssrc s_total s_out]; assumption|]. split; constructor.
  - eexists _, _, a, ANone. split; [reflexivity|]. split; [|split; constructor]. unfold set_ptime.
    constructor; cbn [s_q s_last s_seq s_ssrc s_total s_out]; try assumption. lia.
Qed.

Inductive arun : abs -> list aobs -> abs -> Prop :=
| ar_nil : forall a, arun a [] a
| ar_cons : forall a b a1 l a2, astep a b a1 -> arun a1 l a2 -> arun a (b :: l) a2.
Lemma run_sim os : forall s a, sim s a -> Forall valid os -> exists s' tr a' atr, run s os = Some (s', tr) /\ sim s' a' /\ Forall2 osim tr atr /\ arun a atr a'.
Proof.
  induction os as [|o os IH]; intros s a SI V; cbn [run].
  - exists s, [], a, []. split; [reflexivity|]. split; [exact SI|]. split; constructor.
  - inversion V; subst. destruct (step_sim s a o SI) as (s1 & b & a1 & ab & ST & S1 & OB & AS); [assumption|]. rewrite ST.
    destruct (IH s1 a1 S1) as (s2 & tr & a2 & atr & RN & S2 & OS & AR); [assumption|]. rewrite RN.
    exists s2, (b :: tr), a2, (ab :: atr). split; [reflexivity|]. split; [exact S2|]. split; econstructor; eassumption.
Qed.
Definition a0 : abs := mkA [] None None None.
Lemma sim0 n : 0 < n -> sim (resizer_new n) a0.
Proof. intros H. constructor; cbn; try constructor. lia. Qed.

Fixpoint ains (l : list aobs) : list sp := match l with [] => [] | AIn p :: t => p :: ains t | _ :: t => ains t end.
Fixpoint aouts (l : list aobs) : list sp := match l with [] => [] | AOut p :: t => p :: aouts t | _ :: t => aouts t end.
Lemma osim_ins tr atr : Forall2 osim tr atr -> Forall2 is (taken tr) (map fst (ains atr)) /\ Forall nsok (ains atr).
Proof.
  induction 1 as [|b ab tr atr OB _ (IH1 & IH2)]; [split; constructor|]. destruct OB; cbn [taken ains map]; try (split; assumption).
  split; constructor; assumption.
Qed.
Lemma osim_outs tr atr : Forall2 osim tr atr -> Forall (fun p => r_pad (fst p) = []) (aouts atr) -> Forall2 is (sent tr) (map fst (aouts atr)).
Proof.
  induction 1 as [|b ab tr atr OB _ IH]; [constructor|]. destruct OB; cbn [sent aouts map]; intros F; auto.
  inversion F; subst. constructor; auto.
Qed.
