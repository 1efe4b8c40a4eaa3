From Verif Require Import Base Str NumSpec StrSpec StrProof SbufModel SbufSpec SbufProof RtcpModel RtcpSpec.

(** ** Writing *)

Definition rep (o : out) (c : list Z) : Prop := exists cap, sb_rep (fst o) c cap true.
(** The result [r] of writing [t] after [c]. *)
Definition W (h : heap) (c t : list Z) (r : res out) : Prop :=
  match r with
  | Go o => rep o (c ++ t)
  | Stop b k rv => rv = -1 /\ (exists c', rep (b, k) c') /\ exists n, h n = None
  | _ => False
  end.

Lemma write_ok b c cap s : sb_rep b c cap true -> ~ In 0 s ->
  exists b', sbuf_write b (FmtOk s) = SbRet (b', if (length c + length s + 1 <=? cap)%nat then SBW_OK else SBW_SHRT) /\
    sb_rep b' (if (length c + length s + 1 <=? cap)%nat then c ++ s else c) cap true.
Proof.
  intros R N. destruct (sbuf_step_ok b c cap true (SWrite (FmtOk s)) R) as (b' & r & E & Er & R').
  { cbn. tauto. }
  cbn [sbuf_step sb_spec_step sb_clean] in *.
  destruct (sbuf_write b (FmtOk s)) as [[b1 r1]| |]; try discriminate.
  exists b1. destruct (_ <=? _)%nat; cbn [fst snd] in *; injection E as -> <-; injection Er as ->; split; auto.
Qed.
Lemma extend_ok b c cap n m : sb_rep b c cap true -> (cap < n)%nat ->
  exists b', sbuf_extend b n m = SbRet (b', match m with Some _ => true | None => false end) /\
    sb_rep b' c (match m with Some _ => n | None => cap end) true.
Proof.
  intros R N. destruct (sbuf_step_ok b c cap true (SExtend n m) R) as (b' & r & E & Er & R').
  { destruct m; cbn; try tauto; lia. }
  cbn [sbuf_step sb_spec_step sb_clean] in *.
  destruct R as (rest & Hm & Hl & _). unfold sbuf_extend in *. rewrite Hl in *.
  replace (cap <? n)%nat with true in * by lia.
  destruct m as [[nbp g]|]; cbn [fst snd] in *.
  - destruct (negb (sb_bp b =? nbp)); injection E as <- <-; eexists; split; try reflexivity; exact R'.
  - injection E as <- <-. eexists; split; try reflexivity; exact R'.
Qed.
Lemma rep_lt b c cap t : sb_rep b c cap t -> (length c < cap)%nat /\ length (sb_mem b) = cap.
Proof.
  intros (rest & Hm & Hl & Hu & Hne & _). rewrite <- Hl. split; [|reflexivity].
  rewrite Hm, app_length. destruct rest; [congruence|cbn; lia].
Qed.

Lemma rsw_ok h s : ~ In 0 s -> forall f b k c cap, sb_rep b c cap true -> (1 <= f)%nat -> (length c + length s + 1 < cap + f)%nat ->
  W h c s (rsw f h (b, k) s).
Proof.
  intros N. induction f as [|f IH]; intros b k c cap R F L; cbn [rsw fst snd]; [lia|].
  destruct (write_ok b c cap s R N) as (b' & E & R'). rewrite E.
  destruct (Nat.leb_spec (length c + length s + 1) cap) as [Hf|Hf].
  - exists cap. exact R'.
  - destruct (rep_lt _ _ _ _ R') as [L1 L2]. rewrite L2.
    destruct (extend_ok b' c cap (cap * 2) (h k) R') as (b2 & E2 & R2); [lia|]. rewrite E2.
    destruct (h k) eqn:Eh.
    + apply (IH b2 (S k) c (cap * 2)%nat R2); lia.
    + split; [reflexivity|]. split; [exists c, cap; exact R2|]. exists k. exact Eh.
Qed.

Definition clean (s : list Z) : Prop := ~ In 0 s.
Lemma put_ok h s o c : rep o c -> clean s -> W h c s (put h (Some s) o).
Proof.
  intros (cap & R) N. destruct o as [b k]. cbn [put fst] in *. destruct (rep_lt _ _ _ _ R) as [L _].
  apply (rsw_ok h s N _ b k c cap R); lia.
Qed.
Lemma W_nil h c o : rep o c -> W h c [] (Go o).
Proof. intros R. cbn. rewrite app_nil_r. exact R. Qed.
Lemma W_bind h c t1 t2 r f : W h c t1 r -> (forall o, rep o (c ++ t1) -> W h (c ++ t1) t2 (f o)) -> W h c (t1 ++ t2) (bind r f).
Proof.
  destruct r as [o|b k rv| | |]; cbn [W bind]; intros A F; try contradiction.
  - specialize (F o A). destruct (f o); cbn [W] in *; try contradiction; try assumption. rewrite app_assoc. exact F.
  - exact A.
Qed.

Lemma clean_app a b : clean a -> clean b -> clean (a ++ b).
Proof. unfold clean. rewrite in_app_iff. tauto. Qed.
Lemma clean_dec n s : dec n s -> clean s.
Proof.
  intros (ds & _ & F & _ & _ & ->). unfold clean. assert (~ In 0 ds).
  { intros I. rewrite Forall_forall in F. apply F in I. unfold digit in I. lia. }
  destruct (n <? 0); [|assumption]. intros [E|I]; [lia|tauto].
Qed.
Lemma clean_lit s : forallb (fun x => negb (x =? 0)) s = true -> clean s.
Proof. intros H I. rewrite forallb_forall in H. apply H in I. discriminate. Qed.

Lemma dec_u n : word n -> dec n (fmt_u n).
Proof. unfold word. intros H. apply fmt_u_dec; unfold printable; try lia; reflexivity. Qed.
Lemma dec_d n : Z.abs n < 4294967296 -> dec n (fmt_d n).
Proof. intros H. apply fmt_d_dec; unfold printable; try lia; reflexivity. Qed.

(** ** Reading *)

Lemma rd8_at pre x post i : i = Z.of_nat (length pre) -> rd8 (pre ++ x :: post) i = Some x.
Proof.
  intros ->. unfold rd8. replace (_ <? 0) with false by lia. rewrite Nat2Z.id.
  rewrite nth_error_app2 by lia. rewrite Nat.sub_diag. reflexivity.
Qed.
Lemma rd8_k pre l k i : (k < length l)%nat -> i = Z.of_nat (length pre + k) -> rd8 (pre ++ l) i = nth_error l k.
Proof.
  intros H ->. unfold rd8. replace (_ <? 0) with false by lia. rewrite Nat2Z.id.
  rewrite nth_error_app2 by lia. f_equal; lia.
Qed.
Lemma n32_val x : word x -> ((x / 16777216 mod 256 * 256 + x / 65536 mod 256) * 65536 + (x / 256 mod 256 * 256 + x mod 256)) = x.
Proof.
  unfold word. intros H. change 16777216 with (256 * 256 * 256). change 65536 with (256 * 256) at 1.
  rewrite <- !Z.div_div by lia. lia.
Qed.
Lemma n16_val x : 0 <= x < 65536 -> x / 256 mod 256 * 256 + x mod 256 = x.
Proof. lia. Qed.
Lemma rd8_shift pre l i j : 0 <= j -> i = Z.of_nat (length pre) + j -> rd8 (pre ++ l) i = rd8 l j.
Proof.
  intros H ->. unfold rd8. replace (_ <? 0) with false by lia. replace (j <? 0) with false by lia.
  rewrite nth_error_app2 by lia. f_equal. lia.
Qed.
Lemma rd16_shift pre l i j : 0 <= j -> i = Z.of_nat (length pre) + j -> rd16 (pre ++ l) i = rd16 l j.
Proof. intros H ->. unfold rd16. rewrite (rd8_shift pre l _ j), (rd8_shift pre l _ (j + 1)) by lia. reflexivity. Qed.
Lemma rd32_shift pre l i j : 0 <= j -> i = Z.of_nat (length pre) + j -> rd32 (pre ++ l) i = rd32 l j.
Proof. intros H ->. unfold rd32. rewrite (rd16_shift pre l _ j), (rd16_shift pre l _ (j + 2)) by lia. reflexivity. Qed.
Lemma rd32_at x post : word x -> rd32 (n32 x ++ post) 0 = Some x.
Proof. intros Wx. etransitivity; [|apply f_equal, (n32_val x Wx)]. reflexivity. Qed.

(** ** The texts *)

Definition printed (z : Z) : Z := get_lost (z / 65536 mod 256) (z / 256 mod 256) (z mod 256).

Definition btext (b : block) : list Z :=
  C "  {~   `source_ssrc`: " ++ fmt_u (b_source b) ++ C ",~   `fraction_lost`: " ++ fmt_u (b_fraction b) ++
  C ",~   `packets_lost`: " ++ fmt_d (printed (b_lost b)) ++ C ",~   `highest_seq_no`: " ++ fmt_u (b_seq b) ++
  C ",~   `ia_jitter`: " ++ fmt_u (b_jitter b) ++ C ",~   `lsr`: " ++ fmt_u (b_lsr b) ++
  C ",~   `dlsr`: " ++ fmt_u (b_dlsr b) ++ C "~  }~".
Definition stext (i : sender) : list Z :=
  C " `sender_information`: {~  `ntp_timestamp_sec`: " ++ fmt_u (i_ntp i) ++ C ",~  `ntp_timestamp_usec`: " ++ fmt_u (i_frac i) ++
  C ",~  `rtp_timestamp`: " ++ fmt_u (i_rtp i) ++ C ",~  `packets`: " ++ fmt_u (i_packets i) ++ C ",~  `octets`: " ++ fmt_u (i_octets i) ++ C "~ },~".
Fixpoint bstext (first : bool) (bs : list block) : list Z :=
  match bs with [] => [] | b :: bs => (if first then [] else C "  ,~") ++ btext b ++ bstext false bs end.
Definition itext (it : item) : list Z :=
  match it with
  | Other _ => []
  | Report ssrc info bs =>
      (C "{~ `ssrc`: " ++ fmt_u ssrc ++ C ",~") ++ match info with Some i => stext i | None => [] end ++
      (C " `type`: " ++ fmt_u (match info with Some _ => 200 | None => 201 end) ++ C ",~") ++
      match bs with [] => [] | _ => C " `report_blocks`: [~" end ++ bstext true bs ++
      match bs with [] => [] | _ => C " ],~" end ++
      (C " `report_count`: " ++ fmt_u (Z.of_nat (length bs)) ++ C "~") ++ C "}"
  end.

Definition val32 (x : Z) : Z := (x / 16777216 mod 256 * 256 + x / 65536 mod 256) * 65536 + (x / 256 mod 256 * 256 + x mod 256).
Lemma block_text_shift pre l i : i = Z.of_nat (length pre) -> block_text (pre ++ l) i = block_text l 0.
Proof.
  intros ->. unfold block_text.
  rewrite (rd32_shift pre l _ 0), (rd8_shift pre l _ (0 + 4)), (rd8_shift pre l _ (0 + 5)), (rd8_shift pre l _ (0 + 6)), (rd8_shift pre l _ (0 + 7)),
   (rd32_shift pre l _ (0 + 8)), (rd32_shift pre l _ (0 + 12)), (rd32_shift pre l _ (0 + 16)), (rd32_shift pre l _ (0 + 20)) by lia.
  reflexivity.
Qed.
Lemma block_text_at b post : block_ok b -> block_text (wire_block b ++ post) 0 = Some (btext b).
Proof.
  intros (A & F & L & S' & J & Ls & D).
  transitivity (Some (btext (mkBlock (val32 (b_source b)) (b_fraction b) (b_lost b) (val32 (b_seq b)) (val32 (b_jitter b)) (val32 (b_lsr b)) (val32 (b_dlsr b))))).
  - reflexivity.
  - unfold val32. rewrite !n32_val by assumption. destruct b; reflexivity.
Qed.
Lemma sender_text_shift pre l i : i = Z.of_nat (length pre) -> sender_text (pre ++ l) i = sender_text l 0.
Proof.
  intros ->. unfold sender_text.
  rewrite (rd32_shift pre l _ 0), (rd32_shift pre l _ (0 + 4)), (rd32_shift pre l _ (0 + 8)), (rd32_shift pre l _ (0 + 12)), (rd32_shift pre l _ (0 + 16)) by lia.
  reflexivity.
Qed.
Lemma sender_text_at i post : sender_ok i -> sender_text (wire_sender i ++ post) 0 = Some (stext i).
Proof.
  intros (A & F & L & S' & J).
  transitivity (Some (stext (mkSender (val32 (i_ntp i)) (val32 (i_frac i)) (val32 (i_rtp i)) (val32 (i_packets i)) (val32 (i_octets i))))).
  - reflexivity.
  - unfold val32. rewrite !n32_val by assumption. destruct i; reflexivity.
Qed.
Lemma head_text_at x pre post i : word x -> i = Z.of_nat (length pre) -> head_text (pre ++ n32 x ++ post) i = Some (C "{~ `ssrc`: " ++ fmt_u x ++ C ",~").
Proof. intros Wx ->. unfold head_text. rewrite (rd32_shift pre _ _ 0) by lia. rewrite rd32_at by exact Wx. reflexivity. Qed.

(** ** Writing one packet *)

Lemma printed_small z : -8388608 <= z < 8388608 -> -1 <= printed z < 16777216.
Proof.
  intros H. unfold printed, get_lost. destruct (negb _); [lia|].
  set (a := z / 65536 mod 256 / 2). set (b := z / 256 mod 256). set (c := z mod 256).
  assert (0 <= a < 128) by (unfold a; lia). assert (0 <= b < 256) by (unfold b; lia). assert (0 <= c < 256) by (unfold c; lia).
  assert (B24 : forall x y, 0 <= x < 2 ^ 24 -> 0 <= y < 2 ^ 24 -> 0 <= Z.lor x y < 2 ^ 24).
  { intros x y Hx Hy. split; [apply Z.lor_nonneg; lia|]. destruct (Z.eq_dec (Z.lor x y) 0) as [->|Hn]; [lia|].
    apply Z.log2_lt_pow2; [pose proof (proj2 (Z.lor_nonneg x y)); lia|]. rewrite Z.log2_lor by lia.
    apply Z.max_lub_lt; (destruct (Z.eq_dec x 0) as [->|]; destruct (Z.eq_dec y 0) as [->|]; cbn; try lia; apply Z.log2_lt_pow2; lia). }
  rewrite Z.shiftl_mul_pow2, Z.shiftl_mul_pow2 by lia. change (2 ^ 24) with 16777216 in B24.
  change (2 ^ 16) with 65536. change (2 ^ 8) with 256.
  pose proof (B24 _ _ (B24 (a * 65536) (b * 256) ltac:(lia) ltac:(lia)) (ltac:(lia) : 0 <= c < 16777216)). lia.
Qed.

Lemma clean_fu n : word n -> clean (fmt_u n).
Proof. intros H. apply (clean_dec n), dec_u, H. Qed.
Lemma clean_btext b : block_ok b -> clean (btext b).
Proof.
  intros (A & F & L & S' & J & Ls & D). unfold btext. pose proof (printed_small _ L).
  assert (clean (fmt_d (printed (b_lost b)))) by (apply (clean_dec (printed (b_lost b))), dec_d; lia).
  repeat (apply clean_app; [first [assumption | apply clean_lit; reflexivity | apply clean_fu; unfold word, byte in *; lia]|]).
  apply clean_lit; reflexivity.
Qed.
Lemma clean_stext i : sender_ok i -> clean (stext i).
Proof.
  intros (A & F & L & S' & J). unfold stext.
  repeat (apply clean_app; [first [assumption | apply clean_lit; reflexivity | apply clean_fu; unfold word, byte in *; lia]|]).
  apply clean_lit; reflexivity.
Qed.
Lemma clean_u a n b : clean a -> clean b -> word n -> clean (a ++ fmt_u n ++ b).
Proof. intros A B' N. repeat apply clean_app; try assumption. apply (clean_dec n), dec_u, N. Qed.

Lemma wire_block_len b : length (wire_block b) = 24%nat.
Proof. reflexivity. Qed.

Lemma blocks_ok h buf base bs : Forall block_ok bs -> forall pre post i, buf = pre ++ concat (map wire_block bs) ++ post ->
  Z.of_nat (length pre) = base + 24 * i -> 0 <= i -> forall o c, rep o c ->
  W h c (bstext (i =? 0) bs) (blocks h buf base (length bs) i o).
Proof.
  induction 1 as [|b bs Hb Hbs IH]; intros pre post i E P I o c R; cbn [length blocks bstext].
  - apply W_nil, R.
  - rewrite app_assoc. apply W_bind.
    + apply W_bind.
      * destruct (Z.eqb_spec i 0) as [->|Ni].
        -- replace (0 <? 0) with false by lia. apply W_nil, R.
        -- replace (0 <? i) with true by lia. apply put_ok; [exact R|]. apply clean_lit. reflexivity.
      * intros o1 R1. rewrite E. cbn [map concat]. rewrite <- app_assoc.
        rewrite block_text_shift by lia. rewrite block_text_at by exact Hb. apply put_ok; [exact R1|apply clean_btext, Hb].
    + intros o1 R1.
      assert (E' : buf = (pre ++ wire_block b) ++ concat (map wire_block bs) ++ post) by (rewrite E; cbn [map concat]; rewrite <- !app_assoc; reflexivity).
      assert (P' : Z.of_nat (length (pre ++ wire_block b)) = base + 24 * (i + 1)) by (rewrite app_length, wire_block_len; lia).
      pose proof (IH _ _ _ E' P' ltac:(lia) o1 _ R1) as G. replace (i + 1 =? 0) with false in G by lia. exact G.
Qed.

Definition ttext (pt : Z) (bs : list block) : list Z :=
  (C " `type`: " ++ fmt_u pt ++ C ",~") ++
  match bs with [] => [] | _ => C " `report_blocks`: [~" end ++ bstext true bs ++
  match bs with [] => [] | _ => C " ],~" end ++
  (C " `report_count`: " ++ fmt_u (Z.of_nat (length bs)) ++ C "~") ++ C "}".
Lemma tail_ok h buf pre bs post pt : Forall block_ok bs -> (length bs < 32)%nat -> word pt -> buf = pre ++ concat (map wire_block bs) ++ post ->
  forall o c, rep o c -> W h c (ttext pt bs) (tail_part h buf (Z.of_nat (length pre)) pt (Z.of_nat (length bs)) o).
Proof.
  intros Hb Lb Wp E o c R. unfold tail_part, ttext.
  set (p1 := C " `type`: " ++ fmt_u pt ++ C ",~"). set (p5 := C " `report_count`: " ++ fmt_u (Z.of_nat (length bs)) ++ C "~").
  assert (c1 : clean p1) by (apply clean_u; try (apply clean_lit; reflexivity); exact Wp).
  assert (c5 : clean p5) by (apply clean_u; try (apply clean_lit; reflexivity); unfold word; lia).
  rewrite !app_assoc.
  apply W_bind; [|intros; apply put_ok; [assumption|apply clean_lit; reflexivity]].
  apply W_bind; [|intros; apply put_ok; assumption].
  apply W_bind; [|intros; destruct bs; [apply W_nil; assumption|replace (0 <? _) with true by (cbn [length]; lia); apply put_ok; [assumption|apply clean_lit; reflexivity]]].
  apply W_bind.
  - apply W_bind; [apply put_ok; assumption|].
    intros; destruct bs; [apply W_nil; assumption|replace (0 <? _) with true by (cbn [length]; lia); apply put_ok; [assumption|apply clean_lit; reflexivity]].
  - intros o1 R1. rewrite Nat2Z.id. change true with (0 =? 0). apply (blocks_ok h buf _ bs Hb pre post); [exact E|lia|lia|exact R1].
Qed.
Lemma header_read pre vp count pt total rest : byte pt -> 0 <= count < 32 -> 0 <= vp < 8 -> 4 <= Z.of_nat total <= 262144 -> Nat.divide 4 total ->
  let buf := pre ++ header vp count pt total ++ rest in let r := Z.of_nat (length pre) in
  exists b0, rd8 buf r = Some b0 /\ rd8 buf (r + 1) = Some pt /\ rd16 buf (r + 2) = Some (Z.of_nat total / 4 - 1) /\
    count_of b0 = count /\ version_of b0 = vp / 2 /\ 4 * (Z.of_nat total / 4 - 1 + 1) = Z.of_nat total.
Proof.
  intros P Cn Vp T D buf r. exists (vp * 32 + count). unfold buf, header, r.
  rewrite (rd8_shift pre _ _ 0), (rd8_shift pre _ _ 1), (rd16_shift pre _ _ 2) by lia.
  split; [reflexivity|]. split; [reflexivity|]. split.
  - etransitivity; [|apply f_equal, (n16_val (Z.of_nat total / 4 - 1)); lia]. reflexivity.
  - unfold count_of, version_of. destruct D as [q ->]. lia.
Qed.

Lemma concat_len bs : length (concat (map wire_block bs)) = (24 * length bs)%nat.
Proof. induction bs; cbn [map concat length]; [reflexivity|]. rewrite app_length, wire_block_len, IHbs. lia. Qed.
Lemma least_eq fixed count : 24 <= fixed < 100 -> 0 <= count < 32 -> least fixed count = 4 + fixed + 24 * (count - 1).
Proof. intros F Cn. unfold least, u64. lia. Qed.

Lemma wire_len v bytes it : wire v bytes it -> 4 <= Z.of_nat (length bytes) <= 262144 /\ Nat.divide 4 (length bytes).
Proof.
  inversion 1 as [v' p ssrc info bs ext by' V P Ws Wi Fb Fe Lb Ll D E|v' p count pt ext by' V P Cn Pt N0 N1 Fe Ll D E]; subst v' by'.
  - split; [|exact D]. split; [|lia]. rewrite E. unfold header. rewrite !app_length. cbn [length n16 n32]. lia.
  - split; [|exact D]. split; [|lia]. rewrite E. unfold header. rewrite !app_length. cbn [length n16 n32]. lia.
Qed.

Lemma packet_ok h v bytes it pre post : wire v bytes it ->
  let buf := pre ++ bytes ++ post in let r := Z.of_nat (length pre) in
  exists b0 pt, rd8 buf r = Some b0 /\ rd8 buf (r + 1) = Some pt /\ rd16 buf (r + 2) = Some (Z.of_nat (length bytes) / 4 - 1) /\
    version_of b0 = v /\ 4 * (Z.of_nat (length bytes) / 4 - 1 + 1) = Z.of_nat (length bytes) /\
    forall o c, rep o c -> W h c (itext it) (packet h buf r (Z.of_nat (length bytes + length post)) (Z.of_nat (length bytes)) b0 pt o).
Proof.
  intros Hw. destruct (wire_len _ _ _ Hw) as [HL HD].
  inversion Hw as [v' p ssrc info bs ext by' V P Ws Wi Fb Fe Lb Ll D E|v' p count pt ext by' V P Cn Pt N0 N1 Fe Ll D E]; subst v' by'; intros buf r.
  - set (pt := match info with Some _ => 200 | None => 201 end) in *.
    set (inf := match info with Some i => wire_sender i | None => [] end) in *.
    destruct (header_read pre (v * 2 + p) (Z.of_nat (length bs)) pt (length bytes) (n32 ssrc ++ inf ++ concat (map wire_block bs) ++ ext ++ post)) as (b0 & G1 & G2 & G3 & G4 & G5 & G6);
      try assumption; try lia. { unfold pt, byte. destruct info; lia. }
    assert (Eb : pre ++ header (v * 2 + p) (Z.of_nat (length bs)) pt (length bytes) ++ n32 ssrc ++ inf ++ concat (map wire_block bs) ++ ext ++ post = buf).
    { unfold buf. rewrite E at 2. rewrite <- !app_assoc. reflexivity. }
    rewrite Eb in *. exists b0, pt. split; [exact G1|]. split; [exact G2|]. split; [exact G3|]. split; [lia|]. split; [exact G6|].
    intros o c R. unfold packet. rewrite G4.
    assert (LE : Z.of_nat (length bytes) = 8 + Z.of_nat (length inf) + 24 * Z.of_nat (length bs) + Z.of_nat (length ext)).
    { rewrite E at 1. unfold header. rewrite !app_length, concat_len. cbn [length n16 n32 app]. lia. }
    assert (HT : head_text buf (r + 4) = Some (C "{~ `ssrc`: " ++ fmt_u ssrc ++ C ",~")).
    { rewrite <- Eb. rewrite app_assoc. apply head_text_at; [exact Ws|]. rewrite app_length. cbn [length header n16 app]. unfold r. lia. }
    replace (_ <? Z.of_nat (length bytes)) with false by lia.
    destruct info as [i|]; unfold pt, inf in *; clear pt inf.
    + replace (200 =? 200) with true by reflexivity. rewrite least_eq by lia. change (length (wire_sender i)) with 20%nat in LE.
      replace (_ <? 4 + 48 + _) with false by lia. cbn [orb]. rewrite HT.
      cbn [itext]. rewrite app_assoc. apply W_bind.
      * apply W_bind; [apply put_ok; [exact R|apply clean_u; try (apply clean_lit; reflexivity); exact Ws]|]. intros o1 R1.
        replace (sender_text buf (r + 8)) with (Some (stext i)). { apply put_ok; [exact R1|apply clean_stext, Wi]. }
        symmetry. rewrite <- Eb. rewrite (app_assoc pre), (app_assoc _ (n32 ssrc)). rewrite sender_text_shift; [apply sender_text_at, Wi|].
        rewrite !app_length. cbn [length header n16 n32 app]. unfold r. lia.
      * intros o1 R1. replace (r + 28) with (Z.of_nat (length (((pre ++ header (v * 2 + p) (Z.of_nat (length bs)) 200 (length bytes)) ++ n32 ssrc) ++ wire_sender i)))
          by (rewrite !app_length; cbn [length header n16 n32 app wire_sender]; unfold r; lia).
        apply (tail_ok h buf _ bs (ext ++ post) 200); try assumption; [unfold word; lia|]. rewrite <- Eb, <- !app_assoc. reflexivity.
    + replace (201 =? 200) with false by reflexivity. replace (201 =? 201) with true by reflexivity. rewrite least_eq by lia.
      cbn [length] in LE. replace (_ <? 4 + 28 + _) with false by lia. cbn [orb]. rewrite HT.
      cbn [itext]. apply W_bind; [apply put_ok; [exact R|apply clean_u; try (apply clean_lit; reflexivity); exact Ws]|]. intros o1 R1.
      replace (r + 8) with (Z.of_nat (length ((pre ++ header (v * 2 + p) (Z.of_nat (length bs)) 201 (length bytes)) ++ n32 ssrc)))
          by (rewrite !app_length; cbn [length header n16 n32 app]; unfold r; lia).
      apply (tail_ok h buf _ bs (ext ++ post) 201); try assumption; [unfold word; lia|]. rewrite <- Eb, <- !app_assoc. reflexivity.
  - destruct (header_read pre (v * 2 + p) count pt (length bytes) (ext ++ post)) as (b0 & G1 & G2 & G3 & G4 & G5 & G6); try assumption; try lia.
    assert (Eb : pre ++ header (v * 2 + p) count pt (length bytes) ++ ext ++ post = buf).
    { unfold buf. rewrite E at 2. rewrite <- !app_assoc. reflexivity. }
    rewrite Eb in *. exists b0, pt. split; [exact G1|]. split; [exact G2|]. split; [exact G3|]. split; [lia|]. split; [exact G6|].
    intros o c R. unfold packet. replace (pt =? 200) with false by lia. replace (pt =? 201) with false by lia. apply W_nil, R.
Qed.

(** ** Compound packets *)

Definition tall (its : list item) : list Z := concat (map itext its).
Definition R (h : heap) (c t : list Z) (r : res out) : Prop :=
  match r with
  | Stop b k rv => (rv = 0 /\ rep (b, k) (c ++ t)) \/ (rv = -1 /\ (exists c', rep (b, k) c') /\ exists n, h n = None)
  | _ => False
  end.
Lemma R_bind h c t1 t2 r f : W h c t1 r -> (forall o, rep o (c ++ t1) -> R h (c ++ t1) t2 (f o)) -> R h c (t1 ++ t2) (bind r f).
Proof.
  destruct r as [o|b k rv| | |]; cbn [W bind]; intros A F; try contradiction.
  - specialize (F o A). destruct (f o); cbn [R] in *; try contradiction; try assumption. rewrite app_assoc. exact F.
  - right. exact A.
Qed.

Lemma packets_ok h buf rest its : wires rest its -> forall pre fuel o c, buf = pre ++ rest -> (length rest < fuel)%nat -> rep o c ->
  R h c (tall its) (packets fuel h buf (Z.of_nat (length pre)) (Z.of_nat (length rest)) o).
Proof.
  induction 1 as [|v bytes it rest its Hw Hws IH]; intros pre fuel o c E F Ro.
  - destruct fuel as [|fuel]; [cbn in F; lia|]. cbn [packets length]. cbn. left. split; [reflexivity|]. rewrite app_nil_r. destruct o; exact Ro.
  - destruct fuel as [|fuel]; [lia|]. destruct (wire_len _ _ _ Hw) as [HL HD]. rewrite app_length in *. cbn [packets].
    destruct (packet_ok h v bytes it pre rest Hw) as (b0 & pt & H1 & H2 & H3 & H4 & H5 & H6). rewrite <- E in *.
    replace (negb _) with false by lia. replace (_ <? 4) with false by lia.
    rewrite H1, H2, H3, H5. change (tall (it :: its)) with (itext it ++ tall its). apply R_bind; [apply H6, Ro|].
    intros o1 R1. replace (Z.of_nat (length pre) + Z.of_nat (length bytes)) with (Z.of_nat (length (pre ++ bytes))) by (rewrite app_length; lia).
    replace (Z.of_nat (length bytes + length rest) - Z.of_nat (length bytes)) with (Z.of_nat (length rest)) by lia.
    apply IH; [rewrite E, <- app_assoc; reflexivity|lia|exact R1].
Qed.

(** ** Any bytes *)

Lemma n32_of a b c d : byte a -> byte b -> byte c -> byte d -> exists x, word x /\ n32 x = [a; b; c; d].
Proof.
  unfold byte, word. intros A B' C' D. exists (((a * 256 + b) * 256 + c) * 256 + d). split; [lia|]. unfold n32.
  change 16777216 with (256 * 256 * 256). change 65536 with (256 * 256). rewrite <- !Z.div_div by lia.
  replace ((((a * 256 + b) * 256 + c) * 256 + d) / 256) with ((a * 256 + b) * 256 + c) by lia.
  replace (((a * 256 + b) * 256 + c) / 256) with (a * 256 + b) by lia.
  repeat f_equal; lia.
Qed.
Lemma n24_of a b c : byte a -> byte b -> byte c -> exists x, -8388608 <= x < 8388608 /\ n24 x = [a; b; c].
Proof.
  unfold byte. intros A B' C'. set (y := (a * 256 + b) * 256 + c).
  exists (if y <? 8388608 then y else y - 16777216).
  assert (Y : 0 <= y < 16777216) by (unfold y; lia). split; [destruct (Z.ltb_spec y 8388608); lia|].
  assert (G : forall x, x mod 16777216 = y -> n24 x = [a; b; c]).
  { intros x Hx. unfold n24. change 65536 with (256 * 256). rewrite <- !Z.div_div by lia.
    assert (E : x = (((x / 16777216) * 256 + a) * 256 + b) * 256 + c) by (unfold y in Hx; lia).
    set (q := x / 16777216) in E. rewrite E. clear E.
    replace ((((q * 256 + a) * 256 + b) * 256 + c) / 256) with ((q * 256 + a) * 256 + b) by lia.
    replace (((q * 256 + a) * 256 + b) / 256) with (q * 256 + a) by lia. repeat f_equal; lia. }
  apply G. destruct (Z.ltb_spec y 8388608); lia.
Qed.
Lemma take4 l : (4 <= length l)%nat -> Forall byte l -> exists x l', word x /\ l = n32 x ++ l' /\ Forall byte l' /\ length l = (4 + length l')%nat.
Proof.
  destruct l as [|a [|b [|c [|d l]]]]; cbn [length]; try lia. intros _ F.
  apply Forall_cons_iff in F as [A F]. apply Forall_cons_iff in F as [B' F]. apply Forall_cons_iff in F as [C' F]. apply Forall_cons_iff in F as [D F].
  destruct (n32_of a b c d A B' C' D) as (x & Wx & E). exists x, l. rewrite E. auto.
Qed.
Lemma take_block l : (24 <= length l)%nat -> Forall byte l -> exists b l', block_ok b /\ l = wire_block b ++ l' /\ Forall byte l' /\ length l = (24 + length l')%nat.
Proof.
  intros L F. destruct (take4 l ltac:(lia) F) as (x0 & l0 & W0 & E0 & F0 & L0).
  destruct l0 as [|f [|a [|b [|c l1]]]]; cbn [length] in L0; try lia.
  apply Forall_cons_iff in F0 as [Ff F0]. apply Forall_cons_iff in F0 as [A F0]. apply Forall_cons_iff in F0 as [B' F0]. apply Forall_cons_iff in F0 as [C' F1].
  destruct (n24_of a b c A B' C') as (z & Wz & Ez).
  destruct (take4 l1 ltac:(lia) F1) as (x2 & l2 & W2 & E2 & F2 & L2). destruct (take4 l2 ltac:(lia) F2) as (x3 & l3 & W3 & E3 & F3 & L3).
  destruct (take4 l3 ltac:(lia) F3) as (x4 & l4 & W4 & E4 & F4 & L4). destruct (take4 l4 ltac:(lia) F4) as (x5 & l5 & W5 & E5 & F5 & L5).
  exists (mkBlock x0 f z x2 x3 x4 x5), l5. split; [unfold block_ok; cbn; tauto|]. split; [|split; [exact F5|lia]].
  rewrite E0, E2, E3, E4, E5. unfold wire_block. cbn [b_source b_fraction b_lost b_seq b_jitter b_lsr b_dlsr]. rewrite Ez, <- !app_assoc. reflexivity.
Qed.
Lemma take_blocks n : forall l, (24 * n <= length l)%nat -> Forall byte l ->
  exists bs l', length bs = n /\ Forall block_ok bs /\ l = concat (map wire_block bs) ++ l' /\ Forall byte l'.
Proof.
  induction n as [|n IH]; intros l L F; [exists [], l; auto|].
  destruct (take_block l ltac:(lia) F) as (b & l' & Hb & E & F' & L'). destruct (IH l' ltac:(lia) F') as (bs & l'' & Ln & Hbs & E' & F'').
  exists (b :: bs), l''. cbn [length map concat]. split; [lia|]. split; [constructor; assumption|]. split; [|exact F'']. rewrite E, E', app_assoc. reflexivity.
Qed.
Lemma take_sender l : (20 <= length l)%nat -> Forall byte l -> exists i l', sender_ok i /\ l = wire_sender i ++ l' /\ Forall byte l' /\ length l = (20 + length l')%nat.
Proof.
  intros L F. destruct (take4 l ltac:(lia) F) as (x0 & l0 & W0 & E0 & F0 & L0). destruct (take4 l0 ltac:(lia) F0) as (x1 & l1 & W1 & E1 & F1 & L1).
  destruct (take4 l1 ltac:(lia) F1) as (x2 & l2 & W2 & E2 & F2 & L2). destruct (take4 l2 ltac:(lia) F2) as (x3 & l3 & W3 & E3 & F3 & L3).
  destruct (take4 l3 ltac:(lia) F3) as (x4 & l4 & W4 & E4 & F4 & L4).
  exists (mkSender x0 x1 x2 x3 x4), l4. split; [unfold sender_ok; cbn; tauto|]. split; [|split; [exact F4|lia]].
  rewrite E0, E1, E2, E3, E4. unfold wire_sender. cbn [i_ntp i_frac i_rtp i_packets i_octets]. rewrite <- !app_assoc. reflexivity.
Qed.

(** The bytes of one packet, its length field being right. *)
Lemma is_wire b0 pt l1 l0 body : let bytes := b0 :: pt :: l1 :: l0 :: body in Forall byte bytes ->
  Z.of_nat (length bytes) = 4 * (l1 * 256 + l0 + 1) ->
  (pt = 200 -> 28 + 24 * count_of b0 <= Z.of_nat (length bytes)) -> (pt = 201 -> 8 + 24 * count_of b0 <= Z.of_nat (length bytes)) ->
  exists it, wire (version_of b0) bytes it.
Proof.
  intros bytes F L H200 H201. pose proof F as F0. unfold bytes in F.
  apply Forall_cons_iff in F as [A F]. apply Forall_cons_iff in F as [B' F]. apply Forall_cons_iff in F as [C' F]. apply Forall_cons_iff in F as [D F].
  unfold byte in A, B', C', D.
  set (v := version_of b0). set (p := b0 / 32 mod 2). set (n := count_of b0).
  assert (Hv : 0 <= v < 4 /\ 0 <= p < 2 /\ 0 <= n < 32 /\ (v * 2 + p) * 32 + n = b0) by (unfold v, p, n, version_of, count_of; lia).
  destruct Hv as (Hv & Hp & Hn & Eb0).
  assert (Dv : Nat.divide 4 (length bytes)) by (exists (Z.to_nat (l1 * 256 + l0 + 1)); lia).
  assert (Lm : (length bytes <= 4 * Pos.to_nat 65536)%nat) by lia.
  assert (Eh : forall c, c = n -> header (v * 2 + p) c pt (length bytes) = [b0; pt; l1; l0]).
  { intros c ->. unfold header, n16. rewrite Eb0, L. cbn [app]. replace (4 * (l1 * 256 + l0 + 1) / 4 - 1) with (l1 * 256 + l0) by lia. repeat f_equal; lia. }
  assert (Lb : Z.of_nat (length bytes) = 4 + Z.of_nat (length body)) by (unfold bytes; cbn [length]; lia).
  destruct (Z.eq_dec pt 200) as [Ep|N0]; [|destruct (Z.eq_dec pt 201) as [Ep|N1]].
  - specialize (H200 Ep). destruct (take4 body ltac:(lia) F) as (ssrc & t1 & Ws & E1 & F1 & L1).
    destruct (take_sender t1 ltac:(lia) F1) as (i & t2 & Wi & E2 & F2 & L2).
    destruct (take_blocks (Z.to_nat n) t2 ltac:(lia) F2) as (bs & ext & Ln & Hbs & E3 & F3).
    exists (Report ssrc (Some i) bs). apply (w_report v p ssrc (Some i) bs ext); try assumption; try lia.
    rewrite <- Ep, Eh by lia. unfold bytes. rewrite E1, E2, E3. reflexivity.
  - specialize (H201 Ep). destruct (take4 body ltac:(lia) F) as (ssrc & t1 & Ws & E1 & F1 & L1).
    destruct (take_blocks (Z.to_nat n) t1 ltac:(lia) F1) as (bs & ext & Ln & Hbs & E3 & F3).
    exists (Report ssrc None bs). apply (w_report v p ssrc None bs ext); try assumption; try lia; try exact Logic.I.
    rewrite <- Ep, Eh by lia. unfold bytes. rewrite E1, E3. reflexivity.
  - exists (Other pt). apply (w_other v p n pt body); try assumption; try lia. rewrite Eh by reflexivity. reflexivity.
Qed.

(** Either well formed, or the loop returns a negative number. *)
Definition bad (h : heap) (rest : list Z) : Prop := forall buf pre fuel o c, buf = pre ++ rest -> (length rest < fuel)%nat -> rep o c ->
  exists b k rv, packets fuel h buf (Z.of_nat (length pre)) (Z.of_nat (length rest)) o = Stop b k rv /\ rv < 0 /\ exists c', rep (b, k) c'.
Lemma dichotomy h : forall n rest, (length rest <= n)%nat -> Forall byte rest -> (exists its, wires rest its) \/ bad h rest.
Proof.
  induction n as [|n IH]; intros rest L F.
  { destruct rest; [|cbn in L; lia]. left. exists []. constructor. }
  destruct (Nat.le_gt_cases (length rest) 3) as [L4|L4].
  { destruct rest as [|x rest]; [left; exists []; constructor|]. right. intros buf pre fuel o c E Fu Ro.
    destruct fuel as [|fuel]; [lia|]. cbn [packets]. replace (negb _) with false by (cbn [length] in *; lia). replace (_ <? 4) with true by lia.
    exists (fst o), (snd o), (-1). split; [reflexivity|]. split; [lia|]. exists c. destruct o; exact Ro. }
  destruct rest as [|b0 [|pt [|l1 [|l0 body]]]]; cbn [length] in L4; try lia.
  pose proof F as F0. apply Forall_cons_iff in F0 as [A F0]. apply Forall_cons_iff in F0 as [B' F0]. apply Forall_cons_iff in F0 as [C' F0]. apply Forall_cons_iff in F0 as [D F0].
  set (rest := b0 :: pt :: l1 :: l0 :: body) in *.
  set (bincr := 4 * (l1 * 256 + l0 + 1)). unfold byte in A, B', C', D. assert (Hbi : 4 <= bincr <= 262144) by (unfold bincr; lia).
  assert (RD : forall buf pre, buf = pre ++ rest -> rd8 buf (Z.of_nat (length pre)) = Some b0 /\ rd8 buf (Z.of_nat (length pre) + 1) = Some pt /\ rd16 buf (Z.of_nat (length pre) + 2) = Some (l1 * 256 + l0)).
  { intros buf pre ->. rewrite (rd8_shift pre _ _ 0), (rd8_shift pre _ _ 1), (rd16_shift pre _ _ 2) by lia. auto. }
  assert (Hcn : 0 <= count_of b0 < 32) by (unfold count_of; lia).
  set (lenZ := Z.of_nat (length rest)) in *.
  destruct (((pt =? 200) && ((lenZ <? bincr) || (bincr <? least 48 (count_of b0)))) || ((pt =? 201) && ((lenZ <? bincr) || (bincr <? least 28 (count_of b0))))) eqn:EB.
  { right. intros buf pre fuel o c E Fu Ro. destruct fuel as [|fuel]; [lia|]. cbn [packets]. fold lenZ.
    destruct (RD buf pre E) as (R1 & R2 & R3). rewrite R1, R2, R3. fold bincr.
    replace (negb _) with false by (unfold lenZ, rest; cbn [length]; lia). replace (lenZ <? 4) with false by (unfold lenZ, rest; cbn [length]; lia).
    unfold packet. exists (fst o), (snd o), (-1). split; [|split; [lia|exists c; destruct o; exact Ro]].
    destruct (Z.eqb_spec pt 200) as [E2|N2]; [|destruct (Z.eqb_spec pt 201)]; cbn [andb orb] in EB.
    - replace (pt =? 201) with false in EB by lia. cbn [andb] in EB. rewrite orb_false_r in EB. rewrite EB. reflexivity.
    - rewrite EB. reflexivity.
    - discriminate. }
  destruct (Z.ltb_spec lenZ bincr) as [Hs|Hs].
  { right. intros buf pre fuel o c E Fu Ro. destruct fuel as [|[|fuel]]; [lia|unfold rest in Fu; cbn [length] in Fu; lia|]. cbn [packets]. fold lenZ.
    destruct (RD buf pre E) as (R1 & R2 & R3). rewrite R1, R2, R3. fold bincr.
    replace (negb _) with false by (unfold lenZ, rest; cbn [length]; lia). replace (lenZ <? 4) with false by (unfold lenZ, rest; cbn [length]; lia).
    unfold packet. destruct (pt =? 200); [cbn in EB; discriminate|]. destruct (pt =? 201); [cbn in EB; discriminate|].
    cbn [bind]. replace (negb (0 <? lenZ - bincr)) with true by lia.
    eexists _, _, _. split; [reflexivity|]. split; [lia|]. exists c. destruct o; exact Ro. }
  assert (Ln : exists m, Z.of_nat m = bincr /\ (m <= length rest)%nat) by (exists (Z.to_nat bincr); lia). destruct Ln as (m & Em & Lm).
  assert (Es : rest = firstn m rest ++ skipn m rest) by (symmetry; apply firstn_skipn).
  assert (Lf : length (firstn m rest) = m) by (rewrite firstn_length; lia).
  assert (Ff : Forall byte (firstn m rest) /\ Forall byte (skipn m rest)) by (apply Forall_app; rewrite <- Es; exact F). destruct Ff as [Ff Fs].
  assert (HW : exists it, wire (version_of b0) (firstn m rest) it).
  { destruct m as [|[|[|[|m]]]]; try lia. change (firstn (S (S (S (S m)))) rest) with (b0 :: pt :: l1 :: l0 :: firstn m body) in *.
    apply is_wire; [exact Ff|rewrite Lf; exact Em| |].
    - intros E2. rewrite Lf, Em. rewrite !least_eq in EB by lia. rewrite E2 in EB. cbn [andb orb Z.eqb Pos.eqb] in EB. lia.
    - intros E2. rewrite Lf, Em. rewrite !least_eq in EB by lia. rewrite E2 in EB. cbn [andb orb Z.eqb Pos.eqb] in EB. lia. }
  destruct HW as [it Hw].
  destruct (IH (skipn m rest)) as [[its Hws]|Hbad]; [rewrite skipn_length; lia|exact Fs| |].
  - left. exists (it :: its). rewrite Es. econstructor; eassumption.
  - right. intros buf pre fuel o c E Fu Ro. destruct fuel as [|fuel]; [lia|].
    destruct (packet_ok h _ _ it pre (skipn m rest) Hw) as (b0' & pt' & G1 & G2 & G3 & G4 & G5 & G6).
    rewrite <- Es, <- E in *. rewrite Lf in *. cbn [packets]. rewrite G1, G2, G3, G5.
    replace (negb _) with false by (unfold rest; cbn [length]; lia). replace (_ <? 4) with false by (unfold rest; cbn [length]; lia).
    replace (m + length (skipn m rest))%nat with (length rest) in G6 by (rewrite skipn_length; lia).
    specialize (G6 o c Ro). destruct (packet h buf _ _ _ b0' pt' o) as [o1|b k rv| | |]; cbn [W] in G6; try contradiction; cbn [bind].
    + replace (Z.of_nat (length pre) + Z.of_nat m) with (Z.of_nat (length (pre ++ firstn m rest))) by (rewrite app_length; lia).
      replace (Z.of_nat (length rest) - Z.of_nat m) with (Z.of_nat (length (skipn m rest))) by (rewrite skipn_length; lia).
      apply (Hbad buf (pre ++ firstn m rest) fuel o1 (c ++ itext it)); [rewrite E, <- app_assoc; f_equal; exact Es|rewrite skipn_length; lia|exact G6].
    + destruct G6 as (-> & Rc & _). eexists _, _, _. split; [reflexivity|]. split; [lia|exact Rc].
Qed.

(** ** JSON *)

Lemma sp_lit s : forallb (fun c => (c =? 32) || (c =? 10)) s = true -> Forall space s.
Proof. intros H. apply Forall_forall. intros x I. rewrite forallb_forall in H. apply H in I. unfold space. lia. Qed.
Lemma plain_lit s : forallb (fun c => (32 <=? c) && (c <? 127) && negb (c =? 34) && negb (c =? 92)) s = true -> Forall plain s.
Proof. intros H. apply Forall_forall. intros x I. rewrite forallb_forall in H. apply H in I. unfold plain. lia. Qed.
Lemma text_eq s s' v : text s' v -> s = s' -> text s v.
Proof. intros H ->. exact H. Qed.
Lemma members_eq s s' v : members s' v -> s = s' -> members s v.
Proof. intros H ->. exact H. Qed.
Definition sp (s : list Z) : bool := forallb (fun c => (c =? 32) || (c =? 10)) s.
Lemma text_sp a s b v : sp a = true -> sp b = true -> text s v -> text (a ++ s ++ b) v.
Proof. intros A B' T. apply t_space; [apply sp_lit, A|apply sp_lit, B'|exact T]. Qed.
Lemma text_u a n b : sp a = true -> sp b = true -> word n -> text (a ++ fmt_u n ++ b) (JNum n).
Proof. intros A B' Wn. apply text_sp; try assumption. apply t_num, dec_u, Wn. Qed.
Definition nm (s : list Z) : bool := forallb (fun c => (32 <=? c) && (c <? 127) && negb (c =? 34) && negb (c =? 92)) s.
Lemma mem1 a name s v : sp a = true -> nm name = true -> text s v -> members (a ++ [34] ++ name ++ [34] ++ [58] ++ s) [(name, v)].
Proof. intros A N T. apply (m_one a [] name s v); [apply sp_lit, A|constructor|apply plain_lit, N|exact T]. Qed.
Lemma mem2 a name s v t m : sp a = true -> nm name = true -> text s v -> members t m ->
  members ((a ++ [34] ++ name ++ [34] ++ [58] ++ s) ++ [44] ++ t) ((name, v) :: m).
Proof. intros A N T M. apply (m_more _ [(name, v)]); [apply mem1; assumption|exact M]. Qed.

Definition reblock (b : block) : block := mkBlock (b_source b) (b_fraction b) (printed (b_lost b)) (b_seq b) (b_jitter b) (b_lsr b) (b_dlsr b).
Lemma btext_json a b c : sp a = true -> sp c = true -> block_ok b -> text (a ++ btext b ++ c) (block_value (reblock b)).
Proof.
  intros Sa Sc (A & F & L & S' & J & Ls & D). pose proof (printed_small _ L).
  assert (word (b_fraction b)) by (unfold word, byte in *; lia).
  assert (PL : text (C " " ++ fmt_d (printed (b_lost b)) ++ []) (JNum (printed (b_lost b)))) by (apply text_sp; try reflexivity; apply t_num, dec_d; lia).
  apply text_sp; try assumption.
  eapply text_eq.
  - eapply (text_sp (C "  ") _ (C "~")); [reflexivity|reflexivity|]. eapply t_obj.
    eapply (mem2 (C "~   ")); [reflexivity|reflexivity|eapply (text_u (C " ") _ []); [reflexivity|reflexivity|exact A]|].
    eapply (mem2 (C "~   ")); [reflexivity|reflexivity|eapply (text_u (C " ") _ []); [reflexivity|reflexivity|assumption]|].
    eapply (mem2 (C "~   ")); [reflexivity|reflexivity|exact PL|].
    eapply (mem2 (C "~   ")); [reflexivity|reflexivity|eapply (text_u (C " ") _ []); [reflexivity|reflexivity|exact S']|].
    eapply (mem2 (C "~   ")); [reflexivity|reflexivity|eapply (text_u (C " ") _ []); [reflexivity|reflexivity|exact J]|].
    eapply (mem2 (C "~   ")); [reflexivity|reflexivity|eapply (text_u (C " ") _ []); [reflexivity|reflexivity|exact Ls]|].
    eapply (mem1 (C "~   ")); [reflexivity|reflexivity|eapply (text_u (C " ") _ (C "~  ")); [reflexivity|reflexivity|exact D]].
  - unfold btext, reblock. cbn [b_source b_fraction b_lost b_seq b_jitter b_lsr b_dlsr]. rewrite ?app_nil_r, <- ?app_assoc. reflexivity.
Qed.
Lemma stext_json i : sender_ok i ->
  exists s, text s (sender_value i) /\ stext i = C " `sender_information`:" ++ s ++ C ",~".
Proof.
  intros (A & F & L & S' & J). eexists. split.
  - eapply (text_sp (C " ") _ []); [reflexivity|reflexivity|]. eapply t_obj.
    eapply (mem2 (C "~  ")); [reflexivity|reflexivity|eapply (text_u (C " ") _ []); [reflexivity|reflexivity|exact A]|].
    eapply (mem2 (C "~  ")); [reflexivity|reflexivity|eapply (text_u (C " ") _ []); [reflexivity|reflexivity|exact F]|].
    eapply (mem2 (C "~  ")); [reflexivity|reflexivity|eapply (text_u (C " ") _ []); [reflexivity|reflexivity|exact L]|].
    eapply (mem2 (C "~  ")); [reflexivity|reflexivity|eapply (text_u (C " ") _ []); [reflexivity|reflexivity|exact S']|].
    eapply (mem1 (C "~  ")); [reflexivity|reflexivity|eapply (text_u (C " ") _ (C "~ ")); [reflexivity|reflexivity|exact J]].
  - unfold stext. rewrite ?app_nil_r, <- ?app_assoc. reflexivity.
Qed.
Lemma elements_json bs : Forall block_ok bs -> bs <> [] -> elements (C "~" ++ bstext true bs ++ C " ") (map block_value (map reblock bs)).
Proof.
  induction 1 as [|b bs Hb Hbs IH]; [congruence|]. intros _. destruct bs as [|b' bs].
  - cbn [bstext map app]. rewrite app_nil_r. apply e_one, btext_json; [reflexivity|reflexivity|exact Hb].
  - change (bstext true (b :: b' :: bs)) with (btext b ++ C "  ,~" ++ bstext true (b' :: bs)).
    change (map block_value (map reblock (b :: b' :: bs))) with ([block_value (reblock b)] ++ map block_value (map reblock (b' :: bs))).
    replace (C "~" ++ (btext b ++ C "  ,~" ++ bstext true (b' :: bs)) ++ C " ")
      with ((C "~" ++ btext b ++ C "  ") ++ [44] ++ (C "~" ++ bstext true (b' :: bs) ++ C " ")) by (rewrite <- !app_assoc; reflexivity).
    apply e_more; [apply e_one, btext_json; [reflexivity|reflexivity|exact Hb]|apply IH; discriminate].
Qed.

Lemma count_json (bs : list block) : (length bs < 32)%nat -> members (C "~ `report_count`: " ++ fmt_u (Z.of_nat (length bs)) ++ C "~") [(B "report_count", JNum (Z.of_nat (length bs)))].
Proof.
  intros L. eapply members_eq.
  - eapply (mem1 (C "~ ") (B "report_count")); [reflexivity|reflexivity|]. eapply (text_u (C " ") (Z.of_nat (length bs)) (C "~")); [reflexivity|reflexivity|unfold word; lia].
  - reflexivity.
Qed.
Lemma tail_json pt bs : word pt -> Forall block_ok bs -> (length bs < 32)%nat ->
  exists t, members t ([(B "type", JNum pt)] ++ match bs with [] => [] | _ => [(B "report_blocks", JArr (map block_value (map reblock bs)))] end ++ [(B "report_count", JNum (Z.of_nat (length bs)))]) /\
    C "~" ++ ttext pt bs = t ++ [125].
Proof.
  intros Wp Fb Lb. destruct bs as [|b bs].
  - eexists. split.
    + cbn [app]. eapply (mem2 (C "~ ")); [reflexivity|reflexivity|eapply (text_u (C " ") _ []); [reflexivity|reflexivity|exact Wp]|]. apply (count_json []); cbn; lia.
    + unfold ttext. cbn [bstext]. rewrite ?app_nil_r, <- ?app_assoc. reflexivity.
  - eexists. split.
    + cbn [app]. eapply (mem2 (C "~ ")); [reflexivity|reflexivity|eapply (text_u (C " ") _ []); [reflexivity|reflexivity|exact Wp]|].
      eapply (mem2 (C "~ ") (B "report_blocks")); [reflexivity|reflexivity| |apply (count_json (b :: bs)); exact Lb].
      eapply (text_sp (C " ") _ []); [reflexivity|reflexivity|]. eapply t_arr. apply elements_json; [exact Fb|discriminate].
    + unfold ttext. rewrite ?app_nil_r, <- ?app_assoc. reflexivity.
Qed.
Lemma wire_report_ok v bytes ssrc info bs : wire v bytes (Report ssrc info bs) ->
  word ssrc /\ match info with Some i => sender_ok i | None => True end /\ Forall block_ok bs /\ (length bs < 32)%nat.
Proof. inversion 1; subst. auto. Qed.
Lemma report_json v bytes ssrc info bs : wire v bytes (Report ssrc info bs) -> text (itext (Report ssrc info bs)) (report_value ssrc info (map reblock bs)).
Proof.
  intros Hw. destruct (wire_report_ok _ _ _ _ _ Hw) as (Ws & Wi & Fb & Lb).
  destruct (tail_json (match info with Some _ => 200 | None => 201 end) bs) as (t & Mt & Et); [unfold word; destruct info; lia|exact Fb|exact Lb|].
  assert (EV : report_value ssrc info (map reblock bs) = JObj ([(B "ssrc", JNum ssrc)] ++ match info with Some i => [(B "sender_information", sender_value i)] | None => [] end ++
     [(B "type", JNum match info with Some _ => 200 | None => 201 end)] ++ match bs with [] => [] | _ => [(B "report_blocks", JArr (map block_value (map reblock bs)))] end ++ [(B "report_count", JNum (Z.of_nat (length bs)))])).
  { unfold report_value. rewrite map_length. destruct bs; reflexivity. }
  rewrite EV. destruct info as [i|].
  - destruct (stext_json i Wi) as (s & Ts & Es). eapply text_eq.
    + eapply t_obj. eapply (mem2 (C "~ ")); [reflexivity|reflexivity|eapply (text_u (C " ") _ []); [reflexivity|reflexivity|exact Ws]|].
      eapply (mem2 (C "~ ")); [reflexivity|reflexivity|exact Ts|exact Mt].
    + cbn [itext]. fold (ttext 200 bs). rewrite Es.
      transitivity ((C "{~ `ssrc`: " ++ fmt_u ssrc ++ C ",") ++ C "~ `sender_information`:" ++ s ++ C "," ++ C "~" ++ ttext 200 bs).
      { rewrite <- !app_assoc. reflexivity. }
      rewrite Et. rewrite ?app_nil_r, <- ?app_assoc. reflexivity.
  - eapply text_eq.
    + eapply t_obj. eapply (mem2 (C "~ ")); [reflexivity|reflexivity|eapply (text_u (C " ") _ []); [reflexivity|reflexivity|exact Ws]|]. exact Mt.
    + cbn [itext app]. fold (ttext 201 bs).
      transitivity ((C "{~ `ssrc`: " ++ fmt_u ssrc ++ C ",") ++ C "~" ++ ttext 201 bs).
      { rewrite <- !app_assoc. reflexivity. }
      rewrite Et. rewrite ?app_nil_r, <- ?app_assoc. reflexivity.
Qed.
Lemma reports_json rest its : wires rest its -> reports (map (relost printed) its) (tall its).
Proof.
  induction 1 as [|v bytes it rest its Hw Hws IH]; [constructor|]. change (tall (it :: its)) with (itext it ++ tall its). cbn [map].
  destruct it as [ssrc info bs|pt]; cbn [relost].
  - apply r_report; [apply (report_json _ _ _ _ _ Hw)|exact IH].
  - cbn [itext app]. constructor. exact IH.
Qed.

(** ** The module *)

Lemma lor_low a b n : 0 <= n -> 0 <= b < 2 ^ n -> Z.lor (a * 2 ^ n) b = a * 2 ^ n + b.
Proof.
  intros N B'. rewrite <- Z.lxor_lor, Z.add_nocarry_lxor; try reflexivity.
  all: apply Z.bits_inj_0; intros m; rewrite Z.land_spec; destruct (Z.ltb_spec m n) as [H|H].
  all: try (rewrite Z.mul_pow2_bits_low by lia; reflexivity).
  all: apply andb_false_intro2; destruct (Z.eq_dec b 0) as [->|]; [apply Z.bits_0|apply Z.bits_above_log2; [lia|]].
  all: apply (Z.lt_le_trans _ n); [apply Z.log2_lt_pow2; lia|lia].
Qed.
Lemma printed_is z : printed z = printed_loss z.
Proof.
  unfold printed, get_lost, printed_loss. set (top := z / 65536 mod 256).
  rewrite Zodd_mod. replace (negb (top mod 2 =? 0)) with (Zeq_bool (top mod 2) 1).
  2:{ pose proof (Zeq_bool_if (top mod 2) 1). destruct (Zeq_bool (top mod 2) 1); lia. }
  destruct (Zeq_bool (top mod 2) 1); [reflexivity|].
  rewrite !Z.shiftl_mul_pow2 by lia. rewrite lor_low by (change (2 ^ 16) with 65536; change (2 ^ 8) with 256; lia).
  change (2 ^ 16) with (256 * 2 ^ 8) at 1. rewrite Z.mul_assoc, <- Z.mul_add_distr_r. rewrite lor_low by (change (2 ^ 8) with 256; lia).
  change (2 ^ 8) with 256. replace (z mod 65536) with (z / 256 mod 256 * 256 + z mod 256) by lia. lia.
Qed.
Lemma printed_right z : -8388608 <= z < 8388608 -> (printed_loss z = z <-> 0 <= z < 65536 \/ z = -1).
Proof.
  intros H. unfold printed_loss. set (top := z / 65536 mod 256). rewrite Zodd_mod.
  pose proof (Zeq_bool_if (top mod 2) 1) as O. destruct (Zeq_bool (top mod 2) 1); unfold top in *; lia.
Qed.

Lemma content_rep b k c : rep (b, k) c -> content b = c.
Proof.
  intros (cap & rest & Hm & Hl & Hu & _). unfold content. cbn [fst] in *. rewrite Hu, Nat2Z.id, Hm, firstn_app, firstn_all, Nat.sub_diag. cbn. apply app_nil_r.
Qed.
Lemma reset_ok o c : rep o c -> exists b, sbuf_reset (fst o) = SbRet b /\ rep (b, snd o) [].
Proof.
  intros (cap & Ro). destruct (sbuf_step_ok (fst o) c cap true SReset Ro) as (b' & r & E & Er & R'); [exact Logic.I|].
  cbn [sbuf_step sb_spec_step sb_clean fst snd] in *. destruct (sbuf_reset (fst o)) as [b| |]; try discriminate.
  injection E as -> <-. exists b'. split; [reflexivity|]. exists cap. exact R'.
Qed.

Lemma compound_ok h buf its o c : compound buf its -> rep o c -> R h c (tall its) (rtcp2json h buf o).
Proof.
  intros (bytes & it & rest & its' & -> & -> & Hw & Hws) Ro. unfold rtcp2json.
  destruct (wire_len _ _ _ Hw) as [HL HD]. rewrite app_length. replace (_ <? 4) with false by lia.
  destruct (packet_ok h 2 bytes it [] rest Hw) as (b0 & pt & G1 & _ & _ & G4 & _). cbn [app length] in G1. change (Z.of_nat 0) with 0 in G1. rewrite G1, G4.
  replace (negb (2 =? 2)) with false by reflexivity. rewrite <- app_length. change 0 with (Z.of_nat (@length Z [])).
  apply packets_ok; [econstructor; eassumption|reflexivity|lia|exact Ro].
Qed.
Lemma compound_or h buf : Forall byte buf -> (exists its, compound buf its) \/
  forall o c, rep o c -> exists b k rv, rtcp2json h buf o = Stop b k rv /\ rv < 0 /\ exists c', rep (b, k) c'.
Proof.
  intros F. unfold rtcp2json. destruct (Z.ltb_spec (Z.of_nat (length buf)) 4) as [L|L].
  { right. intros o c Ro. exists (fst o), (snd o), (-1). split; [reflexivity|]. split; [lia|]. exists c. destruct o; exact Ro. }
  destruct buf as [|b0 t] eqn:Eb; [cbn in L; lia|]. change (rd8 (b0 :: t) 0) with (Some b0). cbv iota beta.
  destruct (Z.eqb_spec (version_of b0) 2) as [Ev|Ev]; cbn [negb].
  2:{ right. intros o c Ro. exists (fst o), (snd o), (-1). split; [reflexivity|]. split; [lia|]. exists c. destruct o; exact Ro. }
  rewrite <- Eb in *. destruct (dichotomy h _ buf (Nat.le_refl _) F) as [[its Hws]|Hb].
  - left. exists its. inversion Hws as [E0|v bytes it rest its' Hw Hws' E1 E2]; [rewrite <- E0 in L; cbn in L; lia|].
    exists bytes, it, rest, its'. split; [reflexivity|]. split; [reflexivity|]. split; [|exact Hws'].
    destruct (packet_ok h v bytes it [] rest Hw) as (b0' & pt & G1 & _ & _ & G4 & _). cbn [app length] in G1. rewrite E1, Eb in G1.
    change (rd8 (b0 :: t) (Z.of_nat 0)) with (Some b0) in G1. injection G1 as <-. replace 2 with v by lia. exact Hw.
  - right. intros o c Ro. change 0 with (Z.of_nat (@length Z [])). apply (Hb buf [] _ o c); [reflexivity|lia|exact Ro].
Qed.

(** What is sent for one packet. *)
Definition good (h : heap) (buf : list Z) (sent : option (list Z)) : Prop :=
  (forall its, compound buf its -> sent = Some (tall its) \/ (sent = None /\ exists n, h n = None)) /\
  ((~ exists its, compound buf its) -> sent = None) /\ (forall t, sent = Some t -> exists its, compound buf its).
Lemma hep_do_ok h buf o c : Forall byte buf -> rep o c -> exists o' c' sent, hep_do h buf o = Go (o', sent) /\ rep o' c' /\ good h buf sent.
Proof.
  intros F Ro. unfold hep_do. destruct (reset_ok o c Ro) as (b & E & Rb). rewrite E.
  destruct (compound_or h buf F) as [[its Hc]|Hb].
  - pose proof (compound_ok h buf its _ _ Hc Rb) as G. cbn [fst snd] in *.
    destruct (rtcp2json h buf (b, snd o)) as [o1|b1 k1 rv| | |] eqn:EJ; cbn [R] in G; try contradiction.
    destruct G as [(-> & R1)|(-> & (c1 & R1) & n & Hn)].
    + exists (b1, k1), (tall its), (Some (content b1)). split; [reflexivity|]. split; [exact R1|].
      split; [|split; [intros N; exfalso; apply N; exists its; exact Hc|intros; exists its; exact Hc]].
      intros its2 Hc2. pose proof (compound_ok h buf its2 _ _ Hc2 Rb) as G2. cbn [fst snd] in G2. rewrite EJ in G2. cbn [R] in G2.
      destruct G2 as [(_ & R2)|(Q & _)]; [|lia]. left. rewrite (content_rep _ _ _ R2). reflexivity.
    + exists (b1, k1), c1, None. split; [reflexivity|]. split; [exact R1|].
      split; [right; split; [reflexivity|exists n; exact Hn]|]. split; [reflexivity|discriminate].
  - destruct (Hb (b, snd o) [] Rb) as (b1 & k1 & rv & E1 & Hr & c1 & R1). rewrite E1. replace (rv <? 0) with true by lia.
    exists (b1, k1), c1, None. split; [reflexivity|]. split; [exact R1|]. split; [|split; [reflexivity|discriminate]].
    intros its Hc. pose proof (compound_ok h buf its _ _ Hc Rb) as G. cbn [fst snd] in G. rewrite E1 in G. cbn [R] in G.
    destruct G as [(Q & _)|(_ & _ & Hn)]; [lia|]. right. auto.
Qed.
Lemma hep_run_ok h bufs : Forall (Forall byte) bufs -> forall o c, rep o c -> exists sent, hep_run h bufs o = Go sent /\ Forall2 (good h) bufs sent.
Proof.
  induction 1 as [|buf bufs F Fs IH]; intros o c Ro; cbn [hep_run]; [exists []; auto|].
  destruct (hep_do_ok h buf o c F Ro) as (o' & c' & s & E & R' & G). rewrite E. destruct (IH o' c' R') as (sent & E2 & G2). rewrite E2. exists (s :: sent). auto.
Qed.
Lemma module_ok h raw addr bufs : raw <> [] -> Forall (Forall byte) bufs -> exists sent, module_run h raw addr bufs = Go sent /\ Forall2 (good h) bufs sent.
Proof.
  intros N F. unfold module_run. destruct (sbuf_ctor_ok raw addr N) as (b & E & Rb). rewrite E. apply (hep_run_ok h bufs F (b, O) []). exists (length raw). exact Rb.
Qed.
Lemma compound_wires buf its : compound buf its -> wires buf its.
Proof. intros (bytes & it & rest & its' & -> & -> & Hw & Hws). econstructor; eassumption. Qed.
Lemma relost_fits its : Forall lost_fit its -> (forall it, In it its -> match it with Report _ _ bs => Forall block_ok bs | _ => True end) -> map (relost printed) its = its.
Proof.
  induction 1 as [|it its Hf Hfs IH]; intros K; [reflexivity|]. cbn [map]. rewrite IH by (intros; apply K; right; assumption). f_equal.
  pose proof (K it (or_introl eq_refl)) as Ki. destruct it as [ssrc info bs|pt]; [|reflexivity]. cbn [relost lost_fit] in *. f_equal.
  clear -Hf Ki. induction Hf as [|b bs Hb Hbs IH]; [reflexivity|]. cbn [map]. apply Forall_cons_iff in Ki as [K1 K2]. rewrite IH by exact K2. f_equal.
  rewrite printed_is. destruct b as [x1 x2 x3 x4 x5 x6 x7]. cbn in *. f_equal. apply printed_right; [destruct K1 as (_ & _ & K1 & _); exact K1|exact Hb].
Qed.
Lemma wires_ok rest its : wires rest its -> forall it, In it its -> match it with Report _ _ bs => Forall block_ok bs | _ => True end.
Proof.
  induction 1 as [|v bytes it rest its Hw Hws IH]; intros it' I; [destruct I|]. destruct I as [<-|I]; [|apply IH, I].
  destruct it; [apply wire_report_ok in Hw; tauto|exact Logic.I].
Qed.
Lemma reports_printed rest its : wires rest its -> reports (map (relost printed_loss) its) (tall its).
Proof.
  intros H. pose proof (reports_json _ _ H) as G. erewrite map_ext; [exact G|]. intros [ssrc info bs|pt]; [|reflexivity]. cbn [relost]. f_equal.
  apply map_ext. intros b. rewrite printed_is. reflexivity.
Qed.
Lemma good_length h bufs sent : Forall2 (good h) bufs sent -> length bufs = length sent.
Proof. induction 1; cbn; congruence. Qed.
Lemma good_impl h (P : list Z -> option (list Z) -> Prop) bufs sent : (forall b s, good h b s -> P b s) -> Forall2 (good h) bufs sent -> Forall2 P bufs sent.
Proof. intros H. induction 1; constructor; auto. Qed.
