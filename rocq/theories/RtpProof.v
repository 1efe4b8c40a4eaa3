From Verif Require Import Base RtpModel RtpSpec.

Lemma rd_app_r a b i : 0 <= i -> rd (a ++ b) (Z.of_nat (length a) + i) = rd b i.
Proof.
  intros Hi. unfold rd. destruct (Z.ltb_spec (Z.of_nat (length a) + i) 0); [lia|].
  destruct (Z.ltb_spec i 0); [lia|].
  rewrite nth_error_app2 by lia. f_equal. lia.
Qed.
Lemma rd_app_l a b i : i < Z.of_nat (length a) -> rd (a ++ b) i = rd a i.
Proof.
  intros Hi. unfold rd. destruct (Z.ltb_spec i 0); [reflexivity|]. apply nth_error_app1. lia.
Qed.
Lemma rd_some l i : 0 <= i < Z.of_nat (length l) -> exists x, rd l i = Some x /\ In x l.
Proof.
  intros Hi. unfold rd. destruct (Z.ltb_spec i 0); [lia|].
  destruct (nth_error l (Z.to_nat i)) eqn:E.
  - exists z. split; [reflexivity|]. eapply nth_error_In; eassumption.
  - apply nth_error_None in E. lia.
Qed.

(** ** G.723 *)
Lemma g723_len_spec ch :
  (g723_len ch = -1 /\ ch mod 4 = 3) \/
  (ch mod 4 = 0 /\ g723_len ch = 24 \/ ch mod 4 = 1 /\ g723_len ch = 20 \/ ch mod 4 = 2 /\ g723_len ch = 4).
Proof.
  unfold g723_len, NS_UNKNOWN. pose proof (Z.mod_pos_bound ch 4 ltac:(lia)).
  assert (ch mod 4 = 0 \/ ch mod 4 = 1 \/ ch mod 4 = 2 \/ ch mod 4 = 3) as H1 by lia.
  destruct H1 as [E|[E|[E|E]]]; rewrite E; auto.
Qed.

Lemma skipn_app_len {A} (a b : list A) n : n = length a -> skipn n (a ++ b) = b.
Proof. intros ->. rewrite skipn_app, Nat.sub_diag, skipn_all. reflexivity. Qed.

Lemma g723_det l n : g723_frames l n -> forall m, g723_frames l m -> n = m.
Proof.
  induction 1 as [|ch l len n Hl Hf IH]; intros m Hm.
  - inversion Hm; reflexivity.
  - inversion Hm as [|ch' l' len' n' Hl' Hf']; subst. f_equal. apply IH.
    replace len with len' by lia. assumption.
Qed.

(** The loop over pre ++ pl ++ suf, at position pos of pl. *)
Lemma g723_loop_ok pre pl suf : forall fuel pos samples,
  0 <= pos -> Z.of_nat (length pl) - pos <= Z.of_nat fuel ->
  exists r, g723_loop fuel (pre ++ pl ++ suf) (Z.of_nat (length pre)) (Z.of_nat (length pl)) pos samples = Some r /\
  ((exists n, g723_frames (skipn (Z.to_nat pos) pl) n /\ r = samples + 240 * n) \/
   ((forall n, ~ g723_frames (skipn (Z.to_nat pos) pl) n) /\ r = -1)).
Proof.
  induction fuel as [|f IH]; intros pos samples Hp Hf; cbn [g723_loop];
    destruct (Z.ltb_spec pos (Z.of_nat (length pl))) as [Hlt|Hge].
  - lia.
  - exists samples. split; [reflexivity|]. left. exists 0. rewrite skipn_all2 by lia. split; [constructor|lia].
  - destruct (rd_some pl pos ltac:(lia)) as (ch & Hch & _).
    rewrite rd_app_r by lia. rewrite rd_app_l by lia. rewrite Hch.
    assert (Hsk : exists t, skipn (Z.to_nat pos) pl = ch :: t).
    { unfold rd in Hch. destruct (Z.ltb_spec pos 0); [lia|].
      apply nth_error_split in Hch. destruct Hch as (l1 & l2 & -> & Hl).
      exists l2. apply skipn_app_len. congruence. }
    destruct Hsk as (t & Hsk).
    assert (Hnext : forall len, 0 <= len -> skipn (Z.to_nat (pos + len)) pl = skipn (Z.to_nat len) (ch :: t)).
    { intros len Hlen. rewrite <- Hsk. rewrite skipn_skipn'. f_equal. lia. }
    destruct (g723_len_spec ch) as [[E Em]|Hl].
    + rewrite E. cbn. exists NS_UNKNOWN. split; [reflexivity|]. right. split; [|reflexivity].
      intros n Hn. rewrite Hsk in Hn. inversion Hn. lia.
    + replace (g723_len ch =? NS_UNKNOWN) with false by (unfold NS_UNKNOWN; lia).
      destruct (IH (pos + g723_len ch) (samples + 240)) as (r & -> & Hr); [lia|lia|].
      exists r. split; [reflexivity|]. rewrite Hnext in Hr by lia. rewrite Hsk.
      destruct Hr as [(n & Hn & ->)|[Hn ->]].
      * left. exists (n + 1). split; [|lia]. econstructor; eassumption.
      * right. split; [|reflexivity]. intros n Hc. inversion Hc as [|? ? len n' Hlen Hfr]; subst.
        apply (Hn n'). replace (g723_len ch) with len by lia. assumption.
  - exists samples. split; [reflexivity|]. left. exists 0. rewrite skipn_all2 by lia. split; [constructor|lia].
Qed.

Lemma calc_samples_ok pt pre pl suf : 0 <= pt < 128 ->
  exists n, calc_samples pt (Z.of_nat (length pl)) (pre ++ pl ++ suf) (Z.of_nat (length pre)) = Some n /\
            samples_of pt pl n.
Proof.
  intros Hpt. unfold samples_of.
  destruct (Z.eq_dec pt 0) as [->|N0]; [eexists; split; reflexivity|].
  destruct (Z.eq_dec pt 8) as [->|N8]; [eexists; split; reflexivity|].
  destruct (Z.eq_dec pt 9) as [->|N9]; [eexists; split; reflexivity|].
  destruct (Z.eq_dec pt 18) as [->|N18].
  { eexists; split; [reflexivity|]. cbn -[Z.div Z.mul Z.add Z.modulo Z.of_nat].
    destruct (Z.eqb_spec (Z.of_nat (length pl) mod 10) 0); lia. }
  destruct (Z.eq_dec pt 3) as [->|N3]; [eexists; split; reflexivity|].
  destruct (Z.eq_dec pt 4) as [->|N4].
  { cbn [calc_samples]. unfold g723_samples.
    destruct (g723_loop_ok pre pl suf (Z.to_nat (Z.of_nat (length pl))) 0 0) as (r & -> & Hr); [lia|lia|].
    exists r. split; [reflexivity|]. cbn. cbn in Hr.
    destruct Hr as [(n & Hn & ->)|Hr]; [left; eauto|right; assumption]. }
  exists (-1). split.
  - unfold calc_samples.
    destruct pt as [|p|p]; try lia; try congruence.
    repeat (destruct p as [p|p|]; try reflexivity; try congruence).
  - replace (pt =? 0) with false by lia. replace (pt =? 8) with false by lia. replace (pt =? 9) with false by lia.
    replace (pt =? 18) with false by lia. replace (pt =? 3) with false by lia. replace (pt =? 4) with false by lia.
    reflexivity.
Qed.

(** ** Encoding parses *)
Lemma hdr_reads b0 b1 b2 b3 b4 b5 b6 b7 b8 b9 b10 b11 rest :
  let d := b0 :: b1 :: b2 :: b3 :: b4 :: b5 :: b6 :: b7 :: b8 :: b9 :: b10 :: b11 :: rest in
  rd d 0 = Some b0 /\ rd d 1 = Some b1 /\ rd16 d 2 = Some (256 * b2 + b3) /\
  rd32 d 4 = Some (65536 * (256 * b4 + b5) + (256 * b6 + b7)) /\
  rd32 d 8 = Some (65536 * (256 * b8 + b9) + (256 * b10 + b11)).
Proof. repeat split; reflexivity. Qed.

Lemma last_rd l : l <> [] -> rd l (Z.of_nat (length l) - 1) = Some (last l 0).
Proof.
  intros Hl. destruct (exists_last Hl) as (t & x & ->). rewrite app_length, last_last. cbn [length].
  replace (Z.of_nat (length t + 1) - 1) with (Z.of_nat (length t) + 0) by lia.
  rewrite rd_app_r by lia. reflexivity.
Qed.

Lemma hdr_len r : length (hdr_of r) = 12%nat.
Proof. reflexivity. Qed.

Lemma encode_parses r : wf r -> exists i, parse_raw (encode r) = POk i /\ describes r i.
Proof.
  intros (Hm & Hpt & Hseq & Hts & Hss & (cc & Hcc & Hccr) & Hext & Hpad).
  set (pre := hdr_of r ++ r_csrc r ++ ext_of r).
  assert (Hbuf : encode r = pre ++ r_payload r ++ r_pad r).
  { unfold encode, pre. rewrite <- !app_assoc. reflexivity. }
  assert (Hreads : exists b0 b1, rd (encode r) 0 = Some b0 /\ rd (encode r) 1 = Some b1 /\
      b0 = 128 + flag (has_pad r) * 32 + flag (has_ext r) * 16 + cc /\ b1 = r_marker r * 128 + r_pt r /\
      rd16 (encode r) 2 = Some (r_seq r) /\ rd32 (encode r) 4 = Some (r_ts r) /\ rd32 (encode r) 8 = Some (r_ssrc r)).
  { eexists _, _. unfold encode, hdr_of, be32, be16. cbn [app].
    destruct (hdr_reads
      (2 * 64 + flag (has_pad r) * 32 + flag (has_ext r) * 16 + Z.of_nat (length (r_csrc r)) / 4)
      (r_marker r * 128 + r_pt r) (r_seq r / 256) (r_seq r mod 256)
      (r_ts r / 65536 / 256) ((r_ts r / 65536) mod 256) (r_ts r mod 65536 / 256) ((r_ts r mod 65536) mod 256)
      (r_ssrc r / 65536 / 256) ((r_ssrc r / 65536) mod 256) (r_ssrc r mod 65536 / 256) ((r_ssrc r mod 65536) mod 256)
      (r_csrc r ++ ext_of r ++ r_payload r ++ r_pad r)) as (R0 & R1 & R2 & R3 & R4).
    split; [exact R0|]. split; [exact R1|]. split; [lia|]. split; [reflexivity|].
    split; [rewrite R2; f_equal; lia|]. split; [rewrite R3; f_equal; lia|rewrite R4; f_equal; lia]. }
  destruct Hreads as (b0 & b1 & R0 & R1 & B0 & B1 & R2 & R3 & R4).
  assert (Hfp : 0 <= flag (has_pad r) <= 1) by (destruct (has_pad r); cbn; lia).
  assert (Hfx : 0 <= flag (has_ext r) <= 1) by (destruct (has_ext r); cbn; lia).
  set (size := Z.of_nat (length (encode r))).
  assert (Hsize : size = Z.of_nat (length pre) + Z.of_nat (length (r_payload r)) + Z.of_nat (length (r_pad r))).
  { unfold size. rewrite Hbuf, !app_length. lia. }
  assert (Hprelen : Z.of_nat (length pre) = 12 + 4 * cc + Z.of_nat (length (ext_of r))).
  { unfold pre. rewrite !app_length, hdr_len. lia. }
  unfold parse_raw. fold size. rewrite R0, R1.
  destruct (Z.ltb_spec size 12) as [H|_]; [lia|].
  replace (b0 / 64 =? 2) with true by lia. cbn [negb].
  replace (b0 mod 16) with cc by lia.
  replace ((b0 / 16) mod 2) with (flag (has_ext r)) by lia.
  replace ((b0 / 32) mod 2) with (flag (has_pad r)) by lia.
  replace (b1 mod 128) with (r_pt r) by lia.
  (* extension *)
  set (xo := if flag (has_ext r) =? 0 then _ else _).
  assert (Hxo : xo = POk (mkRi 0 (Z.of_nat (length pre)) 0 0 0 0 0 0)).
  { unfold xo. rewrite Hprelen. unfold has_ext, ext_of in *. destruct (r_ext r) as [[id ws]|] eqn:Ex; cbn [flag Z.eqb].
    - destruct Hext as (Hid & n & Hn & Hnr).
      assert (Hel : Z.of_nat (length (be16 id ++ be16 (Z.of_nat (length ws) / 4) ++ ws)) = 4 + 4 * n).
      { rewrite !app_length. cbn [length be16]. lia. }
      destruct (Z.ltb_spec size (12 + cc * 4 + 4)) as [Hc|_]; [lia|].
      assert (Hl : rd16 (encode r) (12 + cc * 4 + 2) = Some n).
      { unfold encode. rewrite app_assoc. unfold ext_of. rewrite Ex.
        assert (HL : Z.of_nat (length (hdr_of r ++ r_csrc r)) = 12 + cc * 4) by (rewrite app_length, hdr_len; lia).
        rewrite <- HL. unfold rd16. rewrite <- Z.add_assoc, !rd_app_r by lia.
        rewrite <- !app_assoc. cbn [be16 app].
        transitivity (Some (256 * (Z.of_nat (length ws) / 4 / 256) + (Z.of_nat (length ws) / 4) mod 256)); [reflexivity|].
        f_equal. lia. }
      rewrite Hl. do 2 f_equal. lia.
    - cbn [length]. do 2 f_equal. lia. }
  rewrite Hxo. clear xo Hxo. cbn [ri_data_offset].
  destruct (Z.ltb_spec size (Z.of_nat (length pre))) as [H|_]; [lia|].
  set (po := if flag (has_pad r) =? 0 then _ else _).
  assert (Hpo : po = POk (mkRi (Z.of_nat (length (r_pad r))) 0 0 0 0 0 0 0)).
  { unfold po, has_pad in *. destruct (r_pad r) as [|p0 pt] eqn:Ep; cbn [flag Z.eqb]; [reflexivity|].
    rewrite <- Ep in *. destruct Hpad as [Hpad|[Hlast Hpl]]; [congruence|].
    destruct (Z.eqb_spec (Z.of_nat (length pre)) size) as [Hc|_]; [lia|].
    assert (Hr : rd (encode r) (size - 1) = Some (Z.of_nat (length (r_pad r)))).
    { rewrite Hbuf, app_assoc.
      replace (size - 1) with (Z.of_nat (length (pre ++ r_payload r)) + (Z.of_nat (length (r_pad r)) - 1))
        by (rewrite app_length; lia).
      rewrite rd_app_r by lia. rewrite last_rd by congruence. congruence. }
    rewrite Hr. destruct (Z.eqb_spec (Z.of_nat (length (r_pad r))) 0); [lia|]. reflexivity. }
  rewrite Hpo. clear po Hpo. cbn [ri_data_size].
  destruct (Z.ltb_spec size (Z.of_nat (length pre) + Z.of_nat (length (r_pad r)))) as [H|_]; [lia|].
  rewrite R2, R3, R4.
  replace (size - Z.of_nat (length pre) - Z.of_nat (length (r_pad r))) with (Z.of_nat (length (r_payload r))) by lia.
  destruct (Z.eqb_spec (Z.of_nat (length (r_payload r))) 0) as [E|E].
  - eexists; split; [reflexivity|]. unfold describes; cbn.
    fold pre. assert (En : r_payload r = []) by (destruct (r_payload r); [reflexivity|cbn in E; lia]).
    rewrite En. cbn. repeat split; auto; try lia.
  - rewrite Hbuf. destruct (calc_samples_ok (r_pt r) pre (r_payload r) (r_pad r) Hpt) as (n & -> & Hn).
    eexists; split; [reflexivity|]. unfold describes; cbn. fold pre.
    repeat split; auto.
    + destruct (r_payload r); [cbn in E; lia|assumption].
    + destruct (Z.eqb_spec (r_pt r) 18); [|discriminate]. auto.
    + destruct (Z.eqb_spec (Z.of_nat (length (r_payload r)) mod 10) 0); [|lia].
      destruct (r_pt r =? 18); discriminate.
    + intros [-> Hmod]. cbn. destruct (Z.eqb_spec (Z.of_nat (length (r_payload r)) mod 10) 0); [lia|reflexivity].
    + destruct ((r_pt r =? 18) && _); auto.
Qed.

(** ** No read outside *)
Lemma list12 (d : list Z) : 12 <= Z.of_nat (length d) ->
  exists b0 b1 b2 b3 b4 b5 b6 b7 b8 b9 b10 b11 rest,
  d = b0 :: b1 :: b2 :: b3 :: b4 :: b5 :: b6 :: b7 :: b8 :: b9 :: b10 :: b11 :: rest.
Proof.
  intros H. do 12 (destruct d as [|? d]; [cbn [length] in H; lia|]).
  eexists _, _, _, _, _, _, _, _, _, _, _, _, _. reflexivity.
Qed.

Lemma byte_in d x : Forall byte d -> In x d -> byte x.
Proof. intros H. rewrite Forall_forall in H. apply H. Qed.

Lemma parse_no_oob d : Forall byte d -> parse_raw d <> POob.
Proof.
  intros Hb. unfold parse_raw. set (size := Z.of_nat (length d)).
  destruct (Z.ltb_spec size 12) as [H|H]; [discriminate|].
  destruct (list12 d H) as (b0&b1&b2&b3&b4&b5&b6&b7&b8&b9&b10&b11&rest&Ed).
  destruct (hdr_reads b0 b1 b2 b3 b4 b5 b6 b7 b8 b9 b10 b11 rest) as (R0&R1&R2&R3&R4).
  rewrite <- Ed in *. rewrite R0, R1, R2, R3, R4.
  assert (B0 : byte b0) by (apply (byte_in d); [assumption|rewrite Ed; left; reflexivity]).
  unfold byte in B0.
  destruct (negb (b0 / 64 =? 2)); [discriminate|].
  set (off0 := 12 + b0 mod 16 * 4). assert (Hoff0 : 12 <= off0 <= 72) by (unfold off0; lia).
  set (xo := if (b0 / 16) mod 2 =? 0 then _ else _).
  assert (Hxo : (exists e, xo = PErr e) \/ (exists o, xo = POk (mkRi 0 o 0 0 0 0 0 0) /\ 12 <= o)).
  { unfold xo. destruct ((b0 / 16) mod 2 =? 0); [right; exists off0; split; [reflexivity|lia]|].
    destruct (Z.ltb_spec size (off0 + 4)); [left; eauto|].
    unfold rd16. destruct (rd_some d (off0 + 2)) as (x & -> & Hx); [unfold size in *; lia|].
    destruct (rd_some d (off0 + 2 + 1)) as (y & -> & Hy); [unfold size in *; lia|].
    apply (byte_in d _ Hb) in Hx. apply (byte_in d _ Hb) in Hy. unfold byte in *.
    right. eexists; split; [reflexivity|]. lia. }
  destruct Hxo as [[e ->]|(off & -> & Hoff)]; [discriminate|]. cbn [ri_data_offset].
  destruct (Z.ltb_spec size off) as [|Hso]; [discriminate|].
  set (po := if (b0 / 32) mod 2 =? 0 then _ else _).
  assert (Hpo : (exists e, po = PErr e) \/ (exists p, po = POk (mkRi p 0 0 0 0 0 0 0) /\ 0 <= p)).
  { unfold po. destruct ((b0 / 32) mod 2 =? 0); [right; exists 0; split; [reflexivity|lia]|].
    destruct (off =? size); [left; eauto|].
    destruct (rd_some d (size - 1)) as (x & -> & Hx); [unfold size in *; lia|].
    apply (byte_in d _ Hb) in Hx. unfold byte in Hx. destruct (x =? 0); [left; eauto|right; eexists; split; [reflexivity|lia]]. }
  destruct Hpo as [[e ->]|(pad & -> & Hpad)]; [discriminate|]. cbn [ri_data_size].
  destruct (Z.ltb_spec size (off + pad)) as [|Hsp]; [discriminate|].
  destruct (Z.eqb_spec (size - off - pad) 0) as [|Hds]; [discriminate|].
  assert (Hd : d = firstn (Z.to_nat off) d ++ firstn (Z.to_nat (size - off - pad)) (skipn (Z.to_nat off) d)
                   ++ skipn (Z.to_nat (size - off - pad)) (skipn (Z.to_nat off) d)).
  { rewrite firstn_skipn, firstn_skipn. reflexivity. }
  assert (Hl1 : Z.of_nat (length (firstn (Z.to_nat off) d)) = off) by (rewrite firstn_length; unfold size in *; lia).
  assert (Hl2 : Z.of_nat (length (firstn (Z.to_nat (size - off - pad)) (skipn (Z.to_nat off) d))) = size - off - pad)
    by (rewrite firstn_length, skipn_length; unfold size in *; lia).
  assert (Hpt : 0 <= b1 mod 128 < 128) by lia.
  pose proof (calc_samples_ok (b1 mod 128) (firstn (Z.to_nat off) d)
    (firstn (Z.to_nat (size - off - pad)) (skipn (Z.to_nat off) d))
    (skipn (Z.to_nat (size - off - pad)) (skipn (Z.to_nat off) d)) Hpt) as (n & Hn & _).
  rewrite <- Hd, Hl1, Hl2 in Hn. rewrite Hn. discriminate.
Qed.

(** ** Everything accepted is an encoding *)
Lemma be16_bytes a b : byte a -> byte b -> be16 (256 * a + b) = [a; b].
Proof. unfold byte, be16; intros. f_equal; [lia|f_equal; lia]. Qed.
Lemma be32_bytes a b c d : byte a -> byte b -> byte c -> byte d ->
  be32 (65536 * (256 * a + b) + (256 * c + d)) = [a; b; c; d].
Proof.
  unfold be32; intros. 
  replace ((65536 * (256 * a + b) + (256 * c + d)) / 65536) with (256 * a + b) by (unfold byte in *; lia).
  replace ((65536 * (256 * a + b) + (256 * c + d)) mod 65536) with (256 * c + d) by (unfold byte in *; lia).
  rewrite !be16_bytes by assumption. reflexivity.
Qed.

Lemma last_skipn (l : list Z) n : (n < length l)%nat -> last (skipn n l) 0 = last l 0.
Proof.
  intros H. rewrite <- (firstn_skipn n l) at 2.
  destruct (skipn n l) as [|x t] eqn:E.
  - assert (length (skipn n l) = 0%nat) by (rewrite E; reflexivity). rewrite skipn_length in H0. lia.
  - rewrite <- E. symmetry. 
    assert (forall (a b : list Z), b <> [] -> last (a ++ b) 0 = last b 0) as Hl.
    { clear. induction a as [|y a IH]; intros b Hb; [reflexivity|]. cbn. rewrite IH by assumption.
      destruct (a ++ b) eqn:E; [|reflexivity]. apply app_eq_nil in E. destruct E; contradiction. }
    apply Hl. congruence.
Qed.

Lemma parsed_is_encoding d i : Forall byte d -> parse_raw d = POk i ->
  exists r, wf r /\ encode r = d.
Proof.
  intros Hb. unfold parse_raw. set (size := Z.of_nat (length d)).
  destruct (Z.ltb_spec size 12) as [H|H]; [discriminate|].
  destruct (list12 d H) as (b0&b1&b2&b3&b4&b5&b6&b7&b8&b9&b10&b11&rest&Ed).
  destruct (hdr_reads b0 b1 b2 b3 b4 b5 b6 b7 b8 b9 b10 b11 rest) as (R0&R1&R2&R3&R4).
  rewrite <- Ed in *. rewrite R0, R1, R2, R3, R4.
  assert (Hbs : byte b0 /\ byte b1 /\ byte b2 /\ byte b3 /\ byte b4 /\ byte b5 /\ byte b6 /\ byte b7 /\ byte b8 /\ byte b9 /\ byte b10 /\ byte b11).
  { rewrite Ed in Hb. repeat match goal with H : Forall _ (_ :: _) |- _ => inversion H; clear H; subst end. tauto. }
  destruct Hbs as (B0&B1&B2&B3&B4&B5&B6&B7&B8&B9&B10&B11).
  destruct (Z.eqb_spec (b0 / 64) 2) as [Hver|]; [|discriminate]. cbn [negb].
  set (cc := b0 mod 16). assert (Hcc : 0 <= cc < 16) by (unfold cc; lia).
  assert (Hrl : Z.of_nat (length rest) = size - 12) by (unfold size; rewrite Ed; cbn [length]; lia).
  (* generic end: given the split of rest *)
  assert (Hend : forall ext rest1 off,
     rest = firstn (Z.to_nat (4 * cc)) rest ++ ext ++ rest1 ->
     Z.of_nat (length (firstn (Z.to_nat (4 * cc)) rest)) = 4 * cc ->
     off = 12 + 4 * cc + Z.of_nat (length ext) ->
     forall eo, ext = match eo with None => [] | Some (id, ws) => be16 id ++ be16 (Z.of_nat (length ws) / 4) ++ ws end ->
     (match eo with None => True | Some (id, ws) => 0 <= id < 65536 /\ exists n, Z.of_nat (length ws) = 4 * n /\ 0 <= n < 65536 end) ->
     (b0 / 16) mod 2 = flag (match eo with None => false | Some _ => true end) ->
     forall pad, (pad = [] /\ (b0 / 32) mod 2 = 0 \/ (b0 / 32) mod 2 = 1 /\ last pad 0 = Z.of_nat (length pad) /\ 0 < Z.of_nat (length pad) < 256) ->
     forall pl, rest1 = pl ++ pad ->
     exists r, wf r /\ encode r = d).
  { intros ext rest1 off Hrest Hcl Hoff eo Heo Heowf Hx pad Hpad pl Hpl.
    exists (mkRtp (b1 / 128) (b1 mod 128) (256 * b2 + b3) (65536 * (256 * b4 + b5) + (256 * b6 + b7))
                  (65536 * (256 * b8 + b9) + (256 * b10 + b11)) (firstn (Z.to_nat (4 * cc)) rest) eo pl pad).
    split.
    - unfold wf; cbn [r_marker r_pt r_seq r_ts r_ssrc r_csrc r_ext r_payload r_pad]. unfold byte in *. repeat (split; [lia|]). split; [exists cc; split; [assumption|lia]|].
      split; [assumption|]. destruct Hpad as [[-> _]|[_ Hpad]]; auto.
    - unfold encode, hdr_of, ext_of, has_ext, has_pad; cbn [r_marker r_pt r_seq r_ts r_ssrc r_csrc r_ext r_payload r_pad].
      rewrite <- Heo, <- Hpl, <- Hrest. rewrite be16_bytes, !be32_bytes by assumption. cbn [app].
      rewrite Ed. f_equal.
      + rewrite Hcl. rewrite <- Hx.
        assert (Hfp : flag (match pad with [] => false | _ => true end) = (b0 / 32) mod 2).
        { destruct Hpad as [[-> ->]|[-> [_ Hl]]]; [reflexivity|]. destruct pad; [cbn in Hl; lia|reflexivity]. }
        rewrite Hfp. unfold cc, byte in *. lia.
      + f_equal. unfold byte in *. lia. }
  (* payload and padding *)
  assert (Htail : forall rest1, Z.of_nat (length rest1) <= size - 12 ->
     (exists p, rest = p ++ rest1) ->
     match (if (b0 / 32) mod 2 =? 0 then POk (mkRi 0 0 0 0 0 0 0 0)
            else if size - Z.of_nat (length rest1) =? size then PErr PTOOSHRTPS
            else match rd d (size - 1) with
                 | None => POob
                 | Some p => if p =? 0 then PErr IPS else POk (mkRi p 0 0 0 0 0 0 0)
                 end) with
     | POk rp => ri_data_size rp <= Z.of_nat (length rest1) ->
         exists pl pad, rest1 = pl ++ pad /\
         (pad = [] /\ (b0 / 32) mod 2 = 0 \/ (b0 / 32) mod 2 = 1 /\ last pad 0 = Z.of_nat (length pad) /\ 0 < Z.of_nat (length pad) < 256)
     | _ => True
     end).
  { intros rest1 Hr1 [pp Hpp]. destruct (Z.eqb_spec ((b0 / 32) mod 2) 0) as [E|E].
    - intros _. exists rest1, []. rewrite app_nil_r. auto.
    - destruct (Z.eqb_spec (size - Z.of_nat (length rest1)) size) as [|Hne]; [exact I|].
      assert (Hne1 : rest1 <> []) by (destruct rest1; [cbn in Hne; lia|discriminate]).
      assert (Hlast : rd d (size - 1) = Some (last rest1 0)).
      { assert (Hd : d = ([b0;b1;b2;b3;b4;b5;b6;b7;b8;b9;b10;b11] ++ pp) ++ rest1) by (rewrite <- app_assoc, <- Hpp, Ed; reflexivity).
        rewrite Hd.
        replace (size - 1) with (Z.of_nat (length ([b0;b1;b2;b3;b4;b5;b6;b7;b8;b9;b10;b11] ++ pp)) + (Z.of_nat (length rest1) - 1))
          by (unfold size; rewrite Hd, !app_length; lia).
        rewrite rd_app_r by (destruct rest1; [congruence|cbn [length]; lia]). apply last_rd; assumption. }
      rewrite Hlast.
      assert (Hlb : byte (last rest1 0)).
      { apply (byte_in d); [assumption|]. unfold rd in Hlast. destruct (size - 1 <? 0); [discriminate|].
        eapply nth_error_In; eassumption. }
      destruct (Z.eqb_spec (last rest1 0) 0) as [|Hl0]; [exact I|]. cbn [ri_data_size]. intros Hle.
      set (k := Nat.sub (length rest1) (Z.to_nat (last rest1 0))). unfold byte in Hlb.
      exists (firstn k rest1), (skipn k rest1). split; [symmetry; apply firstn_skipn|]. right. split; [lia|].
      rewrite skipn_length. rewrite last_skipn by lia. unfold k. lia. }
  destruct (Z.eqb_spec ((b0 / 16) mod 2) 0) as [Ex|Ex].
  - cbn [ri_data_offset].
    destruct (Z.ltb_spec size (12 + cc * 4)) as [|Hs]; [discriminate|].
    set (rest1 := skipn (Z.to_nat (4 * cc)) rest).
    assert (Hr1 : Z.of_nat (length rest1) = size - (12 + cc * 4)) by (unfold rest1; rewrite skipn_length; lia).
    specialize (Htail rest1 ltac:(lia)). replace (size - Z.of_nat (length rest1)) with (12 + cc * 4) in Htail by lia.
    specialize (Htail (ex_intro _ (firstn (Z.to_nat (4 * cc)) rest) (eq_sym (firstn_skipn _ _)))).
    destruct (if (b0 / 32) mod 2 =? 0 then _ else _) as [|e|rp]; try discriminate.
    destruct (Z.ltb_spec size (12 + cc * 4 + ri_data_size rp)) as [|Hsp]; [discriminate|]. intros _.
    destruct (Htail ltac:(lia)) as (pl & pad & Hpp & Hpad).
    apply (Hend [] rest1 (12 + 4 * cc + 0)) with (eo := None) (pad := pad) (pl := pl); auto.
    + cbn. symmetry. apply firstn_skipn.
    + rewrite firstn_length. lia.
  - destruct (Z.ltb_spec size (12 + cc * 4 + 4)) as [|Hs4]; [discriminate|].
    set (rest0 := skipn (Z.to_nat (4 * cc)) rest).
    assert (Hr0 : Z.of_nat (length rest0) = size - (12 + cc * 4)) by (unfold rest0; rewrite skipn_length; lia).
    destruct rest0 as [|e0 [|e1 [|e2 [|e3 rest2]]]] eqn:Er0; try (cbn [length] in Hr0; lia).
    set (pre := [b0;b1;b2;b3;b4;b5;b6;b7;b8;b9;b10;b11] ++ firstn (Z.to_nat (4 * cc)) rest).
    assert (Hd : d = pre ++ e0 :: e1 :: e2 :: e3 :: rest2).
    { unfold pre. rewrite <- app_assoc. rewrite <- Er0. unfold rest0. rewrite firstn_skipn, Ed. reflexivity. }
    assert (Hprel : Z.of_nat (length pre) = 12 + cc * 4) by (unfold pre; rewrite app_length, firstn_length; cbn [length]; lia).
    assert (Hl16 : rd16 d (12 + cc * 4 + 2) = Some (256 * e2 + e3)).
    { rewrite Hd, <- Hprel. unfold rd16. rewrite <- Z.add_assoc, !rd_app_r by lia. reflexivity. }
    rewrite Hl16. cbn [ri_data_offset].
    assert (Bes : byte e0 /\ byte e1 /\ byte e2 /\ byte e3).
    { rewrite Hd in Hb. apply Forall_app in Hb. destruct Hb as [_ Hb].
      repeat match goal with H : Forall _ (_ :: _) |- _ => inversion H; clear H; subst end. tauto. }
    destruct Bes as (E0 & E1 & E2 & E3).
    set (w := 256 * e2 + e3) in *. assert (Hw : 0 <= w < 65536) by (unfold w, byte in *; lia).
    destruct (Z.ltb_spec size (12 + cc * 4 + 4 + w * 4)) as [|Hs]; [discriminate|].
    set (ws := firstn (Z.to_nat (4 * w)) rest2). set (rest1 := skipn (Z.to_nat (4 * w)) rest2).
    cbn [length] in Hr0.
    assert (Hr1 : Z.of_nat (length rest1) = size - (12 + cc * 4 + 4 + w * 4)) by (unfold rest1; rewrite skipn_length; lia).
    assert (Hws : Z.of_nat (length ws) = 4 * w) by (unfold ws; rewrite firstn_length; lia).
    assert (Hrest : rest = (firstn (Z.to_nat (4 * cc)) rest ++ [e0; e1; e2; e3] ++ ws) ++ rest1).
    { rewrite <- (firstn_skipn (Z.to_nat (4 * cc)) rest) at 1. fold rest0. rewrite Er0.
      rewrite <- app_assoc. f_equal. cbn [app]. do 4 f_equal. unfold ws, rest1. symmetry. apply firstn_skipn. }
    specialize (Htail rest1 ltac:(lia)). replace (size - Z.of_nat (length rest1)) with (12 + cc * 4 + 4 + w * 4) in Htail by lia.
    specialize (Htail (ex_intro _ _ Hrest)).
    destruct (if (b0 / 32) mod 2 =? 0 then _ else _) as [|e|rp]; try discriminate.
    destruct (Z.ltb_spec size (12 + cc * 4 + 4 + w * 4 + ri_data_size rp)) as [|Hsp]; [discriminate|]. intros _.
    destruct (Htail ltac:(lia)) as (pl & pad & Hpp & Hpad).
    assert (Hwb : be16 (Z.of_nat (length ws) / 4) = [e2; e3]).
    { replace (Z.of_nat (length ws) / 4) with (256 * e2 + e3) by (fold w; lia). apply be16_bytes; assumption. }
    apply (Hend ([e0; e1; e2; e3] ++ ws) rest1 (12 + 4 * cc + Z.of_nat (length ([e0; e1; e2; e3] ++ ws))))
      with (eo := Some (256 * e0 + e1, ws)) (pad := pad) (pl := pl); auto.
    + rewrite Hrest at 1. rewrite <- !app_assoc. reflexivity.
    + rewrite firstn_length. lia.
    + rewrite Hwb, be16_bytes by assumption. reflexivity.
    + unfold byte in *. split; [lia|]. exists w. split; [assumption|lia].
    + cbn. lia.
Qed.

Lemma parse_iff d i : Forall byte d -> parse_raw d = POk i ->
  exists r, wf r /\ encode r = d /\ describes r i.
Proof.
  intros Hb H. destruct (parsed_is_encoding d i Hb H) as (r & Hw & He).
  destruct (encode_parses r Hw) as (j & Hj & Hd). rewrite He, H in Hj. injection Hj as <-. eauto.
Qed.

(** ** Classes *)
Lemma is_rtcp_total d : exists b, is_rtcp d = Some b.
Proof.
  unfold is_rtcp. destruct (Z.ltb_spec (Z.of_nat (length d)) 2); [eauto|].
  destruct (rd_some d 0) as (x & -> & _); [lia|]. destruct (rd_some d 1) as (y & -> & _); [lia|]. eauto.
Qed.
Lemma is_stun_total d : exists b, is_stun d = Some b.
Proof.
  unfold is_stun. destruct (Z.ltb_spec (Z.of_nat (length d)) 20); [eauto|]. unfold rd32, rd16.
  destruct (rd_some d 4) as (x & -> & _); [lia|]. destruct (rd_some d (4 + 1)) as (y & -> & _); [lia|].
  destruct (rd_some d (4 + 2)) as (z & -> & _); [lia|]. destruct (rd_some d (4 + 2 + 1)) as (t & -> & _); [lia|]. eauto.
Qed.
Lemma is_dtls_total d : exists b, is_dtls d = Some b.
Proof.
  unfold is_dtls. destruct (Z.ltb_spec (Z.of_nat (length d)) 13); [eauto|].
  destruct (rd_some d 0) as (x & -> & _); [lia|]. eauto.
Qed.
Lemma rtcp_dtls_disjoint d : is_rtcp d = Some true -> is_dtls d = Some false.
Proof.
  unfold is_rtcp, is_dtls. destruct (Z.of_nat (length d) <? 2); [discriminate|].
  destruct (rd d 0) as [b0|]; [|discriminate]. destruct (rd d 1) as [b1|]; [|discriminate].
  intros H. injection H as H. destruct (Z.of_nat (length d) <? 13); [reflexivity|]. f_equal. lia.
Qed.
Lemma rtp_not_dtls d i : parse_raw d = POk i -> is_dtls d = Some false.
Proof.
  unfold parse_raw, is_dtls. destruct (Z.of_nat (length d) <? 12); [discriminate|].
  destruct (rd d 0) as [b0|]; [|discriminate]. destruct (rd d 1) as [b1|]; [|discriminate].
  destruct (Z.eqb_spec (b0 / 64) 2) as [E|]; [|discriminate]. intros _.
  destruct (Z.of_nat (length d) <? 13); [reflexivity|]. f_equal. lia.
Qed.
Lemma rtcp_refused d : is_rtcp d = Some true -> packet_parse d = PErr ISRTCP.
Proof. intros H. unfold packet_parse. rewrite H. reflexivity. Qed.

Lemma packet_parse_iff d i : Forall byte d ->
  (packet_parse d = POk i <-> is_rtcp d = Some false /\ parse_raw d = POk i).
Proof.
  intros Hb. unfold packet_parse. destruct (is_rtcp_total d) as (b & ->).
  destruct b; split; try discriminate; try tauto. intros [H _]; discriminate.
Qed.

(** ** The classes of datagrams *)
Lemma rtcp_exact d : Forall byte d -> is_rtcp d = Some true <-> looks_rtcp d.
Proof.
  intros F. unfold is_rtcp, looks_rtcp. destruct d as [|v [|t r]].
  - cbn. split; [discriminate|]. intros (v & t & r & E & _). discriminate E.
  - cbn. split; [discriminate|]. intros (v' & t & r & E & _). discriminate E.
  - pose proof (Forall_inv F) as Hv. unfold byte in Hv. destruct (Z.ltb_spec (Z.of_nat (length (v :: t :: r))) 2) as [X|X]; [cbn [length] in X; lia|].
    change (rd (v :: t :: r) 0) with (Some v). change (rd (v :: t :: r) 1) with (Some t). split.
    + intros E. injection E as E. exists v, t, r. split; [reflexivity|]. lia.
    + intros (v' & t' & r' & E & A & C). injection E as <- <- <-. f_equal. lia.
Qed.
Lemma dtls_exact d : is_dtls d = Some true <-> looks_dtls d.
Proof.
  unfold is_dtls, looks_dtls. destruct (Z.ltb_spec (Z.of_nat (length d)) 13) as [X|X].
  - split; [discriminate|]. intros (L & _). lia.
  - destruct d as [|v r]; [cbn in X; lia|]. change (rd (v :: r) 0) with (Some v). split.
    + intros E. injection E as E. split; [lia|]. exists v, r. split; [reflexivity|lia].
    + intros (_ & v' & r' & E & C). injection E as <- <-. f_equal. lia.
Qed.
Lemma stun_exact d : Forall byte d -> is_stun d = Some true <-> looks_stun d.
Proof.
  intros F. unfold is_stun, looks_stun. destruct (Z.ltb_spec (Z.of_nat (length d)) 20) as [X|X].
  - split; [discriminate|]. intros (L & _). lia.
  - destruct d as [|a [|b [|c [|e [|m [|n [|o [|p r]]]]]]]]; try (cbn in X; lia).
    assert (Q : rd32 (a :: b :: c :: e :: m :: n :: o :: p :: r) 4 = Some (65536 * (256 * m + n) + (256 * o + p))) by reflexivity.
    rewrite Q. do 4 apply Forall_inv_tail in F. pose proof (Forall_inv F) as Hm. apply Forall_inv_tail in F. pose proof (Forall_inv F) as Hn.
    apply Forall_inv_tail in F. pose proof (Forall_inv F) as Ho. apply Forall_inv_tail in F. pose proof (Forall_inv F) as Hp. unfold byte in *.
    split.
    + intros E. assert (E' : forall x y : bool, Some x = Some y -> x = y) by congruence. apply E' in E. clear E'. split; [lia|]. apply Z.eqb_eq in E. assert (E1 : 256 * m + n = 8466) by lia. assert (E2 : 256 * o + p = 42050) by lia.
      assert (m = 0x21) as -> by lia. assert (n = 0x12) as -> by lia. assert (o = 0xa4) as -> by lia. assert (p = 0x42) as -> by lia.
      exists a, b, c, e, r. reflexivity.
    + intros (_ & a' & b' & c' & e' & r' & E). injection E as <- <- <- <- -> -> -> -> <-. reflexivity.
Qed.
