From Verif Require Import Base CksumModel CksumSpec CksumProof TimeModel TimeSpec TimeProof TimeThm RecModel RecSpec.

(** ** Numbers *)
Lemma be_st2 a b : be_num [a; b] = 256 * a + b.
Proof. unfold be_num. cbn [fold_left]. lia. Qed.
Lemma be_num16 x : 0 <= x < 65536 -> be_num (be16 x) = x.
Proof. intros. unfold be16. rewrite be_st2. lia. Qed.
Lemma le_num16 x : 0 <= x < 65536 -> le_num (st16 x) = x.
Proof. intros. unfold st16, le_num. cbn [rev app]. rewrite be_st2. lia. Qed.
Lemma le_num32 x : 0 <= x < 4294967296 -> le_num (le32 x) = x.
Proof. intros. unfold le32, le_num. cbn [rev app]. unfold be_num. cbn [fold_left]. lia. Qed.
Lemma le_num64 x : 0 <= x < 18446744073709551616 -> le_num (le64 x) = x.
Proof.
  intros. unfold le64, le_num. rewrite rev_app_distr. unfold be_num. rewrite fold_left_app.
  pose proof (le_num32 (x mod 4294967296) ltac:(lia)) as H1. pose proof (le_num32 (x / 4294967296) ltac:(lia)) as H2.
  unfold le_num in *. change (fold_left (fun a b => 256 * a + b) (rev (le32 (x / 4294967296))) 0) with (be_num (rev (le32 (x / 4294967296)))).
  rewrite H2. revert H1. set (q := x / 4294967296). set (r := x mod 4294967296). assert (0 <= r < 4294967296) by (subst r; lia).
  intros _. unfold le32. cbn [rev app fold_left]. assert (x = 4294967296 * q + r) by (subst q r; lia). lia.
Qed.

(** ** Slices *)
Lemma sub_0 a b n : length a = n -> sub (a ++ b) 0 n = a.
Proof. intros <-. unfold sub. cbn [skipn]. rewrite firstn_app, Nat.sub_diag, firstn_all, firstn_O, app_nil_r. reflexivity. Qed.
Lemma sub_app a b i n : (length a <= i)%nat -> sub (a ++ b) i n = sub b (i - length a) n.
Proof. intros H. unfold sub. rewrite skipn_app, skipn_all2 by assumption. reflexivity. Qed.
Lemma skipn_app' (a b : list Z) i : (length a <= i)%nat -> skipn i (a ++ b) = skipn (i - length a) b.
Proof. intros H. rewrite skipn_app, skipn_all2 by assumption. reflexivity. Qed.
Lemma len_app a b : len (a ++ b) = len a + len b.
Proof. unfold len. rewrite app_length. lia. Qed.

Lemma firstn_len_app (a b : list Z) n : length a = n -> firstn n (a ++ b) = a.
Proof. intros <-. rewrite firstn_app, Nat.sub_diag, firstn_all, firstn_O, app_nil_r. reflexivity. Qed.

(** ** Checksums of the headers *)
Lemma le32_bytes x : bytes (le32 x).
Proof. unfold le32, bytes. repeat constructor; lia. Qed.
Lemma be32_bytes x : bytes (be32 x).
Proof. unfold be32, bytes. repeat constructor; lia. Qed.

Definition hd4 (ipid n : Z) : list Z := [69; 0] ++ be16 (28 + n) ++ be16 ipid ++ [0; 0] ++ [127; 17].
Lemma hd4_bytes ipid n : bytes (hd4 ipid n).
Proof. unfold hd4. rewrite !bytes_app. repeat split; try apply be16_bytes; unfold bytes; repeat constructor; lia. Qed.

Lemma ip4_ok odd src dst ipid n :
  bytes src -> bytes dst -> length src = 4%nat -> length dst = 4%nat ->
  exists c, 0 <= c < 65536 /\ ip_hdr odd V4 src dst ipid n = Some (hd4 ipid n ++ st16 c ++ src ++ dst) /\
            oc_sum (hd4 ipid n ++ st16 c ++ src ++ dst) = 65535.
Proof.
  intros Bs Bd Ls Ld. unfold ip_hdr. fold (hd4 ipid n).
  assert (B : bytes (hd4 ipid n ++ [0; 0] ++ src ++ dst)).
  { rewrite !bytes_app. repeat split; try assumption; try apply hd4_bytes. unfold bytes; repeat constructor; lia. }
  assert (L : length (hd4 ipid n ++ [0; 0] ++ src ++ dst) = 20%nat).
  { rewrite !app_length, Ls, Ld. reflexivity. }
  destruct (in_cksum_defined odd _ B ltac:(rewrite L; lia)) as [c Hc]. rewrite Hc.
  destruct (in_cksum_verifies odd (hd4 ipid n) (src ++ dst) c) as [Hr Hv].
  - apply hd4_bytes. - rewrite bytes_app; auto. - reflexivity.
  - apply le_pos; [assumption|]. apply Exists_cons_hd. lia.
  - rewrite L; lia.
  - assumption.
  - exists c. split; [assumption|]. split; [reflexivity|]. exact Hv.
Qed.
Lemma ip_hdr_odd odd f src dst ipid n :
  bytes src -> bytes dst -> length src = alen f -> length dst = alen f ->
  ip_hdr odd f src dst ipid n = ip_hdr false f src dst ipid n.
Proof.
  intros Bs Bd Ls Ld. destruct f; [|reflexivity]. destruct odd; [|reflexivity]. unfold ip_hdr. fold (hd4 ipid n).
  rewrite in_cksum_align; [reflexivity| |].
  - rewrite !bytes_app. repeat split; try assumption; try apply hd4_bytes. unfold bytes; repeat constructor; lia.
  - rewrite !app_length, Ls, Ld. cbn. lia.
Qed.

Lemma ck_update_app a b w : Nat.even (length a) = true -> ck_update (a ++ b) w = ck_update b (ck_update a w).
Proof.
  revert w. induction a as [|x|x y t IH] using list_ind2; intros w E; [reflexivity|discriminate|].
  cbn [app ck_update]. apply IH. exact E.
Qed.

Definition uhd (sport dport ulen : Z) : list Z := be16 sport ++ be16 dport ++ be16 ulen.
Lemma uhd_bytes a b c : bytes (uhd a b c).
Proof. unfold uhd. rewrite !bytes_app. repeat split; apply be16_bytes. Qed.

Lemma udp_ok f src dst sport dport data :
  bytes src -> bytes dst -> length src = alen f -> length dst = alen f -> bytes data -> len data <= 8192 ->
  let ulen := 8 + len data in
  exists c, 0 <= c < 65536 /\ udp_hdr f src dst sport dport data = uhd sport dport ulen ++ st16 c /\
    oc_sum ((if is_v6 f then pseudo6 src dst ulen else pseudo4 src dst ulen) ++
            (uhd sport dport ulen ++ st16 c) ++ data) = 65535.
Proof.
  intros Bs Bd Ls Ld Bt Lt ulen.
  set (ps := if is_v6 f then pseudo6 src dst ulen else pseudo4 src dst ulen).
  assert (Ev : Nat.even (length src) = true /\ Nat.even (length dst) = true).
  { rewrite Ls, Ld. destruct f; split; reflexivity. }
  destruct Ev as [Es Ed].
  assert (Bp : bytes ps).
  { subst ps. destruct f; cbn [is_v6]; unfold pseudo4, pseudo6; rewrite !bytes_app; repeat split; try assumption;
      unfold bytes; repeat constructor; lia. }
  assert (Ep : Nat.even (length ps) = true).
  { subst ps. destruct f; cbn [is_v6]; unfold pseudo4, pseudo6; repeat (apply even_app_len; try assumption); reflexivity. }
  assert (Lp : (length ps <= 48)%nat).
  { subst ps. destruct f; cbn [is_v6]; unfold pseudo4, pseudo6; rewrite !app_length, Ls, Ld; cbn; lia. }
  assert (Pp : 0 < le_sum ps).
  { apply le_pos; [assumption|]. subst ps. destruct f; cbn [is_v6]; unfold pseudo4, pseudo6.
    - apply exists_app. right. apply exists_app. right. apply Exists_cons_tl, Exists_cons_hd. lia.
    - apply exists_app. right. apply exists_app. right. do 7 apply Exists_cons_tl. apply Exists_cons_hd. lia. }
  destruct (ck_verifies ps (uhd sport dport ulen) data) as [Hr Hv]; try assumption; try apply uhd_bytes; try reflexivity.
  { change (length (uhd sport dport ulen)) with 6%nat. unfold len in Lt. lia. }
  set (c := ck_fin _) in *. exists c. split; [assumption|]. split.
  - unfold udp_hdr. cbv zeta. change (8 + Z.of_nat (length data)) with ulen.
    unfold uhd. rewrite <- !app_assoc. do 4 f_equal. subst c. f_equal.
    unfold uhd. rewrite !ck_update_app by reflexivity. do 4 f_equal.
    subst ps. destruct f; cbn [is_v6]; unfold pseudo4, pseudo6, be16, be32; rewrite !ck_update_app by assumption; reflexivity.
  - rewrite <- app_assoc. exact Hv.
Qed.

(** ** Reading a frame back *)
Lemma parse_udp_ok (v6 : bool) src dst sport dport data c :
  0 <= sport < 65536 -> 0 <= dport < 65536 -> len data <= 8192 ->
  let ulen := 8 + len data in
  oc_sum ((if v6 then pseudo6 src dst ulen else pseudo4 src dst ulen) ++ (uhd sport dport ulen ++ st16 c) ++ data) = 65535 ->
  parse_udp v6 src dst ((uhd sport dport ulen ++ st16 c) ++ data) = Some (mkDg v6 src sport dst dport data).
Proof.
  intros Hs Hd Hl ulen Hc. unfold parse_udp. cbv zeta.
  set (u := (uhd sport dport ulen ++ st16 c) ++ data) in *.
  assert (E0 : sub u 0 2 = be16 sport) by reflexivity.
  assert (E2 : sub u 2 2 = be16 dport) by reflexivity.
  assert (E4 : sub u 4 2 = be16 ulen) by reflexivity.
  assert (E8 : skipn 8 u = data) by reflexivity.
  assert (0 <= len data) by (unfold len; lia).
  assert (EL : len u = ulen). { subst u. rewrite !len_app. change (len (uhd sport dport ulen)) with 6. change (len (st16 c)) with 2. unfold ulen. lia. }
  rewrite E0, E2, E4, E8, EL. rewrite !be_num16 by (unfold ulen; lia). rewrite Hc.
  replace (8 <=? ulen) with true by (unfold ulen; lia). rewrite !Z.eqb_refl. reflexivity.
Qed.

Lemma frame_ok f eth src dst sport dport ipid data iph :
  length eth = 12%nat ->
  bytes src -> bytes dst -> length src = alen f -> length dst = alen f ->
  0 <= sport < 65536 -> 0 <= dport < 65536 -> bytes data -> len data <= 8192 ->
  ip_hdr false f src dst ipid (len data) = Some iph ->
  parse_frame (eth ++ (match f with V4 => [8; 0] | V6 => [134; 221] end) ++ iph ++ udp_hdr f src dst sport dport data ++ data) =
  Some (mkDg (is_v6 f) src sport dst dport data).
Proof.
  intros Le Bs Bd Ls Ld Hs Hd Bt Lt Hi.
  assert (0 <= len data) by (unfold len; lia).
  destruct (udp_ok f src dst sport dport data Bs Bd Ls Ld Bt Lt) as (c & Hc & Hu & Hsum).
  pose proof (parse_udp_ok (is_v6 f) src dst sport dport data c Hs Hd Lt Hsum) as HP.
  rewrite Hu. set (ud := uhd sport dport (8 + len data) ++ st16 c) in *.
  assert (Lu : len (ud ++ data) = 8 + len data).
  { subst ud. rewrite !len_app. change (len (uhd sport dport (8 + len data))) with 6. change (len (st16 c)) with 2. lia. }
  unfold parse_frame. rewrite !(sub_app eth) by lia. rewrite skipn_app' by lia. rewrite Le. cbn [Nat.sub].
  destruct f.
  - replace (sub ([8; 0] ++ iph ++ ud ++ data) 0 2) with [8; 0] by reflexivity.
    change (be_num [8; 0] =? 2048) with true. cbv iota. change (skipn 2 ([8; 0] ++ iph ++ ud ++ data)) with (iph ++ ud ++ data).
    destruct (ip4_ok false src dst ipid (len data) Bs Bd Ls Ld) as (k & Hk & Hi' & Hks). set (h := hd4 ipid (len data) ++ st16 k ++ src ++ dst) in *.
    assert (iph = h) by congruence. subst iph. clear Hi Hi'.
    assert (Lh : length h = 20%nat) by (subst h; rewrite !app_length, Ls, Ld; reflexivity).
    unfold parse_ip4. rewrite (sub_0 h _ 20 Lh). rewrite Hks.
    rewrite (skipn_app' h) by lia. rewrite Lh. cbn [Nat.sub skipn].
    replace (sub (h ++ ud ++ data) 0 1) with [69] by reflexivity.
    replace (sub (h ++ ud ++ data) 2 2) with (be16 (28 + len data)) by reflexivity.
    replace (sub (h ++ ud ++ data) 6 2) with [0; 0] by reflexivity.
    replace (sub (h ++ ud ++ data) 9 1) with [17] by reflexivity.
    rewrite be_num16 by lia. rewrite len_app, Lu. replace (len h) with 20 by (unfold len; lia).
    change (be_num [69] =? 69) with true. change (be_num [0; 0] =? 0) with true. change (be_num [17] =? 17) with true.
    replace (28 + len data =? 20 + (8 + len data)) with true by lia. rewrite Z.eqb_refl. cbn [andb].
    replace (sub (h ++ ud ++ data) 12 4) with src.
    2:{ subst h. rewrite <- !app_assoc. rewrite (sub_app (hd4 _ _)) by (cbn; lia). rewrite (sub_app (st16 k)) by (cbn; lia).
        cbn [hd4 st16 be16 app length Nat.sub]. rewrite sub_0; [reflexivity|]. exact Ls. }
    replace (sub (h ++ ud ++ data) 16 4) with dst.
    2:{ subst h. rewrite <- !app_assoc. rewrite (sub_app (hd4 _ _)) by (cbn; lia). rewrite (sub_app (st16 k)) by (cbn; lia).
        rewrite (sub_app src) by (rewrite Ls; cbn; lia). rewrite Ls.
        cbn [hd4 st16 be16 app length Nat.sub alen]. rewrite sub_0; [reflexivity|]. exact Ld. }
    exact HP.
  - replace (sub ([134; 221] ++ iph ++ ud ++ data) 0 2) with [134; 221] by reflexivity.
    change (be_num [134; 221] =? 2048) with false. change (be_num [134; 221] =? 34525) with true. cbv iota.
    change (skipn 2 ([134; 221] ++ iph ++ ud ++ data)) with (iph ++ ud ++ data).
    unfold ip_hdr in Hi.
    set (h0 := [96; 0; 0; 0] ++ be16 (8 + len data) ++ [17; 64]) in *.
    change ([96; 0; 0; 0] ++ be16 (8 + len data) ++ [17; 64] ++ src ++ dst) with (h0 ++ src ++ dst) in Hi.
    set (h := h0 ++ src ++ dst) in *. assert (iph = h) by congruence. subst iph. clear Hi.
    assert (Lh : length h = 40%nat) by (subst h; rewrite !app_length, Ls, Ld; reflexivity).
    unfold parse_ip6.
    rewrite (skipn_app' h) by lia. rewrite Lh. cbn [Nat.sub skipn].
    replace (sub (h ++ ud ++ data) 0 1) with [96] by reflexivity.
    replace (sub (h ++ ud ++ data) 4 2) with (be16 (8 + len data)) by reflexivity.
    replace (sub (h ++ ud ++ data) 6 1) with [17] by reflexivity.
    rewrite be_num16 by lia. rewrite len_app, Lu. replace (len h) with 40 by (unfold len; lia).
    change (be_num [96] =? 96) with true. change (be_num [17] =? 17) with true.
    replace (8 + len data =? 40 + (8 + len data) - 40) with true by lia. cbn [andb].
    replace (sub (h ++ ud ++ data) 8 16) with src.
    2:{ subst h. rewrite <- !app_assoc. rewrite (sub_app h0) by (cbn; lia).
        cbn [h0 be16 app length Nat.sub]. rewrite sub_0; [reflexivity|]. exact Ls. }
    replace (sub (h ++ ud ++ data) 24 16) with dst.
    2:{ subst h. rewrite <- !app_assoc. rewrite (sub_app h0) by (cbn; lia).
        rewrite (sub_app src) by (rewrite Ls; cbn; lia). rewrite Ls.
        cbn [h0 be16 app length Nat.sub alen]. rewrite sub_0; [reflexivity|]. exact Ld. }
    exact HP.
Qed.

(** ** The time *)
Lemma bits_dbl b : 0 <= b < 9218868437227405312 -> is_dbl (dbl_of_bits b).
Proof.
  intros H. unfold dbl_of_bits, is_dbl. cbv zeta.
  change (2 ^ 53) with 9007199254740992.
  pose proof (Z.mod_pos_bound b 4503599627370496 ltac:(lia)).
  assert (0 <= b / 4503599627370496 < 2047) by lia.
  rewrite (Z.mod_small (b / 4503599627370496) 2048) by lia.
  destruct (Z.eqb_spec (b / 4503599627370496) 0); cbn [d_m d_e]; lia.
Qed.
Lemma time_ok p : wf_pkt p ->
  exists s u, dtime2timeval (dbl_of_bits (p_time p)) = Some (Tm s u) /\ 0 <= s < 4294967296 /\ 0 <= u < 1000000.
Proof.
  intros (_ & _ & _ & _ & _ & _ & _ & _ & _ & Hb & Hs). pose proof (bits_dbl _ Hb) as D.
  destruct (dtime2timeval (dbl_of_bits (p_time p))) as [[s u]|] eqn:E.
  - exists s, u. split; [reflexivity|]. destruct (timeval_valid _ _ D E) as [[V0 V1] _]. split; [|lia]. split; [lia|].
    unfold dtime2timeval in E. destruct (d_sec _ <? _); [|discriminate]. destruct (d_units _ _ =? _).
    + destruct (d_sec _ + 1 <? _); [|discriminate]. injection E as <- _. lia.
    + injection E as <- _. lia.
  - exfalso. unfold dtime2timeval in E. destruct (Z.ltb_spec (d_sec (dbl_of_bits (p_time p))) 9223372036854775808); [|lia].
    destruct (d_units _ _ =? _); [|discriminate].
    destruct (Z.ltb_spec (d_sec (dbl_of_bits (p_time p)) + 1) 9223372036854775808); [discriminate|lia].
Qed.

(** ** One record *)
Lemma fake_len f ip : length ip = alen f -> length (fake_ether f ip) = 6%nat.
Proof. intros H. destruct f; cbn [fake_ether]; [rewrite app_length, H; reflexivity|rewrite map_length; reflexivity]. Qed.
Lemma udp_len f a b c d e : length (udp_hdr f a b c d e) = 8%nat.
Proof. reflexivity. Qed.
Lemma ip_len odd f src dst i n h : length src = alen f -> length dst = alen f -> ip_hdr odd f src dst i n = Some h ->
  length h = (get_hdr_size f - 38)%nat.
Proof.
  intros Ls Ld H. destruct f; unfold ip_hdr in H.
  - destruct (in_cksum _ _) as [c|]; [|discriminate].
    assert (h = hd4 i n ++ st16 c ++ src ++ dst) by (unfold hd4; congruence).
    subst h. rewrite !app_length, Ls, Ld. reflexivity.
  - assert (h = [96; 0; 0; 0] ++ be16 (8 + n) ++ [17; 64] ++ src ++ dst) by congruence.
    subst h. rewrite !app_length, Ls, Ld. reflexivity.
Qed.

Lemma rec_parse f s u eth src dst sport dport ipid data iph fuel rest :
  length eth = 12%nat -> 0 <= s < 4294967296 -> 0 <= u < 1000000 ->
  bytes src -> bytes dst -> length src = alen f -> length dst = alen f ->
  0 <= sport < 65536 -> 0 <= dport < 65536 -> bytes data -> len data <= 8192 ->
  ip_hdr false f src dst ipid (len data) = Some iph ->
  let incl := Z.of_nat (get_hdr_size f) - 16 + len data in
  let fr := eth ++ (match f with V4 => [8; 0] | V6 => [134; 221] end) ++ iph ++ udp_hdr f src dst sport dport data ++ data in
  parse_recs (S fuel) ((le32 s ++ le32 u ++ le32 incl ++ le32 incl) ++ fr ++ rest) =
  match parse_recs fuel rest with
  | Some t => Some ((s, u, mkDg (is_v6 f) src sport dst dport data) :: t)
  | None => None
  end.
Proof.
  intros Le Hs Hu Bs Bd Ls Ld Hsp Hdp Bt Lt Hi incl fr.
  assert (0 <= len data) by (unfold len; lia).
  assert (Lf : length fr = Z.to_nat incl).
  { subst fr incl. rewrite !app_length, udp_len, Le, (ip_len _ _ _ _ _ _ _ Ls Ld Hi). unfold len. destruct f; cbn [get_hdr_size length]; lia. }
  assert (0 <= incl < 65536) by (subst incl; destruct f; cbn [get_hdr_size]; lia).
  set (ph := le32 s ++ le32 u ++ le32 incl ++ le32 incl).
  assert (Lp : length ph = 16%nat) by reflexivity.
  change (parse_recs (S fuel) (ph ++ fr ++ rest)) with
    (let l := ph ++ fr ++ rest in let n := le_num (sub l 8 4) in
      if (16 + n <=? len l) && (le_num (sub l 12 4) =? n) then
        match parse_frame (sub l 16 (Z.to_nat n)), parse_recs fuel (skipn (16 + Z.to_nat n) l) with
        | Some g, Some t => Some ((le_num (sub l 0 4), le_num (sub l 4 4), g) :: t)
        | _, _ => None
        end
      else None).
  cbv zeta.
  replace (sub (ph ++ fr ++ rest) 0 4) with (le32 s) by reflexivity.
  replace (sub (ph ++ fr ++ rest) 4 4) with (le32 u) by reflexivity.
  replace (sub (ph ++ fr ++ rest) 8 4) with (le32 incl) by reflexivity.
  replace (sub (ph ++ fr ++ rest) 12 4) with (le32 incl) by reflexivity.
  rewrite !le_num32 by lia. rewrite Z.eqb_refl.
  replace (16 + incl <=? len (ph ++ fr ++ rest)) with true.
  2:{ symmetry. apply Z.leb_le. unfold len. rewrite !app_length. rewrite Lp, Lf. lia. }
  cbn [andb]. rewrite (sub_app ph) by lia. rewrite Lp. cbn [Nat.sub]. rewrite (sub_0 fr) by assumption.
  rewrite (skipn_app' ph) by lia. rewrite Lp. replace (16 + Z.to_nat incl - 16)%nat with (Z.to_nat incl) by lia.
  rewrite (skipn_app' fr) by lia. rewrite Lf, Nat.sub_diag. cbn [skipn].
  unfold fr. rewrite (frame_ok f eth src dst sport dport ipid data iph) by assumption. reflexivity.
Qed.

Lemma null_host a : ishostnull a = null (s_ip a).
Proof. reflexivity. Qed.

(** What prepare_pkt_hdr_pcap yields, in terms of the specification *)
Lemma pcap_hdr_ok single p : wf_pkt p -> (single && p_rtcp p = true -> same_ip p) ->
  match view single p with
  | None => forall odd, pcap_hdr odd (single && p_rtcp p) p = HFail
  | Some g =>
      exists h s u, (forall odd, pcap_hdr odd (single && p_rtcp p) p = Hdr h) /\
        length h = get_hdr_size (s_fam (p_raddr p)) /\ parse_frame (skipn 16 h ++ p_data p) = Some g /\
        dtime2timeval (dbl_of_bits (p_time p)) = Some (Tm s u) /\
        forall fuel rest, parse_recs (S fuel) (h ++ p_data p ++ rest) =
          match parse_recs fuel rest with Some t => Some ((s, u, g) :: t) | None => None end
  end.
Proof.
  intros W SF. destruct (time_ok p W) as (s & u & Ht & Hs & Hu).
  destruct W as ((Br & Lr & Pr) & Bl & Ll & Pl & (Bo & Lo & Po) & Hrem & Hl4 & Bt & Lt & _ & _).
  assert (0 <= plen p) by (unfold plen; lia). change (plen p) with (len (p_data p)) in *.
  (* the common part, for given endpoints *)
  assert (Core : forall src dst sport dport,
    bytes src -> bytes dst -> length src = alen (s_fam (p_raddr p)) -> length dst = alen (s_fam (p_raddr p)) ->
    0 <= sport < 65536 -> 0 <= dport < 65536 ->
    exists iph, (forall odd, ip_hdr odd (s_fam (p_raddr p)) src dst (p_ipid p) (plen p) = Some iph) /\
      let f := s_fam (p_raddr p) in
      let incl := Z.of_nat (get_hdr_size f) - 16 + plen p in
      let h := (le32 (u32 s) ++ le32 (u32 u) ++ le32 (u32 incl) ++ le32 (u32 incl)) ++ fake_ether f dst ++ fake_ether f src ++
        match f with V4 => [8; 0] | V6 => [134; 221] end ++ iph ++ udp_hdr f src dst sport dport (p_data p) in
      length h = get_hdr_size f /\ parse_frame (skipn 16 h ++ p_data p) = Some (mkDg (is_v6 f) src sport dst dport (p_data p)) /\
      forall fuel rest, parse_recs (S fuel) (h ++ p_data p ++ rest) =
          match parse_recs fuel rest with
          | Some t => Some ((s, u, mkDg (is_v6 f) src sport dst dport (p_data p)) :: t) | None => None end).
  { intros src dst sport dport Bs Bd Ls Ld Ps Pd. set (f := s_fam (p_raddr p)) in *.
    assert (Hip : exists iph, ip_hdr false f src dst (p_ipid p) (plen p) = Some iph).
    { destruct f; [|unfold ip_hdr; eauto]. destruct (ip4_ok false src dst (p_ipid p) (plen p) Bs Bd Ls Ld) as (k & _ & Hk & _). eauto. }
    destruct Hip as [iph Hip]. exists iph. split.
    { intros odd. rewrite ip_hdr_odd by assumption. exact Hip. }
    intros f' incl. fold f in f'. subst f'. unfold plen in incl. change (Z.of_nat (length (p_data p))) with (len (p_data p)) in incl.
    assert (0 <= incl < 65536) by (subst incl; destruct f; cbn [get_hdr_size]; lia).
    rewrite (u32_small s), (u32_small u), (u32_small incl) by lia.
    intros h. split.
    - subst h. rewrite !app_length, !fake_len, udp_len, (ip_len _ _ _ _ _ _ _ Ls Ld Hip) by assumption.
      destruct f; reflexivity.
    - split.
      { subst h. rewrite skipn_app' by reflexivity. change (16 - length _)%nat with 0%nat. cbn [skipn].
        rewrite <- (frame_ok f (fake_ether f dst ++ fake_ether f src) src dst sport dport (p_ipid p) (p_data p) iph); try assumption.
        - f_equal. rewrite <- !app_assoc. reflexivity.
        - rewrite app_length, !fake_len by assumption. reflexivity. }
      intros fuel rest.
      pose proof (rec_parse f s u (fake_ether f dst ++ fake_ether f src) src dst sport dport (p_ipid p) (p_data p) iph fuel rest) as R.
      cbv zeta in R. rewrite <- R; try assumption.
      + f_equal. subst h. rewrite <- !app_assoc. reflexivity.
      + rewrite app_length, !fake_len by assumption. reflexivity. }
  unfold view, pcap_hdr. rewrite Ht. cbv zeta. unfold local_end, rem_ip, rem_port.
  set (face := single && p_rtcp p) in *. destruct face.
  - (* outgoing RTCP *)
    specialize (SF eq_refl). unfold same_ip in SF.
    set (daddr := match p_orem p with Some a => a | None => mkSa (s_fam (p_oaddr p)) (zeros (alen (s_fam (p_oaddr p)))) 0 end).
    assert (Hd : wf_sa daddr /\ s_fam daddr = s_fam (p_oaddr p) /\
                 s_ip daddr = match p_orem p with Some a => s_ip a | None => zeros (length (s_ip (p_oaddr p))) end /\
                 s_port daddr = match p_orem p with Some a => s_port a | None => 0 end).
    { subst daddr. destruct (p_orem p) as [a|]; [destruct (Hrem a eq_refl) as [? ?]; auto|]. cbn [s_fam s_ip s_port].
      split; [|split; [reflexivity|split; [rewrite Lo; reflexivity|reflexivity]]].
      unfold wf_sa. cbn [s_fam s_ip s_port]. split; [|split; [apply repeat_length|lia]].
      apply Forall_forall. intros x Hx. apply repeat_spec in Hx. lia. }
    destruct Hd as ((Bd & Ld & Pd) & Fd & Ed & Edp). rewrite <- Ed, <- Edp. rewrite !null_host.
    cbn [negb andb orb]. rewrite Fd, SF in *.
    destruct (null (s_ip (p_oaddr p)) && negb (null (s_ip daddr))).
    + destruct (p_l4r p) as [a|]; [|reflexivity]. destruct (Hl4 a eq_refl) as [Ba La].
      cbn [andb]. rewrite eqb_reflx. cbn [negb].
      destruct (Core a (s_ip daddr) (s_port (p_oaddr p)) (s_port daddr)) as (iph & Hi & HL & HF & HP); try assumption.
      eexists _, s, u. split; [intros odd; rewrite Hi; reflexivity|]. split; [exact HL|]. split; [exact HF|]. split; [reflexivity|exact HP].
    + cbn [andb]. rewrite eqb_reflx. cbn [negb].
      destruct (Core (s_ip (p_oaddr p)) (s_ip daddr) (s_port (p_oaddr p)) (s_port daddr)) as (iph & Hi & HL & HF & HP); try assumption.
      eexists _, s, u. split; [intros odd; rewrite Hi; reflexivity|]. split; [exact HL|]. split; [exact HF|]. split; [reflexivity|exact HP].
  - rewrite !null_host. cbn [s_ip s_fam s_port negb andb]. rewrite orb_false_r.
    destruct (null (p_laddr p) && negb (null (s_ip (p_raddr p)))).
    + destruct (p_l4r p) as [a|]; [|reflexivity]. destruct (Hl4 a eq_refl) as [Ba La].
      cbn [andb]. rewrite eqb_reflx. cbn [negb].
      destruct (Core (s_ip (p_raddr p)) a (s_port (p_raddr p)) (p_lport p)) as (iph & Hi & HL & HF & HP); try assumption.
      eexists _, s, u. split; [intros odd; rewrite Hi; reflexivity|]. split; [exact HL|]. split; [exact HF|]. split; [reflexivity|exact HP].
    + cbn [andb]. rewrite eqb_reflx. cbn [negb].
      destruct (Core (s_ip (p_raddr p)) (p_laddr p) (s_port (p_raddr p)) (p_lport p)) as (iph & Hi & HL & HF & HP); try assumption.
      eexists _, s, u. split; [intros odd; rewrite Hi; reflexivity|]. split; [exact HL|]. split; [exact HF|]. split; [reflexivity|exact HP].
Qed.

(** ** The buffer *)
Definition hdrf (m : rmode) (single : bool) (p : pkt) (o : bool) : hres :=
  match m with LOCAL_PCAP => pcap_hdr o (single && p_rtcp p) p | _ => Hdr (adhoc_hdr p) end.
Definition hsz (m : rmode) (p : pkt) : nat :=
  match m with LOCAL_PCAP => get_hdr_size (s_fam (p_raddr p)) | _ => 30%nat end.
Definition rb (m : rmode) (single : bool) (p : pkt) : list Z :=
  match hdrf m single p false with Hdr h => h ++ p_data p | _ => [] end.
Definition good (m : rmode) (single : bool) (p : pkt) : Prop :=
  wf_pkt p /\ (m = LOCAL_PCAP -> single && p_rtcp p = true -> same_ip p).

Lemma adhoc_len p : wf_pkt p -> length (adhoc_hdr p) = 30%nat.
Proof.
  intros ((_ & L & _) & _). unfold adhoc_hdr, le64. cbv zeta. destruct (s_fam (p_raddr p)); cbn [alen] in L;
    rewrite !app_length, L; reflexivity.
Qed.
Lemma hdrf_ok m single p : good m single p ->
  (forall o, hdrf m single p o = HFail) /\ rb m single p = [] \/
  exists h, (forall o, hdrf m single p o = Hdr h) /\ length h = hsz m p /\ rb m single p = h ++ p_data p.
Proof.
  intros [W S]. unfold rb. destruct m; cbn [hdrf hsz].
  1,2: right; exists (adhoc_hdr p); split; [reflexivity|]; split; [apply adhoc_len; assumption|reflexivity].
  pose proof (pcap_hdr_ok single p W (S eq_refl)) as H. destruct (view single p) as [g|].
  - right. destruct H as (h & s & u & H1 & H2 & _). exists h. rewrite H1. auto.
  - left. rewrite H. auto.
Qed.

Lemma store_firstn (m m' bs : list Z) i : store m i bs = Some m' -> firstn (i + length bs) m' = firstn i m ++ bs.
Proof.
  unfold store. destruct (Nat.leb_spec (i + length bs) (length m)); [|discriminate]. intros E. injection E as <-.
  rewrite app_assoc. apply firstn_len_app. rewrite app_length, firstn_length. lia.
Qed.
Lemma store_ok (m bs : list Z) i : (i + length bs <= length m)%nat -> exists m', store m i bs = Some m'.
Proof. intros H. unfold store. destruct (Nat.leb_spec (i + length bs) (length m)); [eauto|lia]. Qed.

Definition sane (c : rrc) : Prop := length (r_rbuf c) = RBUF /\ (r_len c <= RBUF)%nat.

(** What one packet does: the file grows by [fl] (from the flush) and [fw] (the direct write). *)
Lemma step_ok m single odd c p w1 w2 : m <> REMOTE_RTP -> good m single p -> sane c ->
  exists c', write_locked m single odd c p w1 w2 = Ok c' /\ sane c' /\
    ((w1 = WAll \/ w1 = WErr) -> (w2 = WAll \/ w2 = WErr) -> r_fd c = true ->
     (r_fd c' = true /\ r_file c' ++ firstn (r_len c') (r_rbuf c') = r_file c ++ firstn (r_len c) (r_rbuf c) ++ rb m single p
        /\ (r_file c' = r_file c \/ r_file c' = r_file c ++ firstn (r_len c) (r_rbuf c) \/
            r_file c' = r_file c ++ firstn (r_len c) (r_rbuf c) ++ rb m single p)) \/
     (r_fd c' = false /\ (w1 = WErr \/ w2 = WErr) /\ (r_file c' = r_file c \/ r_file c' = r_file c ++ firstn (r_len c) (r_rbuf c)))) /\
    (r_fd c = false -> c' = c).
Proof.
  intros NR G [SL SR]. pose proof (hdrf_ok m single p G) as HD. unfold write_locked.
  destruct (r_fd c) eqn:FD; cbn [negb].
  2:{ exists c. split; [reflexivity|]. split; [split; assumption|]. split; [discriminate|reflexivity]. }
  assert (Body : exists c',
     (let '(c0, ok) := if (RBUF <? r_len c + hsz m p + length (p_data p))%nat && (0 <? r_len c)%nat
                      then flush_rbuf c w1 else (c, true) in
      if negb ok then Ok c0 else
      if (RBUF <? r_len c0 + hsz m p + length (p_data p))%nat then
        match hdrf m single p odd with
        | HUB => Overflow
        | HFail => Ok c0
        | Hdr h =>
            match sys_write (r_file c0) (firstn (hsz m p) (h ++ repeat (-1) (78 - length h)) ++ p_data p) w2 with
            | Some f => Ok (mkRrc (r_fd c0) (r_rbuf c0) (r_len c0) f (r_sent c0))
            | None => Ok (mkRrc false (r_rbuf c0) (r_len c0) (r_file c0) (r_sent c0))
            end
        end
      else
        match hdrf m single p (xorb odd (Nat.odd (r_len c0))) with
        | HUB => Overflow
        | HFail => Ok c0
        | Hdr h =>
            match store (r_rbuf c0) (r_len c0) h with
            | None => Overflow
            | Some b =>
                match store b (r_len c0 + hsz m p) (p_data p) with
                | None => Overflow
                | Some b' => Ok (mkRrc (r_fd c0) b' (r_len c0 + hsz m p + length (p_data p)) (r_file c0) (r_sent c0))
                end
            end
        end) = Ok c' /\ sane c' /\
    ((w1 = WAll \/ w1 = WErr) -> (w2 = WAll \/ w2 = WErr) ->
     (r_fd c' = true /\ r_file c' ++ firstn (r_len c') (r_rbuf c') = r_file c ++ firstn (r_len c) (r_rbuf c) ++ rb m single p
        /\ (r_file c' = r_file c \/ r_file c' = r_file c ++ firstn (r_len c) (r_rbuf c) \/
            r_file c' = r_file c ++ firstn (r_len c) (r_rbuf c) ++ rb m single p)) \/
     (r_fd c' = false /\ (w1 = WErr \/ w2 = WErr) /\ (r_file c' = r_file c \/ r_file c' = r_file c ++ firstn (r_len c) (r_rbuf c))))).
  2:{ destruct Body as (c' & E & S' & T). exists c'. split.
      - destruct m; [exact E|congruence|exact E].
      - split; [assumption|]. split; [intros; apply T; assumption|discriminate]. }
  (* the part after the flush, for a state whose file and buffer together are as before *)
  assert (After : forall c0, r_fd c0 = true -> sane c0 ->
      r_file c0 ++ firstn (r_len c0) (r_rbuf c0) = r_file c ++ firstn (r_len c) (r_rbuf c) \/ (w1 <> WAll /\ w1 <> WErr) ->
      (r_file c0 = r_file c \/ r_file c0 = r_file c ++ firstn (r_len c) (r_rbuf c) \/ (w1 <> WAll /\ w1 <> WErr)) ->
      ((RBUF < r_len c0 + hsz m p + length (p_data p))%nat -> r_len c0 = 0%nat) ->
      exists c',
      (if (RBUF <? r_len c0 + hsz m p + length (p_data p))%nat then
        match hdrf m single p odd with
        | HUB => Overflow
        | HFail => Ok c0
        | Hdr h =>
            match sys_write (r_file c0) (firstn (hsz m p) (h ++ repeat (-1) (78 - length h)) ++ p_data p) w2 with
            | Some f => Ok (mkRrc (r_fd c0) (r_rbuf c0) (r_len c0) f (r_sent c0))
            | None => Ok (mkRrc false (r_rbuf c0) (r_len c0) (r_file c0) (r_sent c0))
            end
        end
      else
        match hdrf m single p (xorb odd (Nat.odd (r_len c0))) with
        | HUB => Overflow
        | HFail => Ok c0
        | Hdr h =>
            match store (r_rbuf c0) (r_len c0) h with
            | None => Overflow
            | Some b =>
                match store b (r_len c0 + hsz m p) (p_data p) with
                | None => Overflow
                | Some b' => Ok (mkRrc (r_fd c0) b' (r_len c0 + hsz m p + length (p_data p)) (r_file c0) (r_sent c0))
                end
            end
        end) = Ok c' /\ sane c' /\
    ((w1 = WAll \/ w1 = WErr) -> (w2 = WAll \/ w2 = WErr) ->
     (r_fd c' = true /\ r_file c' ++ firstn (r_len c') (r_rbuf c') = r_file c ++ firstn (r_len c) (r_rbuf c) ++ rb m single p
        /\ (r_file c' = r_file c \/ r_file c' = r_file c ++ firstn (r_len c) (r_rbuf c) \/
            r_file c' = r_file c ++ firstn (r_len c) (r_rbuf c) ++ rb m single p)) \/
     (r_fd c' = false /\ (w1 = WErr \/ w2 = WErr) /\ (r_file c' = r_file c \/ r_file c' = r_file c ++ firstn (r_len c) (r_rbuf c))))).
  { intros c0 F0 [S0 S1] K1 K2 K3. destruct HD as [[HF RB]|(h & HH & LH & RB)].
    { rewrite !HF, RB. exists c0. split; [destruct (_ <? _)%nat; reflexivity|]. split; [split; assumption|].
      intros A1 A2. left. split; [assumption|]. rewrite app_nil_r. split; [destruct K1 as [K1|[? ?]]; [assumption|tauto]|].
      destruct K2 as [K2|[K2|[? ?]]]; tauto. }
    rewrite !HH, RB. destruct (Nat.ltb_spec RBUF (r_len c0 + hsz m p + length (p_data p))) as [B|B].
    - rewrite (firstn_len_app h) by assumption. specialize (K3 B).
      destruct w2 as [|n|]; cbn [sys_write]; (eexists; split; [reflexivity|]; split; [split; assumption|]);
        cbn [r_fd r_file r_len r_rbuf]; intros A1 A2.
      + left. split; [assumption|]. rewrite K3. cbn [firstn]. rewrite app_nil_r.
        assert (X : r_file c0 = r_file c ++ firstn (r_len c) (r_rbuf c)).
        { destruct K1 as [K1|[? ?]]; [|tauto]. rewrite K3 in K1. cbn [firstn] in K1. rewrite app_nil_r in K1. exact K1. }
        rewrite X, <- app_assoc. auto.
      + destruct A2; discriminate.
      + right. split; [reflexivity|]. split; [auto|]. destruct K2 as [K2|[K2|[? ?]]]; tauto.
    - destruct (store_ok (r_rbuf c0) h (r_len c0) ltac:(lia)) as [b Eb]. rewrite Eb.
      pose proof (store_length _ _ _ _ Eb) as Lb.
      destruct (store_ok b (p_data p) (r_len c0 + hsz m p) ltac:(lia)) as [b' Eb']. rewrite Eb'.
      pose proof (store_length _ _ _ _ Eb') as Lb'.
      eexists. split; [reflexivity|]. split; [split; cbn [r_rbuf r_len]; lia|]. cbn [r_fd r_file r_len r_rbuf]. intros A1 A2.
      left. split; [assumption|].
      apply store_firstn in Eb. apply store_firstn in Eb'. rewrite <- LH in *.
      rewrite Eb', Eb. rewrite !app_assoc. split.
      + destruct K1 as [K1|[? ?]]; [|tauto]. rewrite K1. reflexivity.
      + destruct K2 as [K2|[K2|[? ?]]]; tauto. }
  destruct ((RBUF <? r_len c + hsz m p + length (p_data p))%nat && (0 <? r_len c)%nat) eqn:FL.
  - unfold flush_rbuf. rewrite FD. destruct w1 as [|n|] eqn:W1; cbn [sys_write].
    + apply After; cbn [r_fd r_file r_len r_rbuf]; try reflexivity.
      * split; cbn [r_rbuf r_len]; [assumption|lia].
      * left. cbn [firstn]. rewrite app_nil_r. reflexivity.
      * auto.
    + apply After; cbn [r_fd r_file r_len r_rbuf]; try reflexivity.
      * split; cbn [r_rbuf r_len]; [assumption|lia].
      * right. split; discriminate.
      * right. right. split; discriminate.
    + cbn [negb]. eexists. split; [reflexivity|]. split; [split; assumption|]. intros _ _. right. cbn [r_fd r_file]. auto.
  - cbn [negb]. apply After; auto.
    + split; assumption.
    + intros B. apply andb_false_iff in FL. destruct FL as [FL|FL]; lia.
Qed.

Definition op_ok (m : rmode) (single : bool) (o : op) : Prop := good m single (pkt_of o).
Definition wall1 (o : op) : list wres := match o with Pkt _ w1 w2 => [w1; w2] end.

Definition bs (m : rmode) (single : bool) (ps : list pkt) : list Z := concat (map (rb m single) ps).
Lemma bs_app m single a b : bs m single (a ++ b) = bs m single a ++ bs m single b.
Proof. unfold bs. rewrite map_app, concat_app. reflexivity. Qed.

(** After [ps]: while the file is open, file and buffer together hold everything; the file alone always ends at the
    end of a record. *)
Definition inv (m : rmode) (single : bool) (ps : list pkt) (c : rrc) : Prop :=
  exists k, r_file c = file_hdr m ++ bs m single (firstn k ps) /\
    (r_fd c = true -> r_file c ++ firstn (r_len c) (r_rbuf c) = file_hdr m ++ bs m single ps).

Lemma run_ok m single odd : m <> REMOTE_RTP -> forall ops ps c, Forall (op_ok m single) ops -> sane c ->
  exists c', run m single odd c ops = Ok c' /\ sane c' /\
    (none_short (flat_map wall1 ops) -> inv m single ps c -> inv m single (ps ++ pkts ops) c') /\
    (all_written (flat_map wall1 ops) -> r_fd c = true -> r_fd c' = true).
Proof.
  intros NR. induction ops as [|[p w1 w2] ops IH]; intros ps c G S.
  - exists c. cbn. rewrite app_nil_r. auto.
  - inversion G as [|? ? G1 G2]; subst. cbn [op_ok pkt_of] in G1.
    destruct (step_ok m single odd c p w1 w2 NR G1 S) as (c1 & E1 & S1 & T1 & T2).
    destruct (IH (ps ++ [p]) c1 G2 S1) as (c' & E & S' & I & A).
    exists c'. cbn [run]. rewrite E1. split; [exact E|]. split; [assumption|].
    cbn [flat_map wall1 pkts map pkt_of]. split.
    + intros N Hi. apply Forall_app in N. destruct N as [N1 N2]. inversion N1 as [|? ? N3 N4]; subst. inversion N4; subst.
      replace (ps ++ p :: map pkt_of ops) with ((ps ++ [p]) ++ pkts ops) by (rewrite <- app_assoc; reflexivity).
      apply I; [assumption|]. destruct Hi as (k & F & Op). destruct (r_fd c) eqn:FD.
      2:{ rewrite (T2 eq_refl). exists (Nat.min k (length ps)). rewrite firstn_app.
          replace (Nat.min k (length ps) - length ps)%nat with 0%nat by lia. cbn [firstn]. rewrite app_nil_r, F.
          split; [|congruence]. do 2 f_equal. destruct (Nat.min_spec k (length ps)) as [[? ->]|[? ->]]; [reflexivity|].
          rewrite firstn_all. apply firstn_all2. lia. }
      specialize (Op eq_refl).
      assert (Cases : r_file c1 = r_file c \/ r_file c1 = r_file c ++ firstn (r_len c) (r_rbuf c) \/
                      r_file c1 = r_file c ++ firstn (r_len c) (r_rbuf c) ++ rb m single p).
      { destruct (T1 ltac:(assumption) ltac:(assumption) eq_refl) as [(_ & _ & X)|(_ & _ & [X|X])]; [exact X|left; exact X|right; left; exact X]. }
      assert (Opn : r_fd c1 = true -> r_file c1 ++ firstn (r_len c1) (r_rbuf c1) = file_hdr m ++ bs m single (ps ++ [p])).
      { intros Fd1. destruct (T1 ltac:(assumption) ltac:(assumption) eq_refl) as [(_ & X & _)|(X & _)]; [|congruence].
        rewrite X, app_assoc, Op, bs_app, <- app_assoc. unfold bs at 3. cbn [map concat]. rewrite app_nil_r. reflexivity. }
      destruct Cases as [C|[C|C]].
      * exists (Nat.min k (length ps)). split; [|exact Opn]. rewrite C, F, firstn_app.
        replace (Nat.min k (length ps) - length ps)%nat with 0%nat by lia. cbn [firstn]. rewrite app_nil_r.
        do 2 f_equal. destruct (Nat.min_spec k (length ps)) as [[? ->]|[? ->]]; [reflexivity|].
        rewrite firstn_all. apply firstn_all2. lia.
      * exists (length ps). split; [|exact Opn]. rewrite C, Op, firstn_app, Nat.sub_diag, firstn_all, firstn_O, app_nil_r. reflexivity.
      * exists (length (ps ++ [p])). split; [|exact Opn]. rewrite firstn_all, C, app_assoc, Op, bs_app, <- app_assoc.
        unfold bs at 3. cbn [map concat]. rewrite app_nil_r. reflexivity.
    + intros N FD. apply Forall_app in N. destruct N as [N1 N2]. inversion N1 as [|? ? N3 N4]; subst. inversion N4; subst.
      apply A; [assumption|]. destruct (T1 ltac:(auto) ltac:(auto) FD) as [(X & _)|(_ & [X|X] & _)]; [assumption|discriminate|discriminate].
Qed.

Lemma ropen_sane m : sane (ropen m).
Proof. split; cbn [ropen r_rbuf r_len]; [apply repeat_length|lia]. Qed.

Lemma session_ok m single odd ops w : m <> REMOTE_RTP -> Forall (op_ok m single) ops ->
  exists c, session m single odd ops w = Ok c /\
    (none_short (answers ops w) -> exists k, r_file c = file_hdr m ++ bs m single (firstn k (pkts ops))) /\
    (all_written (answers ops w) -> r_file c = file_hdr m ++ bs m single (pkts ops)).
Proof.
  intros NR G. destruct (run_ok m single odd NR ops [] (ropen m) G (ropen_sane m)) as (c & E & S & I & A).
  unfold session. rewrite E. eexists. split; [reflexivity|].
  assert (Ii : inv m single [] (ropen m)). { exists 0%nat. cbn [ropen r_file r_len r_fd firstn bs map concat]. split; [unfold bs; cbn; rewrite app_nil_r; reflexivity|]. intros _. unfold bs; cbn. reflexivity. }
  unfold answers. change (flat_map (fun o => match o with Pkt _ w1 w2 => [w1; w2] end) ops) with (flat_map wall1 ops).
  unfold rclose. split.
  - intros N. apply Forall_app in N. destruct N as [N1 N2]. destruct (I N1 Ii) as (k & F & Op). cbn [app] in *.
    assert (X : exists k, r_file (if (0 <? r_len c)%nat then fst (flush_rbuf c w) else c) = file_hdr m ++ bs m single (firstn k (pkts ops))).
    { destruct (0 <? r_len c)%nat; [|eauto]. unfold flush_rbuf. destruct (r_fd c) eqn:FD; [|cbn; eauto].
      inversion N2 as [|? ? [X|X] _]; subst; cbn [sys_write fst r_file]; [|eauto].
      exists (length (pkts ops)). rewrite firstn_all. auto. }
    destruct m; [exact X|congruence|exact X].
  - intros N. apply Forall_app in N. destruct N as [N1 N2]. inversion N2; subst. specialize (A N1 eq_refl).
    assert (N1' : none_short (flat_map wall1 ops)) by (eapply Forall_impl; [|exact N1]; cbn; auto).
    destruct (I N1' Ii) as (k & F & Op). cbn [app] in *. specialize (Op A).
    assert (X : r_file (if (0 <? r_len c)%nat then fst (flush_rbuf c WAll) else c) = file_hdr m ++ bs m single (pkts ops)).
    { destruct (Nat.ltb_spec 0 (r_len c)) as [B|B].
      - unfold flush_rbuf. rewrite A. cbn [sys_write fst r_file]. exact Op.
      - replace (r_len c) with 0%nat in Op by lia. cbn [firstn] in Op. rewrite app_nil_r in Op. exact Op. }
    destruct m; [exact X|congruence|exact X].
Qed.

(** ** Reading it back *)
Lemma parse_bs_pcap single : forall ps, Forall (good LOCAL_PCAP single) ps ->
  forall fuel, (length (bs LOCAL_PCAP single ps) <= fuel)%nat ->
  parse_recs fuel (bs LOCAL_PCAP single ps) = Some (flat_map (pview single) ps).
Proof.
  induction ps as [|p ps IH]; intros G fuel F.
  - destruct fuel; reflexivity.
  - inversion G as [|? ? [W S] G2]; subst. change (bs LOCAL_PCAP single (p :: ps)) with (rb LOCAL_PCAP single p ++ bs LOCAL_PCAP single ps) in *.
    rewrite app_length in F. cbn [flat_map].
    pose proof (pcap_hdr_ok single p W (S eq_refl)) as H. unfold pview at 1. unfold rb, hdrf in *.
    destruct (view single p) as [g|].
    + destruct H as (h & s & u & H1 & H2 & _ & H3 & H4). rewrite H1 in *. rewrite H3.
      rewrite <- app_assoc. rewrite app_length, H2 in F. destruct fuel as [|fuel].
      { exfalso. destruct (s_fam (p_raddr p)); cbn [get_hdr_size] in F; lia. }
      rewrite H4. rewrite IH; [reflexivity|assumption|]. destruct (s_fam (p_raddr p)); cbn [get_hdr_size] in F; lia.
    + rewrite H in *. cbn [app length] in *. destruct (dtime2timeval _) as [[? ?]|]; apply IH; auto; lia.
Qed.
Lemma parse_file_pcap single ps : Forall (good LOCAL_PCAP single) ps ->
  parse_pcap (file_hdr LOCAL_PCAP ++ bs LOCAL_PCAP single ps) = Some (flat_map (pview single) ps).
Proof.
  intros G. unfold parse_pcap. set (b := bs LOCAL_PCAP single ps).
  replace (24 <=? len (file_hdr LOCAL_PCAP ++ b)) with true.
  2:{ symmetry. apply Z.leb_le. rewrite len_app. change (len (file_hdr LOCAL_PCAP)) with 24. unfold len. lia. }
  replace (sub (file_hdr LOCAL_PCAP ++ b) 0 4) with (le32 2712847316) by reflexivity.
  replace (sub (file_hdr LOCAL_PCAP ++ b) 4 2) with (st16 2) by reflexivity.
  replace (sub (file_hdr LOCAL_PCAP ++ b) 6 2) with (st16 4) by reflexivity.
  replace (sub (file_hdr LOCAL_PCAP ++ b) 20 4) with (le32 1) by reflexivity.
  rewrite !le_num32, !le_num16 by lia. cbn [andb]. change (skipn 24 (file_hdr LOCAL_PCAP ++ b)) with b.
  rewrite !Z.eqb_refl. cbn [andb]. apply parse_bs_pcap; [assumption|]. fold b. rewrite app_length. lia.
Qed.

Lemma adhoc_step p fuel rest : wf_pkt p ->
  parse_adhoc (S fuel) (adhoc_hdr p ++ p_data p ++ rest) =
  match parse_adhoc fuel rest with Some t => Some (aview p :: t) | None => None end.
Proof.
  intros W. pose proof (adhoc_len p W) as LH.
  destruct W as ((Br & Lr & Pr) & _ & _ & _ & _ & _ & _ & Bt & Lt & Ht & _).
  set (l := adhoc_hdr p ++ p_data p ++ rest).
  assert (Hn : sub l 28 2 = st16 (u16 (plen p))).
  { subst l. unfold adhoc_hdr. cbv zeta. destruct (s_fam (p_raddr p)) eqn:F; cbn [alen] in Lr;
      destruct (s_ip (p_raddr p)) as [|b0 [|b1 [|b2 [|b3 [|b4 [|b5 [|b6 [|b7 [|b8 [|b9 [|b10 [|b11 [|b12 [|b13 [|b14 [|b15 [|b16 x]]]]]]]]]]]]]]]]]; try discriminate; reflexivity. }
  assert (Hf : sub l 0 2 = st16 (if is_v6 (s_fam (p_raddr p)) then 10 else 2)).
  { subst l. unfold adhoc_hdr. cbv zeta. destruct (s_fam (p_raddr p)) eqn:F; reflexivity. }
  assert (Hp : sub l 2 2 = be16 (s_port (p_raddr p))).
  { subst l. unfold adhoc_hdr. cbv zeta. destruct (s_fam (p_raddr p)) eqn:F; reflexivity. }
  assert (Ha : sub l 4 (if is_v6 (s_fam (p_raddr p)) then 16 else 4) = s_ip (p_raddr p)).
  { subst l. unfold adhoc_hdr. cbv zeta. destruct (s_fam (p_raddr p)) eqn:F; cbn [alen] in Lr; cbn [is_v6];
      destruct (s_ip (p_raddr p)) as [|b0 [|b1 [|b2 [|b3 [|b4 [|b5 [|b6 [|b7 [|b8 [|b9 [|b10 [|b11 [|b12 [|b13 [|b14 [|b15 [|b16 x]]]]]]]]]]]]]]]]]; try discriminate; reflexivity. }
  assert (Hm : sub l 20 8 = le64 (p_time p)).
  { subst l. unfold adhoc_hdr. cbv zeta. destruct (s_fam (p_raddr p)) eqn:F; cbn [alen] in Lr;
      destruct (s_ip (p_raddr p)) as [|b0 [|b1 [|b2 [|b3 [|b4 [|b5 [|b6 [|b7 [|b8 [|b9 [|b10 [|b11 [|b12 [|b13 [|b14 [|b15 [|b16 x]]]]]]]]]]]]]]]]]; try discriminate; reflexivity. }
  assert (Hu : u16 (plen p) = len (p_data p)) by (apply u16_small; unfold plen, len in *; lia).
  assert (0 <= len (p_data p)) by (unfold len; lia).
  assert (Hd : sub l 30 (Z.to_nat (len (p_data p))) = p_data p).
  { subst l. rewrite sub_app by lia. rewrite LH. cbn [Nat.sub]. apply sub_0. unfold len. lia. }
  assert (Hr : skipn (30 + Z.to_nat (len (p_data p))) l = rest).
  { subst l. rewrite skipn_app' by lia. rewrite LH. rewrite skipn_app' by (unfold len; lia).
    replace (30 + Z.to_nat (len (p_data p)) - 30 - length (p_data p))%nat with 0%nat by (unfold len; lia). reflexivity. }
  assert (HL : 30 + len (p_data p) <= len l).
  { subst l. unfold len. rewrite !app_length. lia. }
  assert (exists x y, l = x :: y) as (x & y & El).
  { destruct l as [|x y]; [exfalso; change (len []) with 0 in HL; lia|eauto]. }
  assert (U : parse_adhoc (S fuel) l =
      let n := le_num (sub l 28 2) in
      let fm := le_num (sub l 0 2) in
      if (30 + n <=? len l) && ((fm =? 2) || (fm =? 10)) then
        match parse_adhoc fuel (skipn (30 + Z.to_nat n) l) with
        | Some t => Some (mkAd (fm =? 10) (sub l 4 (if fm =? 10 then 16 else 4)) (be_num (sub l 2 2))
                            (le_num (sub l 20 8)) (sub l 30 (Z.to_nat n)) :: t)
        | None => None
        end
      else None) by (rewrite El; reflexivity).
  rewrite U. cbv zeta. clear U El x y. rewrite Hn, Hf, Hp, Hm. clearbody l. rewrite Hu. rewrite le_num16 by lia.
  rewrite be_num16 by lia. rewrite le_num64 by lia.
  assert (Hfm : le_num (st16 (if is_v6 (s_fam (p_raddr p)) then 10 else 2)) = if is_v6 (s_fam (p_raddr p)) then 10 else 2).
  { apply le_num16. destruct (is_v6 _); lia. }
  rewrite Hfm. rewrite Hd, Hr.
  replace (30 + len (p_data p) <=? len l) with true by lia.
  unfold aview. destruct (is_v6 (s_fam (p_raddr p))); cbn [Z.eqb Pos.eqb orb andb]; rewrite Ha; reflexivity.
Qed.
Lemma parse_file_adhoc single : forall ps, Forall (good LOCAL_PKT single) ps ->
  forall fuel, (length (bs LOCAL_PKT single ps) <= fuel)%nat ->
  parse_adhoc fuel (bs LOCAL_PKT single ps) = Some (map aview ps).
Proof.
  induction ps as [|p ps IH]; intros G fuel F.
  - destruct fuel; reflexivity.
  - inversion G as [|? ? [W S] G2]; subst. change (bs LOCAL_PKT single (p :: ps)) with ((adhoc_hdr p ++ p_data p) ++ bs LOCAL_PKT single ps) in *.
    rewrite !app_length, (adhoc_len p W) in F. destruct fuel as [|fuel]; [lia|]. rewrite <- app_assoc.
    rewrite adhoc_step by assumption. rewrite IH; [reflexivity|assumption|lia].
Qed.

Lemma udp_sums v6 src dst u g : parse_udp v6 src dst u = Some g ->
  verifies ((if v6 then pseudo6 src dst (be_num (sub u 4 2)) else pseudo4 src dst (be_num (sub u 4 2))) ++ u).
Proof.
  unfold parse_udp, verifies. cbv zeta. set (x := oc_sum _). destruct (Z.eqb_spec x 65535); [auto|].
  rewrite andb_false_r. discriminate.
Qed.
Lemma frame_sums fr g : parse_frame fr = Some g -> sums_ok fr.
Proof.
  unfold parse_frame, sums_ok. destruct (Z.eqb_spec (be_num (sub fr 12 2)) 2048) as [E|E].
  - rewrite E. intros H. left. split; [reflexivity|]. unfold parse_ip4 in H. unfold verifies.
    destruct (Z.eqb_spec (oc_sum (sub (skipn 14 fr) 0 20)) 65535) as [X|X]; [|rewrite andb_false_r in H; discriminate].
    split; [exact X|]. destruct (_ && _); [|discriminate]. exact (udp_sums _ _ _ _ _ H).
  - destruct (Z.eqb_spec (be_num (sub fr 12 2)) 34525) as [E'|E']; [|discriminate]. rewrite E'. intros H. right.
    split; [reflexivity|]. unfold parse_ip6 in H. destruct (_ && _); [|discriminate]. exact (udp_sums _ _ _ _ _ H).
Qed.
Lemma remote_run single odd : forall ops c, r_fd c = true ->
  exists c', run REMOTE_RTP single odd c ops = Ok c' /\ r_sent c' = r_sent c ++ map p_data (pkts ops).
Proof.
  induction ops as [|[p w1 w2] ops IH]; intros c F.
  - exists c. cbn. rewrite app_nil_r. auto.
  - cbn [run]. unfold write_locked. rewrite F. cbn [negb].
    destruct (IH (mkRrc true (r_rbuf c) (r_len c) (r_file c) (r_sent c ++ [p_data p])) eq_refl) as (c' & E & R).
    exists c'. split; [exact E|]. rewrite R. cbn [r_sent pkts map pkt_of]. rewrite <- app_assoc. reflexivity.
Qed.

(** A checker for the examples *)
Definition byteb (b : Z) : bool := (0 <=? b) && (b <? 256).
Definition port_okb (x : Z) : bool := (0 <=? x) && (x <? 65536).
Definition famb (a b : fam) : bool := match a, b with V4, V4 | V6, V6 => true | _, _ => false end.
Definition wf_sab (a : sa) : bool := forallb byteb (s_ip a) && (length (s_ip a) =? alen (s_fam a))%nat && port_okb (s_port a).
Definition wfb (p : pkt) : bool :=
  wf_sab (p_raddr p) && forallb byteb (p_laddr p) && (length (p_laddr p) =? alen (s_fam (p_raddr p)))%nat && port_okb (p_lport p) &&
  wf_sab (p_oaddr p) && match p_orem p with Some a => wf_sab a && famb (s_fam a) (s_fam (p_oaddr p)) | None => true end &&
  match p_l4r p with Some a => forallb byteb a && (length a =? alen (s_fam (p_raddr p)))%nat | None => true end &&
  forallb byteb (p_data p) && (len (p_data p) <=? 8192) &&
  ((0 <=? p_time p) && (p_time p <? 9218868437227405312)) && (d_sec (dbl_of_bits (p_time p)) <? 4294967295).
Lemma bytesb_ok l : forallb byteb l = true -> bytes l.
Proof. intros H. apply Forall_forall. intros x Hx. rewrite forallb_forall in H. specialize (H x Hx). unfold byteb in H. lia. Qed.
Lemma wf_sab_ok a : wf_sab a = true -> wf_sa a.
Proof.
  unfold wf_sab, wf_sa, port_okb. intros H. apply andb_prop in H. destruct H as [H P]. apply andb_prop in H. destruct H as [B L].
  split; [apply bytesb_ok; assumption|]. apply Nat.eqb_eq in L. split; [assumption|]. lia.
Qed.
Lemma wfb_ok p : wfb p = true -> wf_pkt p.
Proof.
  unfold wfb, wf_pkt. intros H. rewrite !andb_true_iff in H.
  destruct H as [[[[[[[[[[H1 H2] H3] H4] H5] H6] H7] H8] H9] H10] H11]. unfold port_okb in *. split; [apply wf_sab_ok; assumption|]. split; [apply bytesb_ok; assumption|].
  split; [apply Nat.eqb_eq; assumption|]. split; [lia|]. split; [apply wf_sab_ok; assumption|].
  split. { intros a E. rewrite E in *. apply andb_prop in H6. destruct H6 as [H6 Y].
           split; [apply wf_sab_ok; assumption|]. destruct (s_fam a), (s_fam (p_oaddr p)); cbn in *; congruence. }
  split. { intros a E. rewrite E in *. apply andb_prop in H7. destruct H7 as [H7 Y].
           split; [apply bytesb_ok; assumption|apply Nat.eqb_eq; assumption]. }
  split; [apply bytesb_ok; assumption|]. split; [lia|]. split; [|lia].
  lia.
Qed.
Lemma wfs_ok ps : forallb wfb ps = true -> Forall wf_pkt ps.
Proof. intros H. apply Forall_forall. intros p Hp. apply wfb_ok. rewrite forallb_forall in H. auto. Qed.
