(** Proofs about reading recordings. *)
From Verif Require Import Base CksumModel CksumSpec CksumProof TimeModel RecModel RecSpec RecProof SplitProof RtpModel RtpSpec RtpProof RtpThm AnaModel LoadModel LoadSpec.
From Coq Require Import Sorting Permutation.

(** ** Reading numbers *)

Lemma size_app a b : size (a ++ b) = size a + size b.
Proof. unfold size. rewrite app_length. lia. Qed.
Lemma size_pos l : 0 <= size l.
Proof. unfold size. lia. Qed.
Lemma peek_rest pre rest k : (k < length rest)%nat -> peek (pre ++ rest) (size pre + Z.of_nat k) = Some (nth k rest 0).
Proof.
  intros H. unfold peek. rewrite size_app. pose proof (size_pos pre). unfold size in *.
  replace (Z.of_nat (length pre) + Z.of_nat k <? 0) with false by lia.
  replace (Z.of_nat (length pre) + Z.of_nat k <? Z.of_nat (length pre) + Z.of_nat (length rest)) with true by lia.
  replace (Z.to_nat (Z.of_nat (length pre) + Z.of_nat k)) with (length pre + k)%nat by lia.
  rewrite nth_error_app2 by lia. replace (length pre + k - length pre)%nat with k by lia. apply nth_error_nth'. exact H.
Qed.
Lemma sub2 l k : (k + 2 <= length l)%nat -> sub l k 2 = [nth k l 0; nth (k + 1) l 0].
Proof.
  intros H. unfold sub. revert l H. induction k as [|k IH]; intros l H; destruct l as [|a l]; cbn [length] in H; try lia.
  - destruct l as [|b l]; cbn [length] in H; [lia|reflexivity].
  - cbn [skipn nth Nat.add]. apply IH. lia.
Qed.
Lemma sub4 l k : (k + 4 <= length l)%nat -> sub l k 4 = [nth k l 0; nth (k + 1) l 0; nth (k + 2) l 0; nth (k + 3) l 0].
Proof.
  intros H. unfold sub. revert l H. induction k as [|k IH]; intros l H; destruct l as [|a l]; cbn [length] in H; try lia.
  - do 3 (destruct l as [|? l]; cbn [length] in H; [lia|]). reflexivity.
  - cbn [skipn nth Nat.add]. apply IH. lia.
Qed.
Lemma skipn_skipn {A} a b (l : list A) : skipn a (skipn b l) = skipn (b + a) l.
Proof. revert l. induction b as [|b IH]; intros l; [reflexivity|]. destruct l; [rewrite !skipn_nil; reflexivity|]. cbn [skipn Nat.add]. apply IH. Qed.
Lemma sub8 l k : (k + 8 <= length l)%nat -> sub l k 8 = sub l k 4 ++ sub l (k + 4) 4.
Proof.
  intros H. unfold sub. replace 8%nat with (4 + 4)%nat by reflexivity. rewrite <- (firstn_skipn 4 (firstn (4 + 4) (skipn k l))). f_equal.
  - rewrite firstn_firstn. reflexivity.
  - rewrite skipn_firstn_comm. cbn [Nat.sub]. rewrite skipn_skipn. reflexivity.
Qed.
Lemma peek16_rest pre rest k : (k + 2 <= length rest)%nat -> peek16 (pre ++ rest) (size pre + Z.of_nat k) = Some (le_num (sub rest k 2)).
Proof.
  intros H. unfold peek16. rewrite peek_rest by lia. replace (size pre + Z.of_nat k + 1) with (size pre + Z.of_nat (k + 1)) by lia. rewrite peek_rest by lia.
  rewrite sub2 by lia. unfold le_num, be_num. cbn. f_equal. lia.
Qed.
Lemma peek32_rest pre rest k : (k + 4 <= length rest)%nat -> peek32 (pre ++ rest) (size pre + Z.of_nat k) = Some (le_num (sub rest k 4)).
Proof.
  intros H. unfold peek32. rewrite peek16_rest by lia. replace (size pre + Z.of_nat k + 2) with (size pre + Z.of_nat (k + 2)) by lia. rewrite peek16_rest by lia.
  rewrite sub4, !sub2 by lia. replace (k + 2 + 1)%nat with (k + 3)%nat by lia. unfold le_num, be_num. cbn [rev app fold_left]. f_equal. lia.
Qed.
Lemma slice_mid a b c : slice (a ++ b ++ c) (size a) (size b) = Some b.
Proof.
  unfold slice. rewrite !size_app. pose proof (size_pos a). pose proof (size_pos b). pose proof (size_pos c).
  replace ((size a <? 0) || (size b <? 0) || (size a + (size b + size c) <? size a + size b)) with false by lia.
  unfold size. rewrite !Nat2Z.id, skipn_app, skipn_all, Nat.sub_diag. cbn [skipn app]. rewrite firstn_app, firstn_all, Nat.sub_diag. cbn [firstn]. rewrite app_nil_r. reflexivity.
Qed.
Lemma sub_app1 a b k n : (k + n <= length a)%nat -> sub (a ++ b) k n = sub a k n.
Proof.
  intros H. unfold sub. rewrite skipn_app, firstn_app, skipn_length. replace (n - (length a - k))%nat with 0%nat by lia. cbn [firstn]. apply app_nil_r.
Qed.
Lemma sub_app2 a b k n : sub (a ++ b) (length a + k) n = sub b k n.
Proof. unfold sub. rewrite skipn_app, skipn_all2 by lia. replace (length a + k - length a)%nat with k by lia. reflexivity. Qed.
Lemma s32_small x : -2147483648 <= x < 2147483648 -> s32 x = x.
Proof. intros H. unfold s32. lia. Qed.

Definition bytes8 (l : list Z) : Prop := Forall (fun b => 0 <= b < 256) l.
Lemma bytes8_nth l k : bytes8 l -> 0 <= nth k l 0 < 256.
Proof. intros H. destruct (Nat.lt_ge_cases k (length l)); [|rewrite nth_overflow by lia; lia]. unfold bytes8 in H. rewrite Forall_forall in H. apply H. apply nth_In. assumption. Qed.
Lemma etype_le l k : bytes8 l -> (k + 2 <= length l)%nat -> (le_num (sub l k 2) =? 8) = (be_num (sub l k 2) =? 2048).
Proof.
  intros B H. rewrite sub2 by lia. pose proof (bytes8_nth l k B). pose proof (bytes8_nth l (k + 1) B). unfold le_num, be_num. cbn [rev app fold_left]. lia.
Qed.

(** ** Records *)

Lemma dissect_record net pre h frame rest : net = 0 \/ net = 1 -> bytes8 frame -> length h = 16%nat -> le_num (sub h 8 4) = len frame ->
  fits net (0, 0, frame) ->
  pcap_dissect (pre ++ h ++ frame ++ rest) (size pre) net =
    if inet net frame then DUdp (le_num (sub h 0 4)) (le_num (sub h 4 4)) (size pre + (16 + Z.of_nat (link_len net) + 28)) (len frame - (Z.of_nat (link_len net) + 28)) (16 + Z.of_nat (link_len net) + 28)
    else DUnk (16 + len frame).
Proof.
  intros N B Lh Li F. unfold fits in F. cbn [snd] in F. unfold len in *. set (f := pre ++ h ++ frame ++ rest).
  assert (Sz : size f - size pre = 16 + Z.of_nat (length frame) + Z.of_nat (length rest)) by (unfold f; rewrite !size_app; unfold size; lia).
  assert (P0 : peek32 f (size pre) = Some (le_num (sub h 0 4))).
  { unfold f. replace (size pre) with (size pre + Z.of_nat 0) by lia. rewrite peek32_rest by (rewrite app_length; lia). rewrite sub_app1 by lia. reflexivity. }
  assert (P4 : peek32 f (size pre + 4) = Some (le_num (sub h 4 4))).
  { unfold f. change 4 with (Z.of_nat 4) at 1. rewrite peek32_rest by (rewrite app_length; lia). rewrite sub_app1 by lia. reflexivity. }
  assert (P8 : peek32 f (size pre + 8) = Some (Z.of_nat (length frame))).
  { unfold f. change 8 with (Z.of_nat 8) at 1. rewrite peek32_rest by (rewrite app_length; lia). rewrite sub_app1 by lia. rewrite Li. reflexivity. }
  unfold pcap_dissect. rewrite Sz. destruct N as [->| ->]; cbn [Z.eqb] in *; [change (link_len 0) with 4%nat in *|change (link_len 1) with 14%nat in *].
  - assert (P16 : peek32 f (size pre + 16) = Some (le_num (sub frame 0 4))).
    { unfold f. change 16 with (Z.of_nat 16) at 1. rewrite peek32_rest by (rewrite !app_length; lia). rewrite app_assoc. replace 16%nat with (length h + 0)%nat at 1 by lia. rewrite <- app_assoc, sub_app2, sub_app1 by lia. reflexivity. }
    replace (16 + Z.of_nat (length frame) + Z.of_nat (length rest) <? 48) with false by lia. rewrite P16, P8, P0, P4. cbn [inet Z.eqb].
    destruct (le_num (sub frame 0 4) =? 2); cbn [negb]; rewrite s32_small by lia; [|reflexivity].
    replace (Z.of_nat (length frame) + 16 - 48 <? 0) with false by lia. f_equal; lia.
  - assert (P28 : peek16 f (size pre + 28) = Some (le_num (sub frame 12 2))).
    { unfold f. change 28 with (Z.of_nat 28) at 1. rewrite peek16_rest by (rewrite !app_length; lia). replace 28%nat with (length h + 12)%nat at 1 by lia. rewrite sub_app2, sub_app1 by lia. reflexivity. }
    replace (16 + Z.of_nat (length frame) + Z.of_nat (length rest) <? 58) with false by lia. rewrite P28, P8, P0, P4. cbn [inet Z.eqb]. change (inet 1 frame) with (be_num (sub frame 12 2) =? 2048).
    rewrite etype_le by (assumption || lia). destruct (be_num (sub frame 12 2) =? 2048); cbn [negb]; rewrite s32_small by lia; [|reflexivity].
    replace (Z.of_nat (length frame) + 16 - 58 <? 0) with false by lia. f_equal; lia.
Qed.

Lemma scan_records net l rs : net = 0 \/ net = 1 -> records l rs -> bytes8 l -> Forall (fits net) rs ->
  forall pre fuel n, (length l < fuel)%nat -> scan_pcap fuel (pre ++ l) net (size pre) n = SCount (n + Z.of_nat (length (datagrams net rs))).
Proof.
  intros N R. induction R as [|h frame l rs Lh Li R IH]; intros B F pre fuel n Hf; (destruct fuel as [|fuel]; [lia|]); cbn [scan_pcap].
  - rewrite app_nil_r, Z.ltb_irrefl, Z.eqb_refl. cbn. f_equal. lia.
  - inversion F as [|? ? F1 F2]; subst. unfold bytes8 in B. apply Forall_app in B. destruct B as [_ B]. apply Forall_app in B. destruct B as [Bf Bl].
    unfold fits in F1. cbn [snd] in F1.
    replace (size pre <? size (pre ++ h ++ frame ++ l)) with true by (rewrite !size_app; unfold size; lia).
    rewrite dissect_record by (auto; unfold fits; cbn [snd]; exact F1).
    rewrite !app_length in Hf.
    specialize (IH Bl F2 (pre ++ h ++ frame) fuel). rewrite <- !app_assoc, !size_app in IH. unfold len in *. unfold size in IH at 2 3. rewrite Lh in IH.
    unfold datagrams. cbn [flat_map snd fst]. fold (datagrams net rs). destruct (inet net frame).
    + replace (2147483647 <? _) with false by lia.
      replace (size pre + _) with (size pre + (Z.of_nat 16 + Z.of_nat (length frame))) by lia. rewrite IH by lia. cbn [app length]. f_equal. lia.
    + replace (size pre + _) with (size pre + (Z.of_nat 16 + Z.of_nat (length frame))) by lia. rewrite IH by lia. reflexivity.
Qed.

(** Taking the datagrams one after another *)
Fixpoint go (answer : bool) (s : lst) (ds : list (option Z * list Z)) : lres :=
  match ds with
  | [] => LCount (s_count s) (s_ch s)
  | (t, d) :: ds => match take answer s t d with Outside => LOob | Stop s => LBad (s_ch s) | Go s => go answer s ds end
  end.
Lemma take_short answer s t d : Z.of_nat (length d) < 12 -> take answer s t d = Go s.
Proof. intros H. unfold take, parse_raw. replace (Z.of_nat (length d) <? 12) with true by lia. reflexivity. Qed.
Lemma load_records answer net l rs : net = 0 \/ net = 1 -> records l rs -> bytes8 l -> Forall (fits net) rs ->
  forall pre fuel s, (length l < fuel)%nat -> load_pcap fuel answer (pre ++ l) net (size pre) s =
    go answer s (datagrams net rs).
Proof.
  intros N R. induction R as [|h frame l rs Lh Li R IH]; intros B F pre fuel s Hf; (destruct fuel as [|fuel]; [lia|]); cbn [load_pcap].
  - rewrite app_nil_r, Z.ltb_irrefl, Z.eqb_refl. reflexivity.
  - inversion F as [|? ? F1 F2]; subst. unfold bytes8 in B. apply Forall_app in B. destruct B as [_ B]. apply Forall_app in B. destruct B as [Bf Bl].
    unfold fits in F1. cbn [snd] in F1.
    replace (size pre <? size (pre ++ h ++ frame ++ l)) with true by (rewrite !size_app; unfold size; lia).
    rewrite dissect_record by (auto; unfold fits; cbn [snd]; exact F1).
    rewrite !app_length in Hf.
    specialize (IH Bl F2 (pre ++ h ++ frame) fuel). rewrite <- !app_assoc, !size_app in IH. unfold len in *. unfold size in IH at 2 3. rewrite Lh in IH.
    unfold datagrams. cbn [flat_map snd fst]. fold (datagrams net rs). destruct (inet net frame).
    + replace (2147483647 <? _) with false by lia. cbn [app].
      set (k := (link_len net + 28)%nat) in *.
      assert (Sl : slice (pre ++ h ++ frame ++ l) (size pre + (16 + Z.of_nat (link_len net) + 28)) (Z.of_nat (length frame) - (Z.of_nat (link_len net) + 28)) = Some (skipn k frame)).
      { rewrite <- (slice_mid (pre ++ h ++ firstn k frame) (skipn k frame) l). f_equal.
        - rewrite <- !app_assoc. do 2 f_equal. rewrite app_assoc, firstn_skipn. reflexivity.
        - rewrite !size_app. unfold size. rewrite firstn_length. lia.
        - unfold size. rewrite skipn_length. lia. }
      replace (size pre + (16 + Z.of_nat (link_len net) + 28 + (Z.of_nat (length frame) - (Z.of_nat (link_len net) + 28)))) with (size pre + (Z.of_nat 16 + Z.of_nat (length frame))) by lia.
      destruct (_ <? 12) eqn:E12.
      * rewrite IH by lia. cbn [go]. rewrite take_short by (rewrite skipn_length; lia). reflexivity.
      * rewrite Sl. cbn [go]. destruct (take answer s _ (skipn k frame)); [apply IH; lia|reflexivity|reflexivity].
    + replace (size pre + _) with (size pre + (Z.of_nat 16 + Z.of_nat (length frame))) by lia. rewrite IH by lia. reflexivity.
Qed.

(** ** The older format *)

Lemma ad_dissect l rs : ad_records l rs -> forall pre fuel, (length l < fuel)%nat ->
  (filter long rs = [] /\ adhoc_dissect fuel (pre ++ l) (size pre) = AEof (size (pre ++ l))) \/
  exists m h d l' rs', l = m ++ h ++ d ++ l' /\ length h = 30%nat /\ ad_records l' rs' /\ 12 <= len d /\
    filter long rs = (dtime (le_num (sub h 20 8)), d) :: filter long rs' /\
    adhoc_dissect fuel (pre ++ l) (size pre) = AOk (size (pre ++ m)) (size (pre ++ m) + 30) (len d) (size (pre ++ m) + 30 + len d).
Proof.
  intros R. induction R as [|h d l rs Lh Ld R IH]; intros pre fuel Hf; (destruct fuel as [|fuel]; [lia|]); cbn [adhoc_dissect].
  - left. rewrite app_nil_r, Z.ltb_irrefl. split; reflexivity.
  - rewrite !app_length in Hf.
    replace (size pre <? size (pre ++ h ++ d ++ l)) with true by (rewrite !size_app; unfold size; lia).
    assert (P : peek16 (pre ++ h ++ d ++ l) (size pre + 28) = Some (len d)).
    { change 28 with (Z.of_nat 28). rewrite peek16_rest by (rewrite app_length; lia). rewrite sub_app1 by lia. rewrite Ld. reflexivity. }
    rewrite P. cbn [filter]. change (long (dtime (le_num (sub h 20 8)), d)) with (12 <=? len d). destruct (Z.ltb_spec (len d) 12) as [H|H].
    + replace (12 <=? len d) with false by lia.
      specialize (IH (pre ++ h ++ d) fuel ltac:(lia)). rewrite <- !app_assoc in IH.
      replace (size pre + 30 + len d) with (size (pre ++ h ++ d)) by (rewrite !size_app; unfold size, len; lia).
      destruct IH as [IH|(m & h' & d' & l' & rs' & E & A1 & A2 & A3 & A4 & A5)]; [left; exact IH|].
      right. exists (h ++ d ++ m), h', d', l', rs'. rewrite <- !app_assoc in A5. rewrite <- !app_assoc, E in *. auto 10.
    + replace (12 <=? len d) with true by lia.
      replace (size (pre ++ h ++ d ++ l) <? size pre + 30 + len d) with false by (rewrite !size_app; unfold size, len; lia).
      right. exists [], h, d, l, rs. rewrite app_nil_r. cbn [app]. auto 10.
Qed.

Lemma scan_ad fuel : forall l rs pre n, ad_records l rs -> (length l < fuel)%nat ->
  scan_adhoc fuel (pre ++ l) (size pre) n = SCount (n + Z.of_nat (length (filter long rs))).
Proof.
  induction fuel as [|fuel IH]; intros l rs pre n R Hf; [lia|]. cbn [scan_adhoc].
  destruct l as [|b l].
  { inversion R; [|destruct h; [discriminate|discriminate]]. rewrite app_nil_r, Z.ltb_irrefl, Z.eqb_refl. cbn. f_equal. lia. }
  replace (size pre <? size (pre ++ b :: l)) with true by (rewrite size_app; unfold size; cbn [length]; lia).
  destruct (ad_dissect _ _ R pre (S fuel) Hf) as [[E D]|(m & h & d & l' & rs' & El & Lh & R' & Hd & E & D)]; rewrite D, E.
  - destruct fuel as [|fuel]; [cbn [length] in Hf; lia|]. cbn [scan_adhoc]. rewrite Z.ltb_irrefl, Z.eqb_refl. cbn. f_equal. lia.
  - rewrite El in *. rewrite !app_length in Hf. specialize (IH l' rs' (pre ++ m ++ h ++ d) (n + 1) R' ltac:(lia)).
    rewrite <- !app_assoc in IH. replace (size (pre ++ m) + 30 + len d) with (size (pre ++ m ++ h ++ d)) by (rewrite !size_app; unfold size, len; lia).
    rewrite IH. cbn [length]. f_equal. lia.
Qed.

Lemma load_ad answer fuel : forall l rs pre s, ad_records l rs -> (length l < fuel)%nat ->
  load_adhoc fuel answer (pre ++ l) (size pre) s = go answer s (filter long rs).
Proof.
  induction fuel as [|fuel IH]; intros l rs pre s R Hf; [lia|]. cbn [load_adhoc].
  destruct l as [|b l].
  { inversion R; [|destruct h; [discriminate|discriminate]]. rewrite app_nil_r, Z.ltb_irrefl, Z.eqb_refl. reflexivity. }
  replace (size pre <? size (pre ++ b :: l)) with true by (rewrite size_app; unfold size; cbn [length]; lia).
  destruct (ad_dissect _ _ R pre (S fuel) Hf) as [[E D]|(m & h & d & l' & rs' & El & Lh & R' & Hd & E & D)]; rewrite D, E.
  - destruct fuel as [|fuel]; [cbn [length] in Hf; lia|]. cbn [load_adhoc]. rewrite Z.ltb_irrefl, Z.eqb_refl. reflexivity.
  - rewrite El in *. rewrite !app_length in Hf.
    assert (Sl : slice (pre ++ m ++ h ++ d ++ l') (size (pre ++ m) + 30) (len d) = Some d).
    { rewrite <- (slice_mid (pre ++ m ++ h) d l'). f_equal; [rewrite <- !app_assoc; reflexivity|rewrite !size_app; unfold size; lia]. }
    assert (P20 : peek32 (pre ++ m ++ h ++ d ++ l') (size (pre ++ m) + 20) = Some (le_num (sub h 20 4))).
    { rewrite (app_assoc pre m). change 20 with (Z.of_nat 20) at 1. rewrite peek32_rest by (rewrite app_length; lia). rewrite sub_app1 by lia. reflexivity. }
    assert (P24 : peek32 (pre ++ m ++ h ++ d ++ l') (size (pre ++ m) + 24) = Some (le_num (sub h 24 4))).
    { rewrite (app_assoc pre m). change 24 with (Z.of_nat 24) at 1. rewrite peek32_rest by (rewrite app_length; lia). rewrite sub_app1 by lia. reflexivity. }
    rewrite Sl, P20, P24. cbn [go].
    replace (le_num (sub h 20 8)) with (le_num (sub h 20 4) + 4294967296 * le_num (sub h 24 4)).
    2: { rewrite sub8 by lia. rewrite !sub4 by lia. unfold le_num, be_num. cbn [rev app fold_left Nat.add]. lia. }
    destruct (take answer s _ d) as [s'|s'|]; [|reflexivity|reflexivity].
    specialize (IH l' rs' (pre ++ m ++ h ++ d) s' R' ltac:(lia)).
    rewrite <- !app_assoc in IH. replace (size (pre ++ m) + 30 + len d) with (size (pre ++ m ++ h ++ d)) by (rewrite !size_app; unfold size, len; lia).
    exact IH.
Qed.

(** ** Recordings *)

Lemma load_kind_pcap net h l : net = 0 \/ net = 1 -> pcap_header net h -> rtpp_load (h ++ l) = Pcap net.
Proof.
  intros N (Lh & M & V1 & V2 & Nt). unfold rtpp_load.
  assert (P : forall k, (k + 4 <= 24)%nat -> peek32 (h ++ l) (Z.of_nat k) = Some (le_num (sub h k 4))).
  { intros k Hk. pose proof (peek32_rest [] (h ++ l) k) as Q. cbn [app] in Q. unfold size in Q at 1. cbn [length] in Q. replace (Z.of_nat 0 + Z.of_nat k) with (Z.of_nat k) in Q by lia.
    rewrite Q by (rewrite app_length; lia). rewrite sub_app1 by lia. reflexivity. }
  assert (P2 : forall k, (k + 2 <= 24)%nat -> peek16 (h ++ l) (Z.of_nat k) = Some (le_num (sub h k 2))).
  { intros k Hk. pose proof (peek16_rest [] (h ++ l) k) as Q. cbn [app] in Q. unfold size in Q at 1. cbn [length] in Q. replace (Z.of_nat 0 + Z.of_nat k) with (Z.of_nat k) in Q by lia.
    rewrite Q by (rewrite app_length; lia). rewrite sub_app1 by lia. reflexivity. }
  replace (size (h ++ l) =? 0) with false by (rewrite size_app; unfold size; lia).
  change 0 with (Z.of_nat 0) at 1. rewrite P by lia. rewrite M. cbn [Z.eqb Pos.eqb negb].
  replace (size (h ++ l) <? 24) with false by (rewrite size_app; unfold size; lia).
  change 20 with (Z.of_nat 20). change 4 with (Z.of_nat 4) at 1. change 6 with (Z.of_nat 6). rewrite P, !P2 by lia. rewrite Nt, V1, V2.
  destruct N as [->| ->]; reflexivity.
Qed.
Lemma peek_page f i : 0 <= i < page_end f -> exists b, peek f i = Some b.
Proof.
  unfold page_end. intros H. unfold peek. replace (i <? 0) with false by lia. destruct (Z.ltb_spec i (size f)) as [L|L].
  - destruct (nth_error f (Z.to_nat i)) eqn:E; [eauto|]. apply nth_error_None in E. unfold size in L. lia.
  - replace (i <? (size f + 4095) / 4096 * 4096) with true by lia. eauto.
Qed.
Lemma peek16_page f i : 0 <= i -> peek16 f i = None -> page_end f < i + 2.
Proof.
  intros H E. destruct (Z.lt_ge_cases (page_end f) (i + 2)) as [|L]; [assumption|]. exfalso. unfold peek16 in E.
  destruct (peek_page f i) as [a Ea]; [lia|]. destruct (peek_page f (i + 1)) as [b Eb]; [lia|]. rewrite Ea, Eb in E. discriminate.
Qed.
Lemma peek32_page f i : 0 <= i -> peek32 f i = None -> page_end f < i + 4.
Proof.
  intros H E. destruct (Z.lt_ge_cases (page_end f) (i + 4)) as [|L]; [assumption|]. exfalso. unfold peek32 in E.
  destruct (peek16 f i) eqn:E1; [|apply peek16_page in E1; lia]. destruct (peek16 f (i + 2)) eqn:E2; [discriminate|apply peek16_page in E2; lia].
Qed.
Lemma peek_byte f i b : bytes8 f -> peek f i = Some b -> 0 <= b < 256.
Proof.
  intros B. unfold peek. destruct (i <? 0); [discriminate|]. destruct (i <? size f).
  - intros E. apply nth_error_In in E. unfold bytes8 in B. rewrite Forall_forall in B. apply B. exact E.
  - destruct (_ <? _); [|discriminate]. intros E. injection E as E. lia.
Qed.
Lemma load_kind_adhoc l : l <> [] -> bytes8 l -> le_num (sub l 0 4) <> 2712847316 -> rtpp_load l = Adhoc.
Proof.
  intros Ne B M. unfold rtpp_load. destruct l as [|b0 l]; [congruence|]. replace (size (b0 :: l) =? 0) with false by (unfold size; cbn [length]; lia).
  destruct (peek32 (b0 :: l) 0) as [m|] eqn:E.
  2: { exfalso. apply peek32_page in E; [|lia]. unfold page_end, size in E. cbn [length] in E. lia. }
  replace (m =? 2712847316) with false; [reflexivity|]. symmetry. apply Z.eqb_neq. intros ->. apply M.
  destruct (Nat.lt_ge_cases (length (b0 :: l)) 4) as [Hl|Hl].
  - exfalso. assert (P3 : peek (b0 :: l) (0 + 2 + 1) = Some 0).
    { unfold peek. replace (0 + 2 + 1 <? size (b0 :: l)) with false by (unfold size; lia).
      replace (0 + 2 + 1 <? (size (b0 :: l) + 4095) / 4096 * 4096) with true by (unfold size; cbn [length]; lia). reflexivity. }
    unfold peek32, peek16 in E. rewrite P3 in E. clear P3.
    destruct (peek (b0 :: l) 0) eqn:E0; [|discriminate]. destruct (peek (b0 :: l) (0 + 1)) eqn:E1; [|discriminate]. destruct (peek (b0 :: l) (0 + 2)) eqn:E2; [|discriminate].
    apply peek_byte in E0, E1, E2; try assumption. match type of E with Some ?a = Some ?b => assert (X : a = b) by congruence end. lia.
  - pose proof (peek32_rest [] (b0 :: l) 0 ltac:(lia)) as Q. cbn [app] in Q. change (size [] + Z.of_nat 0) with 0 in Q. rewrite E in Q. injection Q as Q. congruence.
Qed.
Lemma recording_scan f ds fuel : recording f ds -> bytes8 f -> (length f < fuel)%nat -> scan_session fuel f = SCount (Z.of_nat (length ds)).
Proof.
  intros R B Hf. unfold scan_session. destruct R as [net h l rs N H R F|l rs Ne M R].
  - rewrite (load_kind_pcap net) by assumption. unfold bytes8 in B. apply Forall_app in B. rewrite app_length in Hf.
    replace 24 with (size h) by (unfold size; rewrite (proj1 H); reflexivity). rewrite (scan_records net l rs) by (tauto || lia). f_equal.
  - rewrite load_kind_adhoc by assumption. exact (scan_ad fuel l rs [] 0 R Hf).
Qed.
Lemma recording_load answer f ds fuel ch : recording f ds -> bytes8 f -> (length f < fuel)%nat ->
  load_session fuel answer f ch = go answer (mkLst ch stat0 0) ds.
Proof.
  intros R B Hf. unfold load_session. destruct R as [net h l rs N H R F|l rs Ne M R].
  - rewrite (load_kind_pcap net) by assumption. unfold bytes8 in B. apply Forall_app in B. rewrite app_length in Hf.
    replace 24 with (size h) by (unfold size; rewrite (proj1 H); reflexivity). rewrite (load_records answer net l rs) by (tauto || lia). reflexivity.
  - rewrite load_kind_adhoc by assumption. exact (load_ad answer fuel l rs [] _ R Hf).
Qed.

(** ** Channels *)

Definition head_ssrc (c : chan) : Z := match c_pkts c with x :: _ => l_ssrc x | [] => -1 end.
(** What is done with a packet *)
Definition insert (answer : bool) (ch : list chan) (x : lp) : list chan * Z :=
  match lookup ch (l_ssrc x) with
  | None => (rev (channel_insert (rev ch) (mkChan answer [x])), 1)
  | Some k =>
      let c := nth k ch (mkChan answer []) in
      match put (rev (c_pkts c)) x with None => (ch, 0) | Some r => (upd ch k (mkChan (c_answer c) (rev r)), 1) end
  end.
Fixpoint inserts (answer : bool) (ch : list chan) (xs : list lp) : list chan * Z :=
  match xs with
  | [] => (ch, 0)
  | x :: xs => let (ch', n) := insert answer ch x in let (ch'', m) := inserts answer ch' xs in (ch'', n + m)
  end.
Lemma go_inserts answer ds : Forall (fun r => bytes8 (snd r)) ds -> forall ch st n, steady st (rtp ds) ->
  go answer (mkLst ch st n) ds = LCount (n + snd (inserts answer ch (audio ds))) (fst (inserts answer ch (audio ds))).
Proof.
  induction 1 as [|[t d] ds B Bs IH]; intros ch st n St; cbn [go].
  { cbn. f_equal. lia. }
  cbn [snd] in B. unfold audio, rtp in *. cbn [flat_map fst snd] in *. pose proof (parse_no_oob d B) as No.
  unfold take. destruct (parse_raw d) as [|e|i]; [congruence|apply IH; exact St|].
  cbn [app filter l_info] in *. cbn [steady] in St. destruct St as [S1 S2]. unfold stat_pkt, l_ssrc, l_seq in S1, S2. cbn [l_info l_data] in S1, S2.
  cbn [s_stat s_ch s_count].
  destruct (update st _) as [st' r]. cbn [fst snd] in S1, S2.
  assert (Hr : forall A (a b : A), match r with UPDATE_ERR => a | _ => b end = b) by (intros; destruct r; congruence || reflexivity).
  rewrite Hr. destruct (Z.leb_spec (ri_nsamples i) 0) as [L|L].
  - replace (0 <? ri_nsamples i) with false by lia. apply IH. exact S2.
  - replace (0 <? ri_nsamples i) with true by lia. cbn [inserts]. unfold insert. change (l_ssrc (mkLp t i d)) with (ri_ssrc i).
    destruct (lookup ch (ri_ssrc i)) as [k|].
    + cbn zeta. destruct (put _ _) as [r'|].
      * rewrite IH by exact S2. destruct (inserts answer _ _). cbn [fst snd]. f_equal. lia.
      * rewrite IH by exact S2. destruct (inserts answer _ _). cbn [fst snd]. f_equal. 
    + rewrite IH by exact S2. destruct (inserts answer _ _). cbn [fst snd]. f_equal. lia.
Qed.
Lemma go_unsteady answer ds : Forall (fun r => bytes8 (snd r)) ds -> forall ch st n, ~ steady st (rtp ds) -> exists ch', go answer (mkLst ch st n) ds = LBad ch'.
Proof.
  induction 1 as [|[t d] ds B Bs IH]; intros ch st n St; cbn [go].
  { exfalso. apply St. exact Logic.I. }
  cbn [snd] in B. unfold rtp in *. cbn [flat_map fst snd] in *. pose proof (parse_no_oob d B) as No.
  unfold take. destruct (parse_raw d) as [|e|i]; [congruence|apply IH; exact St|].
  cbn [app] in *. cbn [steady] in St. unfold stat_pkt, l_ssrc, l_seq in St. cbn [l_info l_data] in St.
  cbn [s_stat s_ch s_count].
  destruct (update st _) as [st' r]. cbn [fst snd] in St.
  destruct r; [| |eexists; reflexivity].
  all: destruct (ri_nsamples i <=? 0); [apply IH; intuition congruence|].
  all: destruct (lookup ch (ri_ssrc i)); [|apply IH; intuition congruence]; destruct (put _ _); apply IH; intuition congruence.
Qed.
Lemma datagrams_bytes f ds : recording f ds -> bytes8 f -> Forall (fun r => bytes8 (snd r)) ds.
Proof.
  intros R B. destruct R as [net h l rs N H R F|l rs Ne M R].
  - unfold bytes8 in B. apply Forall_app in B. destruct B as [_ B]. clear -R B. induction R as [|h frame l rs Lh Li R IH]; [constructor|].
    apply Forall_app in B. destruct B as [_ B]. apply Forall_app in B. destruct B as [Bf Bl]. unfold datagrams. cbn [flat_map snd]. apply Forall_app. split; [|apply IH; exact Bl].
    destruct (inet net frame); [|constructor]. constructor; [|constructor]. cbn [snd]. unfold bytes8. apply Forall_forall. intros b Hb. rewrite Forall_forall in Bf. apply Bf.
    rewrite <- (firstn_skipn (link_len net + 28) frame). apply in_or_app. right. exact Hb.
  - induction R as [|h d l rs Lh Ld R IH]; [constructor|]. clear M Ne. unfold bytes8 in B. apply Forall_app in B. destruct B as [_ B]. apply Forall_app in B. destruct B as [Bf Bl].
    assert (Q : Forall (fun r => bytes8 (snd r)) (filter long rs)).
    { clear IH. induction R as [|h' d' l' rs' ? ? ? IH']; [constructor|]. apply Forall_app in Bl. destruct Bl as [_ Bl]. apply Forall_app in Bl. destruct Bl as [Bd Bl].
      cbn [filter]. destruct (long _); [constructor; [exact Bd|]|]; apply IH'; exact Bl. }
    cbn [filter]. destruct (long _); [constructor; [exact Bf|exact Q]|exact Q].
Qed.

Definition has (c : chan) (s : Z) : bool := match c_pkts c with x :: _ => l_ssrc x =? s | [] => false end.
Lemma lookup_some ch s k : lookup ch s = Some k ->
  exists a c b, ch = a ++ c :: b /\ length a = k /\ has c s = true /\ Forall (fun d => has d s = false) a.
Proof.
  revert k. induction ch as [|c ch IH]; intros k; cbn [lookup]; [discriminate|]. fold (has c s). destruct (has c s) eqn:E.
  - intros [= <-]. exists [], c, ch. auto.
  - destruct (lookup ch s) as [i|]; [|discriminate]. intros [= <-]. destruct (IH i eq_refl) as (a & d & b & -> & L & H & F).
    exists (c :: a), d, b. cbn [length app]. repeat split; auto.
Qed.
Lemma lookup_none ch s : lookup ch s = None -> Forall (fun d => has d s = false) ch.
Proof.
  induction ch as [|c ch IH]; cbn [lookup]; [constructor|]. fold (has c s). destruct (has c s) eqn:E; [discriminate|].
  destruct (lookup ch s); [discriminate|]. constructor; auto.
Qed.
Lemma session_cons c ch s : session (c :: ch) s = if has c s then c_pkts c else session ch s.
Proof. cbn [session]. unfold has. destruct (c_pkts c); reflexivity. Qed.
Lemma side_cons c ch s : side (c :: ch) s = if has c s then Some (c_answer c) else side ch s.
Proof. cbn [side]. unfold has. destruct (c_pkts c); reflexivity. Qed.
Lemma session_app a b s : Forall (fun d => has d s = false) a -> session (a ++ b) s = session b s /\ side (a ++ b) s = side b s.
Proof. induction 1 as [|c a E F IH]; [split; reflexivity|]. cbn [app]. rewrite session_cons, side_cons, E. exact IH. Qed.
Lemma session_without a c b s : has c s = false -> session (a ++ c :: b) s = session (a ++ b) s /\ side (a ++ c :: b) s = side (a ++ b) s.
Proof.
  intros H. induction a as [|d a IH]; cbn [app]; rewrite !session_cons, !side_cons; [rewrite H; split; reflexivity|].
  destruct (has d s); [split; reflexivity|exact IH].
Qed.
Lemma session_replace a c c' b s : (forall t, has c t = has c' t) -> has c s = false -> session (a ++ c' :: b) s = session (a ++ c :: b) s /\ side (a ++ c' :: b) s = side (a ++ c :: b) s.
Proof. intros H1 H2. destruct (session_without a c b s H2) as [-> ->]. rewrite H1 in H2. exact (session_without a c' b s H2). Qed.
Lemma lookup_none_session ch s : lookup ch s = None -> session ch s = [] /\ side ch s = None.
Proof. intros H. apply lookup_none in H. pose proof (session_app ch [] s H) as Q. rewrite app_nil_r in Q. exact Q. Qed.

Lemma put_perm rps x r : put rps x = Some r -> Permutation (x :: rps) r.
Proof.
  revert r. induction rps as [|p rps IH]; intros r; cbn [put]; [intros [= <-]; auto|].
  destruct (l_seq p =? l_seq x); [discriminate|]. destruct (_ || _); [intros [= <-]; auto|].
  destruct (put rps x) as [r'|]; [|discriminate]. intros [= <-]. rewrite perm_swap. constructor. auto.
Qed.
Definition placed (L : list lp) (x : lp) : list lp := match put (rev L) x with Some r => rev r | None => L end.
Lemma put_rev_perm L x r : put (rev L) x = Some r -> Permutation (x :: L) (rev r).
Proof. intros H. apply put_perm in H. rewrite <- Permutation_rev, <- H, <- Permutation_rev. reflexivity. Qed.

Lemma channel_insert_split ch c : exists a b, ch = a ++ b /\ rev (channel_insert (rev ch) c) = a ++ c :: b.
Proof.
  enough (H : forall rch, exists b a, rch = b ++ a /\ channel_insert rch c = b ++ c :: a).
  { destruct (H (rev ch)) as (b & a & E & ->). exists (rev a), (rev b). split; [rewrite <- rev_app_distr, <- E, rev_involutive; reflexivity|].
    rewrite rev_app_distr. cbn [rev]. rewrite <- app_assoc. reflexivity. }
  clear. induction rch as [|d rch IH]; cbn [channel_insert]; [exists [], []; auto|].
  destruct (earlier _ _); [exists [], (d :: rch); auto|]. destruct IH as (b & a & -> & ->). exists (d :: b), a. auto.
Qed.

Lemma has_same c c' x l x' l' : c_pkts c = x :: l -> c_pkts c' = x' :: l' -> l_ssrc x = l_ssrc x' -> forall t, has c t = has c' t.
Proof. intros E1 E2 H t. unfold has. rewrite E1, E2, H. reflexivity. Qed.
Definition solid (c : chan) : Prop := exists x l, c_pkts c = x :: l /\ Forall (fun y => l_ssrc y = l_ssrc x) l.
Lemma insert_ok answer ch x : well_formed ch -> let (ch', n) := insert answer ch x in
  well_formed ch' /\ total ch' = total ch + n /\
  (forall s, session ch' s = if l_ssrc x =? s then placed (session ch s) x else session ch s) /\
  (forall s, side ch' s = match side ch s with Some b => Some b | None => if l_ssrc x =? s then Some answer else None end).
Proof.
  intros [F N]. unfold insert. destruct (lookup ch (l_ssrc x)) as [k|] eqn:E.
  - apply lookup_some in E. destruct E as (a & c & b & -> & Lk & Hc & Fa). rewrite app_nth2 by lia. replace (k - length a)%nat with 0%nat by lia. cbn [nth]. cbn zeta.
    assert (Hs : session (a ++ c :: b) (l_ssrc x) = c_pkts c /\ side (a ++ c :: b) (l_ssrc x) = Some (c_answer c)).
    { destruct (session_app a (c :: b) _ Fa) as [-> ->]. rewrite session_cons, side_cons, Hc. auto. }
    assert (Sc : solid c). { rewrite Forall_forall in F. apply F. apply in_or_app. right. left. reflexivity. }
    destruct Sc as (x0 & l0 & Ec & F0). assert (K : l_ssrc x0 = l_ssrc x) by (unfold has in Hc; rewrite Ec in Hc; lia).
    destruct (put (rev (c_pkts c)) x) as [r|] eqn:P.
    + pose proof (put_rev_perm _ _ _ P) as Pm. set (c' := mkChan (c_answer c) (rev r)).
      assert (Fx : Forall (fun y => l_ssrc y = l_ssrc x) (rev r)).
      { rewrite <- Pm, Ec. constructor; [reflexivity|]. constructor; [exact K|]. eapply Forall_impl; [|exact F0]. cbn. intros; congruence. }
      destruct (rev r) as [|y0 r0] eqn:Er; [apply Permutation_sym, Permutation_nil in Pm; discriminate|].
      inversion Fx as [|? ? Fy Fr]; subst.
      assert (Sc' : solid c'). { exists y0, r0. split; [reflexivity|]. eapply Forall_impl; [|exact Fr]. cbn. intros; congruence. }
      assert (Hh : forall t, has c t = has c' t). { eapply has_same; [exact Ec|reflexivity|congruence]. }
      replace (upd (a ++ c :: b) (length a) c') with (a ++ c' :: b).
      2: { clear. induction a as [|d a IH]; [reflexivity|]. cbn [app length upd]. rewrite IH. reflexivity. }
      split; [|split; [|split]].
      * split.
        -- apply Forall_app in F. destruct F as [Fa' Fb]. inversion Fb; subst. apply Forall_app. split; [assumption|]. constructor; assumption.
        -- rewrite map_app in *. cbn [map] in *. rewrite Ec in N. cbn [c' c_pkts]. congruence.
      * unfold total. rewrite !zsum_app. cbn [zsum]. cbn [c' c_pkts]. rewrite <- Pm. cbn [length]. lia.
      * intros s. destruct (Z.eqb_spec (l_ssrc x) s) as [<-|Hn].
        -- rewrite (proj1 Hs). unfold placed. rewrite P, Er. destruct (session_app a (c' :: b) _ Fa) as [-> _]. rewrite session_cons, <- Hh, Hc. reflexivity.
        -- apply session_replace; [exact Hh|]. unfold has. rewrite Ec. lia.
      * intros s. destruct (Z.eqb_spec (l_ssrc x) s) as [<-|Hn].
        -- rewrite (proj2 Hs). destruct (session_app a (c' :: b) _ Fa) as [_ ->]. rewrite side_cons, <- Hh, Hc. reflexivity.
        -- rewrite (proj2 (session_replace a c c' b s Hh ltac:(unfold has; rewrite Ec; lia))). destruct (side _ s); reflexivity.
    + split; [split; assumption|]. split; [lia|]. split; intros s.
      * destruct (Z.eqb_spec (l_ssrc x) s) as [<-|]; [|reflexivity]. rewrite (proj1 Hs). unfold placed. rewrite P. reflexivity.
      * destruct (Z.eqb_spec (l_ssrc x) s) as [<-|]; [rewrite (proj2 Hs); reflexivity|]. destruct (side _ s); reflexivity.
  - destruct (lookup_none_session _ _ E) as [E1 E2]. apply lookup_none in E. set (c := mkChan answer [x]).
    destruct (channel_insert_split ch c) as (a & b & -> & ->). apply Forall_app in E. destruct E as [Ea Eb].
    split; [|split; [|split]].
    + split.
      * apply Forall_app in F. destruct F as [Fa Fb]. apply Forall_app. split; [assumption|]. constructor; [|assumption]. exists x, []. split; [reflexivity|constructor].
      * rewrite map_app in *. cbn [map c c_pkts].
        apply (Permutation_NoDup (Permutation_middle _ _ _)). constructor; [|exact N].
        rewrite <- map_app. intros Hin. apply in_map_iff in Hin. destruct Hin as (d & Hd & Hin).
        assert (Fd : has d (l_ssrc x) = false). { apply in_app_or in Hin. rewrite Forall_forall in Ea, Eb. destruct Hin; auto. }
        rewrite Forall_forall in F. destruct (F d Hin) as (y & l & Ey & _). unfold has in Fd. rewrite Ey in *. lia.
    + unfold total. rewrite !zsum_app. cbn [zsum c c_pkts length]. lia.
    + intros s. destruct (Z.eqb_spec (l_ssrc x) s) as [<-|Hn].
      * rewrite E1. destruct (session_app a (c :: b) _ Ea) as [-> _]. rewrite session_cons. unfold has at 1. cbn [c c_pkts]. rewrite Z.eqb_refl. reflexivity.
      * apply session_without. unfold has. cbn [c c_pkts]. lia.
    + intros s. destruct (Z.eqb_spec (l_ssrc x) s) as [<-|Hn].
      * rewrite E2. destruct (session_app a (c :: b) _ Ea) as [_ ->]. rewrite side_cons. unfold has at 1. cbn [c c_pkts]. rewrite Z.eqb_refl. reflexivity.
      * rewrite (proj2 (session_without a c b s ltac:(unfold has; cbn [c c_pkts]; lia))). destruct (side _ s); reflexivity.
Qed.

Lemma inserts_ok answer xs : forall ch, well_formed ch -> let (ch', n) := inserts answer ch xs in
  well_formed ch' /\ total ch' = total ch + n /\
  (forall s, session ch' s = fold_left placed (of_ssrc s xs) (session ch s)) /\
  (forall s, side ch' s = match side ch s with Some b => Some b | None => match of_ssrc s xs with [] => None | _ => Some answer end end).
Proof.
  induction xs as [|x xs IH]; intros ch W; cbn [inserts].
  { split; [exact W|]. split; [lia|]. split; [reflexivity|]. intros s. cbn. destruct (side ch s); reflexivity. }
  pose proof (insert_ok answer ch x W) as H. destruct (insert answer ch x) as [ch' n]. destruct H as (W' & T & Ss & Sd).
  specialize (IH ch' W'). destruct (inserts answer ch' xs) as [ch'' m]. destruct IH as (W'' & T' & Ss' & Sd').
  split; [exact W''|]. split; [lia|]. split; intros s.
  - rewrite Ss', Ss. unfold of_ssrc. cbn [filter]. destruct (l_ssrc x =? s); reflexivity.
  - rewrite Sd', Sd. unfold of_ssrc. cbn [filter]. destruct (side ch s); [reflexivity|]. destruct (l_ssrc x =? s); reflexivity.
Qed.

(** ** Order *)

Definition below (x y : lp) : Prop := l_seq x < l_seq y.
Lemma sorted_app_inv (l : list lp) y : by_seq (l ++ [y]) -> by_seq l /\ Forall (fun x => l_seq x < l_seq y) l.
Proof.
  unfold by_seq. induction l as [|x l IH]; cbn [app]; intros H; [split; constructor|]. inversion H as [|? ? S F]; subst. destruct (IH S) as [A1 A2].
  apply Forall_app in F. destruct F as [F1 F2]. inversion F2; subst. split; constructor; assumption.
Qed.
Lemma sorted_app (l : list lp) y : by_seq l -> Forall (fun x => l_seq x < l_seq y) l -> by_seq (l ++ [y]).
Proof.
  unfold by_seq. induction 1 as [|x l S IH F]; cbn [app]; intros H; [repeat constructor|]. inversion H; subst. constructor; [auto|].
  apply Forall_app. split; [exact F|]. constructor; [assumption|constructor].
Qed.
(** Without wrapping around a packet goes to its place. *)
Lemma put_sorted rps x : by_seq (rev rps) -> unwrapped (x :: rps) ->
  match put rps x with
  | Some r => by_seq (rev r) /\ ~ In (l_seq x) (map l_seq rps)
  | None => In (l_seq x) (map l_seq rps)
  end.
Proof.
  induction rps as [|p rps IH]; intros S U; cbn [put map].
  { split; [repeat constructor|auto]. }
  cbn [rev] in S. apply sorted_app_inv in S. destruct S as [S F].
  destruct (Z.eqb_spec (l_seq p) (l_seq x)) as [E|E]; [left; exact E|].
  assert (Fr : Forall (fun y => l_seq y < l_seq p) rps). { rewrite (Permutation_rev rps). exact F. }
  destruct (Z.ltb_spec (l_seq p) (l_seq x)) as [L|L].
  - rewrite orb_true_r. split.
    + cbn [rev]. apply sorted_app; [apply sorted_app; assumption|]. apply Forall_app. split; [|constructor; [exact L|constructor]].
      eapply Forall_impl; [|exact F]. cbn. intros; lia.
    + intros [H|H]; [lia|]. apply in_map_iff in H. destruct H as (y & Hy & Hi). rewrite Forall_forall in Fr. specialize (Fr y Hi). lia.
  - replace (l_ts p <? l_ts x) with false.
    2: { symmetry. apply Z.ltb_ge. apply U; [left; reflexivity|right; left; reflexivity|lia]. }
    cbn [orb]. assert (U' : unwrapped (x :: rps)). { intros y z Hy Hz. apply U; [destruct Hy; [left|right; right]; assumption|destruct Hz; [left|right; right]; assumption]. }
    specialize (IH S U'). destruct (put rps x) as [r|] eqn:P.
    + destruct IH as [A1 A2]. split.
      * cbn [rev]. apply sorted_app; [exact A1|]. rewrite <- Permutation_rev, <- (put_perm _ _ _ P). constructor; [lia|exact Fr].
      * intros [H|H]; [lia|contradiction].
    + right. exact IH.
Qed.
Lemma existsb_In z l : existsb (Z.eqb z) l = true <-> In z l.
Proof. rewrite existsb_exists. split; [intros (y & H & E); apply Z.eqb_eq in E; congruence|]. intros H. exists z. split; [exact H|apply Z.eqb_refl]. Qed.
Lemma firsts_ext l : forall s1 s2, (forall z, In z s1 <-> In z s2) -> firsts s1 l = firsts s2 l.
Proof.
  induction l as [|x l IH]; intros s1 s2 H; [reflexivity|]. cbn [firsts].
  replace (existsb (Z.eqb (l_seq x)) s1) with (existsb (Z.eqb (l_seq x)) s2).
  2: { apply eq_true_iff_eq. rewrite !existsb_In. symmetry. apply H. }
  destruct (existsb _ s2); [apply IH; exact H|]. f_equal. apply IH. intros z. cbn [In]. rewrite H. reflexivity.
Qed.
Lemma placed_sorted l : forall L, by_seq L -> unwrapped (L ++ l) ->
  by_seq (fold_left placed l L) /\ Permutation (fold_left placed l L) (L ++ firsts (map l_seq L) l).
Proof.
  induction l as [|x l IH]; intros L S U; cbn [fold_left firsts].
  { rewrite app_nil_r. auto. }
  assert (U1 : unwrapped (x :: rev L)).
  { intros y z Hy Hz. apply U; apply in_or_app; [destruct Hy as [<-|Hy]|destruct Hz as [<-|Hz]]; (right; left; reflexivity) || (left; apply in_rev; assumption). }
  pose proof (put_sorted (rev L) x) as P. rewrite rev_involutive in P. specialize (P S U1). unfold placed at 2 4. destruct (put (rev L) x) as [r|] eqn:E.
  - destruct P as [P1 P2]. apply put_rev_perm in E. rewrite map_rev, <- in_rev in P2.
    assert (U2 : unwrapped (rev r ++ l)).
    { intros y z Hy Hz. assert (Q : forall w, In w (rev r ++ l) -> In w (L ++ x :: l)).
      { intros w Hw. apply in_app_or in Hw. apply in_or_app. destruct Hw as [Hw|Hw]; [|right; right; exact Hw]. apply (Permutation_in _ (Permutation_sym E)) in Hw. destruct Hw as [<-|Hw]; [right; left; reflexivity|left; exact Hw]. }
      apply U; apply Q; assumption. }
    destruct (IH (rev r) P1 U2) as [A1 A2]. split; [exact A1|]. rewrite A2.
    replace (existsb (Z.eqb (l_seq x)) (map l_seq L)) with false by (symmetry; apply not_true_iff_false; rewrite existsb_In; exact P2).
    rewrite (firsts_ext l (map l_seq (rev r)) (l_seq x :: map l_seq L)).
    + rewrite <- E. cbn [app]. apply Permutation_middle.
    + intros z. change (l_seq x :: map l_seq L) with (map l_seq (x :: L)). split; apply Permutation_in; apply Permutation_map; [symmetry|]; exact E.
  - rewrite map_rev, <- in_rev in P. rewrite (proj2 (existsb_In _ _) P).
    apply IH; [exact S|]. intros y z Hy Hz. apply U; apply in_or_app; [apply in_app_or in Hy; destruct Hy|apply in_app_or in Hz; destruct Hz]; auto; right; right; assumption.
Qed.
(** Packets in order are appended. *)
Lemma in_order_tail x l : in_order (x :: l) -> in_order l.
Proof. destruct l as [|y l]; [intros _; exact Logic.I|]. intros (_ & _ & H). exact H. Qed.
Lemma placed_in_order l : forall L p, in_order (p :: l) -> fold_left placed l (L ++ [p]) = L ++ p :: l.
Proof.
  induction l as [|x l IH]; intros L p H; [reflexivity|]. cbn [fold_left]. destruct H as (H1 & H2 & H3).
  unfold placed at 2. rewrite rev_app_distr. cbn [rev app put]. replace (l_seq p =? l_seq x) with false by lia.
  replace ((l_ts p <? l_ts x) || (l_seq p <? l_seq x)) with true by lia. cbn [rev]. rewrite rev_involutive.
  rewrite IH by exact H3. rewrite <- app_assoc. reflexivity.
Qed.
Lemma placed_in_order_nil l : in_order l -> fold_left placed l [] = l.
Proof. destruct l as [|x l]; [reflexivity|]. intros H. cbn [fold_left]. exact (placed_in_order l [] x H). Qed.

(** ** What the recorder writes *)

Lemma sub_split (l : list Z) k : l = sub l 0 k ++ skipn k l.
Proof. unfold sub. cbn [skipn]. symmetry. apply firstn_skipn. Qed.
Lemma sub_sub (l : list Z) k n i m : (i + m <= n)%nat -> sub (sub l k n) i m = sub l (k + i) m.
Proof.
  intros H. unfold sub. rewrite skipn_firstn_comm, firstn_firstn, skipn_skipn. replace (Nat.min m (n - i)) with m by lia. reflexivity.
Qed.
Lemma sub_len (l : list Z) k n : (k + n <= length l)%nat -> length (sub l k n) = n.
Proof. intros H. unfold sub. rewrite firstn_length, skipn_length. lia. Qed.
Lemma sub_bytes l k n : bytes8 l -> bytes8 (sub l k n).
Proof.
  intros B. unfold bytes8, sub in *. apply Forall_forall. intros b Hb. rewrite Forall_forall in B. apply B.
  rewrite <- (firstn_skipn k l). apply in_or_app. right. rewrite <- (firstn_skipn n (skipn k l)). apply in_or_app. left. exact Hb.
Qed.
Lemma skipn_bytes l k : bytes8 l -> bytes8 (skipn k l).
Proof.
  intros B. unfold bytes8 in *. apply Forall_forall. intros b Hb. rewrite Forall_forall in B. apply B. rewrite <- (firstn_skipn k l). apply in_or_app. right. exact Hb.
Qed.
Lemma be_num_range l : bytes8 l -> 0 <= be_num l < 256 ^ Z.of_nat (length l).
Proof.
  unfold be_num. enough (G : forall l a, bytes8 l -> 0 <= a -> 0 <= fold_left (fun a b => 256 * a + b) l a < (a + 1) * 256 ^ Z.of_nat (length l)).
  { intros B. specialize (G l 0 B ltac:(lia)). lia. }
  clear l. intros l. induction l as [|b l IH]; intros a B A.
  - cbn. lia.
  - inversion B as [|? ? B1 B2]; subst. cbn [fold_left length]. specialize (IH (256 * a + b) B2 ltac:(lia)). rewrite Nat2Z.inj_succ, Z.pow_succ_r by lia.
    pose proof (Z.pow_pos_nonneg 256 (Z.of_nat (length l)) ltac:(lia) ltac:(lia)). nia.
Qed.

Lemma udp_data v6 src dst u g : parse_udp v6 src dst u = Some g -> g_v6 g = v6 /\ g_data g = skipn 8 u /\ 8 <= len u.
Proof. unfold parse_udp. destruct (_ && _) eqn:E; [|discriminate]. intros [= <-]. cbn. repeat split. lia. Qed.
Lemma skipn_len (l : list Z) k : len (skipn k l) = Z.max 0 (len l - Z.of_nat k).
Proof. unfold len. rewrite skipn_length. lia. Qed.
Lemma frame_data fr g s u : bytes8 fr -> parse_frame fr = Some g ->
  fits 1 (s, u, fr) /\ inet 1 fr = negb (g_v6 g) /\ (g_v6 g = false -> skipn 42 fr = g_data g).
Proof.
  intros B. unfold parse_frame, fits, inet. cbn [snd Z.eqb Pos.eqb]. change (Z.of_nat (link_len 1)) with 14.
  destruct (be_num (sub fr 12 2) =? 2048).
  - unfold parse_ip4. set (ip := skipn 14 fr). destruct (_ && _) eqn:E; [|discriminate]. intros H. apply udp_data in H. destruct H as (-> & -> & H).
    pose proof (be_num_range (sub ip 2 2)) as R. rewrite !skipn_len in H. unfold ip in *. rewrite !skipn_len in *.
    assert (Hl : (2 + 2 <= length (skipn 14 fr))%nat) by (rewrite skipn_length; unfold len in H; lia).
    rewrite sub_len in R by exact Hl. specialize (R ltac:(apply sub_bytes; apply skipn_bytes; exact B)).
    change (256 ^ Z.of_nat 2) with 65536 in R.
    split; [lia|]. split; [reflexivity|]. intros _. rewrite !skipn_skipn. reflexivity.
  - destruct (_ =? 34525); [|discriminate].
    unfold parse_ip6. set (ip := skipn 14 fr). destruct (_ && _) eqn:E; [|discriminate]. intros H. apply udp_data in H. destruct H as (-> & -> & H).
    pose proof (be_num_range (sub ip 4 2)) as R. rewrite !skipn_len in H. unfold ip in *. rewrite !skipn_len in *.
    assert (Hl : (4 + 2 <= length (skipn 14 fr))%nat) by (rewrite skipn_length; unfold len in H; lia).
    rewrite sub_len in R by exact Hl. specialize (R ltac:(apply sub_bytes; apply skipn_bytes; exact B)).
    change (256 ^ Z.of_nat 2) with 65536 in R.
    split; [lia|]. split; [reflexivity|]. discriminate.
Qed.
Lemma parse_recs_records fuel : forall l rs, bytes8 l -> parse_recs fuel l = Some rs ->
  exists rs', records l rs' /\ Forall (fits 1) rs' /\ datagrams 1 rs' = map as_data (filter v4 rs).
Proof.
  induction fuel as [|fuel IH]; intros l rs B.
  { destruct l; [|discriminate]. intros [= <-]. exists []. split; [constructor|]. split; [constructor|reflexivity]. }
  destruct l as [|b0 l0]; [intros [= <-]; exists []; split; [constructor|]; split; [constructor|reflexivity]|].
  remember (b0 :: l0) as l eqn:El. replace (parse_recs (S fuel) l) with (
      let n := le_num (sub l 8 4) in
      if (16 + n <=? len l) && (le_num (sub l 12 4) =? n) then
        match parse_frame (sub l 16 (Z.to_nat n)), parse_recs fuel (skipn (16 + Z.to_nat n) l) with
        | Some g, Some t => Some ((le_num (sub l 0 4), le_num (sub l 4 4), g) :: t)
        | _, _ => None
        end
      else None) by (subst l; reflexivity).
  cbn zeta. set (n := le_num (sub l 8 4)). destruct (_ && _) eqn:E; [|discriminate].
  destruct (parse_frame _) as [g|] eqn:Pf; [|discriminate]. destruct (parse_recs fuel _) as [t|] eqn:Pr; [|discriminate]. intros [= <-].
  assert (Hn : 0 <= n). { unfold n, le_num. apply be_num_range. unfold bytes8. rewrite <- Permutation_rev. apply sub_bytes. exact B. }
  unfold len in E.
  destruct (IH _ _ ltac:(apply skipn_bytes; exact B) Pr) as (rs' & R & F & D).
  assert (Bf : bytes8 (sub l 16 (Z.to_nat n))) by (apply sub_bytes; exact B).
  destruct (frame_data _ _ (le_num (sub (sub l 0 16) 0 4)) (le_num (sub (sub l 0 16) 4 4)) Bf Pf) as (G1 & G2 & G3).
  exists ((le_num (sub (sub l 0 16) 0 4), le_num (sub (sub l 0 16) 4 4), sub l 16 (Z.to_nat n)) :: rs'). split; [|split].
  - replace l with (sub l 0 16 ++ sub l 16 (Z.to_nat n) ++ skipn (16 + Z.to_nat n) l) at 1.
    2: { unfold sub. cbn [skipn]. rewrite <- (skipn_skipn (Z.to_nat n) 16 l), !firstn_skipn. reflexivity. }
    apply (records_cons (sub l 0 16)); [apply sub_len; lia| |exact R]. rewrite sub_sub by lia. cbn [Nat.add]. fold n. unfold len. rewrite sub_len by lia. lia.
  - constructor; [exact G1|exact F].
  - unfold datagrams. cbn [flat_map snd fst]. fold (datagrams 1 rs'). rewrite D, G2. cbn [filter]. unfold v4 at 2. cbn [snd]. destruct (g_v6 g); cbn [negb]; [reflexivity|].
    cbn [map app]. f_equal. unfold as_data. cbn [fst snd]. change (link_len 1 + 28)%nat with 42%nat. rewrite (G3 eq_refl), !sub_sub by lia. reflexivity.
Qed.
Lemma parse_pcap_recording f rs : bytes8 f -> parse_pcap f = Some rs -> recording f (map as_data (filter v4 rs)).
Proof.
  intros B. unfold parse_pcap. destruct (_ && _) eqn:E; [|discriminate]. intros H. unfold len in E.
  destruct (parse_recs_records _ _ _ ltac:(apply skipn_bytes; exact B) H) as (rs' & R & F & D).
  rewrite <- D. rewrite (sub_split f 24). apply rec_pcap; [right; reflexivity| |exact R|exact F].
  unfold pcap_header. rewrite sub_len by lia. rewrite !sub_sub by lia. cbn [Nat.add]. repeat split; lia.
Qed.
Lemma parse_adhoc_records fuel : forall l rs, bytes8 l -> parse_adhoc fuel l = Some rs -> ad_records l (map ad_data rs).
Proof.
  induction fuel as [|fuel IH]; intros l rs B.
  { destruct l; [|discriminate]. intros [= <-]. constructor. }
  destruct l as [|b0 l0]; [intros [= <-]; constructor|].
  remember (b0 :: l0) as l eqn:El. replace (parse_adhoc (S fuel) l) with (
      let n := le_num (sub l 28 2) in
      let fm := le_num (sub l 0 2) in
      if (30 + n <=? len l) && ((fm =? 2) || (fm =? 10)) then
        match parse_adhoc fuel (skipn (30 + Z.to_nat n) l) with
        | Some t => Some (mkAd (fm =? 10) (sub l 4 (if fm =? 10 then 16 else 4)) (be_num (sub l 2 2))
                            (le_num (sub l 20 8)) (sub l 30 (Z.to_nat n)) :: t)
        | None => None
        end
      else None) by (subst l; reflexivity).
  cbn zeta. set (n := le_num (sub l 28 2)). destruct (_ && _) eqn:E; [|discriminate].
  destruct (parse_adhoc fuel _) as [t|] eqn:Pr; [|discriminate]. intros [= <-].
  assert (Hn : 0 <= n). { unfold n, le_num. apply be_num_range. unfold bytes8. rewrite <- Permutation_rev. apply sub_bytes. exact B. }
  unfold len in E.
  pose proof (IH _ _ ltac:(apply skipn_bytes; exact B) Pr) as R.
  cbn [map]. unfold ad_data at 1. cbn [a_time a_data].
  replace l with (sub l 0 30 ++ sub l 30 (Z.to_nat n) ++ skipn (30 + Z.to_nat n) l) at 1.
  2: { unfold sub. cbn [skipn]. rewrite <- (skipn_skipn (Z.to_nat n) 30 l), !firstn_skipn. reflexivity. }
  replace (sub l 20 8) with (sub (sub l 0 30) 20 8) by (rewrite sub_sub by lia; reflexivity).
  apply ad_cons; [apply sub_len; lia| |exact R]. rewrite sub_sub by lia. cbn [Nat.add]. fold n. unfold len. rewrite sub_len by lia. lia.
Qed.
Lemma parse_adhoc_recording f rs fuel : bytes8 f -> f <> [] -> parse_adhoc fuel f = Some rs -> recording f (filter long (map ad_data rs)).
Proof.
  intros B Ne H. pose proof (parse_adhoc_records _ _ _ B H) as R. apply rec_adhoc; [exact Ne| |exact R].
  destruct f as [|b0 f0]; [congruence|]. destruct fuel as [|fuel]; [discriminate|]. cbn [parse_adhoc] in H. remember (b0 :: f0) as f eqn:Ef.
  destruct (_ && _) eqn:E in H; [|discriminate]. unfold len in E.
  assert (Hn : 0 <= le_num (sub f 28 2)). { unfold le_num. apply be_num_range. unfold bytes8. rewrite <- Permutation_rev. apply sub_bytes. exact B. }
  rewrite sub4 by lia. rewrite (sub2 f 0) in E by lia. pose proof (bytes8_nth f 0 B). pose proof (bytes8_nth f 1 B). pose proof (bytes8_nth f 2 B). pose proof (bytes8_nth f 3 B).
  cbn [Nat.add] in *. unfold le_num, be_num in *. cbn [rev app fold_left] in *. lia.
Qed.

Lemma in_fin_bytes x : bytes (st16 (in_fin x)).
Proof. apply st16_bytes. unfold in_fin. cbn zeta. apply Z.mod_pos_bound. lia. Qed.
Lemma ck_fin_bytes x : bytes (st16 (ck_fin x)).
Proof. apply st16_bytes. unfold ck_fin, u16. cbn zeta. apply Z.mod_pos_bound. lia. Qed.
Lemma fake_bytes f ip : bytes ip -> bytes (fake_ether f ip).
Proof.
  intros B. unfold fake_ether. destruct f.
  - apply bytes_app. split; [repeat constructor; lia|exact B].
  - unfold bytes. apply Forall_forall. intros b Hb. apply in_map_iff in Hb. destruct Hb as (i & <- & _). cbn [fold_left].
    apply (lxor_byte (Z.lxor _ _)); [apply lxor_byte|]; apply bytes8_nth; exact B.
Qed.
Lemma Some_inj {A} (a b : A) : Some a = Some b -> a = b.
Proof. congruence. Qed.
Lemma Hdr_inj a b : Hdr a = Hdr b -> a = b.
Proof. congruence. Qed.
Lemma ip_hdr_bytes odd f src dst i n h : bytes src -> bytes dst -> ip_hdr odd f src dst i n = Some h -> bytes h.
Proof.
  intros Bs Bd. unfold ip_hdr. destruct f.
  - unfold in_cksum. destruct (in_loop _ _ _) as [z|]; [|discriminate]. intros E. apply Some_inj in E. rewrite <- E. rewrite !bytes_app. pose proof (in_fin_bytes z). repeat split; auto using CksumProof.be16_bytes; repeat constructor; lia.
  - intros E. apply Some_inj in E. rewrite <- E. rewrite !bytes_app. repeat split; auto using CksumProof.be16_bytes; repeat constructor; lia.
Qed.
Lemma udp_hdr_bytes f a b c d e : bytes (udp_hdr f a b c d e).
Proof. unfold udp_hdr. cbn zeta. rewrite !bytes_app. split; [apply CksumProof.be16_bytes|split; [apply CksumProof.be16_bytes|split; [apply CksumProof.be16_bytes|apply ck_fin_bytes]]]. Qed.
Lemma zeros_bytes n : bytes (zeros n).
Proof. unfold zeros, bytes. apply Forall_forall. intros b Hb. apply repeat_spec in Hb. lia. Qed.
Lemma pcap_hdr_bytes odd face p h : wf_pkt p -> pcap_hdr odd face p = Hdr h -> bytes h.
Proof.
  intros ((B1 & _ & _) & B2 & _ & _ & (B3 & _ & _) & B4 & B5 & _). unfold pcap_hdr. cbn zeta.
  destruct (dtime2timeval _) as [[s u]|]; [|discriminate].
  set (daddr := match p_orem p with Some a => a | None => _ end).
  assert (Bd : bytes (s_ip daddr)). { unfold daddr. destruct (p_orem p) as [a|]; [apply (B4 a eq_refl)|apply zeros_bytes]. }
  set (src := if face then p_oaddr p else p_raddr p). set (dst := if face then daddr else _).
  assert (Bsr : bytes (s_ip src)) by (unfold src; destruct face; assumption). assert (Bds : bytes (s_ip dst)) by (unfold dst; destruct face; assumption).
  destruct (_ && match p_l4r p with None => true | Some _ => false end); [discriminate|].
  set (tmp := match p_l4r p with Some a => a | None => [] end). assert (Bt : bytes tmp). { unfold tmp. destruct (p_l4r p) as [a|]; [apply (B5 a eq_refl)|constructor]. }
  destruct (negb (Bool.eqb _ _)); [discriminate|].
  destruct (ip_hdr _ _ _ _ _ _) as [ip|] eqn:E; [|discriminate]. intros E0. apply Hdr_inj in E0. rewrite <- E0. clear E0.
  assert (X : forall b : bool, bytes (if b then tmp else s_ip src) /\ bytes (if b then tmp else s_ip dst)) by (intros []; auto).
  apply ip_hdr_bytes in E; [|apply X|apply X].
  rewrite !bytes_app. repeat split; auto using le32_bytes, udp_hdr_bytes; try (apply fake_bytes; apply X). destruct (s_fam src); repeat constructor; lia.
Qed.
Lemma adhoc_hdr_bytes p : wf_pkt p -> bytes (adhoc_hdr p).
Proof.
  intros ((B1 & _ & _) & _). unfold adhoc_hdr. cbn zeta. rewrite !bytes_app. split; [|split].
  - destruct (s_fam (p_raddr p)); rewrite !bytes_app; repeat split; auto using CksumProof.be16_bytes, zeros_bytes; apply st16_bytes; lia.
  - unfold le64. apply bytes_app. split; apply le32_bytes.
  - apply st16_bytes. unfold u16. apply Z.mod_pos_bound. lia.
Qed.
Lemma rb_bytes m single p : wf_pkt p -> bytes (rb m single p).
Proof.
  intros W. unfold rb. destruct (hdrf m single p false) as [h| |] eqn:E; try constructor. apply bytes_app. split.
  - unfold hdrf in E. destruct m; [injection E as <-; apply adhoc_hdr_bytes; exact W..|]. eapply pcap_hdr_bytes; eauto.
  - apply W.
Qed.
Lemma file_bytes m single ps : Forall wf_pkt ps -> bytes8 (file_hdr m ++ bs m single ps).
Proof.
  intros W. apply bytes_app. split.
  - destruct m; [constructor..|]. cbn [file_hdr]. rewrite !bytes_app. repeat split; auto using le32_bytes; apply st16_bytes; lia.
  - unfold bs. induction W as [|p ps H W IH]; [constructor|]. cbn [map concat]. apply bytes_app. split; [apply rb_bytes; exact H|exact IH].
Qed.

(** ** Files that were cut short *)

Lemma scan_records_rest net rest l rs : net = 0 \/ net = 1 -> records l rs -> bytes8 l -> Forall (fits net) rs ->
  forall pre fuel n, (length l <= fuel)%nat -> exists fuel' n', (fuel - length l <= fuel')%nat /\
    scan_pcap fuel (pre ++ l ++ rest) net (size pre) n = scan_pcap fuel' (pre ++ l ++ rest) net (size (pre ++ l)) n'.
Proof.
  intros N R. induction R as [|h frame l rs Lh Li R IH]; intros B F pre fuel n Hf.
  - exists fuel, n. rewrite app_nil_r. split; [lia|reflexivity].
  - rewrite !app_length in Hf. destruct fuel as [|fuel]; [lia|]. cbn [scan_pcap].
    inversion F as [|? ? F1 F2]; subst. unfold bytes8 in B. apply Forall_app in B. destruct B as [_ B]. apply Forall_app in B. destruct B as [Bf Bl].
    unfold fits in F1. cbn [snd] in F1. rewrite <- !app_assoc.
    replace (size pre <? size (pre ++ h ++ frame ++ l ++ rest)) with true by (rewrite !size_app; unfold size; lia).
    rewrite dissect_record by (auto; unfold fits; cbn [snd]; exact F1).
    unfold len in *.
    assert (G : forall n, exists fuel' n', (S fuel - (length h + (length frame + length l)) <= fuel')%nat /\
      scan_pcap fuel (pre ++ h ++ frame ++ l ++ rest) net (size pre + (16 + Z.of_nat (length frame))) n = scan_pcap fuel' (pre ++ h ++ frame ++ l ++ rest) net (size (pre ++ h ++ frame ++ l)) n').
    { intros m. destruct (IH Bl F2 (pre ++ h ++ frame) fuel m ltac:(lia)) as (fuel' & n' & A1 & A2). exists fuel', n'. split; [lia|].
      rewrite <- !app_assoc in A2. rewrite <- A2. f_equal. rewrite !size_app. unfold size. lia. }
    rewrite !app_length. destruct (inet net frame).
    + replace (2147483647 <? _) with false by lia.
      replace (size pre + _) with (size pre + (16 + Z.of_nat (length frame))) by lia. apply G.
    + apply G.
Qed.
Lemma firstn_cut {A} (l : list A) k : (k < length l)%nat -> exists m, l = firstn k l ++ m /\ m <> [].
Proof. intros H. exists (skipn k l). split; [symmetry; apply firstn_skipn|]. intros E. apply (f_equal (@length A)) in E. rewrite skipn_length in E. cbn in E. lia. Qed.
Lemma dissect_local net f g cp : 0 <= cp -> (forall i, cp <= i < cp + 58 -> i < size f -> peek g i = peek f i) -> size f <= size g ->
  (if net =? 0 then 48 else 58) <= size f - cp -> pcap_dissect f cp net = pcap_dissect g cp net.
Proof.
  intros H0 P L B. unfold pcap_dissect, peek32, peek16. destruct (net =? 0).
  - replace (size f - cp <? 48) with false by lia. replace (size g - cp <? 48) with false by lia. rewrite !P by lia. reflexivity.
  - replace (size f - cp <? 58) with false by lia. replace (size g - cp <? 58) with false by lia. rewrite !P by lia. reflexivity.
Qed.
Lemma peek_app f g i : 0 <= i < size f -> peek (f ++ g) i = peek f i.
Proof.
  intros H. unfold peek. rewrite size_app. pose proof (size_pos g). replace (i <? 0) with false by lia. replace (i <? size f + size g) with true by lia. replace (i <? size f) with true by lia.
  apply nth_error_app1. unfold size in H. lia.
Qed.
Lemma cut_pcap net h l rs r frame k fuel : net = 0 \/ net = 1 -> pcap_header net h -> records l rs -> Forall (fits net) rs -> bytes8 (l ++ r ++ frame) ->
  length r = 16%nat -> le_num (sub r 8 4) = len frame -> fits net (0, 0, frame) ->
  (0 < k < length (r ++ frame))%nat -> (length (h ++ l ++ firstn k (r ++ frame)) < fuel)%nat ->
  scan_session fuel (h ++ l ++ firstn k (r ++ frame)) = SBad.
Proof.
  intros N Hh R F B Lr Li Fi Hk Hf. unfold scan_session. rewrite (load_kind_pcap net) by assumption.
  replace 24 with (size h) by (unfold size; rewrite (proj1 Hh); reflexivity). set (p := firstn k (r ++ frame)) in *. rewrite !app_length in Hf.
  assert (Lp : length p = k) by (unfold p; apply firstn_length_le; lia).
  unfold bytes8 in B. apply Forall_app in B. destruct B as [Bl B]. apply Forall_app in B. destruct B as [_ Bf].
  destruct (scan_records_rest net p l rs N R Bl F h fuel 0 ltac:(lia)) as (fuel' & n' & A1 & ->).
  destruct fuel' as [|[|fuel']]; try lia. rewrite app_assoc. remember (S fuel') as fu eqn:Es. cbn [scan_pcap].
  replace (size (h ++ l) <? size ((h ++ l) ++ p)) with true by (rewrite (size_app (h ++ l)); unfold size; lia).
  assert (Sz : size ((h ++ l) ++ p) - size (h ++ l) = Z.of_nat k) by (rewrite (size_app (h ++ l)); unfold size; lia).
  destruct (firstn_cut (r ++ frame) k ltac:(lia)) as (m & Em & _). fold p in Em.
  assert (Done : forall x, size ((h ++ l) ++ p) < x -> scan_pcap fu ((h ++ l) ++ p) net x n' = SBad /\ scan_pcap fu ((h ++ l) ++ p) net x (n' + 1) = SBad).
  { intros x Hx. rewrite Es. cbn [scan_pcap]. replace (x <? _) with false by lia. replace (x =? _) with false by lia. auto. }
  destruct (Z.lt_ge_cases (Z.of_nat k) (if net =? 0 then 48 else 58)) as [Sh|Lo].
  - assert (T : pcap_dissect ((h ++ l) ++ p) (size (h ++ l)) net = DTrunc).
    { unfold pcap_dissect. rewrite Sz. destruct (net =? 0); [replace (Z.of_nat k <? 48) with true by lia|replace (Z.of_nat k <? 58) with true by lia]; reflexivity. }
    rewrite T. reflexivity.
  - rewrite (dissect_local net _ (((h ++ l) ++ p) ++ m)).
    + rewrite <- (app_assoc (h ++ l) p m), <- Em. rewrite <- (app_nil_r frame) at 1. rewrite dissect_record by (assumption || lia).
      unfold fits in Fi. cbn [snd] in Fi. unfold len in *. rewrite app_length in Hk.
      destruct (inet net frame); [replace (2147483647 <? _) with false by lia|]; apply Done; lia.
    + pose proof (size_pos (h ++ l)). lia.
    + intros i Hi1 Hi2. apply peek_app. pose proof (size_pos (h ++ l)). lia.
    + rewrite (size_app ((h ++ l) ++ p) m). pose proof (size_pos m). lia.
    + rewrite Sz. exact Lo.
Qed.

(** ** Any file of the older format *)

Lemma adhoc_any f fuel : bytes8 f -> roomy f -> forall next, 0 <= next -> (Z.to_nat (size f - next) < fuel)%nat ->
  match adhoc_dissect fuel f next with
  | AOob | AFuel => False
  | ATrunc => True
  | AEof next' => size f <= next'
  | AOk hdr off n next' => off = hdr + 30 /\ next <= hdr /\ 12 <= n /\ next' = off + n /\ next' <= size f
  end.
Proof.
  intros B Rm. induction fuel as [|fuel IH]; intros next H0 Hf; [lia|]. cbn [adhoc_dissect].
  destruct (Z.ltb_spec next (size f)) as [L|L]; [|exact L].
  destruct (peek16 f (next + 28)) as [n|] eqn:P.
  2: { apply peek16_page in P; [|lia]. unfold roomy in Rm. lia. }
  assert (Hn : 0 <= n). { unfold peek16 in P. destruct (peek f (next + 28)) eqn:P1; [|discriminate]. destruct (peek f (next + 28 + 1)) eqn:P2; [|discriminate]. apply peek_byte in P1, P2; try assumption. apply Some_inj in P. lia. }
  destruct (Z.ltb_spec n 12) as [S|S].
  - specialize (IH (next + 30 + n) ltac:(lia) ltac:(lia)). destruct (adhoc_dissect fuel f _); try assumption. destruct IH as (-> & ? & ? & -> & ?). repeat split; lia.
  - destruct (Z.ltb_spec (size f) (next + 30 + n)) as [T|T]; [exact Logic.I|]. repeat split; lia.
Qed.
Lemma scan_adhoc_any f fuel : bytes8 f -> roomy f -> forall next n, 0 <= next -> (Z.to_nat (size f - next) + 1 < fuel)%nat ->
  scan_adhoc fuel f next n = SBad \/ exists m, scan_adhoc fuel f next n = SCount m.
Proof.
  intros B Rm. induction fuel as [|fuel IH]; intros next n H0 Hf; [lia|].
  pose proof (adhoc_any f (S fuel) B Rm next H0 ltac:(lia)) as A. cbn [scan_adhoc].
  destruct (Z.ltb_spec next (size f)) as [L|L]; [|destruct (next =? size f); eauto].
  destruct (adhoc_dissect (S fuel) f next); try contradiction; [auto| |].
  - apply IH; lia.
  - apply IH; lia.
Qed.
Lemma slice_some f off n : bytes8 f -> 0 <= off -> 0 <= n -> off + n <= size f -> exists d, slice f off n = Some d /\ bytes8 d.
Proof.
  intros B H1 H2 H3. unfold slice. replace ((off <? 0) || (n <? 0) || (size f <? off + n)) with false by lia. eexists. split; [reflexivity|].
  exact (sub_bytes f (Z.to_nat off) (Z.to_nat n) B).
Qed.
Lemma take_inside answer s t d : bytes8 d -> take answer s t d <> Outside.
Proof.
  intros B. unfold take. pose proof (parse_no_oob d B). destruct (parse_raw d) as [|e|i]; [congruence|discriminate|]. destruct (update _ _) as [st r].
  destruct r; try discriminate; (destruct (_ <=? 0); [discriminate|]; destruct (lookup _ _); [destruct (put _ _)|]; discriminate).
Qed.
Lemma load_adhoc_any answer f fuel : bytes8 f -> roomy f -> forall next s, 0 <= next -> (Z.to_nat (size f - next) + 1 < fuel)%nat ->
  exists ch, load_adhoc fuel answer f next s = LBad ch \/ exists n, load_adhoc fuel answer f next s = LCount n ch.
Proof.
  intros B Rm. induction fuel as [|fuel IH]; intros next s H0 Hf; [lia|].
  pose proof (adhoc_any f (S fuel) B Rm next H0 ltac:(lia)) as A. cbn [load_adhoc].
  destruct (Z.ltb_spec next (size f)) as [L|L]; [|destruct (next =? size f); eauto].
  destruct (adhoc_dissect (S fuel) f next) as [| |next'|hdr off n next'|]; try contradiction; [eauto| |].
  - apply IH; lia.
  - destruct A as (-> & A1 & A2 & -> & A3).
    destruct (slice_some f (hdr + 30) n B ltac:(lia) ltac:(lia) ltac:(lia)) as (d & -> & Bd).
    assert (P : forall i, 0 <= i -> i + 4 <= size f -> exists z, peek32 f i = Some z).
    { intros i Hi1 Hi2. destruct (peek32 f i) eqn:E; [eauto|]. apply peek32_page in E; [|exact Hi1]. unfold roomy in Rm. lia. }
    destruct (P (hdr + 20)) as [lo ->]; [lia..|]. destruct (P (hdr + 24)) as [hi ->]; [lia..|].
    pose proof (take_inside answer s (dtime (lo + 4294967296 * hi)) d Bd). destruct (take _ _ _ _); [apply IH; lia|eauto|congruence].
Qed.
