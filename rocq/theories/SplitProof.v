From Verif Require Import Base SplitModel SplitSpec.

Definition byte (b : Z) : Prop := 0 <= b < 256.

Lemma testbit_cons a A n : byte a -> 0 <= A -> 0 <= n ->
  Z.testbit (a + 256 * A) n = if n <? 8 then Z.testbit a n else Z.testbit A (n - 8).
Proof.
  unfold byte. intros Ha HA Hn. destruct (Z.ltb_spec n 8).
  - rewrite <- (Z.mod_pow2_bits_low (a + 256 * A) 8 n) by lia. f_equal. change (2 ^ 8) with 256. lia.
  - replace (a + 256 * A) with (A * 2 ^ 8 + a) by (change (2 ^ 8) with 256; lia).
    replace n with ((n - 8) + 8) at 1 by lia. rewrite <- Z.div_pow2_bits by lia. f_equal. change (2 ^ 8) with 256. lia.
Qed.

Lemma bitop_cons (op : Z -> Z -> Z) (bop : bool -> bool -> bool) a b A B :
  (forall x y n, 0 <= n -> Z.testbit (op x y) n = bop (Z.testbit x n) (Z.testbit y n)) -> bop false false = false ->
  (forall x y, 0 <= x -> 0 <= y -> 0 <= op x y) ->
  byte a -> byte b -> 0 <= A -> 0 <= B -> op (a + 256 * A) (b + 256 * B) = op a b + 256 * op A B /\ byte (op a b).
Proof.
  intros Hop Hff Hpos Ha Hb HA HB.
  assert (Hr : byte (op a b)).
  { unfold byte in *. split; [apply Hpos; lia|]. destruct (Z.eq_dec (op a b) 0) as [->|N]; [lia|].
    apply Z.log2_lt_pow2 with (a := op a b) (b := 8); [specialize (Hpos a b); lia|].
    apply Z.nle_gt. intros L. pose proof (Z.bit_log2 (op a b) ltac:(specialize (Hpos a b); lia)) as T. rewrite Hop in T by lia.
    rewrite (Z.bits_above_log2 a), (Z.bits_above_log2 b) in T; try lia; try congruence.
    - destruct (Z.eq_dec b 0) as [->|]; [cbn; lia|]. assert (Z.log2 b < 8); [apply Z.log2_lt_pow2; lia|lia].
    - destruct (Z.eq_dec a 0) as [->|]; [cbn; lia|]. assert (Z.log2 a < 8); [apply Z.log2_lt_pow2; lia|lia]. }
  split; [|exact Hr]. apply Z.bits_inj'. intros n Hn.
  rewrite Hop, !testbit_cons by (try assumption; apply Hpos; assumption). destruct (Z.ltb_spec n 8); rewrite Hop by lia; reflexivity.
Qed.

Lemma land_cons a b A B : byte a -> byte b -> 0 <= A -> 0 <= B -> Z.land (a + 256 * A) (b + 256 * B) = Z.land a b + 256 * Z.land A B /\ byte (Z.land a b).
Proof. apply (bitop_cons Z.land andb); [intros; apply Z.land_spec|reflexivity|intros; apply Z.land_nonneg; lia]. Qed.
Lemma lor_cons a b A B : byte a -> byte b -> 0 <= A -> 0 <= B -> Z.lor (a + 256 * A) (b + 256 * B) = Z.lor a b + 256 * Z.lor A B /\ byte (Z.lor a b).
Proof. apply (bitop_cons Z.lor orb); [intros; apply Z.lor_spec|reflexivity|intros; apply Z.lor_nonneg; lia]. Qed.
Lemma lxor_cons a b A B : byte a -> byte b -> 0 <= A -> 0 <= B -> Z.lxor (a + 256 * A) (b + 256 * B) = Z.lxor a b + 256 * Z.lxor A B /\ byte (Z.lxor a b).
Proof. apply (bitop_cons Z.lxor xorb); [intros; apply Z.lxor_spec|reflexivity|intros; apply Z.lxor_nonneg; lia]. Qed.

(** [W f l]: the word whose bytes are [map f l]. *)
Definition W (f : Z -> Z) (l : list Z) : Z := word_of (map f l).
Definition bfun (f : Z -> Z) (l : list Z) : Prop := forall b, In b l -> byte (f b).

Lemma W_cons f b l : W f (b :: l) = f b + 256 * W f l. Proof. reflexivity. Qed.
Lemma bfun_tl f b l : bfun f (b :: l) -> byte (f b) /\ bfun f l.
Proof. intros H. split; [apply H; left; reflexivity|intros x Hx; apply H; right; exact Hx]. Qed.
Lemma W_range f l : bfun f l -> 0 <= W f l < 256 ^ Z.of_nat (length l).
Proof.
  induction l as [|b l IH]; intros H; [cbn; lia|]. apply bfun_tl in H. destruct H as [Hb Hl]. specialize (IH Hl).
  rewrite W_cons. cbn [length]. rewrite Nat2Z.inj_succ, Z.pow_succ_r by lia. unfold byte in Hb. lia.
Qed.
Lemma W_ext f g l : (forall b, In b l -> f b = g b) -> W f l = W g l.
Proof. intros H. unfold W. f_equal. apply map_ext_in. exact H. Qed.

Lemma W_land f g l : bfun f l -> bfun g l -> Z.land (W f l) (W g l) = W (fun b => Z.land (f b) (g b)) l /\ bfun (fun b => Z.land (f b) (g b)) l.
Proof.
  induction l as [|b l IH]; intros Hf Hg; [split; [reflexivity|intros x []]|].
  apply bfun_tl in Hf, Hg. destruct Hf as [F1 F2], Hg as [G1 G2]. destruct (IH F2 G2) as [E B].
  pose proof (W_range f l F2). pose proof (W_range g l G2).
  destruct (land_cons (f b) (g b) (W f l) (W g l)) as [X Y]; [assumption|assumption|lia|lia|].
  rewrite !W_cons, X, E. split; [reflexivity|]. intros x [<-|Hx]; [exact Y|apply B, Hx].
Qed.
Lemma W_lor f g l : bfun f l -> bfun g l -> Z.lor (W f l) (W g l) = W (fun b => Z.lor (f b) (g b)) l /\ bfun (fun b => Z.lor (f b) (g b)) l.
Proof.
  induction l as [|b l IH]; intros Hf Hg; [split; [reflexivity|intros x []]|].
  apply bfun_tl in Hf, Hg. destruct Hf as [F1 F2], Hg as [G1 G2]. destruct (IH F2 G2) as [E B].
  pose proof (W_range f l F2). pose proof (W_range g l G2).
  destruct (lor_cons (f b) (g b) (W f l) (W g l)) as [X Y]; [assumption|assumption|lia|lia|].
  rewrite !W_cons, X, E. split; [reflexivity|]. intros x [<-|Hx]; [exact Y|apply B, Hx].
Qed.
Lemma W_lxor f g l : bfun f l -> bfun g l -> Z.lxor (W f l) (W g l) = W (fun b => Z.lxor (f b) (g b)) l /\ bfun (fun b => Z.lxor (f b) (g b)) l.
Proof.
  induction l as [|b l IH]; intros Hf Hg; [split; [reflexivity|intros x []]|].
  apply bfun_tl in Hf, Hg. destruct Hf as [F1 F2], Hg as [G1 G2]. destruct (IH F2 G2) as [E B].
  pose proof (W_range f l F2). pose proof (W_range g l G2).
  destruct (lxor_cons (f b) (g b) (W f l) (W g l)) as [X Y]; [assumption|assumption|lia|lia|].
  rewrite !W_cons, X, E. split; [reflexivity|]. intros x [<-|Hx]; [exact Y|apply B, Hx].
Qed.
Lemma W_add f g l : W f l + W g l = W (fun b => f b + g b) l.
Proof. induction l as [|b l IH]; [reflexivity|]. rewrite !W_cons, <- IH. lia. Qed.
Lemma W_mul k f l : W f l * k = W (fun b => f b * k) l.
Proof. induction l as [|b l IH]; [reflexivity|]. rewrite !W_cons, <- IH. lia. Qed.
Lemma W_not f l : 256 ^ Z.of_nat (length l) - 1 - W f l = W (fun b => 255 - f b) l.
Proof.
  induction l as [|b l IH]; [reflexivity|]. rewrite !W_cons, <- IH. cbn [length]. rewrite Nat2Z.inj_succ, Z.pow_succ_r by lia. lia.
Qed.
Lemma W_const n l : length l = 8%nat -> populate n = W (fun _ => n) l.
Proof.
  intros H. do 8 (destruct l as [|? l]; [discriminate|]). destruct l; [|discriminate].
  unfold W, populate; cbn [map word_of fold_right]. change (18446744073709551615 / 255) with 72340172838076673. lia.
Qed.
Lemma W64 f l : length l = 8%nat -> bfun f l -> 0 <= W f l < 18446744073709551616.
Proof. intros H B. pose proof (W_range f l B) as R. rewrite H in R. exact R. Qed.
Lemma W_not64 f l : length l = 8%nat -> not64 (W f l) = W (fun b => 255 - f b) l.
Proof. intros H. rewrite <- W_not, H. reflexivity. Qed.

(** Facts about single bytes, by computation. *)
Lemma all_bytes (p : Z -> bool) : forallb p (map Z.of_nat (seq 0 256)) = true -> forall b, byte b -> p b = true.
Proof.
  intros H b Hb. rewrite forallb_forall in H. apply H. apply in_map_iff. exists (Z.to_nat b). unfold byte in Hb. split; [lia|]. apply in_seq. lia.
Qed.
Lemma hz_byte b : byte b -> 255 - Z.lor (Z.lor (Z.land b 127 + 127) b) 127 = (if b =? 0 then 1 else 0) * 128 /\
  byte (Z.land b 127 + 127) /\ byte (255 - Z.lor (Z.lor (Z.land b 127 + 127) b) 127).
Proof.
  intros Hb. set (p := fun b => (255 - Z.lor (Z.lor (Z.land b 127 + 127) b) 127 =? (if b =? 0 then 1 else 0) * 128) &&
    (0 <=? Z.land b 127 + 127) && (Z.land b 127 + 127 <? 256) && (0 <=? 255 - Z.lor (Z.lor (Z.land b 127 + 127) b) 127) && (255 - Z.lor (Z.lor (Z.land b 127 + 127) b) 127 <? 256)).
  assert (P := all_bytes p ltac:(vm_compute; reflexivity) b Hb). unfold p in P. rewrite !andb_true_iff in P.
  destruct P as ((((P1 & P2) & P3) & P4) & P5). apply Z.eqb_eq in P1. apply Z.leb_le in P2, P4. apply Z.ltb_lt in P3, P5. unfold byte. auto.
Qed.

Lemma haszero_W f l : length l = 8%nat -> bfun f l -> haszero (W f l) = W (fun b => (if f b =? 0 then 1 else 0) * 128) l.
Proof.
  intros L B. unfold haszero, p7f. rewrite (W_const 127 l L).
  assert (B7 : bfun (fun _ => 127) l) by (intros b _; unfold byte; lia).
  destruct (W_land f (fun _ => 127) l B B7) as [-> Bl]. rewrite W_add.
  assert (Bs : bfun (fun b => Z.land (f b) 127 + 127) l) by (intros b Hb; apply hz_byte, B, Hb).
  rewrite u64_small by (apply W64; assumption).
  destruct (W_lor _ _ l Bs B) as [-> Bo]. destruct (W_lor _ _ l Bo B7) as [-> Bo2].
  rewrite W_not64 by assumption. apply W_ext. intros b Hb. apply hz_byte, B, Hb.
Qed.

Lemma lxor_byte b m : byte b -> byte m -> byte (Z.lxor b m) /\ ((Z.lxor b m =? 0) = (b =? m)).
Proof.
  intros Hb Hm. split; [apply (lxor_cons b m 0 0); try assumption; lia|].
  destruct (Z.eqb_spec b m) as [->|N]; [rewrite Z.lxor_nilpotent; reflexivity|].
  apply Z.eqb_neq. intros H. apply N, Z.lxor_eq, H.
Qed.

Definition mask1 (m b : Z) : Z := if b =? m then 0 else 255.
Lemma sepword l m : length l = 8%nat -> Forall byte l -> byte m ->
  not64 (u64 (haszero (Z.lxor (word_of l) (populate m)) / 128 * 255)) = W (mask1 m) l.
Proof.
  intros L F Hm. rewrite Forall_forall in F. replace (word_of l) with (W (fun b => b) l) by (unfold W; rewrite map_id; reflexivity).
  rewrite (W_const m l L). assert (Bm : bfun (fun _ => m) l) by (intros b _; exact Hm).
  destruct (W_lxor (fun b => b) (fun _ => m) l F Bm) as [-> Bx]. rewrite haszero_W by assumption.
  rewrite <- W_mul, Z.div_mul by lia. rewrite W_mul.
  rewrite u64_small by (apply W64; [assumption|]; intros b Hb; unfold byte; destruct (Z.lxor b m =? 0); lia).
  rewrite W_not64 by assumption. apply W_ext. intros b Hb. destruct (lxor_byte b m (F b Hb) Hm) as [_ ->]. unfold mask1. destruct (b =? m); lia.
Qed.

Definition is_sep (b : Z) : bool := (b =? 9) || (b =? 10) || (b =? 13) || (b =? 32).
Definition mask (b : Z) : Z := if is_sep b then 0 else 255.
Definition masked (b : Z) : Z := if is_sep b then 0 else b.

Lemma word_mask_W l : length l = 8%nat -> Forall byte l -> word_mask (word_of l) = W mask l.
Proof.
  intros L F. unfold word_mask, sep_masks. cbn [fold_left]. rewrite !sepword by (try assumption; unfold byte; lia).
  rewrite (W_const 255 l L).
  assert (Bm : forall m, bfun (mask1 m) l) by (intros m b _; unfold mask1, byte; destruct (b =? m); lia).
  assert (B5 : bfun (fun _ => 255) l) by (intros b _; unfold byte; lia).
  destruct (W_land _ _ l B5 (Bm 9)) as [-> C1]. destruct (W_land _ _ l C1 (Bm 10)) as [-> C2].
  destruct (W_land _ _ l C2 (Bm 13)) as [-> C3]. destruct (W_land _ _ l C3 (Bm 32)) as [-> C4].
  apply W_ext. intros b Hb. unfold mask, mask1, is_sep. destruct (b =? 9), (b =? 10), (b =? 13), (b =? 32); reflexivity.
Qed.

Lemma bytes_word f l : bfun f l -> bytes_of (length l) (W f l) = map f l.
Proof.
  induction l as [|b l IH]; intros B; [reflexivity|]. apply bfun_tl in B. destruct B as [B1 B2]. unfold byte in B1.
  cbn [length bytes_of map]. rewrite W_cons. f_equal; [lia|]. replace ((f b + 256 * W f l) / 256) with (W f l) by lia. apply IH, B2.
Qed.

Lemma land_mask b : byte b -> Z.land b (mask b) = masked b.
Proof.
  intros Hb. unfold mask, masked. destruct (is_sep b); [apply Z.land_0_r|].
  change 255 with (Z.ones 8). rewrite Z.land_ones by lia. apply Z.mod_small. exact Hb.
Qed.

Lemma masked_word l : length l = 8%nat -> Forall byte l ->
  bytes_of 8 (word_mask (word_of l)) = map mask l /\ bytes_of 8 (Z.land (word_of l) (word_mask (word_of l))) = map masked l.
Proof.
  intros L F. rewrite word_mask_W by assumption.
  assert (Bm : bfun mask l) by (intros b _; unfold mask, byte; destruct (is_sep b); lia).
  split; [rewrite <- L; apply bytes_word, Bm|].
  assert (F' := F). rewrite Forall_forall in F'.
  replace (word_of l) with (W (fun b => b) l) by (unfold W; rewrite map_id; reflexivity).
  destruct (W_land (fun b => b) mask l F' Bm) as [-> C]. rewrite <- L. rewrite bytes_word by exact C.
  apply map_ext_in. intros b Hb. apply land_mask, F', Hb.
Qed.

Lemma store_at {A} (pre m bs rest : list A) : length m = length bs -> store (pre ++ m ++ rest) (length pre) bs = Some (pre ++ bs ++ rest).
Proof.
  intros L. unfold store. rewrite !app_length. replace (length pre + length bs <=? length pre + (length m + length rest))%nat with true by lia.
  f_equal. rewrite firstn_app, firstn_all. replace (length pre - length pre)%nat with O by lia. cbn [firstn]. rewrite app_nil_r. f_equal. f_equal.
  rewrite <- L, app_assoc. rewrite <- app_length, skipn_app, skipn_all, Nat.sub_diag. reflexivity.
Qed.

Lemma strsplit_loop_ok big fuel : forall pre mpre rest mrest k dlen, length mpre = length pre -> length rest = (8 * k)%nat -> length mrest = (8 * k)%nat ->
  Forall byte rest -> (dlen <= length pre + 8 * k)%nat -> (dlen - length pre <= fuel)%nat ->
  exists r, (r <= 8 * k)%nat /\ (dlen <= length pre + r)%nat /\
    strsplit_loop fuel big (pre ++ rest) (mpre ++ mrest) (length pre) dlen =
    Some (pre ++ map masked (firstn r rest) ++ skipn r rest, mpre ++ map mask (firstn r rest) ++ skipn r mrest).
Proof.
  induction fuel as [|fuel IH]; intros pre mpre rest mrest k dlen Lm Lr Lmr F Hd Hf; cbn [strsplit_loop].
  - replace (length pre <? dlen)%nat with false by lia. exists 0%nat. repeat split; try lia. 
  - destruct (Nat.ltb_spec (length pre) dlen) as [Hlt|Hge]; [|exists 0%nat; repeat split; lia].
    destruct k as [|k]; [lia|].
    assert (Er : rest = firstn 8 rest ++ skipn 8 rest) by (symmetry; apply firstn_skipn).
    assert (Em : mrest = firstn 8 mrest ++ skipn 8 mrest) by (symmetry; apply firstn_skipn).
    set (w := firstn 8 rest) in *. set (rest' := skipn 8 rest) in *. set (mw := firstn 8 mrest) in *. set (mrest' := skipn 8 mrest) in *.
    assert (Lw : length w = 8%nat) by (unfold w; rewrite firstn_length; lia).
    assert (Lmw : length mw = 8%nat) by (unfold mw; rewrite firstn_length; lia).
    assert (Lr' : length rest' = (8 * k)%nat) by (unfold rest'; rewrite skipn_length; lia).
    assert (Lmr' : length mrest' = (8 * k)%nat) by (unfold mrest'; rewrite skipn_length; lia).
    assert (Fw : Forall byte w /\ Forall byte rest') by (apply Forall_app; rewrite <- Er; exact F). destruct Fw as [Fw Fr'].
    clearbody w rest' mw mrest'. subst rest mrest.
    unfold get8. rewrite !app_length. replace (length pre + 8 <=? length pre + (length w + length rest'))%nat with true by lia.
    assert (G : firstn 8 (skipn (length pre) (pre ++ w ++ rest')) = w).
    { rewrite skipn_app, skipn_all, Nat.sub_diag. cbn [skipn app]. rewrite firstn_app, Lw. rewrite <- Lw at 1. rewrite firstn_all. cbn [Nat.sub firstn]. apply app_nil_r. }
    rewrite G.
    set (ord := fun l : list Z => if big then rev l else l).
    assert (Lo : length (ord w) = 8%nat) by (unfold ord; destruct big; rewrite ?rev_length; exact Lw).
    assert (Fo : Forall byte (ord w)) by (unfold ord; destruct big; [apply Forall_rev|]; exact Fw).
    destruct (masked_word (ord w) Lo Fo) as [M1 M2].
    change (if big then rev w else w) with (ord w).
    assert (O1 : (if big then rev (bytes_of 8 (word_mask (word_of (ord w)))) else bytes_of 8 (word_mask (word_of (ord w)))) = map mask w).
    { rewrite M1. unfold ord. destruct big; [rewrite <- map_rev, rev_involutive|]; reflexivity. }
    assert (O2 : (if big then rev (bytes_of 8 (Z.land (word_of (ord w)) (word_mask (word_of (ord w))))) else bytes_of 8 (Z.land (word_of (ord w)) (word_mask (word_of (ord w))))) = map masked w).
    { rewrite M2. unfold ord. destruct big; [rewrite <- map_rev, rev_involutive|]; reflexivity. }
    rewrite O1, O2. 
    assert (T1 : store (mpre ++ mw ++ mrest') (length pre) (map mask w) = Some (mpre ++ map mask w ++ mrest')) by (rewrite <- Lm; apply store_at; rewrite map_length; lia).
    rewrite T1. rewrite store_at by (rewrite map_length; reflexivity).
    rewrite !app_assoc. replace (length pre + 8)%nat with (length (pre ++ map masked w)) by (rewrite app_length, map_length; lia).
    destruct (IH (pre ++ map masked w) (mpre ++ map mask w) rest' mrest' k dlen) as (r & R1 & R2 & E); try assumption.
    { rewrite !app_length, !map_length. lia. } { rewrite !app_length, !map_length. lia. } { rewrite !app_length, !map_length. lia. }
    exists (8 + r)%nat. rewrite app_length, map_length in R2. split; [lia|]. split; [lia|]. rewrite E. rewrite <- !app_assoc.
    assert (X : forall {A} (a b : list A), length a = 8%nat -> firstn (8 + r) (a ++ b) = a ++ firstn r b /\ skipn (8 + r) (a ++ b) = skipn r b).
    { intros A a b La. split.
      - rewrite <- La. rewrite firstn_app_2. reflexivity.
      - rewrite skipn_app, La. rewrite skipn_all2 by lia. replace (8 + r - 8)%nat with r by lia. reflexivity. }
    destruct (X _ w rest' Lw) as [-> ->]. destruct (X _ mw mrest' Lmw) as [_ ->]. rewrite !map_app, <- !app_assoc. reflexivity.
Qed.

Lemma mask_sep b : is_sep b = true <-> sep b.
Proof. unfold is_sep, sep. lia. Qed.

Lemma find0_mask s : match find0 (map mask s) with
  | None => Forall (fun c => ~ sep c) s
  | Some k => exists w c t, s = w ++ c :: t /\ length w = k /\ Forall (fun c => ~ sep c) w /\ sep c
  end.
Proof.
  induction s as [|b s IH]; cbn [map find0]; [constructor|].
  unfold mask at 1. destruct (is_sep b) eqn:E.
  - change (0 =? 0) with true. cbv iota. exists [], b, s. repeat split; auto. apply mask_sep, E.
  - change (255 =? 0) with false. cbv iota.
    assert (N : ~ sep b) by (intros X; apply mask_sep in X; congruence).
    destruct (find0 (map mask s)) as [k|]; cbn [option_map]; [|constructor; assumption].
    destruct IH as (w & c & t & -> & L & F & S). exists (b :: w), c, t. repeat split; auto. cbn. congruence.
Qed.

Definition tok_ok (B : list Z) (t : sref) : Prop := exists rest, skipn (fst t) B = str_at B t ++ 0 :: rest /\ length (str_at B t) = snd t.

Lemma masked_nosep w : Forall (fun c => ~ sep c) w -> map masked w = w.
Proof. induction 1 as [|c w Hc F IH]; [reflexivity|]. cbn. rewrite IH. f_equal. unfold masked. destruct (is_sep c) eqn:E; [apply mask_sep in E; tauto|reflexivity]. Qed.
Lemma masked_sep c : sep c -> masked c = 0.
Proof. intros H. unfold masked. apply mask_sep in H. rewrite H. reflexivity. Qed.

Lemma str_at_mid (pre w post : list Z) : str_at (pre ++ w ++ post) (length pre, length w) = w /\ skipn (length pre) (pre ++ w ++ post) = w ++ post.
Proof.
  unfold str_at; cbn [fst snd]. rewrite skipn_app, skipn_all, Nat.sub_diag. cbn [skipn app]. rewrite firstn_app, firstn_all, Nat.sub_diag. cbn [firstn]. rewrite app_nil_r. auto.
Qed.

Lemma scan_ok fuel : forall s pre post, (length s <= fuel)%nat ->
  let B := pre ++ map masked s ++ 0 :: post in let l := scan fuel (map mask s) (length pre) in
  tokens s (map (str_at B) l) /\ Forall (tok_ok B) l.
Proof.
  induction fuel as [|fuel IH]; intros s pre post Hl B l; subst B l.
  { destruct s; [|cbn in Hl; lia]. cbn. split; constructor. }
  destruct s as [|c0 s0]; [cbn; split; constructor|]. set (s := c0 :: s0) in *.
  assert (El : scan (S fuel) (map mask s) (length pre) = match find0 (map mask s) with
      | None => [(length pre, length (map mask s))]
      | Some k => (if (k =? 0)%nat then [] else [(length pre, k)]) ++ scan fuel (skipn (S k) (map mask s)) (length pre + S k) end) by reflexivity.
  rewrite El. clear El. pose proof (find0_mask s) as Hf. destruct (find0 (map mask s)) as [k|].
  - destruct Hf as (w & c & t & E & L & F & Sc).
    assert (Lt : (length t <= fuel)%nat).
    { assert (Q := f_equal (@length Z) E). rewrite app_length in Q. cbn [length] in Q, Hl. lia. }
    clearbody s. subst s.
    assert (Es : skipn (S k) (map mask (w ++ c :: t)) = map mask t).
    { rewrite map_app. cbn [map]. rewrite skipn_app, map_length, L. replace (S k - k)%nat with 1%nat by lia. rewrite skipn_all2 by (rewrite map_length; lia). reflexivity. }
    rewrite Es.
    assert (Ew : map masked (w ++ c :: t) = w ++ 0 :: map masked t) by (rewrite map_app, (masked_nosep w F); cbn [map]; rewrite (masked_sep c Sc); reflexivity).
    rewrite Ew.
    specialize (IH t (pre ++ w ++ [0]) post Lt). cbv zeta in IH.
    replace ((pre ++ w ++ [0]) ++ map masked t ++ 0 :: post) with (pre ++ (w ++ 0 :: map masked t) ++ 0 :: post) in IH by (rewrite <- !app_assoc; reflexivity).
    replace (length (pre ++ w ++ [0])) with (length pre + S k)%nat in IH by (rewrite !app_length; cbn; lia).
    destruct IH as [IH1 IH2]. set (B := pre ++ (w ++ 0 :: map masked t) ++ 0 :: post) in *.
    assert (SB : B = pre ++ w ++ (0 :: map masked t ++ 0 :: post)) by (unfold B; rewrite <- !app_assoc; reflexivity).
    destruct (Nat.eqb_spec k 0) as [->|Nk].
    + destruct w; [|discriminate]. cbn [app]. split; [apply tokens_sep; assumption|exact IH2].
    + destruct (str_at_mid pre w (0 :: map masked t ++ 0 :: post)) as [S1 S2]. rewrite <- SB, L in S1. rewrite <- SB in S2.
      rewrite map_app. cbn [map app]. rewrite S1. split.
      * apply tokens_run; [destruct w; [cbn in L; lia|discriminate]|exact F|right; eauto|apply tokens_sep; assumption].
      * constructor; [|exact IH2]. exists (map masked t ++ 0 :: post). cbn [fst snd]. rewrite S1, S2. auto.
  - cbn [map]. rewrite map_length. rewrite (masked_nosep s Hf).
    destruct (str_at_mid pre s (0 :: post)) as [S1 S2]. rewrite S1. split.
    + rewrite <- (app_nil_r s) at 1. apply tokens_run; [discriminate|exact Hf|auto|constructor].
    + constructor; [|constructor]. exists post. cbn [fst snd]. rewrite S1, S2. auto.
Qed.

(** The loop over strings instead of places in the buffer. *)
Inductive ares := AAbort | ADup (c : list Z) | AErr | AGo (ck : option (list Z)) (done : list (list (list Z))) (cur : list (list Z)).
Definition has0 (t : list Z) : bool := existsb (Z.eqb 0) t.
Definition isamp (t : list Z) : bool := match t with [a; b] => (a =? 38) && (b =? 38) | _ => false end.
Definition astep (umode : bool) (cached : list Z -> bool) ck done cur (t : list Z) : ares :=
  if has0 t then AErr
  else if umode && match ck with None => true | _ => false end then
    if cached t then ADup t else if (1024 <=? length t + 1)%nat then AAbort else AGo (Some t) done cur
  else if isamp t then if (length done =? 15)%nat then AErr else AGo ck (done ++ [cur]) []
  else if (24 <=? S (length cur))%nat then AErr else AGo ck done (cur ++ [t]).
Fixpoint arun umode cached ck done cur ts : ares :=
  match ts with
  | [] => AGo ck done cur
  | t :: ts => match astep umode cached ck done cur t with AGo ck done cur => arun umode cached ck done cur ts | r => r end
  end.

Definition arr (s : spst) : list cargs := sp_args s :: sp_subc s.
Record Rep (B : list Z) (umode : bool) (s : spst) ck done cur : Prop := {
  rp_ck : option_map (str_at B) (sp_cookie s) = ck;
  rp_n : sp_n s = length done; rp_n15 : (length done <= 15)%nat;
  rp_cap : sp_cap s = match length done with O => None | S n => Some n end;
  rp_len : length (arr s) = 17%nat;
  rp_ap : sp_ap s = length cur; rp_ap24 : (length cur < 24)%nat;
  rp_seg : forall i seg, nth_error (done ++ [cur]) i = Some seg ->
     exists a, nth_error (arr s) i = Some a /\ ca_c a = length seg /\ length (ca_v a) = 24%nat /\ args_at B a = seg;
  rp_rest : forall i, (length done < i < 17)%nat -> nth_error (arr s) i = Some cargs0;
  rp_first : umode = true -> ck = None -> done = [] /\ cur = [] }.

Lemma cur_arr s n : sp_cap s = match n with O => None | S n => Some n end -> cur_args s = nth_error (arr s) n.
Proof. unfold cur_args, arr. intros ->. destruct n; reflexivity. Qed.
Lemma set_arr s n a : sp_cap s = match n with O => None | S n => Some n end -> arr (set_cur s a) = upd (arr s) n a /\
  sp_cookie (set_cur s a) = sp_cookie s /\ sp_n (set_cur s a) = sp_n s /\ sp_cap (set_cur s a) = sp_cap s /\ sp_ap (set_cur s a) = sp_ap s.
Proof. unfold set_cur, arr. intros H. rewrite H. destruct n; cbn; rewrite ?H; auto. Qed.

Lemma find0_spec x rest : find0 (x ++ 0 :: rest) = Some (match find0 x with Some k => k | None => length x end).
Proof.
  induction x as [|c x IH]; [reflexivity|]. cbn [app find0]. destruct (c =? 0); [reflexivity|]. rewrite IH. cbn. destruct (find0 x); reflexivity.
Qed.
Lemma find0_has0 x : match find0 x with Some k => (k < length x)%nat /\ has0 x = true | None => has0 x = false end.
Proof.
  induction x as [|c x IH]; [reflexivity|]. cbn [find0 has0 existsb length]. rewrite (Z.eqb_sym 0 c). destruct (c =? 0) eqn:E; [split; [lia|reflexivity]|].
  fold (has0 x). destruct (find0 x); cbn; [|exact IH]. destruct IH. split; [lia|assumption].
Qed.

Lemma args_at_keep B c v x : (c <= length v)%nat -> args_at B (mkCargs c (upd v c x)) = args_at B (mkCargs c v).
Proof.
  intros H. unfold args_at; cbn [ca_c ca_v]. f_equal. revert v H. induction c as [|c IH]; intros [|h v] H; cbn in *; try reflexivity; try lia.
  f_equal. apply IH. lia.
Qed.
Lemma args_at_add B c v t : (c < length v)%nat -> args_at B (mkCargs (S c) (upd v c (Some t))) = args_at B (mkCargs c v) ++ [str_at B t].
Proof.
  intros H. unfold args_at; cbn [ca_c ca_v]. revert v H. induction c as [|c IH]; intros [|h v] H; cbn in *; try lia; [reflexivity|].
  f_equal. apply IH. lia.
Qed.

Lemma isampamp_str B t : tok_ok B t -> isampamp B t = isamp (str_at B t).
Proof.
  intros (rest & E & L). unfold isampamp. set (x := str_at B t) in *.
  assert (N : forall k, (k < length x)%nat -> nth (fst t + k) B 0 = nth k x 0).
  { intros k Hk. rewrite <- (app_nth1 x (0 :: rest)) by exact Hk. rewrite <- E. clear. revert B. induction (fst t) as [|o IH]; intros [|h B]; cbn; try reflexivity.
    - destruct k; reflexivity.
    - apply IH. }
  rewrite <- L. destruct x as [|a [|b [|c x]]]; cbn [length Nat.eqb andb isamp]; try reflexivity.
  rewrite <- (Nat.add_0_r (fst t)) at 1. rewrite !N by (cbn; lia). reflexivity.
Qed.

Lemma step_rep B umode cached s ck done cur t : Rep B umode s ck done cur -> tok_ok B t ->
  match astep umode cached ck done cur (str_at B t) with
  | AAbort => split_token B umode cached s t = SpAbort
  | ADup c => split_token B umode cached s t = SpDup t /\ c = str_at B t
  | AErr => split_token B umode cached s t = SpErr
  | AGo ck' done' cur' => exists s', split_token B umode cached s t = SpGo s' /\ Rep B umode s' ck' done' cur'
  end.
Proof.
  intros R T. destruct (T) as (rest & E & L). unfold split_token, astep, strlen_at. rewrite E, find0_spec.
  set (x := str_at B t) in *. pose proof (find0_has0 x) as H0.
  assert (Hs : ((match find0 x with Some k => k | None => length x end) <? snd t)%nat = has0 x).
  { rewrite <- L. destruct (find0 x); [destruct H0 as [H0 ->]; lia|rewrite H0; lia]. }
  rewrite Hs. destruct (has0 x); [reflexivity|].
  destruct R as [R1 R2 R3 R4 R5 R6 R7 R8 R9 R10].
  destruct (R8 (length done) cur) as (a & A1 & A2 & A3 & A4); [rewrite nth_error_app2, Nat.sub_diag by lia; reflexivity|].
  rewrite (cur_arr s _ R4), A1. rewrite A3, R6. replace (length cur <? 24)%nat with true by lia.
  destruct a as [ac av]. cbn [ca_c ca_v] in *. subst ac.
  assert (Hcond : (match sp_cap s with None => true | _ => false end && umode && (length cur =? 0)%nat && match sp_cookie s with None => true | _ => false end)
     = umode && match ck with None => true | _ => false end).
  { rewrite <- R1. destruct (sp_cookie s) as [ct|]; cbn [option_map]; [rewrite !andb_false_r; reflexivity|]. rewrite !andb_true_r.
    destruct umode; [|rewrite andb_false_r; reflexivity]. destruct (R10 eq_refl) as [-> ->]; [rewrite <- R1; reflexivity|]. rewrite R4. reflexivity. }
  rewrite Hcond. clear Hcond.
  assert (KEEP : forall y, let s1 := set_cur s (mkCargs (length cur) (upd av (length cur) y)) in
     forall i seg, nth_error (done ++ [cur]) i = Some seg -> exists a, nth_error (arr s1) i = Some a /\ ca_c a = length seg /\ length (ca_v a) = 24%nat /\ args_at B a = seg).
  { intros y s1 i seg Hi. unfold s1. destruct (set_arr s _ (mkCargs (length cur) (upd av (length cur) y)) R4) as (-> & _).
    destruct (Nat.eq_dec i (length done)) as [->|Ni].
    - rewrite nth_error_app2, Nat.sub_diag in Hi by lia. injection Hi as <-.
      eexists. split; [apply nth_error_upd_same; lia|]. cbn [ca_c ca_v]. rewrite upd_length, args_at_keep by lia. auto.
    - rewrite nth_error_upd_other by congruence. apply R8, Hi. }
  destruct (umode && match ck with None => true | _ => false end) eqn:Ec.
  - replace (firstn (snd t) (x ++ 0 :: rest)) with x by (rewrite <- L, firstn_app, firstn_all, Nat.sub_diag; cbn [firstn]; rewrite app_nil_r; reflexivity).
    destruct (cached x); [auto|]. rewrite L. destruct (1024 <=? snd t + 1)%nat; [reflexivity|].
    specialize (KEEP (Some t)). cbv zeta in KEEP.
    destruct (set_arr s _ (mkCargs (length cur) (upd av (length cur) (Some t))) R4) as (Q1 & Q2 & Q3 & Q4 & Q5).
    set (s1 := set_cur s _) in *. clearbody s1.
    eexists. split; [reflexivity|]. split; unfold arr in *; cbn [sp_cookie sp_n sp_cap sp_ap sp_args sp_subc]; try congruence.
    + reflexivity.
    + rewrite Q1, upd_length. exact R5.
    + exact KEEP.
    + intros i Hi. rewrite Q1, nth_error_upd_other by lia. apply R9, Hi.
  - rewrite isampamp_str by exact T. fold x. destruct (isamp x).
    + rewrite R2. change (MAX_SUBC_NUM - 1)%nat with 15%nat. destruct (Nat.eqb_spec (length done) 15); [reflexivity|].
      specialize (KEEP None). cbv zeta in KEEP.
      destruct (set_arr s _ (mkCargs (length cur) (upd av (length cur) None)) R4) as (Q1 & Q2 & Q3 & Q4 & Q5).
      set (s1 := set_cur s _) in *. clearbody s1.
      eexists. split; [reflexivity|]. split; unfold arr in *; cbn [sp_cookie sp_n sp_cap sp_ap sp_args sp_subc]; try congruence.
      * rewrite app_length; cbn; lia.
      * rewrite app_length; cbn; lia.
      * rewrite app_length, Nat.add_1_r. reflexivity.
      * rewrite Q1, upd_length. exact R5.
      * reflexivity.
      * cbn; lia.
      * intros i seg Hi. destruct (Nat.lt_ge_cases i (length done + 1)) as [Hlt|Hge].
        -- rewrite nth_error_app1 in Hi by (rewrite app_length; cbn; lia). apply KEEP, Hi.
        -- rewrite nth_error_app2 in Hi by (rewrite app_length; cbn; lia). rewrite app_length in Hi. cbn [length] in Hi.
           destruct (i - (length done + 1))%nat as [|j] eqn:Ej; [|destruct j; discriminate]. injection Hi as <-.
           assert (i = (length done + 1)%nat) as -> by lia. exists cargs0. split; [rewrite Q1, nth_error_upd_other by lia; apply R9; lia|]. repeat split.
      * intros i Hi. rewrite app_length in Hi. cbn [length] in Hi. rewrite Q1, nth_error_upd_other by lia. apply R9. lia.
      * intros U K. rewrite U, K in Ec. discriminate.
    + change RTPC_MAX_ARGC with 24%nat. destruct (24 <=? S (length cur))%nat eqn:E24; [reflexivity|].
      destruct (set_arr s _ (mkCargs (S (length cur)) (upd av (length cur) (Some t))) R4) as (Q1 & Q2 & Q3 & Q4 & Q5).
      set (s1 := set_cur s _) in *. clearbody s1.
      eexists. split; [reflexivity|]. split; unfold arr in *; cbn [set_ap sp_cookie sp_n sp_cap sp_ap sp_args sp_subc]; try congruence.
      * rewrite Q1, upd_length. exact R5.
      * rewrite app_length; cbn; lia.
      * rewrite app_length; cbn; lia.
      * intros i seg Hi. rewrite Q1. destruct (Nat.eq_dec i (length done)) as [->|Ni].
        -- rewrite nth_error_app2, Nat.sub_diag in Hi by lia. injection Hi as <-.
           eexists. split; [apply nth_error_upd_same; lia|]. cbn [ca_c ca_v]. rewrite upd_length, args_at_add by lia. rewrite A4.
           rewrite app_length. cbn [length]. repeat split; [lia|exact A3].
        -- rewrite nth_error_upd_other by congruence. apply R8.
           destruct (Nat.lt_ge_cases i (length done)) as [Hlt|Hge]; [rewrite nth_error_app1 in * by lia; exact Hi|].
           rewrite nth_error_app2 in Hi by lia. destruct (i - length done)%nat as [|j] eqn:Ej; [lia|destruct j; discriminate].
      * intros i Hi. rewrite Q1, nth_error_upd_other by lia. apply R9, Hi.
      * intros U K. rewrite U, K in Ec. discriminate.
Qed.

Lemma run_rep B umode cached ts : Forall (tok_ok B) ts -> forall s ck done cur, Rep B umode s ck done cur ->
  match arun umode cached ck done cur (map (str_at B) ts) with
  | AAbort => split_tokens B umode cached s ts = SpAbort
  | ADup c => exists t, split_tokens B umode cached s ts = SpDup t /\ c = str_at B t
  | AErr => split_tokens B umode cached s ts = SpErr
  | AGo ck' done' cur' => exists s', split_tokens B umode cached s ts = SpGo s' /\ Rep B umode s' ck' done' cur'
  end.
Proof.
  intros F. induction F as [|t ts T F IH]; intros s ck done cur R; cbn [map arun split_tokens]; [eauto|].
  pose proof (step_rep B umode cached s ck done cur t R T) as Hs.
  destruct (astep umode cached ck done cur (str_at B t)) as [|c| |ck' done' cur'].
  - rewrite Hs. reflexivity.
  - destruct Hs as [-> ->]. eauto.
  - rewrite Hs. reflexivity.
  - destruct Hs as (s' & -> & R'). apply IH, R'.
Qed.

(** Cutting at "&&". *)
Fixpoint cut (cur : list (list Z)) (ts : list (list Z)) : list (list (list Z)) :=
  match ts with [] => [cur] | t :: ts => if isamp t then cur :: cut [] ts else cut (cur ++ [t]) ts end.
Lemma isamp_eq t : isamp t = true <-> t = ampamp.
Proof.
  unfold isamp, ampamp. destruct t as [|a [|b [|c t]]]; try (split; [discriminate|congruence]).
  rewrite andb_true_iff, !Z.eqb_eq. split; [intros [-> ->]; reflexivity|intros [= -> ->]; auto].
Qed.
Lemma segments_cut ts segs : segments ts segs <-> segs = cut [] ts.
Proof.
  assert (G1 : forall l pre, Forall (fun t => t <> ampamp) l -> cut pre l = [pre ++ l]).
  { induction l as [|t l IH]; intros pre F; cbn [cut]; [rewrite app_nil_r; reflexivity|]. inversion F; subst.
    destruct (isamp t) eqn:E; [apply isamp_eq in E; congruence|]. rewrite IH by assumption. rewrite <- app_assoc. reflexivity. }
  assert (G2 : forall l pre rest, Forall (fun t => t <> ampamp) l -> cut pre (l ++ ampamp :: rest) = (pre ++ l) :: cut [] rest).
  { induction l as [|t l IH]; intros pre rest F; cbn [app cut]; [change (isamp ampamp) with true; rewrite app_nil_r; reflexivity|]. inversion F; subst.
    destruct (isamp t) eqn:E; [apply isamp_eq in E; congruence|]. rewrite IH by assumption. rewrite <- app_assoc. reflexivity. }
  assert (G3 : forall l pre, Forall (fun t => t <> ampamp) pre -> segments (pre ++ l) (cut pre l)).
  { induction l as [|t l IH]; intros pre F; cbn [cut]; [rewrite app_nil_r; constructor; exact F|].
    destruct (isamp t) eqn:E.
    - apply isamp_eq in E. subst t. constructor; [exact F|]. apply (IH []). constructor.
    - replace (pre ++ t :: l) with ((pre ++ [t]) ++ l) by (rewrite <- app_assoc; reflexivity). apply IH. apply Forall_app. split; [exact F|].
      constructor; [|constructor]. intros X. apply isamp_eq in X. congruence. }
  split.
  - induction 1 as [ts F|ts rest segs F H IH]; [rewrite G1 by exact F; reflexivity|]. rewrite G2 by exact F. rewrite IH. reflexivity.
  - intros ->. apply (G3 ts []). constructor.
Qed.

(** The body of the message, after the cookie. *)
Definition body_ok (ts : list (list Z)) (done : list (list (list Z))) cur : bool :=
  negb (existsb has0 ts) && forallb (fun s => (length s <=? 23)%nat) (cut cur ts) && (length done + length (cut cur ts) <=? 16)%nat.
Lemma cut_head cur ts : exists s rest, cut cur ts = s :: rest /\ (length cur <= length s)%nat.
Proof.
  revert cur. induction ts as [|t ts IH]; intros cur; cbn [cut]; [eauto|]. destruct (isamp t); [eauto|].
  destruct (IH (cur ++ [t])) as (s & r & E & L). rewrite app_length in L. cbn in L. exists s, r. split; [exact E|lia].
Qed.
Lemma arun_body umode cached ck ts : umode && match ck with None => true | _ => false end = false -> forall done cur, (length done <= 15)%nat -> (length cur <= 23)%nat ->
  if body_ok ts done cur then exists done' cur', arun umode cached ck done cur ts = AGo ck done' cur' /\ done' ++ [cur'] = done ++ cut cur ts
  else arun umode cached ck done cur ts = AErr.
Proof.
  intros Hc. induction ts as [|t ts IH]; intros done cur Hd Hcu.
  - unfold body_ok. cbn [existsb negb cut forallb length arun]. replace (length cur <=? 23)%nat with true by lia. replace (length done + 1 <=? 16)%nat with true by lia. cbn. eauto.
  - unfold body_ok. cbn [existsb arun cut]. unfold astep. rewrite Hc. destruct (has0 t); [reflexivity|]. cbn [orb].
    destruct (isamp t).
    + cbn [forallb length]. replace (length cur <=? 23)%nat with true by lia.
      destruct (Nat.eqb_spec (length done) 15) as [E15|N15].
      * destruct (cut_head [] ts) as (s & r & E & _). rewrite E. cbn [length]. replace (length done + S (S (length r)) <=? 16)%nat with false by lia. rewrite andb_false_r. reflexivity.
      * specialize (IH (done ++ [cur]) []). rewrite app_length in IH. cbn [length] in IH. specialize (IH ltac:(lia) ltac:(lia)).
        unfold body_ok in IH. rewrite app_length in IH. cbn [length] in IH.
        replace (length done + 1 + length (cut [] ts))%nat with (length done + S (length (cut [] ts)))%nat in IH by lia.
        cbn [andb]. destruct (negb (existsb has0 ts) && forallb (fun s => (length s <=? 23)%nat) (cut [] ts) && (length done + S (length (cut [] ts)) <=? 16)%nat); [|exact IH].
        destruct IH as (d & c & E & Q). exists d, c. split; [exact E|]. rewrite Q, <- app_assoc. reflexivity.
    + destruct (24 <=? S (length cur))%nat eqn:E24.
      * destruct (cut_head (cur ++ [t]) ts) as (s & r & E & L). rewrite E. cbn [forallb length]. rewrite app_length in L. cbn in L.
        replace (length s <=? 23)%nat with false by lia. rewrite andb_false_r. reflexivity.
      * specialize (IH done (cur ++ [t])). rewrite app_length in IH. cbn [length] in IH. specialize (IH ltac:(lia) ltac:(lia)). exact IH.
Qed.

Lemma Rep0 B umode : Rep B umode (mkSpst None cargs0 (repeat cargs0 MAX_SUBC_NUM) 0 None 0) None [] [].
Proof.
  split; unfold arr; cbn [sp_cookie sp_n sp_cap sp_ap sp_args sp_subc]; try reflexivity; try (cbn; lia); auto.
  - intros [|[|i]] seg Hi; cbn in Hi; try discriminate. injection Hi as <-. exists cargs0. repeat split.
  - intros i Hi. change (cargs0 :: repeat cargs0 MAX_SUBC_NUM) with (repeat cargs0 17). apply nth_error_repeat. lia.
Qed.

Lemma run_unique (w s w' s' : list Z) : w ++ s = w' ++ s' -> Forall (fun c => ~ sep c) w -> Forall (fun c => ~ sep c) w' ->
  (s = [] \/ exists c t, s = c :: t /\ sep c) -> (s' = [] \/ exists c t, s' = c :: t /\ sep c) -> w = w' /\ s = s'.
Proof.
  intros E F F' S S'. revert w' E F'. induction F as [|c w Hc F IH]; intros [|c' w'] E F'; cbn in E; auto.
  - exfalso. inversion F'; subst. destruct S as [S|(x & t & S & Hx)]; congruence.
  - exfalso. destruct S' as [S'|(x & t & S' & Hx)]; subst; [discriminate|]. injection E as -> _. auto.
  - injection E as -> E. inversion F'; subst. destruct (IH w' E H2) as [-> ->]. auto.
Qed.

Lemma tokens_det n : forall s, (length s <= n)%nat -> forall a b, tokens s a -> tokens s b -> a = b.
Proof.
  induction n as [|n IH]; intros s Hn a b Ha Hb.
  - destruct s; [|cbn in Hn; lia]. inversion Ha as [| |w s ts N F S T E]; [|destruct w; [congruence|discriminate]].
    inversion Hb as [| |w s ts N F S T E]; [reflexivity|destruct w; [congruence|discriminate]].
  - destruct Ha as [|c s ts Sc T|w s ts N F S T].
    + inversion Hb as [| |w s ts N F S T E]; [reflexivity|destruct w; [congruence|discriminate]].
    + cbn in Hn. inversion Hb as [|c' s' ts' Sc' T' E|w s' ts' N F S T' E]; subst; [apply (IH s); try assumption; lia|].
      exfalso. destruct w as [|x w]; [congruence|]. injection E as -> _. inversion F; subst. auto.
    + inversion Hb as [E E2|c' s' ts' Sc' T' E|w' s' ts' N' F' S' T' E]; subst.
      * destruct w; [congruence|discriminate].
      * exfalso. destruct w as [|x w]; [congruence|]. injection E as -> _. inversion F; subst. auto.
      * destruct (run_unique _ _ _ _ E F' F S' S) as [-> ->]. f_equal. apply (IH s); [|assumption|assumption].
        rewrite app_length in Hn. destruct w; [congruence|]. cbn in Hn. lia.
Qed.

Lemma firstn_map_app {A B} (f : A -> B) (l : list A) (m : list B) r n : (n <= r)%nat -> (r <= length l)%nat ->
  firstn n (map f (firstn r l) ++ m) = map f (firstn n l).
Proof.
  intros H1 H2. rewrite firstn_app, map_length, firstn_length. replace (n - Nat.min r (length l))%nat with O by lia. cbn [firstn]. rewrite app_nil_r.
  rewrite firstn_map, firstn_firstn. f_equal. f_equal. lia.
Qed.

Lemma nth_skipn {A} (l : list A) r : forall i, (r <= i)%nat -> nth_error (skipn r l) (i - r) = nth_error l i.
Proof.
  revert l. induction r as [|r IH]; intros l i H; [rewrite Nat.sub_0_r; reflexivity|].
  destruct i as [|i]; [lia|]. destruct l as [|h l]; [cbn [skipn nth_error]; destruct (S i - S r)%nat; reflexivity|]. cbn [skipn nth_error Nat.sub]. apply IH. lia.
Qed.

(** What the tokenizer leaves in the two buffers. *)
Lemma strsplit_full big buf mbuf len k : length buf = (8 * k)%nat -> length mbuf = (8 * k)%nat -> Forall byte buf -> (len <= 8 * k)%nat ->
  exists buf' mbuf', strsplit big buf mbuf len = Some (buf', mbuf') /\ length buf' = (8 * k)%nat /\ length mbuf' = (8 * k)%nat /\
    firstn len mbuf' = map mask (firstn len buf) /\ firstn len buf' = map masked (firstn len buf) /\
    (forall i, nth_error buf i = Some 0 -> nth_error buf' i = Some 0).
Proof.
  intros L Lm F Hl. destruct (strsplit_loop_ok big len [] [] buf mbuf k len eq_refl L Lm F) as (r & R1 & R2 & E); [cbn; lia|cbn; lia|].
  cbn [app length Nat.add] in *. eexists. eexists. split; [exact E|].
  split; [rewrite app_length, map_length, firstn_length, skipn_length; lia|].
  split; [rewrite app_length, map_length, firstn_length, skipn_length; lia|].
  split; [apply firstn_map_app; lia|]. split; [apply firstn_map_app; lia|].
  intros i Hi. destruct (Nat.lt_ge_cases i r) as [Hr|Hr].
  - rewrite nth_error_app1 by (rewrite map_length, firstn_length; lia).
    rewrite nth_error_map. assert (X : nth_error (firstn r buf) i = Some 0).
    { rewrite <- Hi. clear - Hr. revert r buf Hr. induction i as [|i IH]; intros [|r] [|b buf] Hr; cbn; try lia; try reflexivity. apply IH. lia. }
    rewrite X. reflexivity.
  - rewrite nth_error_app2 by (rewrite map_length, firstn_length; lia). rewrite map_length, firstn_length, Nat.min_l by lia.
    rewrite <- Hi. apply nth_skipn, Hr.
Qed.

Lemma split_shape {A} (l : list A) n x : nth_error l n = Some x -> l = firstn n l ++ x :: skipn (S n) l.
Proof. revert l. induction n as [|n IH]; intros [|h l] H; cbn in H; try discriminate; [cbn; congruence|]. cbn [firstn app]. f_equal. apply IH, H. Qed.

Lemma tokenizer_ok big buf mbuf len k : length buf = (8 * k)%nat -> length mbuf = (8 * k)%nat -> Forall byte buf -> nth_error buf len = Some 0 ->
  exists buf' mbuf', strsplit big buf mbuf len = Some (buf', mbuf') /\
    (forall ts, tokens (firstn len buf) ts <-> ts = map (str_at buf') (scan len (firstn len mbuf') 0)) /\
    Forall (tok_ok buf') (scan len (firstn len mbuf') 0).
Proof.
  intros L Lm F H0. assert (Hl : (len < length buf)%nat) by (apply nth_error_Some; congruence).
  destruct (strsplit_full big buf mbuf len k L Lm F) as (buf' & mbuf' & E & L1 & L2 & M1 & M2 & Z0); [lia|].
  exists buf', mbuf'. split; [exact E|]. specialize (Z0 _ H0).
  destruct (scan_ok len (firstn len buf) [] (skipn (S len) buf')) as [T K]; [rewrite firstn_length; lia|].
  cbn [app length] in T, K. rewrite <- M1 in T, K. rewrite <- M2 in T, K. rewrite <- (split_shape buf' len 0 Z0) in T, K.
  split; [|exact K]. intros ts. split; [|intros ->; exact T]. intros H. eapply tokens_det; [apply le_n|exact H|exact T].
Qed.

Lemma has0_in t : has0 t = true <-> In 0 t.
Proof. unfold has0. rewrite existsb_exists. split; [intros (x & H & E); apply Z.eqb_eq in E; subst; exact H|intros H; exists 0; split; [exact H|reflexivity]]. Qed.
Lemma has0_nin t : has0 t = false <-> ~ In 0 t.
Proof. rewrite <- has0_in. destruct (has0 t); split; congruence. Qed.

Lemma Rep_final B umode s ck done cur : Rep B umode s ck done cur ->
  option_map (str_at B) (sp_cookie s) = ck /\ exists args subc, done ++ [cur] = args :: subc /\ args_at B (sp_args s) = args /\ ca_c (sp_args s) = length args /\
    map (args_at B) (firstn (sp_n s) (sp_subc s)) = subc /\ map ca_c (firstn (sp_n s) (sp_subc s)) = map (@length (list Z)) subc.
Proof.
  intros R. split; [apply (rp_ck _ _ _ _ _ _ R)|].
  destruct (done ++ [cur]) as [|args subc] eqn:Ed; [destruct done; discriminate|]. exists args, subc. split; [reflexivity|].
  destruct R as [_ R2 R3 R4 R5 R6 R7 R8 R9 _]. rewrite Ed in R8.
  destruct (R8 0%nat args eq_refl) as (a & A1 & A2 & A3 & A4). cbn in A1. injection A1 as <-. split; [exact A4|]. split; [exact A2|].
  assert (Ls : length subc = sp_n s).
  { assert (Q := f_equal (@length _) Ed). rewrite app_length in Q. cbn in Q. lia. }
  assert (R8' : forall i seg, nth_error subc i = Some seg -> exists a, nth_error (sp_subc s) i = Some a /\ ca_c a = length seg /\ args_at B a = seg).
  { intros i seg Hi. destruct (R8 (S i) seg Hi) as (b & B1 & B2 & B3 & B4). cbn in B1. eauto. }
  clear - Ls R8'. revert R8' Ls. generalize (sp_n s) as n, (sp_subc s) as l. induction subc as [|g subc IH]; intros n l H Ls; cbn in Ls; subst n; [split; reflexivity|].
  destruct (H 0%nat g eq_refl) as (a & A1 & A2 & A3). destruct l as [|a' l]; [discriminate|]. cbn in A1. injection A1 as ->.
  cbn [firstn map]. destruct (IH (length subc) l) as [I1 I2]; [|reflexivity|].
  - intros i seg Hi. apply (H (S i) seg Hi).
  - rewrite I1, I2, A2, A3. auto.
Qed.

Lemma no_short l : existsb (fun a => (ca_c a <? 1)%nat) l = existsb (fun n => (n <? 1)%nat) (map ca_c l).
Proof. induction l as [|a l IH]; [reflexivity|]. cbn [existsb map]. rewrite IH. reflexivity. Qed.

Lemma well_formed_ok umode cookie body args subc : (umode = true <-> cookie <> None) ->
  (match cookie with Some c => ~ In 0 c | None => True end) -> cut [] body = args :: subc ->
  well_formed umode ((match cookie with Some c => [c] | None => [] end) ++ body) cookie args subc <->
  (body_ok body [] [] = true /\ Forall (fun s => (1 <= length s)%nat) (args :: subc)).
Proof.
  intros Hu Hc Es. unfold body_ok. rewrite Es. cbn [Nat.add]. rewrite !andb_true_iff, negb_true_iff. split.
  - intros (body' & E & _ & Hs & Hl & Hn & H0). apply app_inv_head in E. subst body'.
    split; [split; [split|]|].
    + destruct (existsb has0 body) eqn:X; [|reflexivity]. exfalso. apply existsb_exists in X. destruct X as (t & Ht & Hz).
      rewrite Forall_forall in H0. apply (H0 t); [apply in_or_app; auto|apply has0_in, Hz].
    + apply forallb_forall. intros g Hg. rewrite Forall_forall in Hl. specialize (Hl g Hg). lia.
    + cbn [length]. lia.
    + eapply Forall_impl; [|exact Hl]. cbn. lia.
  - intros (((H0 & H23) & H16) & H1).
    exists body. split; [reflexivity|]. split; [exact Hu|]. split; [apply segments_cut; congruence|].
    split; [|split].
    + rewrite Forall_forall in *. rewrite forallb_forall in H23. intros g Hg. specialize (H23 g Hg). specialize (H1 g Hg). lia.
    + cbn in H16. lia.
    + apply Forall_app. split; [destruct cookie; [constructor; [exact Hc|constructor]|constructor]|].
      apply Forall_forall. intros t Ht X. apply has0_in in X. assert (existsb has0 body = true) by (apply existsb_exists; eauto). congruence.
Qed.

Lemma well_formed_cut umode ts c a s : well_formed umode ts c a s ->
  exists body, ts = (match c with Some c => [c] | None => [] end) ++ body /\ (umode = true <-> c <> None) /\
    (match c with Some c => ~ In 0 c | None => True end) /\ cut [] body = a :: s.
Proof.
  intros (body & -> & Hu & Hs & _ & _ & H0). exists body. split; [reflexivity|]. split; [exact Hu|]. split; [|symmetry; apply segments_cut; exact Hs].
  destruct c; [|exact I]. inversion H0; assumption.
Qed.

(** The whole function after the tokenizer. *)
Lemma finish_ok B umode cached refs : Forall (tok_ok B) refs -> forall ts, ts = map (str_at B) refs ->
  let s0 := mkSpst None cargs0 (repeat cargs0 MAX_SUBC_NUM) 0 None 0 in
  match
      match split_tokens B umode cached s0 refs with
      | SpOob => ROob
      | SpAbort => RAbort
      | SpDup t => RDup (str_at B t)
      | SpErr => RSyntaxError
      | SpGo s =>
          if (ca_c (sp_args s) <? 1)%nat || (umode && match sp_cookie s with None => true | _ => false end) then RSyntaxError
          else if existsb (fun a => (ca_c a <? 1)%nat) (firstn (sp_n s) (sp_subc s)) then RSyntaxError
          else RCommand (option_map (str_at B) (sp_cookie s)) (args_at B (sp_args s)) (map (args_at B) (firstn (sp_n s) (sp_subc s)))
      end
  with
  | ROob => False
  | RDup c => umode = true /\ ~ In 0 c /\ cached c = true /\ exists rest, ts = c :: rest
  | RAbort => umode = true /\ exists c rest, ts = c :: rest /\ ~ In 0 c /\ cached c = false /\ (1023 <= length c)%nat
  | RSyntaxError => forall c a s, ~ well_formed umode ts c a s
  | RCommand c a s => well_formed umode ts c a s /\ (forall x, c = Some x -> cached x = false /\ (length x < 1023)%nat)
  end.
Proof.
  intros F ts Ets s0. pose proof (run_rep B umode cached refs F s0 None [] [] (Rep0 B umode)) as H. rewrite <- Ets in H.
  assert (BODY : forall cookie body, ts = (match cookie with Some c => [c] | None => [] end) ++ body -> (umode = true <-> cookie <> None) ->
     (match cookie with Some c => ~ In 0 c | None => True end) -> (forall x, cookie = Some x -> cached x = false /\ (length x < 1023)%nat) ->
     arun umode cached None [] [] ts = arun umode cached cookie [] [] body ->
     match arun umode cached None [] [] ts with
     | AGo ck done cur => exists args subc, done ++ [cur] = args :: subc /\ ck = cookie /\ cut [] body = args :: subc /\ body_ok body [] [] = true
     | AErr => body_ok body [] [] = false
     | _ => False end).
  { intros cookie body E Hu Hc Hx Er. rewrite Er.
    assert (Hcond : umode && match cookie with None => true | _ => false end = false).
    { destruct umode; [|reflexivity]. destruct cookie; [reflexivity|]. destruct Hu as [Hu _]. specialize (Hu eq_refl). congruence. }
    pose proof (arun_body umode cached cookie body Hcond [] [] ltac:(cbn; lia) ltac:(cbn; lia)) as A.
    destruct (body_ok body [] []).
    - destruct A as (d & c & -> & Q). cbn [app] in Q. destruct (cut_head [] body) as (a & s & Ec & _). exists a, s. rewrite Q. auto.
    - rewrite A. reflexivity. }
  assert (NOWF : forall cookie body, ts = (match cookie with Some c => [c] | None => [] end) ++ body -> (umode = true <-> cookie <> None) ->
     (match cookie with Some c => ~ In 0 c | None => True end) -> (body_ok body [] [] = false \/ ~ Forall (fun s => (1 <= length s)%nat) (cut [] body)) ->
     forall c a s, ~ well_formed umode ts c a s).
  { intros cookie body E Hu Hc Hb c a s W. destruct (well_formed_cut _ _ _ _ _ W) as (body' & E' & Hu' & Hc' & Ec).
    rewrite E' in W. apply well_formed_ok in W; try assumption. destruct W as [W1 W2].
    assert (body' = body /\ c = cookie) as [-> ->].
    { destruct c as [c|], cookie as [ck|]; cbn in E, E'; rewrite E in E'.
      - injection E' as -> ->. auto.
      - exfalso. destruct Hu, Hu'. rewrite H3 in H0 by congruence. specialize (H0 eq_refl). congruence.
      - exfalso. destruct Hu, Hu'. rewrite H1 in H2 by congruence. specialize (H2 eq_refl). congruence.
      - subst. auto. }
    destruct Hb as [Hb|Hb]; [congruence|]. rewrite Ec in Hb. contradiction. }
  assert (FIN : forall cookie body, ts = (match cookie with Some c => [c] | None => [] end) ++ body -> (umode = true <-> cookie <> None) ->
     (match cookie with Some c => ~ In 0 c | None => True end) -> (forall x, cookie = Some x -> cached x = false /\ (length x < 1023)%nat) ->
     arun umode cached None [] [] ts = arun umode cached cookie [] [] body ->
     match match split_tokens B umode cached s0 refs with
      | SpOob => ROob
      | SpAbort => RAbort
      | SpDup t => RDup (str_at B t)
      | SpErr => RSyntaxError
      | SpGo s =>
          if (ca_c (sp_args s) <? 1)%nat || (umode && match sp_cookie s with None => true | _ => false end) then RSyntaxError
          else if existsb (fun a => (ca_c a <? 1)%nat) (firstn (sp_n s) (sp_subc s)) then RSyntaxError
          else RCommand (option_map (str_at B) (sp_cookie s)) (args_at B (sp_args s)) (map (args_at B) (firstn (sp_n s) (sp_subc s)))
      end with
      | RSyntaxError => forall c a s, ~ well_formed umode ts c a s
      | RCommand c a s => well_formed umode ts c a s /\ (forall x, c = Some x -> cached x = false /\ (length x < 1023)%nat)
      | _ => False end).
  { intros cookie body E Hu Hc Hx Er. pose proof (BODY cookie body E Hu Hc Hx Er) as A.
    destruct (arun umode cached None [] [] ts) as [| | |ck done cur]; try contradiction.
    - rewrite H. eapply NOWF; eauto.
    - destruct H as (s & -> & R). destruct A as (args & subc & Ed & -> & Ec & Bo).
      destruct (Rep_final _ _ _ _ _ _ R) as (Q1 & args' & subc' & Q2 & Q3 & Q4 & Q5 & Q6). rewrite Ed in Q2. injection Q2 as <- <-.
      rewrite no_short, Q6, Q4, Q1, Q3, Q5.
      assert (Hck : umode && match sp_cookie s with None => true | _ => false end = false).
      { destruct umode; [|reflexivity]. destruct (sp_cookie s); [reflexivity|]. cbn in Q1. destruct Hu as [Hu _]. specialize (Hu eq_refl). congruence. }
      rewrite Hck, orb_false_r.
      destruct (Nat.ltb_spec (length args) 1) as [Hs|Hs]; [|destruct (existsb (fun n => (n <? 1)%nat) (map (@length _) subc)) eqn:Ex].
      + eapply NOWF; eauto. right. rewrite Ec. intros X. inversion X; subst. lia.
      + eapply NOWF; eauto. right. rewrite Ec. intros X. apply existsb_exists in Ex. destruct Ex as (n & Hn & Hlt).
        apply in_map_iff in Hn. destruct Hn as (g & <- & Hg). rewrite Forall_forall in X. specialize (X g (or_intror Hg)). lia.
      + split; [|exact Hx]. rewrite E. apply well_formed_ok; try assumption. split; [exact Bo|]. constructor; [lia|].
        apply Forall_forall. intros g Hg. destruct (Nat.leb_spec 1 (length g)); [assumption|]. exfalso.
        assert (existsb (fun n => (n <? 1)%nat) (map (@length _) subc) = true); [|congruence].
        apply existsb_exists. exists (length g). split; [apply in_map, Hg|lia]. }
  destruct umode.
  - destruct ts as [|c rest].
    + (* nothing at all *)
      cbn [arun] in H. destruct H as (s & -> & R). destruct (Rep_final _ _ _ _ _ _ R) as (Q1 & args & subc & Q2 & Q3 & Q4 & _). injection Q2 as <- <-. cbn in Q4.
      rewrite Q4. cbn [Nat.ltb Nat.leb orb]. intros c a s' W. destruct (well_formed_cut _ _ _ _ _ W) as (body & E & Hu & _).
      destruct c; [discriminate|]. destruct Hu as [Hu _]. specialize (Hu eq_refl). congruence.
    + assert (Hrun : arun true cached None [] [] (c :: rest) = if has0 c then AErr else if cached c then ADup c else if (1024 <=? length c + 1)%nat then AAbort else arun true cached (Some c) [] [] rest).
      { cbn [arun]. unfold astep. cbn [andb]. destruct (has0 c); [reflexivity|]. destruct (cached c); [reflexivity|]. destruct (1024 <=? length c + 1)%nat; reflexivity. }
      destruct (has0 c) eqn:E0.
      { rewrite Hrun in H. rewrite H. intros ck a s W. destruct W as (body & E & Hu & _ & _ & _ & F0). inversion F0; subst. apply has0_in in E0. contradiction. }
      apply has0_nin in E0.
      destruct (cached c) eqn:Ecache.
      { rewrite Hrun in H. destruct H as (t & -> & ->). eauto 6. }
      destruct (Nat.leb_spec 1024 (length c + 1)).
      { rewrite Hrun in H. rewrite H. split; [reflexivity|]. exists c, rest. repeat split; auto. lia. }
      specialize (FIN (Some c) rest eq_refl). 
      assert (G := FIN ltac:(split; congruence) E0 ltac:(intros x [= <-]; split; [exact Ecache|lia]) Hrun).
      destruct (match split_tokens B true cached s0 refs with SpOob => ROob | SpAbort => RAbort | SpDup t => RDup (str_at B t) | SpErr => RSyntaxError | SpGo s => _ end); try contradiction; exact G.
  - assert (G := FIN None ts eq_refl ltac:(split; congruence) I ltac:(discriminate) eq_refl).
    destruct (match split_tokens B false cached s0 refs with SpOob => ROob | SpAbort => RAbort | SpDup t => RDup (str_at B t) | SpErr => RSyntaxError | SpGo s => _ end); try contradiction; exact G.
Qed.
