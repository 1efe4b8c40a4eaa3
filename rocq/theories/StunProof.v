From Verif Require Import Base StunModel StunSpec.

Lemma zlen_app {A} (a b : list A) : zlen (a ++ b) = zlen a + zlen b.
Proof. unfold zlen. rewrite app_length. lia. Qed.
Lemma zlen_nonneg {A} (a : list A) : 0 <= zlen a.
Proof. unfold zlen. lia. Qed.
Lemma zlen_cons {A} (x : A) (a : list A) : zlen (x :: a) = zlen a + 1.
Proof. unfold zlen. cbn [length]. lia. Qed.
Lemma zlen_skipn {A} n (l : list A) : 0 <= n -> zlen (skipn (Z.to_nat n) l) = Z.max 0 (zlen l - n).
Proof. intros H. unfold zlen. rewrite skipn_length. lia. Qed.
Lemma zlen_firstn {A} n (l : list A) : 0 <= n -> zlen (firstn (Z.to_nat n) l) = Z.min n (zlen l).
Proof. intros H. unfold zlen. rewrite firstn_length. lia. Qed.
Lemma zlen_repeat {A} (x : A) n : 0 <= n -> zlen (repeat x (Z.to_nat n)) = n.
Proof. intros H. unfold zlen. rewrite repeat_length. lia. Qed.

Lemma firstn_exact {A} (x r : list A) n : zlen x = n -> firstn (Z.to_nat n) (x ++ r) = x.
Proof. intros <-. unfold zlen. rewrite Nat2Z.id, firstn_app, firstn_all, Nat.sub_diag. cbn. apply app_nil_r. Qed.
Lemma skipn_exact {A} (x r : list A) n : zlen x = n -> skipn (Z.to_nat n) (x ++ r) = r.
Proof. intros <-. unfold zlen. rewrite Nat2Z.id, skipn_app, skipn_all, Nat.sub_diag. reflexivity. Qed.

Lemma read_mem_app x r n : zlen x = n -> read_mem (x ++ r) n = Some (x, r).
Proof.
  intros H. unfold read_mem. rewrite zlen_app. pose proof (zlen_nonneg r).
  destruct (Z.gtb_spec n (zlen x + zlen r)); [lia|].
  rewrite firstn_exact, skipn_exact by exact H. reflexivity.
Qed.
Lemma read_be_app x r n : zlen x = n -> read_be n (x ++ r) = (be x, r).
Proof. intros H. unfold read_be. rewrite read_mem_app by exact H. reflexivity. Qed.
Lemma advance_app x r n : zlen x = n -> advance n (x ++ r) = Some r.
Proof.
  intros H. unfold advance. rewrite zlen_app. pose proof (zlen_nonneg r).
  destruct (Z.gtb_spec n (zlen x + zlen r)); [lia|]. rewrite skipn_exact by exact H. reflexivity.
Qed.

Lemma be_app x y : be (x ++ y) = be x * 256 ^ zlen y + be y.
Proof.
  unfold be. rewrite fold_left_app. generalize (fold_left (fun a x => a * 256 + x) x 0). intros c.
  assert (G : forall y c d, fold_left (fun a x => a * 256 + x) y (c + d) = c * 256 ^ zlen y + fold_left (fun a x => a * 256 + x) y d).
  { clear. induction y as [|h y IH]; intros c d.
    - change (zlen (@nil Z)) with 0. cbn. lia.
    - rewrite zlen_cons. cbn [fold_left].
      replace ((c + d) * 256 + h) with (c * 256 + (d * 256 + h)) by lia. rewrite IH.
      rewrite Z.pow_add_r by (pose proof (zlen_nonneg y); lia). lia. }
  specialize (G y c 0). rewrite Z.add_0_r in G. exact G.
Qed.
Lemma be_be8 x : 0 <= x < 256 -> be (be8 x) = x.
Proof. intros H. unfold be, be8. cbn [fold_left]. lia. Qed.
Lemma be_be16 x : 0 <= x < 65536 -> be (be16 x) = x.
Proof. intros H. unfold be, be16. cbn [fold_left]. lia. Qed.
Lemma be16_len x : zlen (be16 x) = 2. Proof. reflexivity. Qed.
Lemma be8_len x : zlen (be8 x) = 1. Proof. reflexivity. Qed.
Lemma be32_len x : zlen (be32 x) = 4. Proof. reflexivity. Qed.
Lemma be64_len x : zlen (be64 x) = 8. Proof. reflexivity. Qed.
Lemma be16_mod x : be (be16 x) = x mod 65536.
Proof. unfold be, be16. cbn [fold_left]. lia. Qed.
Lemma be32_mod x : be (be32 x) = x mod 4294967296.
Proof. unfold be32. rewrite be_app, be16_len, !be16_mod. change (256 ^ 2) with 65536. lia. Qed.
Lemma be_be32 x : 0 <= x < 2 ^ 32 -> be (be32 x) = x.
Proof. intros H. rewrite be32_mod. apply Z.mod_small. exact H. Qed.
Lemma be_be64 x : 0 <= x < 2 ^ 64 -> be (be64 x) = x.
Proof. intros H. unfold be64. rewrite be_app, be32_len, !be32_mod. change (256 ^ 4) with 4294967296. change (2 ^ 64) with 18446744073709551616 in H. lia. Qed.

Lemma be_range l : bytes l -> 0 <= be l < 256 ^ zlen l.
Proof.
  induction l as [|x l IH] using rev_ind; intros H.
  - cbn. lia.
  - apply Forall_app in H as (H1 & H2). apply Forall_inv in H2. specialize (IH H1).
    rewrite be_app, zlen_app. change (zlen [x]) with 1. rewrite Z.pow_add_r by (try apply zlen_nonneg; lia).
    change (256 ^ 1) with 256. unfold be at 2 4. cbn [fold_left]. lia.
Qed.

Lemma lxor_range n a b : 0 <= n -> 0 <= a < 2 ^ n -> 0 <= b < 2 ^ n -> 0 <= Z.lxor a b < 2 ^ n.
Proof.
  intros Hn Ha Hb. assert (0 <= Z.lxor a b) by (apply Z.lxor_nonneg; lia).
  split; [assumption|].
  destruct (Z.eq_dec (Z.lxor a b) 0) as [E|E]; [rewrite E; apply Z.pow_pos_nonneg; lia|].
  destruct (Z.eq_dec n 0) as [->|].
  { change (2 ^ 0) with 1 in *. assert (a = 0) by lia. assert (b = 0) by lia. subst. cbn in E. lia. }
  apply Z.log2_lt_pow2; [lia|]. pose proof (Z.log2_lxor a b ltac:(lia) ltac:(lia)).
  assert (forall c, 0 <= c < 2 ^ n -> Z.log2 c < n).
  { intros c Hc. destruct (Z.eq_dec c 0) as [->|]; [cbn; lia|]. apply Z.log2_lt_pow2; lia. }
  pose proof (H1 a Ha). pose proof (H1 b Hb). lia.
Qed.
Lemma lxor_twice a k : Z.lxor (Z.lxor a k) k = a.
Proof. rewrite Z.lxor_assoc, Z.lxor_nilpotent, Z.lxor_0_r. reflexivity. Qed.
Lemma xor_bytes_twice a : forall k, xor_bytes (xor_bytes a k) k = a.
Proof. induction a as [|x a IH]; intros [|y k]; cbn [xor_bytes]; try reflexivity. rewrite lxor_twice, IH. reflexivity. Qed.
Lemma xor_bytes_length a : forall k, length (xor_bytes a k) = length a.
Proof. induction a as [|x a IH]; intros [|y k]; cbn [xor_bytes length]; try reflexivity. rewrite IH. reflexivity. Qed.

Lemma pad_skip_app n r : pad_skip n (pad_bytes n ++ r) = r.
Proof.
  unfold pad_skip, pad_bytes. destruct (Z.eqb_spec (n mod 4) 0) as [E|E].
  - rewrite E. reflexivity.
  - replace ((4 - n mod 4) mod 4) with (4 - n mod 4) by lia.
    rewrite skipn_exact; [reflexivity|]. apply zlen_repeat. lia.
Qed.

(** Reading back one attribute. *)
Lemma unk_app l : forall room r, (length l <= room)%nat -> Forall (fun t => 0 <= t < 65536) l ->
  unk_decode (length l) room (concat (map be16 l) ++ r) = (l, r).
Proof.
  induction l as [|t l IH]; intros room r H F; [reflexivity|].
  apply Forall_cons_iff in F as (F1 & F2). cbn [length] in *. cbn [map concat unk_decode].
  rewrite <- app_assoc, read_be_app by apply be16_len. destruct room as [|room]; [lia|].
  cbn [pred]. rewrite IH by (try assumption; lia). rewrite be_be16 by exact F1. reflexivity.
Qed.
Lemma concat16_len l : zlen (concat (map be16 l)) = 2 * zlen l.
Proof. induction l as [|t l IH]; [reflexivity|]. cbn [map concat]. rewrite zlen_app, be16_len, zlen_cons, IH. lia. Qed.

Lemma addr_roundtrip x tid s r : length tid = 12%nat -> address s ->
  addr_decode x tid (addr_encode x tid s ++ r) = Ok (s, r).
Proof.
  intros T A. pose proof (zlen_nonneg r).
  assert (P : forall p, 0 <= p < 65536 -> 0 <= Z.lxor p (COOKIE / 65536) < 65536).
  { intros p Hp. apply (lxor_range 16); [lia|exact Hp|]. vm_compute. split; congruence. }
  assert (Q : forall a, 0 <= a < 2 ^ 32 -> 0 <= Z.lxor a COOKIE < 2 ^ 32).
  { intros a Ha. apply (lxor_range 32); [lia|exact Ha|]. vm_compute. split; congruence. }
  unfold addr_decode, addr_encode. destruct s as [a p|a p]; cbn [address] in A.
  - destruct A as (A1 & A2). rewrite <- !app_assoc.
    rewrite !zlen_app, be8_len, be8_len, be16_len.
    match goal with |- context [zlen (be32 ?q)] => rewrite (be32_len q) end.
    destruct (Z.ltb_spec (1 + (1 + (2 + (4 + zlen r)))) 4); [lia|].
    rewrite read_be_app, read_be_app, read_be_app by reflexivity.
    rewrite be_be8 by lia. change (1 =? 1) with true. cbv iota.
    rewrite zlen_app, be32_len. destruct (Z.ltb_spec (4 + zlen r) 4); [lia|].
    rewrite read_be_app by reflexivity. destruct x.
    + rewrite be_be16, be_be32 by auto. rewrite !lxor_twice. reflexivity.
    + rewrite be_be16, be_be32 by auto. reflexivity.
  - destruct A as (A1 & A2 & A3). rewrite <- !app_assoc.
    set (w := if x then in6_xor a tid else a).
    assert (W : zlen w = 16). { unfold w, in6_xor, zlen. destruct x; [rewrite xor_bytes_length|]; lia. }
    rewrite !zlen_app, be8_len, be8_len, be16_len, W.
    destruct (Z.ltb_spec (1 + (1 + (2 + (16 + zlen r)))) 4); [lia|].
    rewrite read_be_app, read_be_app, read_be_app by reflexivity.
    rewrite be_be8 by lia. change (2 =? 1) with false. change (2 =? 2) with true. cbv iota.
    rewrite zlen_app, W. destruct (Z.ltb_spec (16 + zlen r) 16); [lia|].
    rewrite read_mem_app by exact W. unfold w. destruct x.
    + rewrite be_be16 by auto. rewrite lxor_twice. unfold in6_xor. rewrite xor_bytes_twice. reflexivity.
    + rewrite be_be16 by auto. reflexivity.
Qed.
Lemma addr_len x tid s : address s -> zlen (addr_encode x tid s) = 8 \/ zlen (addr_encode x tid s) = 20.
Proof.
  intros A. unfold addr_encode. destruct s as [a p|a p]; [left; reflexivity|right]. cbn [address] in A.
  rewrite !zlen_app, be8_len, be8_len, be16_len. destruct A as (A & _).
  replace (zlen (if x then in6_xor a tid else a)) with 16; [reflexivity|].
  unfold in6_xor, zlen. destruct x; [rewrite xor_bytes_length|]; lia.
Qed.

Ltac one_of_cases H := cbn [In] in H; repeat (destruct H as [H|H]; [try (subst; reflexivity)|]); try contradiction.

Lemma kinds a : well_formed a ->
  kind_of (a_type a) = match a_val a with
    | VSa _ => if one_of (a_type a) [0x12; 0x16; 0x20] then KAddr true else KAddr false
    | VChange _ _ => KChange | VStr _ => KStr | VMi _ => KMi | VErr _ _ => KErr | VUnk _ => KUnk
    | VU16 _ => KU16 | VU32 _ => KU32 | VData _ => KData | VU8 _ => KU8 | VEven _ => KEven | VFlag => KFlag
    | VU64 _ => KU64 | VOther => KOther end.
Proof.
  unfold well_formed. destruct a as [t v]. cbn [a_type a_val]. intros W.
  destruct v; try contradiction; try (destruct W as (W & _)); try (subst; reflexivity).
  all: cbn [In] in W; repeat destruct W as [W|W]; try contradiction; subst; reflexivity.
Qed.
Lemma type_range a : well_formed a -> 0 <= a_type a < 65536.
Proof.
  unfold well_formed. destruct a as [t v]. cbn [a_type a_val]. intros W.
  destruct v; try contradiction; try (destruct W as (W & _)); try lia.
  all: cbn [In] in W; repeat destruct W as [W|W]; try contradiction; lia.
Qed.

Lemma some_inj {A} (x y : A) : Some x = Some y -> x = y.
Proof. congruence. Qed.
Lemma val_roundtrip tid ua a v r : length tid = 12%nat -> well_formed a -> val_encode tid a = Some v ->
  zlen v < 65536 /\ exists r', val_decode (a_type a) (zlen v) tid ua (v ++ pad_bytes (zlen v) ++ r) = Ok (a_val a, ua, r') /\
                 pad_skip (zlen (v ++ pad_bytes (zlen v) ++ r) - zlen r') r' = r.
Proof.
  intros T W E. pose proof (kinds a W) as K. unfold val_encode in E. unfold val_decode.
  unfold well_formed in W. destruct a as [t w]. cbn [a_type a_val] in *.
  assert (G : forall v, zlen (v ++ pad_bytes (zlen v) ++ r) - zlen (pad_bytes (zlen v) ++ r) = zlen v).
  { intros u. rewrite !zlen_app. lia. }
  destruct w as [s|ip port|s|h|c s|l|n|n|d|n|q| |n|]; try contradiction.
  - assert (exists x, kind_of t = KAddr x) as (x & Kx). { rewrite K. destruct (one_of t _); eexists; reflexivity. }
    rewrite Kx in *. apply some_inj in E. subst v. destruct W as (_ & A).
    split; [destruct (addr_len x tid s A) as [X|X]; rewrite X; lia|].
    rewrite addr_roundtrip by assumption. eexists. split; [reflexivity|]. rewrite G. apply pad_skip_app.
  - rewrite K in *. apply some_inj in E. subst v. split; [rewrite be32_len; lia|]. rewrite be32_len.
    cbn [Z.eqb Pos.eqb negb]. rewrite read_be_app by reflexivity.
    eexists. split; [|change (pad_bytes 4) with (@nil Z); cbn [app]; rewrite zlen_app, be32_len; replace (4 + zlen r - zlen r) with 4 by lia; reflexivity].
    destruct ip, port; reflexivity.
  - rewrite K in *. apply some_inj in E. subst v. destruct W as (_ & Wb & _ & W). split; [lia|].
    unfold str_decode. rewrite !zlen_app. pose proof (zlen_nonneg (pad_bytes (zlen s))). pose proof (zlen_nonneg r).
    destruct (Z.ltb_spec (zlen s + (zlen (pad_bytes (zlen s)) + zlen r)) (zlen s)); [lia|].
    rewrite read_mem_app by reflexivity. eexists. split; [reflexivity|].
    rewrite <- !zlen_app, G. apply pad_skip_app.
  - rewrite K in *. apply some_inj in E. subst v. destruct W as (_ & W & _). assert (L : zlen h = 20) by (unfold zlen; lia).
    rewrite L. split; [lia|]. cbn [Z.eqb Pos.eqb negb]. rewrite read_mem_app by exact L.
    eexists. split; [reflexivity|]. specialize (G h). rewrite L in G. rewrite G. apply pad_skip_app.
  - rewrite K in *. apply some_inj in E. subst v. destruct W as (_ & C & Wb & _ & W).
    assert (L : zlen (be16 0 ++ be8 (c / 100) ++ be8 (c mod 100) ++ s) = 4 + zlen s).
    { rewrite !zlen_app, be16_len, !be8_len. lia. }
    rewrite L. split; [lia|]. pose proof (zlen_nonneg s).
    destruct (Z.ltb_spec (4 + zlen s) 4); [lia|].
    rewrite <- !app_assoc. rewrite advance_app, read_be_app, read_be_app by reflexivity.
    rewrite !be_be8 by lia. unfold str_decode. replace (4 + zlen s - 4) with (zlen s) by lia.
    rewrite !zlen_app. pose proof (zlen_nonneg (pad_bytes (4 + zlen s))). pose proof (zlen_nonneg r).
    destruct (Z.ltb_spec (zlen s + (zlen (pad_bytes (4 + zlen s)) + zlen r)) (zlen s)); [lia|].
    rewrite read_mem_app by reflexivity. eexists. split.
    + rewrite u16_small by lia. replace ((c / 100) mod 8 * 100 + c mod 100) with c by lia. reflexivity.
    + rewrite !zlen_app, be16_len, !be8_len.
      match goal with |- pad_skip ?x _ = _ => replace x with (4 + zlen s) by lia end. apply pad_skip_app.
  - rewrite K in *. apply some_inj in E. subst v. destruct W as (_ & W1 & W2). rewrite concat16_len.
    split; [unfold zlen; lia|]. replace (Z.to_nat (2 * zlen l / 2)) with (length l) by (unfold zlen; lia).
    rewrite unk_app by assumption. eexists. split; [reflexivity|].
    specialize (G (concat (map be16 l))). rewrite concat16_len in G. rewrite G. apply pad_skip_app.
  - rewrite K in *. apply some_inj in E. subst v. split; [reflexivity|]. change (zlen (be16 n ++ be16 0)) with 4.
    cbn [Z.ltb Z.compare Pos.compare Pos.compare_cont]. rewrite <- app_assoc, read_be_app by reflexivity.
    destruct W as (_ & W). rewrite be_be16 by exact W. eexists. split; [reflexivity|].
    change (pad_bytes 4) with (@nil Z). cbn [app]. rewrite !zlen_app.
    replace (zlen (be16 n) + (zlen (be16 0) + zlen r) - (zlen (be16 0) + zlen r)) with 2 by (rewrite !be16_len; lia). reflexivity.
  - rewrite K in *. apply some_inj in E. subst v. split; [reflexivity|]. rewrite be32_len.
    cbn [Z.eqb Pos.eqb negb]. rewrite read_be_app by reflexivity. destruct W as (_ & W). rewrite be_be32 by exact W.
    eexists. split; [reflexivity|]. change (pad_bytes 4) with (@nil Z). cbn [app]. rewrite zlen_app, be32_len.
    replace (4 + zlen r - zlen r) with 4 by lia. reflexivity.
  - rewrite K in *. apply some_inj in E. subst v. destruct W as (_ & _ & W). split; [lia|].
    rewrite advance_app by reflexivity. rewrite firstn_exact by reflexivity. eexists. split; [reflexivity|].
    rewrite G. apply pad_skip_app.
  - rewrite K in *. apply some_inj in E. subst v. split; [reflexivity|]. change (zlen (be8 n ++ be8 0 ++ be16 0)) with 4.
    cbn [Z.ltb Z.compare Pos.compare Pos.compare_cont]. rewrite <- !app_assoc, read_be_app by reflexivity.
    destruct W as (_ & W). rewrite be_be8 by exact W. eexists. split; [reflexivity|].
    change (pad_bytes 4) with (@nil Z). cbn [app]. rewrite !zlen_app.
    match goal with |- pad_skip ?x _ = _ => replace x with 1 by (rewrite !be8_len; lia) end. reflexivity.
  - rewrite K in *. apply some_inj in E. subst v. split; [reflexivity|]. rewrite be8_len.
    cbn [Z.ltb Z.compare Pos.compare Pos.compare_cont]. rewrite read_be_app by reflexivity.
    eexists. split; [destruct q; reflexivity|]. rewrite !zlen_app.
    match goal with |- pad_skip ?x _ = _ => replace x with 1 by (rewrite be8_len; lia) end. apply pad_skip_app.
  - rewrite K in *. apply some_inj in E. subst v. split; [reflexivity|]. change (zlen (@nil Z)) with 0.
    cbn [Z.gtb Z.compare app]. eexists. split; [reflexivity|]. rewrite Z.sub_diag. reflexivity.
  - rewrite K in *. apply some_inj in E. subst v. split; [reflexivity|]. rewrite be64_len.
    cbn [Z.eqb Pos.eqb negb]. rewrite read_be_app by reflexivity. destruct W as (_ & W). rewrite be_be64 by exact W.
    eexists. split; [reflexivity|]. change (pad_bytes 8) with (@nil Z). cbn [app]. rewrite zlen_app, be64_len.
    replace (8 + zlen r - zlen r) with 8 by lia. reflexivity.
Qed.

Lemma attr_roundtrip tid ua a e r : length tid = 12%nat -> well_formed a -> attr_encode tid a = Some e ->
  attr_decode tid ua (e ++ r) = Ok (a, ua, r).
Proof.
  intros T W E. unfold attr_encode in E. destruct (val_encode tid a) as [v|] eqn:V; [|discriminate].
  apply some_inj in E. subst e. destruct (val_roundtrip tid ua a v r T W V) as (L & r' & D & P).
  unfold attr_decode. rewrite <- !app_assoc.
  rewrite zlen_app, zlen_app, !be16_len. pose proof (zlen_nonneg (v ++ pad_bytes (zlen v) ++ r)).
  destruct (Z.ltb_spec (2 + (2 + zlen (v ++ pad_bytes (zlen v) ++ r))) 4); [lia|].
  rewrite read_be_app, read_be_app by reflexivity. rewrite (be_be16 (a_type a)) by (apply type_range; exact W).
  rewrite (be_be16 (zlen v)) by (pose proof (zlen_nonneg v); lia).
  destruct (Z.ltb_spec (zlen (v ++ pad_bytes (zlen v) ++ r)) (zlen v)) as [X|X].
  { rewrite zlen_app in X. pose proof (zlen_nonneg (pad_bytes (zlen v) ++ r)). lia. }
  rewrite D, P. destruct a; reflexivity.
Qed.

Lemma encode_some tid a : well_formed a -> exists e, attr_encode tid a = Some e.
Proof.
  intros W. pose proof (kinds a W) as K. unfold attr_encode, val_encode. unfold well_formed in W.
  destruct a as [t w]. cbn [a_type a_val] in *. destruct w; try contradiction; try (rewrite K; eexists; reflexivity).
  assert (exists x, kind_of t = KAddr x) as (x & Kx). { rewrite K. destruct (one_of t _); eexists; reflexivity. }
  rewrite Kx. eexists. reflexivity.
Qed.
Lemma attr_encode_len tid a e : attr_encode tid a = Some e -> exists v, val_encode tid a = Some v /\ zlen e = 4 + zlen v + (4 - zlen v mod 4) mod 4.
Proof.
  unfold attr_encode. destruct (val_encode tid a) as [v|]; [|discriminate]. intros E. apply some_inj in E. subst e.
  exists v. split; [reflexivity|]. rewrite !zlen_app, !be16_len. unfold pad_bytes. rewrite zlen_repeat by lia. lia.
Qed.

(** Reading never goes past the end. *)
Definition suf (r r' : list Z) (n : Z) : Prop := exists c, r = c ++ r' /\ zlen c = n.
Lemma suf_trans a b c n m : suf a b n -> suf b c m -> suf a c (n + m).
Proof. intros (x & -> & <-) (y & -> & <-). exists (x ++ y). rewrite app_assoc, zlen_app. split; reflexivity. Qed.
Lemma suf_len a b n : suf a b n -> zlen a = n + zlen b.
Proof. intros (x & -> & <-). apply zlen_app. Qed.
Lemma suf_nonneg a b n : suf a b n -> 0 <= n.
Proof. intros (x & _ & <-). apply zlen_nonneg. Qed.
Lemma suf_refl a : suf a a 0. Proof. exists []. split; reflexivity. Qed.
Lemma suf_bytes a b n : suf a b n -> bytes a -> bytes b.
Proof. intros (x & -> & _) H. apply Forall_app in H as (_ & H). exact H. Qed.
Lemma suf_skipn r n : 0 <= n <= zlen r -> suf r (skipn (Z.to_nat n) r) n.
Proof. intros H. exists (firstn (Z.to_nat n) r). rewrite firstn_skipn, zlen_firstn by lia. split; [reflexivity|lia]. Qed.

Lemma read_mem_suf r n x r' : 0 <= n -> read_mem r n = Some (x, r') -> suf r r' n /\ x = firstn (Z.to_nat n) r.
Proof.
  intros N. unfold read_mem. destruct (Z.gtb_spec n (zlen r)); [discriminate|]. intros [= <- <-].
  split; [apply suf_skipn; lia|reflexivity].
Qed.
Lemma read_be_suf n r : 0 <= n <= zlen r -> suf r (snd (read_be n r)) n /\ fst (read_be n r) = be (firstn (Z.to_nat n) r).
Proof.
  intros N. unfold read_be, read_mem. destruct (Z.gtb_spec n (zlen r)); [lia|]. cbn [fst snd].
  split; [apply suf_skipn; lia|reflexivity].
Qed.
Lemma read_be_any n r : 0 <= n -> exists k, suf r (snd (read_be n r)) k.
Proof.
  intros N. unfold read_be, read_mem. destruct (Z.gtb_spec n (zlen r)); cbn [snd].
  - exists 0. apply suf_refl.
  - exists n. apply suf_skipn. lia.
Qed.
Lemma advance_suf n r : 0 <= n <= zlen r -> exists r', advance n r = Some r' /\ suf r r' n.
Proof. intros N. unfold advance. destruct (Z.gtb_spec n (zlen r)); [lia|]. eexists. split; [reflexivity|]. apply suf_skipn. lia. Qed.
Lemma unk_suf n : forall room r, exists k, suf r (snd (unk_decode n room r)) k.
Proof.
  induction n as [|n IH]; intros room r; cbn [unk_decode].
  - exists 0. apply suf_refl.
  - destruct (read_be_any 2 r ltac:(lia)) as (k & S1). destruct (read_be 2 r) as [t r1]. cbn [snd] in S1.
    destruct (IH (pred room) r1) as (k2 & S2). destruct (unk_decode n (pred room) r1) as [l r2]. cbn [snd] in *.
    exists (k + k2). eapply suf_trans; eassumption.
Qed.
Lemma firstn_bytes n l : bytes l -> bytes (firstn n l).
Proof. intros H. unfold bytes in *. rewrite <- (firstn_skipn n l) in H. apply Forall_app in H as (H & _). exact H. Qed.

Lemma pad_skip_suf n r : exists k, suf r (pad_skip n r) k.
Proof.
  unfold pad_skip. destruct (n mod 4 =? 0); [exists 0; apply suf_refl|].
  exists (zlen (firstn (Z.to_nat (4 - n mod 4)) r)). exists (firstn (Z.to_nat (4 - n mod 4)) r).
  rewrite firstn_skipn. split; reflexivity.
Qed.

Lemma addr_suf x tid r s r' : addr_decode x tid r = Ok (s, r') -> exists k, suf r r' k.
Proof.
  unfold addr_decode. destruct (zlen r <? 4); [discriminate|].
  destruct (read_be_any 1 r ltac:(lia)) as (k1 & S1). destruct (read_be 1 r) as [x1 r1]. cbn [snd] in S1.
  destruct (read_be_any 1 r1 ltac:(lia)) as (k2 & S2). destruct (read_be 1 r1) as [x2 r2]. cbn [snd] in S2.
  destruct (read_be_any 2 r2 ltac:(lia)) as (k3 & S3). destruct (read_be 2 r2) as [x3 r3]. cbn [snd] in S3.
  assert (S4 : suf r r3 (k1 + k2 + k3)). { eapply suf_trans; [eapply suf_trans|]; eassumption. }
  destruct (x2 =? 1); [|destruct (x2 =? 2); [|discriminate]].
  - destruct (zlen r3 <? 4); [discriminate|].
    destruct (read_be_any 4 r3 ltac:(lia)) as (k5 & S5). destruct (read_be 4 r3) as [x5 r5]. cbn [snd] in S5.
    intros [= _ <-]. eexists. eapply suf_trans; eassumption.
  - destruct (zlen r3 <? 16); [discriminate|].
    destruct (read_mem r3 16) as [[y r5]|] eqn:M.
    + intros [= _ <-]. apply read_mem_suf in M as (M & _); [|lia]. eexists. eapply suf_trans; eassumption.
    + intros [= _ <-]. eexists. eassumption.
Qed.
Lemma addr_total x tid r : addr_decode x tid r <> Past /\ addr_decode x tid r <> Hang.
Proof.
  unfold addr_decode. destruct (zlen r <? 4); [split; discriminate|].
  destruct (read_be 1 r) as [x1 r1]. destruct (read_be 1 r1) as [x2 r2]. destruct (read_be 2 r2) as [x3 r3].
  destruct (x2 =? 1); [|destruct (x2 =? 2); [|split; discriminate]].
  - destruct (zlen r3 <? 4); [split; discriminate|]. destruct (read_be 4 r3). split; discriminate.
  - destruct (zlen r3 <? 16); [split; discriminate|]. destruct (read_mem r3 16) as [[y r5]|]; split; discriminate.
Qed.
Lemma str_suf r len s r' : 0 <= len -> str_decode r len = Ok (s, r') -> suf r r' len.
Proof.
  intros L. unfold str_decode. destruct (zlen r <? len); [discriminate|].
  destruct (read_mem r len) as [[x y]|] eqn:M; [|discriminate]. intros [= <- <-].
  apply read_mem_suf in M as (M & _); [exact M|exact L].
Qed.
Lemma str_total r len : str_decode r len <> Past /\ str_decode r len <> Hang.
Proof. unfold str_decode. destruct (zlen r <? len); [split; discriminate|]. destruct (read_mem r len) as [[x y]|]; split; discriminate. Qed.

Definition val_good (t len : Z) (ua r : list Z) (x : res (aval * list Z * list Z)) : Prop :=
  match x with
  | Ok (v, ua', r') => exists k, suf r r' k /\ (t = 8 -> k = 20 /\ exists h, v = VMi h) /\
                       (t = 0x8028 -> k = 4 /\ exists n, v = VU32 n) /\ (v = VOther -> True)
                       /\ ((length ua <= 8)%nat -> (length ua' <= 8)%nat)
  | Err _ => True
  | _ => False
  end.
Lemma kind_mi t : t = 8 -> kind_of t = KMi. Proof. intros ->. reflexivity. Qed.
Lemma kind_fp t : t = 0x8028 -> kind_of t = KU32. Proof. intros ->. reflexivity. Qed.

Lemma val_shape t len tid ua r : 0 <= len <= zlen r -> val_good t len ua r (val_decode t len tid ua r).
Proof.
  intros L. pose proof (kind_mi t) as Q1. pose proof (kind_fp t) as Q2.
  unfold val_decode. destruct (kind_of t) eqn:K.
  - pose proof (addr_total xored tid r) as (T1 & T2).
    destruct (addr_decode xored tid r) as [[s r']|e| |] eqn:A; try contradiction; [|exact Logic.I].
    apply addr_suf in A as (k & A). exists k. split; [exact A|].
    split; [intros H; specialize (Q1 H); congruence|]. split; [intros H; specialize (Q2 H); congruence|]. auto.
  - destruct (len =? 4); [|exact Logic.I]. cbn [negb].
    destruct (read_be_any 4 r ltac:(lia)) as (k & S1). destruct (read_be 4 r) as [n r']. cbn [snd] in S1.
    exists k. split; [exact S1|].
    split; [intros H; specialize (Q1 H); congruence|]. split; [intros H; specialize (Q2 H); congruence|]. auto.
  - pose proof (str_total r len) as (T1 & T2).
    destruct (str_decode r len) as [[s r']|e| |] eqn:A; try contradiction; [|exact Logic.I].
    apply str_suf in A; [|lia]. exists len. split; [exact A|].
    split; [intros H; specialize (Q1 H); congruence|]. split; [intros H; specialize (Q2 H); congruence|]. auto.
  - destruct (len =? 20); [|exact Logic.I]. cbn [negb].
    destruct (read_mem r 20) as [[h r']|] eqn:M; [|exact Logic.I]. apply read_mem_suf in M as (M & _); [|lia].
    exists 20. split; [exact M|]. split; [intros _; split; [reflexivity|eexists; reflexivity]|].
    split; [intros H; specialize (Q2 H); congruence|]. auto.
  - destruct (len <? 4) eqn:L4; [exact Logic.I|].
    destruct (advance_suf 2 r ltac:(lia)) as (r0 & -> & S0).
    destruct (read_be_any 1 r0 ltac:(lia)) as (k1 & S1). destruct (read_be 1 r0) as [x1 r1]. cbn [snd] in S1.
    destruct (read_be_any 1 r1 ltac:(lia)) as (k2 & S2). destruct (read_be 1 r1) as [x2 r2]. cbn [snd] in S2.
    pose proof (str_total r2 (len - 4)) as (T1 & T2).
    destruct (str_decode r2 (len - 4)) as [[s r']|e| |] eqn:A; try contradiction; [|exact Logic.I].
    apply str_suf in A; [|lia]. exists (2 + k1 + k2 + (len - 4)).
    split; [eapply suf_trans; [eapply suf_trans; [eapply suf_trans|]|]; eassumption|].
    split; [intros H; specialize (Q1 H); congruence|]. split; [intros H; specialize (Q2 H); congruence|]. auto.
  - destruct (unk_suf (Z.to_nat (len / 2)) 8 r) as (k & S1). destruct (unk_decode _ _ _) as [l r']. cbn [snd] in S1.
    exists k. split; [exact S1|].
    split; [intros H; specialize (Q1 H); congruence|]. split; [intros H; specialize (Q2 H); congruence|]. auto.
  - destruct (len <? 2); [exact Logic.I|].
    destruct (read_be_any 2 r ltac:(lia)) as (k & S1). destruct (read_be 2 r) as [n r']. cbn [snd] in S1.
    exists k. split; [exact S1|].
    split; [intros H; specialize (Q1 H); congruence|]. split; [intros H; specialize (Q2 H); congruence|]. auto.
  - destruct (Z.eqb_spec len 4); [|exact Logic.I]. cbn [negb].
    destruct (read_be_suf 4 r ltac:(lia)) as (S1 & _). destruct (read_be 4 r) as [n r']. cbn [snd] in S1.
    exists 4. split; [exact S1|]. split; [intros H; specialize (Q1 H); congruence|].
    split; [intros _; split; [reflexivity|eexists; reflexivity]|]. auto.
  - destruct (advance_suf len r L) as (r0 & -> & S0). exists len. split; [exact S0|].
    split; [intros H; specialize (Q1 H); congruence|]. split; [intros H; specialize (Q2 H); congruence|]. auto.
  - destruct (len <? 1); [exact Logic.I|].
    destruct (read_be_any 1 r ltac:(lia)) as (k & S1). destruct (read_be 1 r) as [n r']. cbn [snd] in S1.
    exists k. split; [exact S1|].
    split; [intros H; specialize (Q1 H); congruence|]. split; [intros H; specialize (Q2 H); congruence|]. auto.
  - destruct (len <? 1); [exact Logic.I|].
    destruct (read_be_any 1 r ltac:(lia)) as (k & S1). destruct (read_be 1 r) as [n r']. cbn [snd] in S1.
    exists k. split; [exact S1|].
    split; [intros H; specialize (Q1 H); congruence|]. split; [intros H; specialize (Q2 H); congruence|]. auto.
  - destruct (len >? 0); [exact Logic.I|]. exists 0. split; [apply suf_refl|].
    split; [intros H; specialize (Q1 H); congruence|]. split; [intros H; specialize (Q2 H); congruence|]. auto.
  - destruct (len =? 8); [|exact Logic.I]. cbn [negb].
    destruct (read_be_any 8 r ltac:(lia)) as (k & S1). destruct (read_be 8 r) as [n r']. cbn [snd] in S1.
    exists k. split; [exact S1|].
    split; [intros H; specialize (Q1 H); congruence|]. split; [intros H; specialize (Q2 H); congruence|]. auto.
  - destruct (advance_suf len r L) as (r0 & -> & S0). exists len. split; [exact S0|].
    split; [intros H; specialize (Q1 H); congruence|]. split; [intros H; specialize (Q2 H); congruence|].
    split; [auto|]. intros U. destruct (t >=? 32768); [exact U|].
    destruct (Nat.ltb_spec (length ua) 8); [rewrite app_length; cbn [length]; lia|exact U].
Qed.

(** The least number of bytes an attribute of a type takes. *)
Definition weight (t : Z) : Z := if t =? 8 then 24 else if t =? 0x8028 then 8 else 4.
Definition attr_good (ua r : list Z) (x : res (attr * list Z * list Z)) : Prop :=
  match x with
  | Ok (a, ua', r') => exists k, suf r r' k /\ weight (a_type a) <= k /\ a_type a = be (firstn 2 r) /\
                       (a_type a = 8 -> k = 24 /\ exists h, a_val a = VMi h) /\
                       (a_type a = 0x8028 -> k = 8 /\ exists n, a_val a = VU32 n) /\
                       ((length ua <= 8)%nat -> (length ua' <= 8)%nat)
  | Err _ => True
  | _ => False
  end.
Lemma attr_shape tid ua r : bytes r -> attr_good ua r (attr_decode tid ua r).
Proof.
  intros Bb. unfold attr_decode. destruct (Z.ltb_spec (zlen r) 4); [exact Logic.I|].
  destruct (read_be_suf 2 r ltac:(lia)) as (S1 & E1). destruct (read_be 2 r) as [t r1]. cbn [fst snd] in *.
  pose proof (suf_len _ _ _ S1). pose proof (suf_bytes _ _ _ S1 Bb) as B1.
  destruct (read_be_suf 2 r1 ltac:(lia)) as (S2 & E2). destruct (read_be 2 r1) as [len r2]. cbn [fst snd] in *.
  pose proof (suf_len _ _ _ S2). pose proof (be_range _ (firstn_bytes (Z.to_nat 2) r1 B1)) as R. rewrite <- E2 in R.
  destruct (Z.ltb_spec (zlen r2) len); [exact Logic.I|].
  pose proof (val_shape t len tid ua r2 ltac:(lia)) as V.
  destruct (val_decode t len tid ua r2) as [[[v ua'] r3]|e| |]; cbn [val_good] in V; try contradiction; [|exact Logic.I].
  destruct V as (k & S3 & M & F & _ & U). cbn [attr_good a_type a_val].
  pose proof (suf_nonneg _ _ _ S3).
  rewrite (suf_len _ _ _ S3). replace (k + zlen r3 - zlen r3) with k by lia.
  destruct (pad_skip_suf k r3) as (k' & S4). pose proof (suf_nonneg _ _ _ S4).
  exists (2 + 2 + k + k'). split; [eapply suf_trans; [eapply suf_trans; [eapply suf_trans|]|]; eassumption|].
  assert (K0 : k mod 4 = 0 -> k' = 0).
  { intros E. unfold pad_skip in S4. rewrite E in S4. cbn [Z.eqb] in S4. apply suf_len in S4. lia. }
  assert (M' : t = 8 -> 2 + 2 + k + k' = 24 /\ exists h, v = VMi h).
  { intros E. destruct (M E) as (-> & X). split; [rewrite (K0 eq_refl); reflexivity|exact X]. }
  assert (F' : t = 0x8028 -> 2 + 2 + k + k' = 8 /\ exists n, v = VU32 n).
  { intros E. destruct (F E) as (-> & X). split; [rewrite (K0 eq_refl); reflexivity|exact X]. }
  split; [|split; [|split; [exact M'|split; [exact F'|exact U]]]].
  - unfold weight. destruct (Z.eqb_spec t 8) as [E|]; [destruct (M' E); lia|].
    destruct (Z.eqb_spec t 0x8028) as [E|]; [destruct (F' E); lia|lia].
  - exact E1.
Qed.

Definition weights (l : list attr) : Z := fold_right (fun a x => weight (a_type a) + x) 0 l.
Definition typed (a : attr) : Prop :=
  (a_type a = 8 -> exists h, a_val a = VMi h) /\ (a_type a = 0x8028 -> exists n, a_val a = VU32 n).
Lemma weight_pos t : 4 <= weight t.
Proof. unfold weight. destruct (t =? 8), (t =? 0x8028); lia. Qed.
Lemma weights_nonneg l : 0 <= weights l.
Proof. induction l as [|a l IH]; cbn [weights fold_right]; [lia|]. fold (weights l). pose proof (weight_pos (a_type a)). lia. Qed.

Lemma u64_sub a b : 0 <= a < 2 ^ 40 -> 0 <= b < 2 ^ 40 -> u64 (a - b) = if a <? b then a - b + 2 ^ 64 else a - b.
Proof.
  intros A Hb. change (2 ^ 40) with 1099511627776 in *. change (2 ^ 64) with 18446744073709551616. unfold u64.
  destruct (Z.ltb_spec a b).
  - rewrite <- (Z.mod_add _ 1) by lia. apply Z.mod_small. lia.
  - apply Z.mod_small. lia.
Qed.
Lemma more_iff a b : 0 <= a < 2 ^ 40 -> 0 <= b < 2 ^ 40 -> (u64 (a - b) >=? 4) = negb ((b <=? a) && (a <? b + 4)).
Proof.
  intros A Hb. rewrite u64_sub by assumption. change (2 ^ 40) with 1099511627776 in *. change (2 ^ 64) with 18446744073709551616. destruct (Z.ltb_spec a b); lia.
Qed.

Definition attrs_good (extra : Z) (pre ua r : list Z) (x : res (list attr * list Z)) : Prop :=
  match x with
  | Ok (l, ua') => exists k r', suf r r' k /\ extra <= zlen r' < extra + 4 /\ weights l <= k /\ Forall typed l /\
                   one_after_another (pre ++ r) (zlen pre) l (zlen pre + k) /\ ((length ua <= 8)%nat -> (length ua' <= 8)%nat)
  | Err _ => True
  | _ => False
  end.
Lemma attrs_shape extra tid : 0 <= extra < 2 ^ 40 -> forall fuel pre ua r, bytes r -> (length r < fuel)%nat -> zlen r < 2 ^ 40 ->
  attrs_good extra pre ua r (attrs_decode fuel extra tid ua r).
Proof.
  intros X. induction fuel as [|fuel IH]; intros pre ua r Bb L Z40; [lia|].
  cbn [attrs_decode]. pose proof (zlen_nonneg r) as N0. rewrite (more_iff (zlen r) extra) by lia.
  destruct ((extra <=? zlen r) && (zlen r <? extra + 4)) eqn:C; cbn [negb].
  - cbn [attrs_good]. exists 0, r. split; [apply suf_refl|]. split; [lia|]. split; [cbn; lia|].
    split; [constructor|]. split; [rewrite Z.add_0_r; constructor|auto].
  - pose proof (attr_shape tid ua r Bb) as A.
    destruct (attr_decode tid ua r) as [[[a ua1] r1]|e| |]; cbn [attr_good] in A; try contradiction; [|exact Logic.I].
    destruct A as (k & S1 & W & T & M & F & U). pose proof (suf_len _ _ _ S1) as L1.
    pose proof (weight_pos (a_type a)).
    destruct S1 as (c & -> & Lc).
    specialize (IH (pre ++ c) ua1 r1). pose proof (suf_bytes _ _ _ (ex_intro _ c (conj eq_refl Lc)) Bb) as B1.
    specialize (IH B1 ltac:(unfold zlen in *; lia) ltac:(lia)).
    destruct (attrs_decode fuel extra tid ua1 r1) as [[l ua2]|e| |]; cbn [attrs_good] in IH |- *; try contradiction; [|exact Logic.I].
    destruct IH as (k2 & r2 & S2 & R & Wl & Ty & O & U2). exists (k + k2), r2.
    split; [eapply suf_trans; [exists c; split; [reflexivity|exact Lc]|exact S2]|].
    split; [exact R|]. split; [cbn [weights fold_right]; fold (weights l); lia|].
    split.
    { constructor; [|exact Ty]. split; [intros E; apply (M E)|intros E; apply (F E)]. }
    split; [|auto].
    apply (oaa_cons _ _ (zlen pre + k)).
    + rewrite T. unfold num, part. unfold zlen. rewrite Nat2Z.id, skipn_app, skipn_all, Nat.sub_diag. reflexivity.
    + lia.
    + rewrite <- app_assoc, zlen_app, Lc in O. replace (zlen pre + (k + k2)) with (zlen pre + k + k2) by lia. exact O.
Qed.

Lemma suf_part b r p n : suf b r p -> 0 <= n -> firstn (Z.to_nat n) r = part b p n.
Proof. intros (c & -> & <-) N. unfold part. rewrite skipn_exact by reflexivity. reflexivity. Qed.

Definition hdr_good (b : list Z) (x : res (hdr * list Z)) : Prop :=
  match x with
  | Ok (h, r) => suf b r 20 /\ h = mkHdr (num b 0 2) (num b 2 2) (num b 4 4) (part b 8 12) /\
                 h_len h <= zlen r /\ Z.land (h_type h) 0xc000 = 0 /\ h_len h mod 4 = 0
  | Err _ => True
  | _ => False
  end.
Lemma hdr_shape b : hdr_good b (hdr_decode b).
Proof.
  unfold hdr_decode. destruct (Z.ltb_spec (zlen b) 20); [exact Logic.I|].
  destruct (read_be_suf 2 b ltac:(lia)) as (S1 & E1). destruct (read_be 2 b) as [t r1]. cbn [fst snd] in *.
  pose proof (suf_len _ _ _ S1).
  destruct (Z.eqb_spec (Z.land t 0xc000) 0) as [T|]; [|exact Logic.I]. cbn [negb].
  destruct (read_be_suf 2 r1 ltac:(lia)) as (S2 & E2). destruct (read_be 2 r1) as [len r2]. cbn [fst snd] in *.
  pose proof (suf_len _ _ _ S2).
  destruct (Z.eqb_spec (Z.land len 3) 0) as [L|]; [|exact Logic.I]. cbn [negb].
  destruct (read_be_suf 4 r2 ltac:(lia)) as (S3 & E3). destruct (read_be 4 r2) as [ck r3]. cbn [fst snd] in *.
  pose proof (suf_len _ _ _ S3).
  destruct (read_mem r3 12) as [[tid r4]|] eqn:M.
  2:{ unfold read_mem in M. destruct (Z.gtb_spec 12 (zlen r3)); [lia|discriminate]. }
  apply read_mem_suf in M as (S4 & ->); [|lia].
  destruct (Z.ltb_spec (zlen r4) len); [exact Logic.I|]. cbn [hdr_good h_len h_type].
  pose proof (suf_trans _ _ _ _ _ S1 S2) as T2. pose proof (suf_trans _ _ _ _ _ T2 S3) as T3.
  pose proof (suf_trans _ _ _ _ _ T3 S4) as T4.
  change (2 + 2) with 4 in *. change (4 + 4) with 8 in *. change (8 + 12) with 20 in *.
  split; [exact T4|]. split.
  { rewrite E1, E2, E3. unfold num. rewrite <- (suf_part _ _ _ 2 S1), <- (suf_part _ _ _ 4 T2), <- (suf_part _ _ _ 12 T3) by lia. reflexivity. }
  split; [lia|]. split; [exact T|].
  change 3 with (Z.ones 2) in L. rewrite Z.land_ones in L by lia. exact L.
Qed.

Definition msg_good (b : list Z) (x : res msg) : Prop :=
  match x with
  | Ok m => let h := m_hdr m in
            20 + h_len h <= zlen b /\ 0 <= h_len h < 65536 /\ h = mkHdr (num b 0 2) (num b 2 2) (num b 4 4) (part b 8 12) /\
            Z.land (h_type h) 0xc000 = 0 /\ h_len h mod 4 = 0 /\
            weights (m_attrs m) <= h_len h /\ Forall typed (m_attrs m) /\ (length (m_ua m) <= 8)%nat /\
            exists e, one_after_another b 20 (m_attrs m) e /\ 20 + h_len h - 4 < e <= 20 + h_len h
  | Err _ => True
  | _ => False
  end.
Lemma num16_range b p : bytes b -> 0 <= num b p 2 < 65536.
Proof.
  intros H. unfold num, part. assert (bytes (firstn (Z.to_nat 2) (skipn (Z.to_nat p) b))) as X.
  { apply firstn_bytes. unfold bytes in *. rewrite <- (firstn_skipn (Z.to_nat p) b) in H. apply Forall_app in H. apply H. }
  pose proof (be_range _ X) as R. rewrite zlen_firstn in R by lia.
  pose proof (Z.pow_le_mono_r 256 (Z.min 2 (zlen (skipn (Z.to_nat p) b))) 2 ltac:(lia) ltac:(lia)).
  change (256 ^ 2) with 65536 in *. lia.
Qed.
Lemma msg_shape b : bytes b -> zlen b < 2 ^ 40 -> msg_good b (decode b).
Proof.
  intros Bb Z40. unfold decode. pose proof (hdr_shape b) as H.
  destruct (hdr_decode b) as [[h r]|e| |]; cbn [hdr_good] in H; try contradiction; [|exact Logic.I].
  destruct H as (S1 & E & L & T & M4). pose proof (suf_len _ _ _ S1) as SL.
  assert (HL : 0 <= h_len h < 65536). { rewrite E. cbn [h_len]. apply num16_range. exact Bb. }
  destruct S1 as (c & -> & Lc).
  pose proof (suf_bytes _ _ _ (ex_intro _ c (conj eq_refl Lc)) Bb) as Br.
  pose proof (attrs_shape (zlen r - h_len h) (h_tid h) ltac:(lia) (S (length r)) c [] r Br ltac:(lia) ltac:(lia)) as A.
  destruct (attrs_decode _ _ _ _ _) as [[l ua]|e| |]; cbn [attrs_good] in A; try contradiction; [|exact Logic.I].
  destruct A as (k & r' & S2 & R & W & Ty & O & U). pose proof (suf_len _ _ _ S2). cbn [msg_good m_hdr m_attrs m_ua].
  rewrite zlen_app, Lc. split; [lia|]. split; [exact HL|]. split; [exact E|]. split; [exact T|]. split; [exact M4|].
  split; [lia|]. split; [exact Ty|]. split; [apply U; cbn; lia|].
  exists (20 + k). rewrite Lc in O. split; [exact O|lia].
Qed.

Lemma in_weight a l : In a l -> weight (a_type a) <= weights l.
Proof.
  induction l as [|x l IH]; [intros []|]. cbn [weights fold_right]. fold (weights l). pose proof (weights_nonneg l).
  pose proof (weight_pos (a_type x)). intros [<-|H1]; [lia|]. specialize (IH H1). lia.
Qed.
Lemma in_weight2 a b l : In a l -> In b l -> a <> b -> weight (a_type a) + weight (a_type b) <= weights l.
Proof.
  induction l as [|x l IH]; [intros []|]. cbn [weights fold_right]. fold (weights l).
  pose proof (weight_pos (a_type x)). intros [Ea|Ia] [Eb|Ib] N.
  - congruence.
  - subst x. pose proof (in_weight b l Ib). lia.
  - subst x. pose proof (in_weight a l Ia). lia.
  - specialize (IH Ia Ib N). lia.
Qed.
Lemma find_attr_in t m a : find_attr t m = Some a -> In a (m_attrs m) /\ a_type a = t.
Proof. unfold find_attr. intros F. apply find_some in F as (I1 & E). apply Z.eqb_eq in E. split; assumption. Qed.

(** The bytes of a header. *)
Lemma be16_be l : bytes l -> length l = 2%nat -> be16 (be l) = l.
Proof.
  intros H L. destruct l as [|x [|y [|? ?]]]; try discriminate. apply Forall_cons_iff in H as (Hx & H). apply Forall_inv in H.
  unfold be16, be. cbn [fold_left]. f_equal; [|f_equal]; lia.
Qed.
Lemma be32_be l : bytes l -> length l = 4%nat -> be32 (be l) = l.
Proof.
  intros H L. destruct l as [|x [|y [|z [|w [|? ?]]]]]; try discriminate.
  apply Forall_cons_iff in H as (Hx & H). apply Forall_cons_iff in H as (Hy & H). apply Forall_cons_iff in H as (Hz & H). apply Forall_inv in H.
  unfold be32, be16, be. cbn [fold_left app]. f_equal; [|f_equal; [|f_equal; [|f_equal]]]; lia.
Qed.
Lemma skipn_bytes n l : bytes l -> bytes (skipn n l).
Proof. intros H. unfold bytes in *. rewrite <- (firstn_skipn n l) in H. apply Forall_app in H as (_ & H). exact H. Qed.
Lemma part_bytes b p n : bytes b -> bytes (part b p n).
Proof. intros H. apply firstn_bytes, skipn_bytes, H. Qed.
Lemma part_len b p n : 0 <= p -> 0 <= n -> p + n <= zlen b -> length (part b p n) = Z.to_nat n.
Proof. intros P N L. unfold part. rewrite firstn_length, skipn_length. unfold zlen in L. lia. Qed.
Lemma part_app b p n m : 0 <= p -> 0 <= n -> 0 <= m -> part b p (n + m) = part b p n ++ part b (p + n) m.
Proof.
  intros P N M. unfold part. rewrite !Z2Nat.inj_add by lia. rewrite <- skipn_skipn'.
  rewrite <- (firstn_skipn (Z.to_nat n) (skipn (Z.to_nat p) b)) at 1.
  set (x := skipn (Z.to_nat p) b). 
  destruct (Nat.le_gt_cases (Z.to_nat n) (length x)) as [G|G].
  - rewrite firstn_app, firstn_length, Nat.min_l by lia.
    replace (Z.to_nat n + Z.to_nat m - Z.to_nat n)%nat with (Z.to_nat m) by lia.
    rewrite firstn_all2; [reflexivity|]. rewrite firstn_length. lia.
  - rewrite (skipn_all2 x) by lia. rewrite app_nil_r, !firstn_nil, app_nil_r. apply firstn_all2. rewrite firstn_length. lia.
Qed.
Lemma low_type t : 0 <= t < 65536 -> Z.land t 0xc000 = 0 -> Z.land t 0x3fff = t /\ t < 16384.
Proof.
  intros R H. assert (t < 16384) as L.
  { assert (Z.land (t / 16384) 3 = 0) as E.
    { change 3 with (Z.shiftr 0xc000 14). change 16384 with (2 ^ 14). rewrite <- (Z.shiftr_div_pow2 t 14) by lia. rewrite <- Z.shiftr_land, H. reflexivity. }
    change 3 with (Z.ones 2) in E. rewrite Z.land_ones in E by lia. change (2 ^ 2) with 4 in E. lia. }
  split; [|exact L]. change 0x3fff with (Z.ones 14). rewrite Z.land_ones by lia. apply Z.mod_small. change (2 ^ 14) with 16384. lia.
Qed.

Lemma hdr_bytes b n : bytes b -> 20 <= zlen b -> Z.land (num b 0 2) 0xc000 = 0 ->
  hdr_encode (mkHdr (num b 0 2) n (num b 4 4) (part b 8 12)) = part b 0 2 ++ be16 n ++ part b 4 16.
Proof.
  intros Bb L T. unfold hdr_encode. cbn [h_type h_len h_cookie h_tid].
  rewrite (proj1 (low_type _ (num16_range b 0 Bb) T)). unfold num.
  rewrite be16_be by (try apply part_bytes; try exact Bb; rewrite part_len by lia; reflexivity).
  rewrite be32_be by (try apply part_bytes; try exact Bb; rewrite part_len by lia; reflexivity).
  change (part b 4 16) with (part b 4 (4 + 12)). rewrite (part_app b 4 4 12) by lia. reflexivity.
Qed.
Lemma part_all b : part b 0 20 ++ skipn 20 b = b.
Proof. unfold part. cbn [Z.to_nat skipn]. change (Z.to_nat 20) with 20%nat. apply firstn_skipn. Qed.
Lemma put_same b : bytes b -> 20 <= zlen b -> Z.land (num b 0 2) 0xc000 = 0 ->
  put_hdr (mkHdr (num b 0 2) (num b 2 2) (num b 4 4) (part b 8 12)) b = b.
Proof.
  intros Bb L T. unfold put_hdr. rewrite hdr_bytes by assumption.
  unfold num. rewrite be16_be by (try apply part_bytes; try exact Bb; rewrite part_len by lia; reflexivity).
  pose proof (part_app b 2 2 16 ltac:(lia) ltac:(lia) ltac:(lia)) as P1. pose proof (part_app b 0 2 18 ltac:(lia) ltac:(lia) ltac:(lia)) as P2.
  change (2 + 16) with 18 in P1. change (2 + 2) with 4 in P1. change (0 + 2) with 2 in P2. change (2 + 18) with 20 in P2.
  rewrite <- P1, <- P2. apply part_all.
Qed.
Lemma hdr_encode_len h : length (h_tid h) = 12%nat -> zlen (hdr_encode h) = 20.
Proof. intros H. unfold hdr_encode. rewrite !zlen_app, !be16_len, be32_len. unfold zlen. lia. Qed.
Lemma put_skip h b : length (h_tid h) = 12%nat -> skipn 20 (put_hdr h b) = skipn 20 b.
Proof. intros H. unfold put_hdr. change 20%nat with (Z.to_nat 20). apply skipn_exact, hdr_encode_len, H. Qed.
Lemma put_len h b : length (h_tid h) = 12%nat -> 20 <= zlen b -> zlen (put_hdr h b) = zlen b.
Proof.
  intros H L. unfold put_hdr. rewrite zlen_app, hdr_encode_len by exact H.
  change 20%nat with (Z.to_nat 20). rewrite zlen_skipn by lia. lia.
Qed.

(** Facts of a message that was read. *)
Record read_facts (b : list Z) (m : msg) : Prop := mkRf {
  rf_hdr : m_hdr m = mkHdr (num b 0 2) (num b 2 2) (num b 4 4) (part b 8 12);
  rf_len : 20 + num b 2 2 <= zlen b;
  rf_range : 0 <= num b 2 2 < 65536;
  rf_type : Z.land (num b 0 2) 0xc000 = 0;
  rf_tid : length (part b 8 12) = 12%nat;
  rf_weights : weights (m_attrs m) <= num b 2 2;
  rf_typed : Forall typed (m_attrs m) }.
Lemma read_ok b m : bytes b -> zlen b < 2 ^ 40 -> decode b = Ok m -> read_facts b m.
Proof.
  intros Bb L D. pose proof (msg_shape b Bb L) as M. rewrite D in M. cbn [msg_good] in M.
  destruct M as (M1 & M2 & M3 & M4 & M5 & M6 & M7 & _). rewrite M3 in *. cbn [h_len h_type] in *.
  constructor; try assumption. rewrite part_len by lia. reflexivity.
Qed.

Lemma fp_room b m a : read_facts b m -> find_attr FINGERPRINT m = Some a -> 8 <= num b 2 2 /\ exists v, a_val a = VU32 v.
Proof.
  intros F G. apply find_attr_in in G as (I1 & E). pose proof (in_weight a _ I1) as W. rewrite E in W.
  change (weight FINGERPRINT) with 8 in W. pose proof (rf_weights _ _ F). split; [lia|].
  pose proof (proj1 (Forall_forall _ _) (rf_typed _ _ F) a I1) as (_ & T). apply T. exact E.
Qed.
Lemma mi_room b m a : read_facts b m -> find_attr MSG_INTEGRITY m = Some a -> 24 <= num b 2 2 /\ exists h, a_val a = VMi h.
Proof.
  intros F G. apply find_attr_in in G as (I1 & E). pose proof (in_weight a _ I1) as W. rewrite E in W.
  change (weight MSG_INTEGRITY) with 24 in W. pose proof (rf_weights _ _ F). split; [lia|].
  pose proof (proj1 (Forall_forall _ _) (rf_typed _ _ F) a I1) as (T & _). apply T. exact E.
Qed.
Lemma both_room b m a1 a2 : read_facts b m -> find_attr MSG_INTEGRITY m = Some a1 -> find_attr FINGERPRINT m = Some a2 -> 32 <= num b 2 2.
Proof.
  intros F G1 G2. apply find_attr_in in G1 as (I1 & E1). apply find_attr_in in G2 as (I2 & E2).
  assert (a1 <> a2). { intros ->. rewrite E1 in E2. discriminate. }
  pose proof (in_weight2 a1 a2 _ I1 I2 H) as W. rewrite E1, E2 in W.
  change (weight MSG_INTEGRITY) with 24 in W. change (weight FINGERPRINT) with 8 in W.
  pose proof (rf_weights _ _ F). lia.
Qed.
Lemma u64_small40 x : 0 <= x < 2 ^ 40 -> u64 x = x.
Proof. intros H. apply u64_small. change (2 ^ 40) with 1099511627776 in H. lia. Qed.

Lemma covered_is b m : bytes b -> read_facts b m -> 32 <= num b 2 2 ->
  firstn (Z.to_nat (num b 2 2 - 12)) (put_hdr (with_len (m_hdr m) (num b 2 2 - 8)) b) = covered b.
Proof.
  intros Bb F R. rewrite (rf_hdr _ _ F). unfold with_len. cbn [h_type h_len h_cookie h_tid].
  pose proof (rf_len _ _ F). pose proof (rf_range _ _ F).
  unfold put_hdr. rewrite hdr_bytes by (try exact Bb; try apply (rf_type _ _ F); lia).
  unfold covered. replace (16 + num b 2 2 - 32) with (16 + (num b 2 2 - 32)) by lia.
  rewrite (part_app b 4 16) by lia. change (4 + 16) with 20.
  rewrite <- !app_assoc.
  assert (X : part b 20 (num b 2 2 - 32) ++ skipn (Z.to_nat (num b 2 2 - 32)) (skipn 20 b) = skipn 20 b).
  { unfold part. change (Z.to_nat 20) with 20%nat. apply firstn_skipn. }
  rewrite <- X at 1. rewrite !app_assoc. apply firstn_exact.
  rewrite !zlen_app, be16_len. unfold zlen. rewrite !part_len by lia. lia.
Qed.

Section check.
  Context (mac : list Z -> list Z -> list Z) (crc : list Z -> Z).
  Lemma chk_fp_is b m : bytes b -> zlen b < 2 ^ 40 -> read_facts b m ->
    chk_fp crc b m = match find_attr FINGERPRINT m with
                     | None => Err EPROTO
                     | Some a => match a_val a with
                                 | VU32 v => if fingerprint crc (part b 0 (12 + num b 2 2)) =? v then Ok tt else Err EBADMSG
                                 | _ => Err EBADMSG end end.
  Proof.
    intros Bb L F. unfold chk_fp. destruct (find_attr FINGERPRINT m) as [a|] eqn:G; [|reflexivity].
    destruct (fp_room _ _ _ F G) as (R & v & V). rewrite (rf_hdr _ _ F). cbn [h_len].
    pose proof (rf_len _ _ F). pose proof (rf_range _ _ F). rewrite u64_small40 by lia.
    destruct (Z.gtb_spec (20 + num b 2 2 - 8) (zlen b)); [lia|]. rewrite V.
    unfold part. cbn [Z.to_nat skipn]. replace (20 + num b 2 2 - 8) with (12 + num b 2 2) by lia. reflexivity.
  Qed.
  Lemma chk_mi_after key b m : bytes b -> zlen b < 2 ^ 40 -> read_facts b m -> snd (chk_mi mac key b m) = b.
  Proof.
    intros Bb L F. unfold chk_mi. destruct (find_attr MSG_INTEGRITY m) as [a|] eqn:G; [|reflexivity].
    destruct (find_attr FINGERPRINT m) as [a2|] eqn:G2; [|reflexivity]. cbn [snd].
    pose proof (both_room _ _ _ _ F G G2) as R. pose proof (rf_range _ _ F). pose proof (rf_len _ _ F).
    rewrite (rf_hdr _ _ F). unfold with_len. cbn [h_type h_len h_cookie h_tid].
    rewrite (u16_small (num b 2 2 - 8)) by lia. rewrite u16_small by lia.
    replace (num b 2 2 - 8 + 8) with (num b 2 2) by lia.
    unfold put_hdr at 1. rewrite put_skip by apply (rf_tid _ _ F). fold (put_hdr (mkHdr (num b 0 2) (num b 2 2) (num b 4 4) (part b 8 12)) b).
    apply put_same; [exact Bb|lia|apply (rf_type _ _ F)].
  Qed.
  Lemma chk_mi_is key b m : bytes b -> zlen b < 2 ^ 40 -> read_facts b m ->
    fst (chk_mi mac key b m) = match find_attr MSG_INTEGRITY m with
        | None => Err EPROTO
        | Some a => match a_val a with
                    | VMi h => if list_eq_dec Z.eq_dec h (mac key (match find_attr FINGERPRINT m with
                                                                    | Some _ => covered b
                                                                    | None => part b 0 (num b 2 2 - 4) end))
                               then Ok tt else Err EBADMSG
                    | _ => Err EBADMSG end end.
  Proof.
    intros Bb L F. unfold chk_mi. destruct (find_attr MSG_INTEGRITY m) as [a|] eqn:G; [|reflexivity].
    destruct (mi_room _ _ _ F G) as (R1 & h & V).
    pose proof (rf_range _ _ F). pose proof (rf_len _ _ F). rewrite V.
    destruct (find_attr FINGERPRINT m) as [a2|] eqn:G2; cbn [fst].
    - pose proof (both_room _ _ _ _ F G G2) as R. 
      assert (HL : h_len (m_hdr m) = num b 2 2) by (rewrite (rf_hdr _ _ F); reflexivity).
      assert (HT : length (h_tid (m_hdr m)) = 12%nat) by (rewrite (rf_hdr _ _ F); apply (rf_tid _ _ F)).
      rewrite HL, u16_small by lia. rewrite u64_small40 by lia.
      replace (20 + (num b 2 2 - 8) - 24) with (num b 2 2 - 12) by lia.
      rewrite put_len by (try exact HT; lia).
      destruct (Z.gtb_spec (num b 2 2 - 12) (zlen b)); [lia|].
      rewrite covered_is by assumption. reflexivity.
    - assert (HL : h_len (m_hdr m) = num b 2 2) by (rewrite (rf_hdr _ _ F); reflexivity).
      rewrite HL. rewrite u64_small40 by lia. replace (20 + num b 2 2 - 24) with (num b 2 2 - 4) by lia.
      destruct (Z.gtb_spec (num b 2 2 - 4) (zlen b)); [lia|]. reflexivity.
  Qed.

  Lemma stays_inside key b : bytes b -> zlen b < 2 ^ 40 ->
    decode b <> Past /\ decode b <> Hang /\
    forall m, decode b = Ok m -> (chk_fp crc b m <> Past /\ chk_fp crc b m <> Hang) /\ fst (chk_mi mac key b m) <> Past.
  Proof.
    intros Bb L. pose proof (msg_shape b Bb L) as M. split; [|split].
    - intros E. rewrite E in M. exact M.
    - intros E. rewrite E in M. exact M.
    - intros m D. pose proof (read_ok b m Bb L D) as F.
      rewrite chk_fp_is, chk_mi_is by assumption. split.
      + destruct (find_attr FINGERPRINT m) as [a|]; [|split; discriminate].
        destruct (a_val a); try (split; discriminate). destruct (_ =? _); split; discriminate.
      + destruct (find_attr MSG_INTEGRITY m) as [a|]; [|discriminate].
        destruct (a_val a); try discriminate. destruct (list_eq_dec _ _ _); discriminate.
  Qed.

  Lemma accepted_iff key b m : bytes b -> zlen b < 2 ^ 40 ->
    (accepted mac crc key b m <->
     decode b = Ok m /\
     find_attr 0x8 m = Some (mkAttr 0x8 (VMi (mac key (covered b)))) /\
     find_attr 0x8028 m = Some (mkAttr 0x8028 (VU32 (Z.lxor (crc (part b 0 (12 + num b 2 2))) 0x5354554e)))).
  Proof.
    intros Bb L. unfold accepted. split.
    - intros (D & C1 & C2). pose proof (read_ok b m Bb L D) as F. split; [exact D|].
      rewrite chk_fp_is in C1 by assumption. rewrite chk_mi_is in C2 by assumption.
      change FINGERPRINT with 0x8028 in *. change MSG_INTEGRITY with 0x8 in *.
      destruct (find_attr 0x8028 m) as [a|] eqn:G; [|discriminate]. destruct (find_attr_in _ _ _ G) as (_ & Ta).
      destruct a as [ta va]. cbn [a_type a_val] in *. destruct va; try discriminate.
      destruct (Z.eqb_spec (fingerprint crc (part b 0 (12 + num b 2 2))) n) as [E|]; [|discriminate].
      destruct (find_attr 0x8 m) as [a|] eqn:G2; [|discriminate]. destruct (find_attr_in _ _ _ G2) as (_ & Tb).
      destruct a as [tb vb]. cbn [a_type a_val] in *. destruct vb; try discriminate.
      destruct (list_eq_dec _ _ _) as [->|]; [|discriminate]. subst. split; reflexivity.
    - intros (D & C1 & C2). pose proof (read_ok b m Bb L D) as F. split; [exact D|].
      rewrite chk_fp_is, chk_mi_is by assumption.
      change FINGERPRINT with 0x8028. change MSG_INTEGRITY with 0x8. rewrite C1, C2. cbn [a_val].
      unfold fingerprint. rewrite Z.eqb_refl. split; [reflexivity|].
      destruct (list_eq_dec _ _ _) as [_|n]; [reflexivity|]. exfalso. apply n. reflexivity.
  Qed.
End check.

(** Lists of attributes are read back. *)
Definition onto (l : list attr) (x : res (list attr * list Z)) : res (list attr * list Z) :=
  match x with Ok (l2, u) => Ok (l ++ l2, u) | Err e => Err e | Past => Past | Hang => Hang end.
Lemma attrs_step tid : length tid = 12%nat -> forall l body n extra ua rest,
  attrs_encode tid l = Some body -> Forall well_formed l -> 0 <= extra <= zlen rest -> (length l <= n)%nat ->
  zlen (body ++ rest) < 2 ^ 40 ->
  attrs_decode n extra tid ua (body ++ rest) = onto l (attrs_decode (n - length l) extra tid ua rest).
Proof.
  intros T. induction l as [|a l IH]; intros body n extra ua rest E W X N L.
  - apply some_inj in E. subst body. cbn [app length] in *. rewrite Nat.sub_0_r. destruct (attrs_decode _ _ _ _ _) as [[l2 u]|e| |]; reflexivity.
  - cbn [attrs_encode] in E. destruct (attr_encode tid a) as [x|] eqn:Ea; [|discriminate].
    destruct (attrs_encode tid l) as [y|] eqn:El; [|discriminate]. apply some_inj in E. subst body.
    apply Forall_cons_iff in W as (Wa & W). rewrite <- app_assoc in *.
    destruct (attr_encode_len _ _ _ Ea) as (v & _ & Lx). pose proof (zlen_nonneg v). rewrite !zlen_app in L.
    pose proof (zlen_nonneg y). pose proof (zlen_nonneg rest).
    destruct n as [|n]; [cbn [length] in N; lia|]. cbn [length] in N.
    cbn [attrs_decode]. 
    assert (G : (u64 (zlen (x ++ y ++ rest) - extra) >=? 4) = true).
    { rewrite !zlen_app. rewrite u64_small40 by lia. destruct (Z.geb_spec (zlen x + (zlen y + zlen rest) - extra) 4); [reflexivity|lia]. }
    rewrite G. rewrite (attr_roundtrip tid ua a x (y ++ rest) T Wa Ea).
    rewrite (IH y n extra ua rest eq_refl W X) by (rewrite ?zlen_app; lia). cbn [length Nat.sub].
    destruct (attrs_decode (n - length l) extra tid ua rest) as [[l2 u]|e| |]; reflexivity.
Qed.
Lemma attrs_encode_app tid l1 l2 : attrs_encode tid (l1 ++ l2) =
  match attrs_encode tid l1, attrs_encode tid l2 with Some x, Some y => Some (x ++ y) | _, _ => None end.
Proof.
  induction l1 as [|a l1 IH]; cbn [app attrs_encode].
  - destruct (attrs_encode tid l2); reflexivity.
  - destruct (attr_encode tid a); [|reflexivity]. rewrite IH.
    destruct (attrs_encode tid l1); [|reflexivity]. destruct (attrs_encode tid l2); [|reflexivity]. rewrite app_assoc. reflexivity.
Qed.
Lemma attrs_encode_count tid l body : attrs_encode tid l = Some body -> 4 * zlen l <= zlen body /\ zlen body mod 4 = 0.
Proof.
  revert body. induction l as [|a l IH]; intros body E; cbn [attrs_encode] in E.
  - apply some_inj in E. subst. split; [|reflexivity]. change (zlen (@nil attr)) with 0. change (zlen (@nil Z)) with 0. lia.
  - destruct (attr_encode tid a) as [x|] eqn:Ea; [|discriminate]. destruct (attrs_encode tid l) as [y|]; [|discriminate].
    apply some_inj in E. subst. destruct (attr_encode_len _ _ _ Ea) as (v & _ & Lx). pose proof (zlen_nonneg v). destruct (IH y eq_refl). rewrite zlen_app, zlen_cons. lia.
Qed.

Lemma hdr_roundtrip h r : 0 <= h_type h < 16384 -> 0 <= h_len h <= 65535 -> h_len h mod 4 = 0 -> 0 <= h_cookie h < 2 ^ 32 ->
  length (h_tid h) = 12%nat -> h_len h <= zlen r -> hdr_decode (hdr_encode h ++ r) = Ok (h, r).
Proof.
  intros T L M C D R. destruct h as [t n c tid]. cbn [h_type h_len h_cookie h_tid] in *.
  assert (E : Z.land t 0x3fff = t).
  { change 0x3fff with (Z.ones 14). rewrite Z.land_ones by lia. apply Z.mod_small. change (2 ^ 14) with 16384. lia. }
  assert (E2 : Z.land t 0xc000 = 0).
  { rewrite <- E, <- Z.land_assoc. change (Z.land 0x3fff 0xc000) with 0. apply Z.land_0_r. }
  assert (E3 : Z.land n 3 = 0).
  { change 3 with (Z.ones 2). rewrite Z.land_ones by lia. exact M. }
  unfold hdr_decode, hdr_encode. cbn [h_type h_len h_cookie h_tid]. rewrite E, <- !app_assoc.
  rewrite !zlen_app, !be16_len, be32_len. assert (zlen tid = 12) by (unfold zlen; lia).
  pose proof (zlen_nonneg r). destruct (Z.ltb_spec (2 + (2 + (4 + (zlen tid + zlen r)))) 20); [lia|].
  rewrite (read_be_app (be16 t) _ 2) by reflexivity. rewrite (be_be16 t) by lia. rewrite E2. cbn [Z.eqb negb].
  rewrite (read_be_app (be16 n) _ 2) by reflexivity. rewrite (be_be16 n) by lia. rewrite E3. cbn [Z.eqb negb].
  rewrite (read_be_app (be32 c) _ 4) by reflexivity. rewrite (be_be32 c) by lia.
  rewrite read_mem_app by assumption. destruct (Z.ltb_spec (zlen r) n); [lia|reflexivity].
Qed.

Lemma decode_written h l body extra : 0 <= h_type h < 16384 -> 0 <= h_cookie h < 2 ^ 32 -> length (h_tid h) = 12%nat ->
  attrs_encode (h_tid h) l = Some body -> Forall well_formed l -> h_len h = zlen body -> zlen body <= 65535 ->
  zlen extra < 2 ^ 32 ->
  decode (hdr_encode h ++ body ++ extra) = Ok (mkMsg h l []).
Proof.
  intros T C D E W L Z1 Z2. destruct (attrs_encode_count _ _ _ E) as (K1 & K2). pose proof (zlen_nonneg extra). pose proof (zlen_nonneg body).
  unfold decode. rewrite hdr_roundtrip by (try rewrite L; try assumption; rewrite ?zlen_app; lia).
  rewrite (attrs_step (h_tid h) D l body) by (try assumption; rewrite ?zlen_app, ?L; try (rewrite app_length; unfold zlen in *; lia); lia).
  replace (zlen (body ++ extra) - h_len h) with (zlen extra) by (rewrite zlen_app, L; lia).
  assert (G : forall f, attrs_decode f (zlen extra) (h_tid h) [] extra = Ok ([], [])).
  { intros f. destruct f; cbn [attrs_decode]; rewrite Z.sub_diag; reflexivity. }
  rewrite G. cbn [onto]. rewrite app_nil_r. reflexivity.
Qed.

(** Message types. *)
Lemma ones_range x n : 0 <= n -> Z.land x (Z.ones n) = x -> 0 <= x < 2 ^ n.
Proof. intros N E. rewrite <- E, Z.land_ones by exact N. apply Z.mod_pos_bound. lia. Qed.
Lemma range_ones x n : 0 <= n -> 0 <= x < 2 ^ n -> Z.land x (Z.ones n) = x.
Proof. intros N H. rewrite Z.land_ones by exact N. apply Z.mod_small. exact H. Qed.
Lemma lor_range x y n : 0 <= n -> 0 <= x < 2 ^ n -> 0 <= y < 2 ^ n -> 0 <= Z.lor x y < 2 ^ n.
Proof. intros N X Y. apply ones_range; [exact N|]. rewrite Z.land_lor_distr_l, !range_ones by assumption. reflexivity. Qed.
Lemma land_range x k n : 0 <= n -> Z.land k (Z.ones n) = k -> 0 <= Z.land x k < 2 ^ n.
Proof. intros N K. apply ones_range; [exact N|]. rewrite <- Z.land_assoc, K. reflexivity. Qed.
Lemma msg_type_range method class : 0 <= msg_type method class < 16384.
Proof.
  unfold msg_type. change 16384 with (2 ^ 14).
  pose proof (land_range method 0x0f80 12 ltac:(lia) eq_refl). pose proof (land_range method 0x0070 7 ltac:(lia) eq_refl).
  pose proof (land_range method 0x000f 4 ltac:(lia) eq_refl). pose proof (land_range class 2 2 ltac:(lia) eq_refl).
  pose proof (land_range class 1 1 ltac:(lia) eq_refl).
  repeat apply lor_range; try lia.
Qed.
Lemma types_back method class : 0 <= method < 16 -> 0 <= class < 4 ->
  msg_class (msg_type method class) = class /\ msg_method (msg_type method class) = method.
Proof.
  intros M C.
  assert (A : forallb (fun x => forallb (fun y => (msg_class (msg_type x y) =? y) && (msg_method (msg_type x y) =? x)) [0;1;2;3])
                      [0;1;2;3;4;5;6;7;8;9;10;11;12;13;14;15] = true) by (vm_compute; reflexivity).
  rewrite forallb_forall in A. specialize (A method). cbn [In] in A.
  assert (A' := A ltac:(lia)). rewrite forallb_forall in A'. specialize (A' class). cbn [In] in A'. specialize (A' ltac:(lia)). lia.
Qed.

(** What is written is made of bytes. *)
Lemma bytes_app x y : bytes (x ++ y) <-> bytes x /\ bytes y.
Proof. apply Forall_app. Qed.
Lemma be8_bytes x : bytes (be8 x). Proof. unfold be8, bytes. repeat constructor; lia. Qed.
Lemma be16_bytes x : bytes (be16 x). Proof. unfold be16, bytes. repeat constructor; lia. Qed.
Lemma be32_bytes x : bytes (be32 x). Proof. apply bytes_app. split; apply be16_bytes. Qed.
Lemma be64_bytes x : bytes (be64 x). Proof. apply bytes_app. split; apply be32_bytes. Qed.
Lemma pad_bytes_bytes n : bytes (pad_bytes n).
Proof. unfold pad_bytes, bytes. apply Forall_forall. intros x H. apply repeat_spec in H. lia. Qed.
Lemma concat_bytes l : bytes (concat (map be16 l)).
Proof. induction l as [|x l IH]; cbn [map concat]; [constructor|]. apply bytes_app. split; [apply be16_bytes|exact IH]. Qed.
Lemma xor_bytes_bytes a k : bytes a -> bytes k -> bytes (xor_bytes a k).
Proof.
  unfold bytes. revert k. induction a as [|x a IH]; intros k A K; [constructor|]. destruct k as [|y k]; [exact A|].
  apply Forall_cons_iff in A as (A1 & A2). apply Forall_cons_iff in K as (K1 & K2). cbn [xor_bytes]. constructor; [|apply IH; assumption].
  change 256 with (2 ^ 8). apply lxor_range; [lia|exact A1|exact K1].
Qed.
Lemma val_bytes tid a v : bytes tid -> well_formed a -> val_encode tid a = Some v -> bytes v.
Proof.
  intros T W. destruct a as [t w]. unfold val_encode, well_formed in *. cbn [a_type a_val] in *.
  destruct (kind_of t), w; try discriminate; intros E; apply some_inj in E; subst v;
    repeat (apply bytes_app; split); try apply be8_bytes; try apply be16_bytes; try apply be32_bytes; try apply be64_bytes; try apply concat_bytes;
    try constructor; try (unfold text in W; tauto).
  destruct W as (_ & W). unfold addr_encode. destruct s; repeat (apply bytes_app; split); try apply be8_bytes; try apply be16_bytes; try apply be32_bytes.
  cbn [address] in W. destruct xored; [|tauto]. apply xor_bytes_bytes; [tauto|]. apply bytes_app. split; [|exact T].
  unfold bytes. repeat constructor; lia.
Qed.
Lemma attr_bytes tid a e : bytes tid -> well_formed a -> attr_encode tid a = Some e -> bytes e.
Proof.
  intros T W. unfold attr_encode. destruct (val_encode tid a) as [v|] eqn:V; [|discriminate]. intros E. apply some_inj in E. subst e.
  repeat (apply bytes_app; split); try apply be16_bytes; try apply pad_bytes_bytes. exact (val_bytes _ _ _ T W V).
Qed.
Lemma attrs_bytes tid l e : bytes tid -> Forall well_formed l -> attrs_encode tid l = Some e -> bytes e.
Proof.
  intros T. revert e. induction l as [|a l IH]; intros e W E; cbn [attrs_encode] in E.
  - apply some_inj in E. subst. constructor.
  - apply Forall_cons_iff in W as (W1 & W2). destruct (attr_encode tid a) as [x|] eqn:Ea; [|discriminate].
    destruct (attrs_encode tid l) as [y|] eqn:El; [|discriminate]. apply some_inj in E. subst.
    apply bytes_app. split; [exact (attr_bytes _ _ _ T W1 Ea)|exact (IH y W2 eq_refl)].
Qed.
Lemma hdr_encode_bytes h : bytes (h_tid h) -> bytes (hdr_encode h).
Proof. intros T. unfold hdr_encode. repeat (apply bytes_app; split); try apply be16_bytes; try apply be32_bytes. exact T. Qed.

Lemma find_app {A} (f : A -> bool) l1 l2 : List.find f l1 = None -> List.find f (l1 ++ l2) = List.find f l2.
Proof. induction l1 as [|x l1 IH]; cbn [app List.find]; [auto|]. destruct (f x); [discriminate|exact IH]. Qed.
Lemma find_plain t l : Forall (fun a => a_type a <> t) l -> List.find (fun a => a_type a =? t) l = None.
Proof.
  induction l as [|a l IH]; intros H; [reflexivity|]. apply Forall_cons_iff in H as (H1 & H2). cbn [List.find].
  destruct (Z.eqb_spec (a_type a) t); [contradiction|]. apply IH. exact H2.
Qed.
Lemma plain_wf l : plain l -> Forall well_formed l.
Proof. apply Forall_impl. tauto. Qed.
Lemma plain_8 l : plain l -> Forall (fun a => a_type a <> 0x8) l.
Proof. apply Forall_impl. tauto. Qed.
Lemma plain_fp l : plain l -> Forall (fun a => a_type a <> 0x8028) l.
Proof. apply Forall_impl. tauto. Qed.

Section written.
  Context (mac : list Z -> list Z -> list Z) (crc : list Z -> Z).
  Context (mac_ok : forall k x, length (mac k x) = 20%nat /\ bytes (mac k x)).
  Context (crc_ok : forall x, 0 <= crc x < 2 ^ 32).

  Definition mi_of k x := mkAttr 0x8 (VMi (mac k x)).
  Definition fp_of x := mkAttr 0x8028 (VU32 (fingerprint crc x)).
  Lemma mi_wf k x : well_formed (mi_of k x).
  Proof. unfold well_formed, mi_of. cbn [a_val a_type]. destruct (mac_ok k x). auto. Qed.
  Lemma fp_wf x : well_formed (fp_of x).
  Proof.
    unfold well_formed, fp_of. cbn [a_val a_type]. split; [cbn [In]; auto|]. apply lxor_range; [lia|apply crc_ok|]. lia.
  Qed.
  Definition mi_bytes k x := be16 0x8 ++ be16 20 ++ mac k x.
  Definition fp_bytes x := be16 0x8028 ++ be16 4 ++ be32 (fingerprint crc x).
  Lemma mi_enc tid k x : attr_encode tid (mi_of k x) = Some (mi_bytes k x).
  Proof.
    unfold attr_encode, mi_of. change (val_encode tid (mkAttr 0x8 (VMi (mac k x)))) with (Some (mac k x)). cbv iota.
    assert (L : zlen (mac k x) = 20) by (unfold zlen; destruct (mac_ok k x); lia). rewrite L.
    change (pad_bytes 20) with (@nil Z). rewrite app_nil_r. reflexivity.
  Qed.
  Lemma fp_enc tid x : attr_encode tid (fp_of x) = Some (fp_bytes x).
  Proof.
    unfold attr_encode, fp_of. change (val_encode tid (mkAttr 0x8028 (VU32 (fingerprint crc x)))) with (Some (be32 (fingerprint crc x))). cbv iota.
    rewrite be32_len. change (pad_bytes 4) with (@nil Z). rewrite app_nil_r. reflexivity.
  Qed.
  Lemma mi_bytes_len k x : zlen (mi_bytes k x) = 24.
  Proof. unfold mi_bytes. rewrite !zlen_app, !be16_len. unfold zlen. destruct (mac_ok k x). lia. Qed.
  Lemma fp_bytes_len x : zlen (fp_bytes x) = 8.
  Proof. unfold fp_bytes. rewrite !zlen_app, !be16_len, be32_len. reflexivity. Qed.

  Definition hd method class tid n := mkHdr (msg_type method class) n COOKIE tid.
  Lemma put_over h h' r : length (h_tid h) = 12%nat -> put_hdr h' (hdr_encode h ++ r) = hdr_encode h' ++ r.
  Proof. intros T. unfold put_hdr. change 20%nat with (Z.to_nat 20). rewrite skipn_exact by (apply hdr_encode_len; exact T). reflexivity. Qed.

  (** The four forms of a message written. *)
  Lemma encode_is method class tid key fp l b : length tid = 12%nat ->
    encode mac crc method class tid key fp l = Some b ->
    exists body tail tb, attrs_encode tid l = Some body /\ attrs_encode tid tail = Some tb /\ Forall well_formed tail /\
      zlen body + zlen tb <= 65535 /\ zlen tb = (if key then 24 else 0) + (if fp then 8 else 0) /\
      b = hdr_encode (hd method class tid (zlen body + zlen tb)) ++ body ++ tb /\
      match key, fp with
      | None, false => tail = []
      | Some k, false => tail = [mi_of k (hdr_encode (hd method class tid (zlen body + 24)) ++ body)]
      | None, true => tail = [fp_of (hdr_encode (hd method class tid (zlen body + 8)) ++ body)]
      | Some k, true => tail = [mi_of k (hdr_encode (hd method class tid (zlen body + 24)) ++ body);
                                fp_of (hdr_encode (hd method class tid (zlen body + 32)) ++ body ++
                                       mi_bytes k (hdr_encode (hd method class tid (zlen body + 24)) ++ body))]
      end.
  Proof.
    intros T. unfold encode. destruct (attrs_encode tid l) as [body|]; [|discriminate].
    destruct (Z.gtb_spec (zlen body + 32) 65535); [discriminate|]. pose proof (zlen_nonneg body).
    change MSG_INTEGRITY with 0x8. change FINGERPRINT with 0x8028.
    fold (hd method class tid (zlen body + (if key then 24 else 0))).
    destruct key as [k|].
    - set (m1 := hdr_encode (hd method class tid (zlen body + 24)) ++ body). fold (mi_of k m1). rewrite mi_enc.
      destruct fp; intros E.
      + set (m3 := put_hdr _ _) in E. fold (fp_of m3) in E. rewrite fp_enc in E. apply some_inj in E.
        assert (E3 : m3 = hdr_encode (hd method class tid (zlen body + 32)) ++ body ++ mi_bytes k m1).
        { unfold m3. rewrite zlen_app, mi_bytes_len. unfold m1 at 2. rewrite <- app_assoc, put_over by exact T.
          unfold m1 at 1. rewrite zlen_app, hdr_encode_len by exact T. unfold with_len, hd. cbn [h_type h_cookie h_tid].
          replace (20 + zlen body + 24 - 20 + 8) with (zlen body + 32) by lia. reflexivity. }
        exists body, [mi_of k m1; fp_of m3], (mi_bytes k m1 ++ fp_bytes m3).
        split; [reflexivity|]. split; [cbn [attrs_encode]; rewrite mi_enc, fp_enc, app_nil_r; reflexivity|].
        split; [constructor; [apply mi_wf|constructor; [apply fp_wf|constructor]]|]. rewrite zlen_app, mi_bytes_len, fp_bytes_len.
        split; [lia|]. split; [reflexivity|]. split; [|rewrite E3; reflexivity].
        rewrite <- E. rewrite E3 at 1. rewrite <- !app_assoc. change (24 + 8) with 32. reflexivity.
      + apply some_inj in E. exists body, [mi_of k m1], (mi_bytes k m1).
        split; [reflexivity|]. split; [cbn [attrs_encode]; rewrite mi_enc, app_nil_r; reflexivity|].
        split; [constructor; [apply mi_wf|constructor]|]. rewrite mi_bytes_len.
        split; [lia|]. split; [reflexivity|]. split; [|reflexivity].
        rewrite <- E. unfold m1 at 1. rewrite <- !app_assoc. reflexivity.
    - destruct fp; intros E.
      + set (m3 := put_hdr _ _) in E. fold (fp_of m3) in E. rewrite fp_enc in E. apply some_inj in E.
        assert (E3 : m3 = hdr_encode (hd method class tid (zlen body + 8)) ++ body).
        { unfold m3. rewrite zlen_app, hdr_encode_len by exact T. rewrite put_over by exact T.
          unfold with_len, hd. cbn [h_type h_cookie h_tid].
          replace (20 + zlen body - 20 + 8) with (zlen body + 8) by lia. reflexivity. }
        exists body, [fp_of m3], (fp_bytes m3).
        split; [reflexivity|]. split; [cbn [attrs_encode]; rewrite fp_enc, app_nil_r; reflexivity|].
        split; [constructor; [apply fp_wf|constructor]|]. rewrite fp_bytes_len.
        split; [lia|]. split; [reflexivity|]. split; [|rewrite E3; reflexivity].
        rewrite <- E. rewrite E3 at 1. rewrite <- !app_assoc. reflexivity.
      + apply some_inj in E. exists body, [], [].
        split; [reflexivity|]. split; [reflexivity|]. split; [constructor|]. change (zlen (@nil Z)) with 0.
        split; [lia|]. split; [reflexivity|]. split; [|reflexivity].
        rewrite <- E, app_nil_r. reflexivity.
  Qed.

  Lemma part_0 x y n : zlen x = n -> part (x ++ y) 0 n = x.
  Proof. intros H. unfold part. cbn [Z.to_nat skipn]. apply firstn_exact. exact H. Qed.

  Lemma read_back method class tid key fp l b : length tid = 12%nat -> bytes tid ->
    encode mac crc method class tid key fp l = Some b -> Forall well_formed l ->
    exists m tail, decode b = Ok m /\ m_hdr m = mkHdr (msg_type method class) (zlen b - 20) 0x2112a442 tid /\
      m_attrs m = l ++ tail /\ m_ua m = [] /\
      map a_type tail = (if key then [0x8] else []) ++ (if fp then [0x8028] else []) /\
      (plain l -> (fp = true -> chk_fp crc b m = Ok tt) /\
                  (forall k, key = Some k -> fst (chk_mi mac k b m) = Ok tt)).
  Proof.
    intros T Bt E W. destruct (encode_is _ _ _ _ _ _ _ T E) as (body & tail & tb & Eb & Et & Wt & L & Lt & Hb & Hc).
    pose proof (zlen_nonneg body). pose proof (zlen_nonneg tb).
    set (H1 := hd method class tid (zlen body + zlen tb)) in *.
    assert (D : decode b = Ok (mkMsg H1 (l ++ tail) [])).
    { rewrite Hb. rewrite <- (app_nil_r (body ++ tb)). apply decode_written.
      - apply msg_type_range.
      - cbn [H1 hd h_cookie]. unfold COOKIE. lia.
      - exact T.
      - rewrite attrs_encode_app. unfold H1, hd. cbn [h_tid]. rewrite Eb, Et. reflexivity.
      - apply Forall_app. split; assumption.
      - rewrite zlen_app. reflexivity.
      - rewrite zlen_app. lia.
      - change (zlen (@nil Z)) with 0. lia. }
    assert (Lb : zlen b = 20 + zlen body + zlen tb) by (rewrite Hb, !zlen_app, hdr_encode_len by exact T; lia).
    exists (mkMsg H1 (l ++ tail) []), tail. split; [exact D|].
    split; [cbn [m_hdr]; unfold H1, hd; f_equal; lia|]. split; [reflexivity|]. split; [reflexivity|].
    split; [destruct key, fp; rewrite Hc; reflexivity|].
    intros P. 
    assert (Bb : bytes b).
    { rewrite Hb. apply bytes_app; split; [|apply bytes_app; split]; [apply hdr_encode_bytes; exact Bt|exact (attrs_bytes _ _ _ Bt W Eb)|exact (attrs_bytes _ _ _ Bt Wt Et)]. }
    assert (Z40 : zlen b < 2 ^ 40) by lia.
    pose proof (read_ok b _ Bb Z40 D) as F. pose proof (rf_hdr _ _ F) as HH. cbn [m_hdr] in HH.
    assert (N : num b 2 2 = zlen body + zlen tb) by (change (num b 2 2) with (h_len (mkHdr (num b 0 2) (num b 2 2) (num b 4 4) (part b 8 12))); rewrite <- HH; reflexivity).
    assert (F8 : find_attr MSG_INTEGRITY (mkMsg H1 (l ++ tail) []) = List.find (fun a => a_type a =? 0x8) tail)
      by (apply find_app, find_plain, plain_8; exact P).
    assert (Ff : find_attr FINGERPRINT (mkMsg H1 (l ++ tail) []) = List.find (fun a => a_type a =? 0x8028) tail)
      by (apply find_app, find_plain, plain_fp; exact P).
    split.
    - intros ->. rewrite chk_fp_is by assumption. rewrite Ff, N.
      destruct key as [k|]; rewrite Hc; cbn [List.find a_type mi_of fp_of a_val Z.eqb Pos.eqb].
      + assert (X : part b 0 (12 + (zlen body + zlen tb)) = hdr_encode (hd method class tid (zlen body + 32)) ++ body ++
                                       mi_bytes k (hdr_encode (hd method class tid (zlen body + 24)) ++ body)).
        { rewrite Hc in Et. cbn [attrs_encode] in Et. rewrite mi_enc, fp_enc, app_nil_r in Et. apply some_inj in Et.
          rewrite Hb. unfold H1. replace (zlen tb) with 32 by lia.
          rewrite <- Et. rewrite !app_assoc. apply part_0. rewrite !zlen_app, mi_bytes_len, hdr_encode_len by exact T. lia. }
        rewrite X, Z.eqb_refl. reflexivity.
      + assert (X : part b 0 (12 + (zlen body + zlen tb)) = hdr_encode (hd method class tid (zlen body + 8)) ++ body).
        { rewrite Hb. unfold H1. replace (zlen tb) with 8 by lia. rewrite !app_assoc. apply part_0. rewrite !zlen_app, hdr_encode_len by exact T. lia. }
        rewrite X, Z.eqb_refl. reflexivity.
    - intros k ->. rewrite chk_mi_is by assumption. rewrite F8, Ff, N.
      destruct fp; rewrite Hc; cbn [List.find a_type mi_of fp_of a_val Z.eqb Pos.eqb].
      + assert (X : covered b = hdr_encode (hd method class tid (zlen body + 24)) ++ body).
        { rewrite <- (covered_is b _ Bb F) by lia. cbn [m_hdr]. rewrite N, Hb, put_over by exact T.
          unfold H1, with_len, hd. cbn [h_type h_cookie h_tid]. replace (zlen body + zlen tb - 8) with (zlen body + 24) by lia.
          rewrite app_assoc. apply firstn_exact. rewrite zlen_app, hdr_encode_len by exact T. lia. }
        rewrite X. destruct (list_eq_dec _ _ _) as [_|n]; [reflexivity|]. exfalso. apply n. reflexivity.
      + assert (X : part b 0 (zlen body + zlen tb - 4) = hdr_encode (hd method class tid (zlen body + 24)) ++ body).
        { rewrite Hb. unfold H1. replace (zlen tb) with 24 by lia. rewrite !app_assoc. apply part_0. rewrite !zlen_app, hdr_encode_len by exact T. lia. }
        rewrite X. destruct (list_eq_dec _ _ _) as [_|n]; [reflexivity|]. exfalso. apply n. reflexivity.
  Qed.
End written.

Lemma weights_app l1 l2 : weights (l1 ++ l2) = weights l1 + weights l2.
Proof. induction l1 as [|a l1 IH]; cbn [app weights fold_right]; [reflexivity|]. fold (weights (l1 ++ l2)). fold (weights l1). lia. Qed.
Lemma only_two a1 a2 l : In a1 l -> In a2 l -> a_type a1 = 0x8 -> a_type a2 = 0x8028 -> weights l <= 32 ->
  l = [a1; a2] \/ l = [a2; a1].
Proof.
  intros I1 I2 T1 T2 W. assert (N : a1 <> a2) by (intros ->; rewrite T1 in T2; discriminate).
  destruct (in_split a1 l I1) as (x & y & ->).
  assert (I2' : In a2 (x ++ y)).
  { apply in_app_or in I2 as [H|[H|H]]; [apply in_or_app; auto|contradiction|apply in_or_app; auto]. }
  rewrite weights_app in W. cbn [weights fold_right] in W. fold (weights y) in W. rewrite T1 in W. change (weight 8) with 24 in W.
  destruct (in_split a2 (x ++ y) I2') as (p & q & E).
  assert (V : weights (x ++ y) <= 8) by (rewrite weights_app; lia).
  rewrite E, weights_app in V. cbn [weights fold_right] in V. fold (weights q) in V. rewrite T2 in V. change (weight 0x8028) with 8 in V.
  assert (Z0 : forall z, weights z <= 0 -> z = []).
  { intros [|c z] H; [reflexivity|]. cbn [weights fold_right] in H. fold (weights z) in H. pose proof (weights_nonneg z). pose proof (weight_pos (a_type c)). lia. }
  pose proof (weights_nonneg p). pose proof (weights_nonneg q).
  rewrite (Z0 p), (Z0 q) in E by lia. cbn [app] in E.
  destruct x as [|c x]; cbn [app] in *.
  - subst y. left. reflexivity.
  - injection E as -> E. apply app_eq_nil in E as (-> & ->). right. reflexivity.
Qed.

Section forged.
  Context (mac : list Z -> list Z -> list Z) (crc : list Z -> Z).
  Context (mac_ok : forall k x, length (mac k x) = 20%nat /\ bytes (mac k x)).
  Context (crc_ok : forall x, 0 <= crc x < 2 ^ 32).

  Lemma covered_written method class tid k l b body : length tid = 12%nat -> bytes tid ->
    encode mac crc method class tid (Some k) true l = Some b -> plain l -> attrs_encode tid l = Some body ->
    covered b = hdr_encode (hd method class tid (zlen body + 24)) ++ body /\ zlen body <= 65000 + 503.
  Proof.
    intros T Bt E P Eb. destruct (read_back mac crc mac_ok crc_ok _ _ _ _ _ _ _ T Bt E (plain_wf _ P)) as (m & tail & D & H1 & H2 & _ & _ & Hc).
    destruct (encode_is mac crc mac_ok crc_ok _ _ _ _ _ _ _ T E) as (body' & tl & tb & Eb' & Et & Wt & L & Lt & Hb & _).
    rewrite Eb in Eb'. apply some_inj in Eb'. subst body'. cbv iota in Lt. change (24 + 8) with 32 in Lt.
    pose proof (zlen_nonneg body). 
    assert (Bb : bytes b).
    { rewrite Hb. apply bytes_app; split; [|apply bytes_app; split]; [apply hdr_encode_bytes; exact Bt|exact (attrs_bytes _ _ _ Bt (plain_wf _ P) Eb)|exact (attrs_bytes _ _ _ Bt Wt Et)]. }
    assert (Lb : zlen b = 20 + zlen body + zlen tb) by (rewrite Hb, !zlen_app, hdr_encode_len by exact T; lia).
    pose proof (read_ok b m Bb ltac:(lia) D) as F. pose proof (rf_hdr _ _ F) as HH. rewrite H1 in HH.
    assert (N : num b 2 2 = zlen body + 32) by (change (num b 2 2) with (h_len (mkHdr (num b 0 2) (num b 2 2) (num b 4 4) (part b 8 12))); rewrite <- HH; cbn [h_len]; lia).
    split; [|lia]. rewrite <- (covered_is b m Bb F) by lia. rewrite H1, N, Hb, put_over by exact T.
    unfold with_len, hd. cbn [h_type h_cookie h_tid]. replace (zlen body + 32 - 8) with (zlen body + 24) by lia.
    rewrite app_assoc. apply firstn_exact. rewrite zlen_app, hdr_encode_len by exact T. lia.
  Qed.

  Lemma nothing_added method class tid k l b0 : length tid = 12%nat -> bytes tid -> plain l ->
    encode mac crc method class tid (Some k) true l = Some b0 ->
    forall key b m, bytes b -> zlen b < 2 ^ 40 -> accepted mac crc key b m -> covered b = covered b0 ->
    h_type (m_hdr m) = msg_type method class /\ h_tid (m_hdr m) = tid /\
    exists a1 a2, a_type a1 = 0x8 /\ a_type a2 = 0x8028 /\ (m_attrs m = l ++ [a1; a2] \/ m_attrs m = l ++ [a2; a1]).
  Proof.
    intros T Bt P E key b m Bb L A C.
    apply (accepted_iff mac crc key b m Bb L) in A as (D & A1 & A2).
    pose proof (read_ok b m Bb L D) as F. pose proof (rf_len _ _ F). pose proof (rf_range _ _ F).
    assert (R : 32 <= num b 2 2) by (eapply both_room; [exact F|exact A1|exact A2]).
    destruct (attrs_encode tid l) as [body|] eqn:Eb; [|unfold encode in E; rewrite Eb in E; discriminate].
    destruct (covered_written _ _ _ _ _ _ _ T Bt E P Eb) as (Cw & Lw). rewrite Cw in C. pose proof (zlen_nonneg body).
    unfold covered in C. unfold hdr_encode, hd in C. cbn [h_type h_len h_cookie h_tid] in C.
    replace (16 + num b 2 2 - 32) with (4 + (12 + (num b 2 2 - 32))) in C by lia.
    rewrite (part_app b 4 4), (part_app b (4 + 4) 12) in C by lia. change (4 + 4) with 8 in C. change (8 + 12) with 20 in C.
    assert (SP : forall (x1 x2 y1 y2 : list Z), length x1 = length x2 -> x1 ++ y1 = x2 ++ y2 -> x1 = x2 /\ y1 = y2).
    { induction x1 as [|c x1 IHx]; intros [|d x2] y1 y2 HL HE; try discriminate HL; cbn [app] in HE; [auto|].
      injection HE as -> HE. injection HL as HL. destruct (IHx x2 y1 y2 HL HE) as (-> & ->). auto. }
    rewrite <- !app_assoc in C.
    apply SP in C as (C1 & C); [|rewrite part_len by lia; reflexivity].
    apply SP in C as (C2 & C); [|reflexivity].
    apply SP in C as (C3 & C); [|rewrite part_len by lia; reflexivity].
    apply SP in C as (C4 & C5); [|rewrite part_len by lia; rewrite T; reflexivity].
    assert (Lbody : zlen body = num b 2 2 - 32).
    { rewrite <- C5. unfold zlen. rewrite part_len by lia. lia. }
    pose proof (rf_hdr _ _ F) as HH.
    split; [|split].
    - rewrite HH. cbn [h_type]. unfold num. rewrite C1.
      assert (TR := msg_type_range method class).
      change 0x3fff with (Z.ones 14). rewrite range_ones by (change (2 ^ 14) with 16384; lia). apply be_be16. lia.
    - rewrite HH. cbn [h_tid]. exact C4.
    - (* the attributes *)
      set (rest := skipn (Z.to_nat (num b 2 2 - 32)) (skipn 20 b)).
      assert (Hr : skipn 20 b = body ++ rest).
      { rewrite <- C5. unfold part, rest. change (Z.to_nat 20) with 20%nat. symmetry. apply firstn_skipn. }
      assert (Br : bytes rest) by (unfold rest; apply skipn_bytes, skipn_bytes; exact Bb).
      assert (L20 : zlen (skipn 20 b) = zlen b - 20) by (change 20%nat with (Z.to_nat 20); rewrite zlen_skipn by lia; lia).
      assert (Lr : zlen rest = zlen b - 20 - zlen body) by (rewrite Hr, zlen_app in L20; lia).
      unfold decode in D. pose proof (hdr_shape b) as Hs.
      destruct (hdr_decode b) as [[h r]|e| |] eqn:Hd; try discriminate.
      cbn [hdr_good] in Hs. destruct Hs as (S1 & Eh & _). 
      assert (r = skipn 20 b).
      { destruct S1 as (c & -> & Lc). change 20%nat with (Z.to_nat 20). rewrite skipn_exact by exact Lc. reflexivity. }
      subst r. rewrite Hr in D. rewrite Eh in D. cbn [h_tid h_len] in D. rewrite C4 in D.
      pose proof (attrs_encode_count _ _ _ Eb) as (K1 & K2).
      rewrite (attrs_step tid T l body) in D; [|exact Eb|exact (plain_wf _ P)|rewrite zlen_app; lia|rewrite app_length; unfold zlen in *; lia|rewrite zlen_app; lia].
      assert (SH : attrs_good (zlen (body ++ rest) - num b 2 2) [] [] rest
                (attrs_decode (S (length (body ++ rest)) - length l) (zlen (body ++ rest) - num b 2 2) tid [] rest)).
      { apply attrs_shape; [rewrite zlen_app; lia|exact Br|rewrite app_length; unfold zlen in *; lia|lia]. }
      destruct (attrs_decode _ _ tid [] rest) as [[l2 u]|e| |]; cbn [onto] in D; try discriminate.
      cbn [attrs_good] in SH. destruct SH as (kk & r' & Sr & Er & Wl & _).
      assert (Lk : zlen rest = kk + zlen r').
      { destruct Sr as (c & -> & Lc). rewrite zlen_app. lia. }
      rewrite zlen_app in Er.
      assert (W32 : weights l2 <= 32) by lia.
      assert (D' : m = mkMsg h (l ++ l2) u) by (rewrite Eh, C4; injection D as <-; reflexivity).
      rewrite D'. cbn [m_attrs].
      assert (F8 : In (mkAttr 0x8 (VMi (mac key (covered b)))) l2).
      { rewrite D' in A1. unfold find_attr in A1. cbn [m_attrs] in A1. rewrite find_app in A1 by (apply find_plain, plain_8; exact P).
        apply List.find_some in A1 as (A1 & _). exact A1. }
      assert (Ff : In (mkAttr 0x8028 (VU32 (Z.lxor (crc (part b 0 (12 + num b 2 2))) 0x5354554e))) l2).
      { rewrite D' in A2. unfold find_attr in A2. cbn [m_attrs] in A2. rewrite find_app in A2 by (apply find_plain, plain_fp; exact P).
        apply List.find_some in A2 as (A2 & _). exact A2. }
      eexists. eexists. split; [|split]; [| |destruct (only_two _ _ _ F8 Ff eq_refl eq_refl W32) as [->| ->]; [left|right]; reflexivity]; reflexivity.
  Qed.

  (** Replies fit the buffer. *)
  Lemma small_attr tid a : well_formed a -> exists e v, attr_encode tid a = Some e /\ val_encode tid a = Some v /\ zlen e <= 4 + zlen v + 3.
  Proof.
    intros W. destruct (encode_some tid a W) as (e & E). destruct (attr_encode_len _ _ _ E) as (v & V & Lv).
    exists e, v. split; [exact E|]. split; [exact V|]. lia.
  Qed.
  Lemma reply_fits class h key l sz : length (h_tid h) = 12%nat -> Forall well_formed l ->
    (forall body, attrs_encode (h_tid h) l = Some body -> zlen body <= sz) -> sz <= 204 ->
    exists b, send_reply mac crc class h key l = Sent b /\
              encode mac crc (msg_method (h_type h)) class (h_tid h) (Some key) true l = Some b.
  Proof.
    intros T W S Z. 
    assert (exists body, attrs_encode (h_tid h) l = Some body) as (body & Eb).
    { clear S. induction l as [|a l IH]; [exists []; reflexivity|]. apply Forall_cons_iff in W as (W1 & W2).
      destruct (encode_some (h_tid h) a W1) as (e & Ea). destruct (IH W2) as (y & Ey). exists (e ++ y). cbn [attrs_encode]. rewrite Ea, Ey. reflexivity. }
    specialize (S body Eb). pose proof (zlen_nonneg body).
    destruct (encode mac crc (msg_method (h_type h)) class (h_tid h) (Some key) true l) as [b|] eqn:E.
    - exists b. split; [|reflexivity]. unfold send_reply. rewrite E.
      destruct (encode_is mac crc mac_ok crc_ok _ _ _ _ _ _ _ T E) as (body' & tail & tb & Eb' & _ & _ & _ & Lt & Hb & _).
      rewrite Eb in Eb'. apply some_inj in Eb'. subst body'.
      assert (zlen b <= 256) by (rewrite Hb, !zlen_app, hdr_encode_len by exact T; lia).
      destruct (Z.gtb_spec (zlen b) 256); [lia|reflexivity].
    - exfalso. unfold encode in E. rewrite Eb in E. destruct (Z.gtb_spec (zlen body + 32) 65535); [lia|].
      set (m1 := hdr_encode _ ++ body) in E.
      change (mkAttr MSG_INTEGRITY (VMi (mac key m1))) with (mi_of mac key m1) in E. rewrite (mi_enc mac crc mac_ok crc_ok) in E.
      set (m3 := put_hdr _ _) in E.
      change (mkAttr FINGERPRINT (VU32 (fingerprint crc m3))) with (fp_of crc m3) in E. rewrite fp_enc in E. discriminate.
  Qed.
  Lemma two_attrs tid a1 a2 n1 n2 : well_formed a1 -> well_formed a2 ->
    (forall v, val_encode tid a1 = Some v -> zlen v <= n1) -> (forall v, val_encode tid a2 = Some v -> zlen v <= n2) ->
    forall body, attrs_encode tid [a1; a2] = Some body -> zlen body <= n1 + n2 + 14.
  Proof.
    intros W1 W2 H1 H2 body E. destruct (small_attr tid a1 W1) as (e1 & v1 & E1 & V1 & L1). destruct (small_attr tid a2 W2) as (e2 & v2 & E2 & V2 & L2).
    cbn [attrs_encode] in E. rewrite E1, E2 in E. apply some_inj in E. subst body. rewrite !zlen_app.
    specialize (H1 v1 V1). specialize (H2 v2 V2). change (zlen (@nil Z)) with 0. lia.
  Qed.
  Lemma addr_short tid x s : address s -> zlen (addr_encode x tid s) <= 20.
  Proof.
    intros A. unfold addr_encode. destruct s as [a p|a p]; rewrite !zlen_app, !be8_len, be16_len; [rewrite be32_len; lia|].
    cbn [address] in A. destruct A as (A & _). 
    assert (G : forall k, length (xor_bytes a k) = length a).
    { clear A. induction a as [|y a IH]; intros k; [reflexivity|]. destruct k; cbn [xor_bytes length]; [reflexivity|]. rewrite IH. reflexivity. }
    unfold in6_xor, zlen. destruct x; rewrite ?G; lia.
  Qed.

  Lemma success_fits h key src sw : length (h_tid h) = 12%nat -> address src -> text sw -> zlen sw <= 170 ->
    exists b, send_reply mac crc 2 h key [mkAttr 0x20 (VSa src); mkAttr 0x8022 (VStr sw)] = Sent b /\
              encode mac crc (msg_method (h_type h)) 2 (h_tid h) (Some key) true [mkAttr 0x20 (VSa src); mkAttr 0x8022 (VStr sw)] = Some b.
  Proof.
    intros T A S L.
    assert (W1 : well_formed (mkAttr 0x20 (VSa src))) by (split; [cbn [In]; tauto|exact A]).
    assert (W2 : well_formed (mkAttr 0x8022 (VStr sw))) by (split; [cbn [In]; tauto|exact S]).
    apply (reply_fits 2 h key _ 204); [exact T|constructor; [exact W1|constructor; [exact W2|constructor]]| |lia].
    apply (two_attrs _ _ _ 20 170 W1 W2).
    - intros v E. apply some_inj in E. subst v. apply addr_short. exact A.
    - intros v E. apply some_inj in E. subst v. exact L.
  Qed.
  Lemma error_fits h key code reason sw : length (h_tid h) = 12%nat -> 0 <= code < 800 -> text reason -> zlen reason <= 16 -> text sw -> zlen sw <= 170 ->
    exists b, send_reply mac crc 3 h key [mkAttr 0x9 (VErr code reason); mkAttr 0x8022 (VStr sw)] = Sent b /\
              encode mac crc (msg_method (h_type h)) 3 (h_tid h) (Some key) true [mkAttr 0x9 (VErr code reason); mkAttr 0x8022 (VStr sw)] = Some b.
  Proof.
    intros T C A LA S L.
    assert (W1 : well_formed (mkAttr 0x9 (VErr code reason))) by (split; [reflexivity|split; [exact C|exact A]]).
    assert (W2 : well_formed (mkAttr 0x8022 (VStr sw))) by (split; [cbn [In]; tauto|exact S]).
    apply (reply_fits 3 h key _ 204); [exact T|constructor; [exact W1|constructor; [exact W2|constructor]]| |lia].
    apply (two_attrs _ _ _ 20 170 W1 W2).
    - intros v E. apply some_inj in E. subst v. rewrite !zlen_app, be16_len, !be8_len. lia.
    - intros v E. apply some_inj in E. subst v. exact L.
  Qed.
End forged.

Lemma binding_request t : 0 <= t < 16384 -> (msg_method t = 1 /\ msg_class t = 0) <-> t = 1.
Proof.
  intros R. split; [|intros ->; split; reflexivity]. intros (M & C).
  assert (Mb : forall i, 0 <= i -> (Z.testbit t (i + 2) && Z.testbit 0x3e00 (i + 2) || Z.testbit t (i + 1) && Z.testbit 0xe0 (i + 1) ||
                                     Z.testbit t i && Z.testbit 0xf i) = Z.testbit 1 i).
  { intros i Hi. transitivity (Z.testbit (msg_method t) i); [|rewrite M; reflexivity]. unfold msg_method. change (Z.land t 0x3e00 / 4) with (Z.land t 0x3e00 / 2 ^ 2). change (Z.land t 0xe0 / 2) with (Z.land t 0xe0 / 2 ^ 1). rewrite !Z.lor_spec.
    rewrite !Z.div_pow2_bits, !Z.land_spec by lia. reflexivity. }
  assert (Cb : forall i, 0 <= i -> ((Z.testbit t (i + 7) || Z.testbit t (i + 4)) && Z.testbit 3 i) = false).
  { intros i Hi. transitivity (Z.testbit (msg_class t) i); [|rewrite C; apply Z.testbit_0_l]. unfold msg_class. rewrite Z.land_spec, Z.lor_spec. change (t / 128) with (t / 2 ^ 7). change (t / 16) with (t / 2 ^ 4).
    rewrite !Z.div_pow2_bits by lia. reflexivity. }
  pose proof (Mb 0 ltac:(lia)) as M0. pose proof (Mb 1 ltac:(lia)) as M1. pose proof (Mb 2 ltac:(lia)) as M2. pose proof (Mb 3 ltac:(lia)) as M3.
  pose proof (Mb 5 ltac:(lia)) as M5. pose proof (Mb 7 ltac:(lia)) as M7. pose proof (Mb 8 ltac:(lia)) as M8. pose proof (Mb 9 ltac:(lia)) as M9.
  pose proof (Mb 10 ltac:(lia)) as M10. pose proof (Mb 11 ltac:(lia)) as M11.
  pose proof (Cb 0 ltac:(lia)) as C0. pose proof (Cb 1 ltac:(lia)) as C1. clear Mb Cb M C.
  cbn [Z.add Pos.add Pos.succ] in *.
  repeat match goal with H : context [Z.testbit (Zpos ?p) ?k] |- _ =>
    let v := eval vm_compute in (Z.testbit (Zpos p) k) in change (Z.testbit (Zpos p) k) with v in H end.
  rewrite ?andb_false_r, ?andb_true_r, ?orb_false_r, ?orb_false_l, ?orb_false_iff in *.
  apply Z.bits_inj'. intros n Hn. destruct (Z.leb_spec 14 n) as [Hb|Hb].
  - replace t with (t mod 2 ^ 14) by (apply Z.mod_small; exact R). rewrite Z.mod_pow2_bits_high by lia.
    symmetry. apply Z.bits_above_log2; [lia|]. change (Z.log2 1) with 0. lia.
  - assert (K : n = 0 \/ n = 1 \/ n = 2 \/ n = 3 \/ n = 4 \/ n = 5 \/ n = 6 \/ n = 7 \/ n = 8 \/ n = 9 \/ n = 10 \/ n = 11 \/ n = 12 \/ n = 13) by lia.
    repeat destruct K as [K|K]; subst n; cbn [Z.testbit Pos.testbit Z.odd Pos.pred_N]; try assumption; try apply C0; try apply C1; try tauto.
Qed.

Lemma binding_bytes b m : bytes b -> zlen b < 2 ^ 40 -> decode b = Ok m ->
  (msg_method (h_type (m_hdr m)) = 1 /\ msg_class (h_type (m_hdr m)) = 0 <-> part b 0 2 = [0; 1]).
Proof.
  intros Bb L D. pose proof (read_ok b m Bb L D) as F. rewrite (rf_hdr _ _ F). cbn [h_type].
  pose proof (rf_len _ _ F). pose proof (rf_range _ _ F).
  pose proof (num16_range b 0 Bb). pose proof (low_type _ H1 (rf_type _ _ F)) as (_ & Lt).
  rewrite binding_request by lia. split; [|intros E; unfold num; rewrite E; reflexivity].
  intros E. rewrite <- (be16_be (part b 0 2)); [change (be (part b 0 2)) with (num b 0 2); rewrite E; reflexivity|apply part_bytes; exact Bb|rewrite part_len by lia; reflexivity].
Qed.

Section replies.
  Context (mac : list Z -> list Z -> list Z) (crc : list Z -> Z).
  Context (mac_ok : forall k x, length (mac k x) = 20%nat /\ bytes (mac k x)).
  Context (crc_ok : forall x, 0 <= crc x < 2 ^ 32).
  Lemma reply_read h key class a1 a2 b : 0 <= msg_method (h_type h) < 16 -> 0 <= class < 4 -> length (h_tid h) = 12%nat -> bytes (h_tid h) ->
    plain [a1; a2] -> encode mac crc (msg_method (h_type h)) class (h_tid h) (Some key) true [a1; a2] = Some b ->
    exists m, accepted mac crc key b m /\ h_tid (m_hdr m) = h_tid h /\
       msg_method (h_type (m_hdr m)) = msg_method (h_type h) /\ msg_class (h_type (m_hdr m)) = class /\ find_attr (a_type a1) m = Some a1.
  Proof.
    intros M C T Bt P E. destruct (read_back mac crc mac_ok crc_ok _ _ _ _ _ _ _ T Bt E (plain_wf _ P)) as (m & tail & D & H & Ha & _ & _ & K).
    destruct (K P) as (K1 & K2). exists m. rewrite H. cbn [h_tid h_type]. destruct (types_back _ class M C) as (-> & ->).
    split; [split; [exact D|split; [exact (K1 eq_refl)|exact (K2 key eq_refl)]]|]. repeat (split; [reflexivity|]).
    unfold find_attr. rewrite Ha. cbn [app List.find]. rewrite Z.eqb_refl. reflexivity.
  Qed.
  Lemma sent_short class h key l b : send_reply mac crc class h key l = Sent b -> zlen b <= 256.
  Proof.
    unfold send_reply. destruct (encode _ _ _ _ _ _ _ _) as [x|]; [|discriminate]. destruct (Z.gtb_spec (zlen x) 256); [discriminate|].
    intros [= <-]. assumption.
  Qed.
  Lemma replies_ok h key sw :
    0 <= msg_method (h_type h) < 16 -> length (h_tid h) = 12%nat -> bytes (h_tid h) -> text sw -> zlen sw <= 170 ->
    (forall src, address src ->
       exists b m, send_reply mac crc 2 h key [mkAttr 0x20 (VSa src); mkAttr 0x8022 (VStr sw)] = Sent b /\ zlen b <= 256 /\
         accepted mac crc key b m /\ h_tid (m_hdr m) = h_tid h /\
         msg_method (h_type (m_hdr m)) = msg_method (h_type h) /\ msg_class (h_type (m_hdr m)) = 2 /\
         find_attr 0x20 m = Some (mkAttr 0x20 (VSa src))) /\
    (forall code reason, 0 <= code < 800 -> text reason -> zlen reason <= 16 ->
       exists b m, send_reply mac crc 3 h key [mkAttr 0x9 (VErr code reason); mkAttr 0x8022 (VStr sw)] = Sent b /\ zlen b <= 256 /\
         accepted mac crc key b m /\ h_tid (m_hdr m) = h_tid h /\
         msg_method (h_type (m_hdr m)) = msg_method (h_type h) /\ msg_class (h_type (m_hdr m)) = 3 /\
         find_attr 0x9 m = Some (mkAttr 0x9 (VErr code reason))).
  Proof.
    intros M T Bt Sw L. 
    assert (W2 : well_formed (mkAttr 0x8022 (VStr sw))) by (split; [cbn [In]; tauto|exact Sw]).
    split.
    - intros src A. destruct (success_fits mac crc mac_ok crc_ok h key src sw T A Sw L) as (b & S1 & E).
      assert (W1 : well_formed (mkAttr 0x20 (VSa src))) by (split; [cbn [In]; tauto|exact A]).
      assert (P : plain [mkAttr 0x20 (VSa src); mkAttr 0x8022 (VStr sw)]) by (repeat (apply Forall_cons; [split; [assumption|split; discriminate]|]); apply Forall_nil).
      destruct (reply_read h key 2 _ _ b M ltac:(lia) T Bt P E) as (m & R).
      exists b, m. split; [exact S1|]. split; [exact (sent_short _ _ _ _ _ S1)|exact R].
    - intros code reason C A LA. destruct (error_fits mac crc mac_ok crc_ok h key code reason sw T C A LA Sw L) as (b & S1 & E).
      assert (W1 : well_formed (mkAttr 0x9 (VErr code reason))) by (split; [reflexivity|split; [exact C|exact A]]).
      assert (P : plain [mkAttr 0x9 (VErr code reason); mkAttr 0x8022 (VStr sw)]) by (repeat (apply Forall_cons; [split; [assumption|split; discriminate]|]); apply Forall_nil).
      destruct (reply_read h key 3 _ _ b M ltac:(lia) T Bt P E) as (m & R).
      exists b, m. split; [exact S1|]. split; [exact (sent_short _ _ _ _ _ S1)|exact R].
  Qed.
End replies.

(** * How a message stands on the wire *)
Lemma part_mid x y z : part (x ++ y ++ z) (zlen x) (zlen y) = y.
Proof.
  unfold part, zlen. rewrite !Nat2Z.id, skipn_app, skipn_all, Nat.sub_diag. cbn [app skipn]. rewrite firstn_app, firstn_all, Nat.sub_diag.
  cbn [firstn]. apply app_nil_r.
Qed.
Lemma part_at b x y z p n : b = x ++ y ++ z -> zlen x = p -> zlen y = n -> part b p n = y.
Proof. intros -> <- <-. apply part_mid. Qed.
Lemma num_at b x y z p n : b = x ++ y ++ z -> zlen x = p -> zlen y = n -> num b p n = be y.
Proof. intros. unfold num. erewrite part_at by eassumption. reflexivity. Qed.
Lemma num_byte b i : 0 <= i < zlen b -> num b i 1 = nth (Z.to_nat i) b 0.
Proof.
  intros H. unfold num, part. change (Z.to_nat 1) with 1%nat.
  assert (L : (Z.to_nat i < length b)%nat) by (unfold zlen in H; lia). revert L. generalize (Z.to_nat i). clear.
  induction b as [|c b IH]; intros n L; [cbn in L; lia|]. destruct n as [|n]; [reflexivity|]. cbn [skipn nth]. apply IH. cbn in L. lia.
Qed.
Lemma nth_xor a k i : (length a <= length k)%nat -> (i < length a)%nat -> nth i (xor_bytes a k) 0 = Z.lxor (nth i a 0) (nth i k 0).
Proof.
  revert k i. induction a as [|x a IH]; intros k i L H; [cbn in H; lia|]. destruct k as [|y k]; [cbn in L; lia|].
  destruct i as [|i]; [reflexivity|]. cbn [xor_bytes nth]. apply IH; cbn in L, H; lia.
Qed.
Lemma xor_len a k : length (xor_bytes a k) = length a.
Proof. revert k. induction a as [|x a IH]; intros [|y k]; cbn [xor_bytes length]; auto. Qed.
Lemma nth_mid (x y z : list Z) i : (i < length y)%nat -> nth (length x + i) (x ++ y ++ z) 0 = nth i y 0.
Proof. intros H. rewrite app_nth2_plus. apply app_nth1. exact H. Qed.
Lemma words_at l i : (i < length l)%nat -> exists x z, concat (map be16 l) = x ++ be16 (nth i l 0) ++ z /\ zlen x = 2 * Z.of_nat i.
Proof.
  revert i. induction l as [|t l IH]; intros i H; [cbn in H; lia|]. destruct i as [|i].
  - exists [], (concat (map be16 l)). split; [reflexivity|]. reflexivity.
  - destruct (IH i) as (x & z & E & L); [cbn in H; lia|]. exists (be16 t ++ x), z. cbn [map concat nth]. rewrite E, <- app_assoc. split; [reflexivity|].
    rewrite zlen_app, be16_len. lia.
Qed.
Lemma nth_firstn_w {A} (l : list A) k i d : (i < k)%nat -> nth i (firstn k l) d = nth i l d.
Proof. revert k i. induction l as [|x l IH]; intros [|k] [|i] H; cbn [firstn nth]; try reflexivity; try lia. apply IH. lia. Qed.
Lemma nth_skipn_w {A} (l : list A) k i d : nth i (skipn k l) d = nth (k + i) l d.
Proof. revert l. induction k as [|k IH]; intros [|x l]; cbn [skipn nth Nat.add]; try reflexivity; [destruct i; reflexivity|apply IH]. Qed.

Lemma attr_drawn b tid x a e z : attr_encode tid a = Some e -> well_formed a -> zlen e < 65000 + 12 -> length tid = 12%nat ->
  b = x ++ e ++ z -> part b 4 16 = be32 COOKIE ++ tid ->
  drawn b (zlen x) a /\ zlen x + 4 + (num b (zlen x + 2) 2 + 3) / 4 * 4 = zlen (x ++ e).
Proof.
  intros E W L T Eb P. unfold attr_encode in E. destruct (val_encode tid a) as [v|] eqn:V; [|discriminate]. apply some_inj in E.
  pose proof (zlen_nonneg v) as Nv. pose proof (zlen_nonneg (pad_bytes (zlen v))) as Np.
  assert (Lv : 0 <= zlen v < 65536).
  { split; [lia|]. rewrite <- E, !zlen_app, !be16_len in L. lia. }
  assert (Eb' : b = x ++ be16 (a_type a) ++ be16 (zlen v) ++ v ++ pad_bytes (zlen v) ++ z) by (rewrite Eb, <- E, <- !app_assoc; reflexivity).
  assert (N2 : num b (zlen x + 2) 2 = zlen v).
  { rewrite (num_at b (x ++ be16 (a_type a)) (be16 (zlen v)) (v ++ pad_bytes (zlen v) ++ z)).
    - apply be_be16. exact Lv.
    - rewrite Eb', <- !app_assoc. reflexivity.
    - rewrite zlen_app, be16_len. reflexivity.
    - apply be16_len. }
  assert (Tr : 0 <= a_type a < 65536).
  { unfold well_formed in W. destruct (a_val a); try destruct W as (W & _); cbn [In] in W;
      repeat match type of W with _ \/ _ => destruct W as [W|W] end; try contradiction; lia. }
  assert (N0 : num b (zlen x) 2 = a_type a).
  { rewrite (num_at b x (be16 (a_type a)) (be16 (zlen v) ++ v ++ pad_bytes (zlen v) ++ z)); [apply be_be16; exact Tr|exact Eb'|reflexivity|apply be16_len]. }
  assert (VP : forall v1 v2 v3 p n, v = v1 ++ v2 ++ v3 -> p = zlen x + 4 + zlen v1 -> zlen v2 = n -> part b p n = v2).
  { intros v1 v2 v3 p n Ev -> Hn. apply (part_at b (x ++ be16 (a_type a) ++ be16 (zlen v) ++ v1) v2 (v3 ++ pad_bytes (zlen v) ++ z)).
    - rewrite Eb'. rewrite Ev at 2. rewrite <- !app_assoc. reflexivity.
    - rewrite !zlen_app, !be16_len. lia.
    - exact Hn. }
  assert (VN : forall v1 v2 v3 p n, v = v1 ++ v2 ++ v3 -> p = zlen x + 4 + zlen v1 -> zlen v2 = n -> num b p n = be v2).
  { intros v1 v2 v3 p n Ev Hp Hn. unfold num. rewrite (VP v1 v2 v3 p n Ev Hp Hn). reflexivity. }
  split.
  2:{ rewrite N2, <- E, !zlen_app, !be16_len. unfold pad_bytes, zlen. rewrite repeat_length. lia. }
  unfold drawn. rewrite N2. split; [exact N0|]. unfold val_encode in V. destruct (a_val a) as [s|ip port|s|h|c s|l|n|n|d|n|r| |n|] eqn:Av; unfold well_formed in W; rewrite Av in W.
  - destruct W as (Wt & Wa).
    assert (K : kind_of (a_type a) = KAddr (masked (a_type a))).
    { cbn [In] in Wt. repeat match type of Wt with _ \/ _ => destruct Wt as [Wt|Wt] end; try contradiction; rewrite <- Wt; reflexivity. }
    rewrite K in V. apply some_inj in V. destruct s as [h q|h q]; cbn [address addr_encode] in Wa, V.
    + change (COOKIE / 65536) with 0x2112 in V. change COOKIE with 0x2112a442 in V. destruct Wa as (Wh & Wq).
      set (q' := if masked (a_type a) then Z.lxor q 8466 else q) in *. set (h' := if masked (a_type a) then Z.lxor h 554869826 else h) in *.
      assert (Rq : 0 <= q' < 65536) by (unfold q'; destruct (masked (a_type a)); [apply (lxor_range 16 q 8466); lia|exact Wq]).
      assert (Rh : 0 <= h' < 2 ^ 32) by (unfold h'; destruct (masked (a_type a)); [apply (lxor_range 32 h 554869826); lia|exact Wh]).
      split; [rewrite <- V, !zlen_app, be16_len, be32_len; reflexivity|].
      split; [rewrite (VN [] [0; 1] (be16 q' ++ be32 h') (zlen x + 4 + 0) 2); [reflexivity|rewrite <- V; reflexivity|cbn; lia|reflexivity]|].
      split; [rewrite (VN [0; 1] (be16 q') (be32 h') (zlen x + 4 + 2) 2); [apply be_be16; exact Rq|rewrite <- V; reflexivity|cbn; lia|reflexivity]|].
      rewrite (VN ([0; 1] ++ be16 q') (be32 h') [] (zlen x + 4 + 4) 4); [apply be_be32; exact Rh|rewrite <- V, app_nil_r; reflexivity|cbn; lia|reflexivity].
    + change (COOKIE / 65536) with 0x2112 in V. destruct Wa as (Wl & Wh & Wq).
      set (q' := if masked (a_type a) then Z.lxor q 8466 else q) in *. set (h' := if masked (a_type a) then in6_xor h tid else h) in *.
      assert (Rq : 0 <= q' < 65536) by (unfold q'; destruct (masked (a_type a)); [apply (lxor_range 16 q 8466); lia|exact Wq]).
      assert (Rl : length h' = 16%nat) by (unfold h', in6_xor; destruct (masked (a_type a)); [rewrite xor_len|]; exact Wl).
      assert (Rz : zlen h' = 16) by (unfold zlen; rewrite Rl; reflexivity).
      split; [rewrite <- V, !zlen_app, be16_len, Rz; reflexivity|].
      split; [rewrite (VN [] [0; 2] (be16 q' ++ h') (zlen x + 4 + 0) 2); [reflexivity|rewrite <- V; reflexivity|cbn; lia|reflexivity]|].
      split; [rewrite (VN [0; 2] (be16 q') h' (zlen x + 4 + 2) 2); [apply be_be16; exact Rq|rewrite <- V; reflexivity|cbn; lia|reflexivity]|].
      intros i Hi. assert (Bl : zlen b = zlen x + 4 + zlen v + zlen (pad_bytes (zlen v) ++ z)) by (rewrite Eb', !zlen_app, !be16_len; lia).
      pose proof (zlen_nonneg x). pose proof (zlen_nonneg (pad_bytes (zlen v) ++ z)).
      assert (Vl : zlen v = 20) by (rewrite <- V, !zlen_app, be16_len, Rz; reflexivity).
      assert (P4 : part b (zlen x + 4 + 4) 16 = h').
      { apply (VP ([0; 2] ++ be16 q') h' []); [rewrite <- V, app_nil_r; reflexivity|cbn; lia|exact Rz]. }
      assert (Np1 : forall p, 0 <= p -> p + 16 <= zlen b -> num b (p + i) 1 = nth (Z.to_nat i) (part b p 16) 0).
      { intros p Hp Hb. rewrite num_byte by lia. unfold part. rewrite nth_firstn_w by lia. rewrite nth_skipn_w.
        f_equal. lia. }
      replace (zlen x + 4 + (4 + i)) with (zlen x + 4 + 4 + i) by lia. rewrite Np1 by lia. rewrite P4. unfold h'.
      destruct (masked (a_type a)); [|reflexivity]. unfold in6_xor. rewrite nth_xor by (rewrite ?app_length; cbn [length]; lia).
      f_equal. rewrite (Np1 4) by lia. rewrite P. reflexivity.
  - destruct (kind_of (a_type a)); try discriminate. apply some_inj in V. split; [rewrite <- V; reflexivity|].
    rewrite (VN [] v [] (zlen x + 4 + 0) 4); [rewrite <- V; destruct ip, port; reflexivity|rewrite app_nil_r; reflexivity|cbn; lia|rewrite <- V; reflexivity].
  - destruct (kind_of (a_type a)); try discriminate. apply some_inj in V. subst v. split; [reflexivity|]. apply (VP [] s []); [rewrite app_nil_r; reflexivity|cbn; lia|reflexivity].
  - destruct (kind_of (a_type a)); try discriminate. apply some_inj in V. subst v. split; [reflexivity|]. apply (VP [] h []); [rewrite app_nil_r; reflexivity|cbn; lia|reflexivity].
  - destruct (kind_of (a_type a)); try discriminate. apply some_inj in V. destruct W as (_ & Wc & _). split; [rewrite <- V, !zlen_app, be16_len, !be8_len; lia|].
    split; [rewrite (VN [] (be16 0) (be8 (c / 100) ++ be8 (c mod 100) ++ s) (zlen x + 4 + 0) 2); [reflexivity|symmetry; exact V|cbn; lia|reflexivity]|].
    split; [rewrite (VN (be16 0) (be8 (c / 100)) (be8 (c mod 100) ++ s) (zlen x + 4 + 2) 1); [apply be_be8; lia|symmetry; exact V|cbn; lia|reflexivity]|].
    split; [rewrite (VN (be16 0 ++ be8 (c / 100)) (be8 (c mod 100)) s (zlen x + 4 + 3) 1); [apply be_be8; lia|symmetry; exact V|cbn; lia|reflexivity]|].
    apply (VP (be16 0 ++ be8 (c / 100) ++ be8 (c mod 100)) s []); [rewrite app_nil_r, <- V, <- !app_assoc; reflexivity|cbn; lia|reflexivity].
  - destruct (kind_of (a_type a)); try discriminate. apply some_inj in V. destruct W as (_ & Wl & Wt). split; [rewrite <- V; apply concat16_len|].
    intros i Hi. destruct (words_at l (Z.to_nat i)) as (v1 & v3 & Ew & Lw); [unfold zlen in Hi; lia|].
    rewrite (VN v1 (be16 (nth (Z.to_nat i) l 0)) v3 (zlen x + 4 + 2 * i) 2); [|rewrite <- V; exact Ew|lia|reflexivity].
    apply be_be16. apply (proj1 (Forall_forall _ _) Wt). apply nth_In. unfold zlen in Hi. lia.
  - destruct (kind_of (a_type a)); try discriminate. apply some_inj in V. destruct W as (_ & W). split; [rewrite <- V; reflexivity|].
    rewrite (VN [] (be16 n) (be16 0) (zlen x + 4 + 0) 2); [apply be_be16; exact W|symmetry; exact V|cbn; lia|reflexivity].
  - destruct (kind_of (a_type a)); try discriminate. apply some_inj in V. destruct W as (_ & W). split; [rewrite <- V; reflexivity|].
    rewrite (VN [] (be32 n) [] (zlen x + 4 + 0) 4); [apply be_be32; exact W|rewrite app_nil_r; symmetry; exact V|cbn; lia|reflexivity].
  - destruct (kind_of (a_type a)); try discriminate. apply some_inj in V. subst v. split; [reflexivity|]. apply (VP [] d []); [rewrite app_nil_r; reflexivity|cbn; lia|reflexivity].
  - destruct (kind_of (a_type a)); try discriminate. apply some_inj in V. destruct W as (_ & W). split; [rewrite <- V; reflexivity|].
    rewrite (VN [] (be8 n) (be8 0 ++ be16 0) (zlen x + 4 + 0) 1); [apply be_be8; exact W|symmetry; exact V|cbn; lia|reflexivity].
  - destruct (kind_of (a_type a)); try discriminate. apply some_inj in V. split; [rewrite <- V; reflexivity|].
    rewrite (VN [] v [] (zlen x + 4 + 0) 1); [rewrite <- V; destruct r; reflexivity|rewrite app_nil_r; reflexivity|cbn; lia|rewrite <- V; reflexivity].
  - destruct (kind_of (a_type a)); try discriminate. apply some_inj in V. subst v. reflexivity.
  - destruct (kind_of (a_type a)); try discriminate. apply some_inj in V. destruct W as (_ & W). split; [rewrite <- V; reflexivity|].
    rewrite (VN [] (be64 n) [] (zlen x + 4 + 0) 8); [apply be_be64; exact W|rewrite app_nil_r; symmetry; exact V|cbn; lia|reflexivity].
  - destruct W.
Qed.

Lemma attrs_drawn b tid : length tid = 12%nat -> part b 4 16 = be32 COOKIE ++ tid -> forall l x e z, attrs_encode tid l = Some e ->
  Forall well_formed l -> zlen e < 65000 + 12 -> b = x ++ e ++ z -> all_drawn b (zlen x) l (zlen (x ++ e)).
Proof.
  intros T P. induction l as [|a l IH]; intros x e z E W L Eb; cbn [attrs_encode] in E.
  - apply some_inj in E. subst e. rewrite app_nil_r. constructor.
  - destruct (attr_encode tid a) as [e1|] eqn:E1; [|discriminate]. destruct (attrs_encode tid l) as [e2|] eqn:E2; [|discriminate].
    apply some_inj in E. subst e. inversion W as [|? ? W1 W2]; subst. rewrite zlen_app in L. pose proof (zlen_nonneg e1). pose proof (zlen_nonneg e2).
    destruct (attr_drawn (x ++ (e1 ++ e2) ++ z) tid x a e1 (e2 ++ z) E1 W1) as (D & N); [lia|exact T|rewrite <- !app_assoc; reflexivity|exact P|].
    constructor; [exact D|]. rewrite N. specialize (IH (x ++ e1) e2 z eq_refl W2). replace (x ++ e1 ++ e2) with ((x ++ e1) ++ e2) by (symmetry; apply app_assoc). apply IH; [lia|]. rewrite <- !app_assoc. reflexivity.
Qed.
Section wire.
  Context (mac : list Z -> list Z -> list Z) (crc : list Z -> Z).
  Context (mac_ok : forall k x, length (mac k x) = 20%nat /\ bytes (mac k x)).
  Context (crc_ok : forall x, 0 <= crc x < 2 ^ 32).
  Lemma message_drawn method class tid key fp l b : length tid = 12%nat -> Forall well_formed l ->
    encode mac crc method class tid key fp l = Some b -> zlen b < 65000 ->
    part b 4 16 = [0x21; 0x12; 0xa4; 0x42] ++ tid /\ num b 2 2 = zlen b - 20 /\
    exists tail, map a_type tail = (if key then [0x8] else []) ++ (if fp then [0x8028] else []) /\ all_drawn b 20 (l ++ tail) (zlen b).
  Proof.
    intros T W E L. destruct (encode_is mac crc mac_ok crc_ok method class tid key fp l b T E) as (body & tail & tb & E1 & E2 & W2 & L1 & L2 & Eb & F).
    set (h := hd method class tid (zlen body + zlen tb)) in *.
    pose proof (zlen_nonneg body). pose proof (zlen_nonneg tb).
    assert (Lh : zlen (hdr_encode h) = 20) by (apply hdr_encode_len; exact T).
    assert (Eh : hdr_encode h = be16 (Z.land (msg_type method class) 0x3fff) ++ be16 (zlen body + zlen tb) ++ (be32 COOKIE ++ tid)) by reflexivity.
    assert (P : part b 4 16 = be32 COOKIE ++ tid).
    { apply (part_at b (be16 (Z.land (msg_type method class) 0x3fff) ++ be16 (zlen body + zlen tb)) (be32 COOKIE ++ tid) (body ++ tb)).
      - rewrite Eb, Eh, <- !app_assoc. reflexivity.
      - reflexivity.
      - rewrite zlen_app, be32_len. unfold zlen. rewrite T. reflexivity. }
    split; [exact P|]. split.
    { rewrite (num_at b (be16 (Z.land (msg_type method class) 0x3fff)) (be16 (zlen body + zlen tb)) ((be32 COOKIE ++ tid) ++ body ++ tb)).
      - rewrite be_be16 by lia. rewrite Eb, !zlen_app, Lh. lia.
      - rewrite Eb, Eh, <- !app_assoc. reflexivity.
      - reflexivity.
      - reflexivity. }
    exists tail. split.
    { destruct key, fp; subst tail; reflexivity. }
    assert (Lb : zlen b = 20 + zlen body + zlen tb) by (rewrite Eb, !zlen_app, Lh; lia).
    rewrite <- Lh. replace (zlen b) with (zlen (hdr_encode h ++ body ++ tb)) by (rewrite Eb; reflexivity).
    apply (attrs_drawn b tid T P (l ++ tail) (hdr_encode h) (body ++ tb) []).
    - rewrite attrs_encode_app, E1, E2. reflexivity.
    - apply Forall_app. split; assumption.
    - rewrite zlen_app. lia.
    - rewrite app_nil_r. exact Eb.
  Qed.
End wire.
