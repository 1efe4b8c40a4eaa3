From Verif Require Import Base Str EcryModel EcrySpec.

Lemma index_nth l : forall c i v, index l c i = Some v -> i <= v < i + Z.of_nat (length l) /\ nth (Z.to_nat (v - i)) l (-1) = c.
Proof.
  induction l as [|x l IH]; intros c i v H; cbn [index] in H; [discriminate|].
  destruct (Z.eqb_spec x c) as [->|N].
  - injection H as <-. cbn [length]. split; [lia|]. now replace (i - i) with 0 by lia.
  - apply IH in H. destruct H as [H1 H2]. cbn [length]. split; [lia|].
    replace (Z.to_nat (v - i)) with (S (Z.to_nat (v - (i + 1)))) by lia. exact H2.
Qed.

Definition range64 : list Z := map Z.of_nat (seq 0 64).
Lemma in_range64 v : 0 <= v < 64 -> In v range64.
Proof. intros H. unfold range64. apply in_map_iff. exists (Z.to_nat v). split; [lia|]. apply in_seq. lia. Qed.

Lemma chars_ok : forallb (fun v => (nth (Z.to_nat v) b64chars (-1) =? b64char v) && match index b64chars (b64char v) 0 with Some x => x =? v | None => false end) range64 = true.
Proof. vm_compute. reflexivity. Qed.
Lemma index_b64char v : 0 <= v < 64 -> index b64chars (b64char v) 0 = Some v.
Proof.
  intros H. pose proof chars_ok as C. rewrite forallb_forall in C. specialize (C v (in_range64 v H)). apply andb_true_iff in C. destruct C as [_ C].
  destruct (index b64chars (b64char v) 0) as [x|]; [|discriminate]. apply Z.eqb_eq in C. now subst.
Qed.
Lemma index_char c v : index b64chars c 0 = Some v -> 0 <= v < 64 /\ c = b64char v.
Proof.
  intros H. apply index_nth in H. destruct H as [H1 H2]. change (Z.of_nat (length b64chars)) with 64 in H1. split; [lia|].
  pose proof chars_ok as C. rewrite forallb_forall in C. specialize (C v (in_range64 v ltac:(lia))). apply andb_true_iff in C. destruct C as [C _].
  apply Z.eqb_eq in C. rewrite Z.sub_0_r in H2. congruence.
Qed.

Lemma lor_low a b n : 0 <= n -> 0 <= b < 2 ^ n -> Z.lor (a * 2 ^ n) b = a * 2 ^ n + b.
Proof.
  intros N H. rewrite <- Z.shiftl_mul_pow2 by assumption. assert (L : Z.land (Z.shiftl a n) b = 0).
  { apply Z.bits_inj'. intros i I. rewrite Z.land_spec, Z.bits_0. destruct (Z_lt_dec i n) as [D|D].
    - now rewrite Z.shiftl_spec_low.
    - assert (Z.testbit b i = false); [|now rewrite H0, andb_false_r].
      destruct (Z.eq_dec b 0) as [->|E]; [apply Z.bits_0|]. apply Z.bits_above_log2; [lia|].
      assert (Z.log2 b < n) by (apply Z.log2_lt_pow2; lia). lia. }
  rewrite <- Z.lxor_lor by exact L. symmetry. now apply Z.add_nocarry_lxor.
Qed.

(** one block *)
Lemma block_ok s0 s1 s2 s3 : 0 <= s0 < 64 -> 0 <= s1 < 64 -> 0 <= s2 < 64 -> 0 <= s3 < 64 ->
  block (b64char s0) (b64char s1) (b64char s2) (b64char s3) =
  ([s0 * 4 + s1 / 16; (s1 mod 16) * 16 + s2 / 4; (s2 mod 4) * 64 + s3], 0).
Proof.
  intros H0 H1 H2 H3. unfold block, sextet, miss. rewrite !index_b64char by assumption.
  cbn [Z.add]. change (0 <? 2) with true. change (0 <? 1) with true. cbv iota. cbn [app].
  rewrite !Z.shiftl_mul_pow2, !Z.shiftr_div_pow2 by lia. change (2 ^ 2) with 4. change (2 ^ 4) with 16. change (2 ^ 6) with 64.
  change 4 with (2 ^ 2) at 1. rewrite (lor_low s0 (s1 / 16) 2) by lia. change 16 with (2 ^ 4) at 2. rewrite (lor_low s1 (s2 / 4) 4) by lia.
  change 64 with (2 ^ 6) at 1. rewrite (lor_low s2 s3 6) by lia. change (2 ^ 2) with 4. change (2 ^ 4) with 16. change (2 ^ 6) with 64.
  f_equal. f_equal; [|f_equal; [|f_equal]]; lia.
Qed.

Lemma block_miss a b c d o : block a b c d = (o, 0) -> exists s0 s1 s2 s3,
  0 <= s0 < 64 /\ 0 <= s1 < 64 /\ 0 <= s2 < 64 /\ 0 <= s3 < 64 /\ a = b64char s0 /\ b = b64char s1 /\ c = b64char s2 /\ d = b64char s3.
Proof.
  unfold block, miss. intros H. apply (f_equal snd) in H. cbn [snd] in H.
  destruct (index b64chars a 0) as [s0|] eqn:A; destruct (index b64chars b 0) as [s1|] eqn:B1; destruct (index b64chars c 0) as [s2|] eqn:C;
    destruct (index b64chars d 0) as [s3|] eqn:D; try (exfalso; lia).
  all: apply index_char in A, B1, C, D; exists s0, s1, s2, s3; tauto.
Qed.

Lemma unb64_nonneg s : 0 <= snd (fst (unb64 s)).
Proof.
  assert (M : forall c, 0 <= miss c) by (intros c; unfold miss; destruct (index b64chars c 0); lia).
  assert (G : forall n s, (length s <= n)%nat -> 0 <= snd (fst (unb64 s))).
  { induction n as [|n IH]; intros t L; destruct t as [|a [|b [|c [|d t]]]]; try (cbn; lia); [cbn in L; lia|].
    cbn [unb64]. destruct (block a b c d) as [o j] eqn:E. destruct (Z.eqb_spec j 0).
    - specialize (IH t ltac:(cbn in L; lia)). destruct (unb64 t) as [[o2 p] m]. exact IH.
    - cbn. unfold block in E. apply (f_equal snd) in E. cbn [snd] in E. subst j. pose proof (M a). pose proof (M b). pose proof (M c). pose proof (M d). lia. }
  eapply G. reflexivity.
Qed.

(** decoding undoes encoding *)
Lemma unb64_b64 n : forall k, length k = (3 * n)%nat -> Forall byte k -> unb64 (b64 k) = (k, 0, 4 * Z.of_nat n).
Proof.
  induction n as [|n IH]; intros k L F.
  - destruct k; [reflexivity | cbn in L; lia].
  - destruct k as [|x [|y [|z k]]]; try (cbn in L; lia). inversion F as [|? ? X F1]; subst. inversion F1 as [|? ? Y F2]; subst. inversion F2 as [|? ? W F3]; subst.
    unfold byte in X, Y, W. cbn [b64 unb64]. change (2 ^ 16) with 65536. change (2 ^ 8) with 256. change (2 ^ 18) with 262144. change (2 ^ 12) with 4096. change (2 ^ 6) with 64.
    rewrite block_ok by lia. cbn [Z.eqb]. rewrite (IH k) by (cbn in L; lia || assumption). cbn [app].
    f_equal; [f_equal|lia]. f_equal; [|f_equal; [|f_equal]]; lia.
Qed.

(** and every text decoded without padding is an encoding *)
Lemma unb64_inv n : forall s k m, length s = (4 * n)%nat -> unb64 s = (k, 0, m) -> s = b64 k /\ length k = (3 * n)%nat /\ Forall byte k /\ m = 4 * Z.of_nat n.
Proof.
  induction n as [|n IH]; intros s k m L H.
  - destruct s; [|cbn in L; lia]. cbn in H. injection H as <- <-. repeat split; constructor.
  - destruct s as [|a [|b [|c [|d s]]]]; try (cbn in L; lia). cbn [unb64] in H.
    destruct (block a b c d) as [o j] eqn:E. destruct (Z.eqb_spec j 0) as [->|N]; [|injection H as _ H _; congruence].
    destruct (unb64 s) as [[o2 p] m'] eqn:U. injection H as <- -> <-.
    destruct (IH s o2 m' ltac:(cbn in L; lia) U) as (-> & L2 & F2 & ->).
    destruct (block_miss _ _ _ _ _ E) as (s0 & s1 & s2 & s3 & R0 & R1 & R2 & R3 & -> & -> & -> & ->).
    rewrite block_ok in E by assumption. injection E as <-.
    assert (BY : Forall byte [s0 * 4 + s1 / 16; (s1 mod 16) * 16 + s2 / 4; (s2 mod 4) * 64 + s3]) by (repeat constructor; unfold byte; lia).
    split; [|split; [|split]].
    + cbn [app b64]. change (2 ^ 16) with 65536. change (2 ^ 8) with 256. change (2 ^ 18) with 262144. change (2 ^ 12) with 4096. change (2 ^ 6) with 64.
      f_equal; [f_equal; lia|]. f_equal; [f_equal; lia|]. f_equal; [f_equal; lia|]. f_equal. f_equal. lia.
    + cbn [app length]. lia.
    + apply Forall_app. auto.
    + lia.
Qed.

(** the colon *)
Lemma split_colon_spec s : match split_colon s with
  | Some (a, b) => s = a ++ 58 :: b /\ ~ In 58 a
  | None => ~ In 58 s
  end.
Proof.
  induction s as [|c s IH]; cbn [split_colon]; [intros []|]. destruct (Z.eqb_spec c 58) as [->|N]; [split; [reflexivity|intros []]|].
  destruct (split_colon s) as [[a b]|].
  - destruct IH as [-> IH]. split; [reflexivity|]. intros [E|E]; [congruence|auto].
  - intros [E|E]; [congruence|auto].
Qed.
Lemma split_colon_app a b : ~ In 58 a -> split_colon (a ++ 58 :: b) = Some (a, b).
Proof.
  induction a as [|c a IH]; intros H; cbn [app split_colon]; [reflexivity|]. destruct (Z.eqb_spec c 58) as [->|N]; [exfalso; apply H; now left|].
  rewrite IH; [reflexivity|]. intros I. apply H. now right.
Qed.

(** case *)
Lemma tolow_same a b : tolow a = tolow b <-> same_letter a b.
Proof. unfold tolow, same_letter. destruct (Z.leb_spec 65 a), (Z.leb_spec a 90), (Z.leb_spec 65 b), (Z.leb_spec b 90); cbn [andb]; lia. Qed.
Lemma names_same a b : map tolow a = map tolow b <-> same_name a b.
Proof.
  revert b. induction a as [|x a IH]; intros [|y b]; cbn [map]; split; intros H; try discriminate; try inversion H; subst.
  - constructor.
  - reflexivity.
  - constructor; [now apply tolow_same | now apply IH].
  - f_equal; [now apply tolow_same | now apply IH].
Qed.
Lemma same_letter_sym a b : same_letter a b -> same_letter b a.
Proof. unfold same_letter. lia. Qed.
Lemma same_name_sym a b : same_name a b -> same_name b a.
Proof. rewrite <- !names_same. congruence. Qed.

Lemma lookup_known name : match suite_lookup suites name with
  | Some s => known name (su_tag s) /\ su_klen s = 30
  | None => forall t, ~ known name t
  end.
Proof.
  unfold suites. cbn [suite_lookup su_name].
  assert (SN : forall x : list Z, (length x =? length name)%nat = false -> ~ same_name name x).
  { intros x E H. apply names_same in H. apply (f_equal (@length Z)) in H. rewrite !map_length in H. apply Nat.eqb_neq in E. congruence. }
  assert (BE : forall x, beq (map tolow x) (map tolow name) = true <-> same_name name x).
  { intros x. rewrite beq_eq, names_same. split; apply same_name_sym. }
  destruct (length (B "AES_CM_128_HMAC_SHA1_32") =? length name)%nat eqn:L1; cbn [negb].
  - destruct (beq (map tolow (B "AES_CM_128_HMAC_SHA1_32")) (map tolow name)) eqn:E1.
    + apply BE in E1. split; [left; auto | reflexivity].
    + destruct (length (B "AES_CM_128_HMAC_SHA1_80") =? length name)%nat eqn:L2; cbn [negb].
      * destruct (beq (map tolow (B "AES_CM_128_HMAC_SHA1_80")) (map tolow name)) eqn:E2.
        -- apply BE in E2. split; [right; auto | reflexivity].
        -- intros t [[H _]|[H _]]; apply BE in H; congruence.
      * intros t [[H _]|[H _]]; [apply BE in H; congruence | now apply (SN _ L2)].
  - change (length (B "AES_CM_128_HMAC_SHA1_32")) with (length (B "AES_CM_128_HMAC_SHA1_80")) in L1. rewrite L1. cbn [negb].
    intros t [[H _]|[H _]]; [exact (SN (B "AES_CM_128_HMAC_SHA1_32") L1 H) | exact (SN _ L1 H)].
Qed.
Lemma known_tag name t u : known name t -> known name u -> t = u.
Proof.
  intros [[H1 ->]|[H1 ->]] [[H2 ->]|[H2 ->]]; try reflexivity; exfalso; apply names_same in H1, H2; rewrite H1 in H2; vm_compute in H2; discriminate.
Qed.
Lemma known_colon name t : known name t -> ~ In 58 name.
Proof.
  assert (G : forall x, same_name name x -> existsb (fun c => (c =? 58)) x = false -> ~ In 58 name).
  { intros x H. induction H as [|a b l m S F IH]; intros E; [intros []|]. cbn [existsb] in E. apply orb_false_elim in E. destruct E as [E1 E2].
    intros [->|I]; [|now apply IH]. apply Z.eqb_neq in E1. unfold same_letter in S. lia. }
  intros [[H _]|[H _]]; eapply G; eauto.
Qed.

(** decryption *)
Section Lib.
  Context (unp : list cpkt -> cpkt -> option (list Z)).
  Lemma load_pcap_ctx s seen l : load_pcap unp true (Some (s, seen)) l = plain unp seen (filter (fun p => cp_ssrc p =? s) l).
  Proof.
    revert seen. induction l as [|p l IH]; intros seen; cbn [filter load_pcap]; [reflexivity|].
    unfold decrypt. destruct (cp_ssrc p =? s) eqn:E.
    - cbn [plain]. destruct (unp seen p) as [[|x d]|]; rewrite IH; reflexivity.
    - apply IH.
  Qed.
  Lemma load_pcap_clear c l : load_pcap unp false c l = l.
  Proof. induction l as [|p l IH]; cbn [load_pcap]; [reflexivity|now rewrite IH]. Qed.
End Lib.
