(** Proofs about the time conversions. *)
From Verif Require Import Base TimeModel TimeSpec.

Lemma rn53_split m : 0 < Z.log2 m + 1 - 53 -> 0 < m -> let n := Z.log2 m + 1 - 53 in
  exists q r, m = q * 2 ^ n + r /\ 0 <= r < 2 ^ n /\ 2 ^ 52 <= q < 2 ^ 53 /\ 0 < 2 ^ n /\
   (rn53 m = q * 2 ^ n /\ 2 * r <= 2 ^ n \/ rn53 m = (q + 1) * 2 ^ n /\ 2 ^ n <= 2 * r).
Proof.
  intros N M n. pose proof (Z.log2_spec m M) as [L1 L2]. assert (P : 0 < 2 ^ n) by (apply Z.pow_pos_nonneg; lia).
  exists (m / 2 ^ n), (m mod 2 ^ n). split; [rewrite (Z.mul_comm (m / 2 ^ n)); apply Z.div_mod; lia|]. split; [apply Z.mod_pos_bound; lia|]. split.
  - replace (Z.log2 m) with (52 + n) in L1 by lia. replace (Z.succ (Z.log2 m)) with (53 + n) in L2 by lia. rewrite Z.pow_add_r in L1, L2 by lia. split.
    + apply Z.div_le_lower_bound; lia.
    + apply Z.div_lt_upper_bound; lia.
  - split; [exact P|]. unfold rn53. fold n. destruct (Z.leb_spec n 0); [lia|].
    destruct (Z.ltb_spec (2 * (m mod 2 ^ n)) (2 ^ n)) as [H1|H1]; cbn [orb]; [left; split; [reflexivity|lia]|].
    destruct (Z.eqb_spec (2 * (m mod 2 ^ n)) (2 ^ n)) as [H2|H2]; cbn [andb]; [|right; split; [reflexivity|lia]].
    destruct (Z.even (m / 2 ^ n)); [left|right]; (split; [reflexivity|lia]).
Qed.
Lemma rn53_err m : 0 <= m -> 2 ^ 53 * Z.abs (rn53 m - m) <= m.
Proof.
  intros M. destruct (Z.le_gt_cases (Z.log2 m + 1 - 53) 0) as [N|N].
  - unfold rn53. destruct (Z.leb_spec (Z.log2 m + 1 - 53) 0); [|lia]. rewrite Z.sub_diag. cbn. exact M.
  - assert (M0 : 0 < m) by (destruct (Z.eq_dec m 0) as [->|]; [cbn in N; lia|lia]).
    destruct (rn53_split m ltac:(lia) M0) as (q & r & E & R & Q & P & [[-> H]|[-> H]]); set (k := 2 ^ (Z.log2 m + 1 - 53)) in *; change (2 ^ 52) with 4503599627370496 in *; change (2 ^ 53) with 9007199254740992 in *; rewrite E.
    + replace (q * k - (q * k + r)) with (- r) by lia. rewrite Z.abs_opp, Z.abs_eq by lia. nia.
    + replace ((q + 1) * k - (q * k + r)) with (k - r) by lia. rewrite Z.abs_eq by lia. nia.
Qed.
Lemma rn53_nonneg m : 0 <= m -> 0 <= rn53 m.
Proof. intros M. pose proof (rn53_err m M). change (2 ^ 53) with 9007199254740992 in *. lia. Qed.
(** Rounding does not cross a double *)
Lemma rn53_le m c j : 0 <= m -> 0 <= c < 2 ^ 53 -> 0 <= j -> m <= c * 2 ^ j -> rn53 m <= c * 2 ^ j.
Proof.
  intros M C J H. destruct (Z.le_gt_cases (Z.log2 m + 1 - 53) 0) as [N|N].
  - unfold rn53. destruct (Z.leb_spec (Z.log2 m + 1 - 53) 0); [|lia]. exact H.
  - assert (M0 : 0 < m) by (destruct (Z.eq_dec m 0) as [->|]; [cbn in N; lia|lia]).
    destruct (rn53_split m ltac:(lia) M0) as (q & r & E & R & Q & P & D). set (n := Z.log2 m + 1 - 53) in *.
    assert (JN : n <= j).
    { destruct (Z.le_gt_cases n j); [assumption|exfalso]. replace n with (j + 1 + (n - j - 1)) in E, R, P by lia. rewrite !Z.pow_add_r in * by lia. change (2 ^ 1) with 2 in *.
      assert (0 < 2 ^ j) by (apply Z.pow_pos_nonneg; lia). assert (0 < 2 ^ (n - j - 1)) by (apply Z.pow_pos_nonneg; lia). set (x := 2 ^ j) in *. set (y := 2 ^ (n - j - 1)) in *.
      change (2 ^ 52) with 4503599627370496 in *; change (2 ^ 53) with 9007199254740992 in *.
      assert (q * (x * 2 * y) <= c * x) by lia. assert (2 * q * x <= q * (x * 2 * y)) by nia. assert (2 * q <= c) by nia. lia. }
    replace j with (n + (j - n)) in H |- * by lia. rewrite Z.pow_add_r in * by lia. assert (0 < 2 ^ (j - n)) by (apply Z.pow_pos_nonneg; lia). set (x := 2 ^ n) in *. set (y := 2 ^ (j - n)) in *. clearbody x y. clear - D E R Q P H.
    replace (c * (x * y)) with ((c * y) * x) in * by lia. set (b := c * y) in *. clearbody b.
    assert (QB : q <= b) by nia. destruct D as [[-> D]|[-> D]]; [nia|]. assert (q <> b) by (intros ->; nia). nia.
Qed.

Section Conv.
Context (d : dbl) (ID : is_dbl d).
Let k := d_den d. Let f := d_num d mod 2 ^ k.
Lemma den_pos : 0 < 2 ^ k.
Proof. apply Z.pow_pos_nonneg; [lia|]. unfold k, d_den. lia. Qed.
Lemma f_range : 0 <= f < 2 ^ k.
Proof. apply Z.mod_pos_bound. exact den_pos. Qed.
Lemma num_nonneg : 0 <= d_num d.
Proof. unfold d_num. apply Z.mul_nonneg_nonneg; [apply ID|]. apply Z.pow_nonneg. lia. Qed.
Lemma sec_nonneg : 0 <= d_sec d.
Proof. apply Z.div_pos; [exact num_nonneg|exact den_pos]. Qed.

Lemma units_range max : 0 < max < 2 ^ 53 -> 0 <= d_units max d <= max.
Proof.
  intros M. unfold d_units. fold k. fold f. pose proof den_pos as P. pose proof f_range as F.
  assert (N : 0 <= max * f) by nia. pose proof (rn53_nonneg _ N) as R. split; [apply Z.div_pos; lia|].
  assert (L : rn53 (max * f) <= max * 2 ^ k) by (apply rn53_le; [exact N|lia|unfold k, d_den; lia|nia]).
  apply Z.lt_succ_r. apply Z.div_lt_upper_bound; nia.
Qed.
Lemma units_close max : 0 < max <= 1000000000 -> 1000 * Z.abs (d_units max d * 2 ^ k - max * f) <= 501 * 2 ^ k.
Proof.
  intros M. unfold d_units. fold k. fold f. pose proof den_pos as P. pose proof f_range as F.
  assert (N : 0 <= max * f) by nia. pose proof (rn53_err _ N) as E. change (2 ^ 53) with 9007199254740992 in E.
  set (x := 2 ^ k) in *. set (r := rn53 (max * f)) in *. clearbody x r. assert (max * f <= 1000000000 * x) by nia. set (p := max * f) in *. clearbody p. clear - E P H N.
  pose proof (Z.div_mod (2 * r + x) (2 * x) ltac:(lia)) as D. pose proof (Z.mod_pos_bound (2 * r + x) (2 * x) ltac:(lia)) as B.
  set (u := (2 * r + x) / (2 * x)) in *. set (v := (2 * r + x) mod (2 * x)) in *. clearbody u v.
  replace (2 * x * u) with (2 * (u * x)) in D by lia. set (w := u * x) in *. clearbody w. lia.
Qed.
Lemma sec_split : d_num d = d_sec d * 2 ^ k + f.
Proof. unfold d_sec, f. fold k. rewrite (Z.mul_comm (d_num d / 2 ^ k)). apply Z.div_mod. pose proof den_pos. lia. Qed.
Lemma close_ok max u : 0 < max <= 1000000000 -> u = d_units max d -> close max d (Tm (d_sec d) u).
Proof.
  intros M ->. unfold close. change (2 ^ Z.max 0 (- d_e d)) with (2 ^ k). change (d_m d * 2 ^ Z.max 0 (d_e d)) with (d_num d). rewrite sec_split. pose proof (units_close max M) as U.
  replace ((d_sec d * max + d_units max d) * 2 ^ k - max * (d_sec d * 2 ^ k + f)) with (d_units max d * 2 ^ k - max * f) by ring. exact U.
Qed.
Lemma units_valid : not_close_to_full d -> d_units 1000000000 d < 1000000000.
Proof.
  unfold not_close_to_full. change (2 ^ Z.max 0 (- d_e d)) with (2 ^ k). change (d_m d * 2 ^ Z.max 0 (d_e d)) with (d_num d). fold f. intros H.
  unfold d_units. fold k. fold f. pose proof den_pos as P. pose proof f_range as F. apply Z.div_lt_upper_bound; [lia|].
  assert (X : 1048576 * rn53 (1000000000 * f) <= 1048575999475711 * 2 ^ k).
  { destruct (Z.le_gt_cases 20 k) as [K|K].
    - replace k with (20 + (k - 20)) by lia. rewrite Z.pow_add_r by lia. change (2 ^ 20) with 1048576.
      assert (rn53 (1000000000 * f) <= 1048575999475711 * 2 ^ (k - 20)); [|lia]. apply rn53_le; [lia|change (2 ^ 53) with 9007199254740992; lia|lia|].
      replace k with (20 + (k - 20)) in H by lia. rewrite Z.pow_add_r in H by lia. change (2 ^ 20) with 1048576 in H. lia.
    - assert (rn53 (1000000000 * f) = 1000000000 * f).
      { unfold rn53. destruct (Z.leb_spec (Z.log2 (1000000000 * f) + 1 - 53) 0); [reflexivity|exfalso].
        assert (2 ^ k <= 2 ^ 19) by (apply Z.pow_le_mono_r; lia). change (2 ^ 19) with 524288 in *.
        assert (Z.log2 (1000000000 * f) <= Z.log2 (2 ^ 52)) by (apply Z.log2_le_mono; change (2 ^ 52) with 4503599627370496; lia). rewrite Z.log2_pow2 in * by lia. lia. }
      lia. }
  lia.
Qed.
Lemma old_is_fine : at_least 4194304 d -> not_close_to_full d.
Proof.
  unfold at_least, not_close_to_full. change (2 ^ Z.max 0 (- d_e d)) with (2 ^ k). change (d_m d * 2 ^ Z.max 0 (d_e d)) with (d_num d). fold f. intros H. pose proof den_pos as P. pose proof f_range as F.
  assert (K : k <= 30).
  { unfold k, d_den, d_num in *. destruct (Z.le_gt_cases (Z.max 0 (- d_e d)) 30); [assumption|exfalso]. replace (Z.max 0 (d_e d)) with 0 in H by lia. change (2 ^ 0) with 1 in H.
    assert (2 ^ 31 <= 2 ^ Z.max 0 (- d_e d)) by (apply Z.pow_le_mono_r; lia). change (2 ^ 31) with 2147483648 in *. destruct ID as [M _]. change (2 ^ 53) with 9007199254740992 in M. lia. }
  assert (2 ^ k <= 2 ^ 30) by (apply Z.pow_le_mono_r; lia). change (2 ^ 30) with 1073741824 in *. lia.
Qed.
End Conv.
