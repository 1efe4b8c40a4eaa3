From Verif Require Import Base NumModel NumSpec.

Lemma skip_space_app ws x : Forall blank ws -> (forall c t, x = c :: t -> ~ blank c) -> skip_space (ws ++ x) = x.
Proof.
  intros F N. induction F as [|c ws Hc F IH]; cbn [app skip_space].
  - destruct x as [|c t]; [reflexivity|]. cbn [skip_space]. specialize (N c t eq_refl).
    destruct (is_space c) eqn:E; [|reflexivity]. exfalso. apply N. unfold is_space, blank in *. lia.
  - assert (is_space c = true) as -> by (unfold is_space, blank in *; lia). exact IH.
Qed.

Lemma skip_space_spec s : exists ws, s = ws ++ skip_space s /\ Forall blank ws.
Proof.
  induction s as [|c t IH]; cbn [skip_space]; [exists []; auto|].
  destruct (is_space c) eqn:E; [|exists []; auto].
  destruct IH as (ws & H & F). exists (c :: ws). split; [cbn; congruence|].
  constructor; [unfold is_space, blank in *; lia|assumption].
Qed.

Lemma digits_app ds rest : Forall digit ds -> (forall c t, rest = c :: t -> ~ digit c) ->
  forall acc n, digits acc n (ds ++ rest) = (acc * 10 ^ Z.of_nat (length ds) + place_value ds, (n + length ds)%nat, rest).
Proof.
  intros F N. induction F as [|c ds Hc F IH]; intros acc n; cbn [app digits length place_value].
  - replace (n + 0)%nat with n by lia. replace (acc * 10 ^ Z.of_nat 0 + 0) with acc by (cbn; lia).
    destruct rest as [|c t]; [reflexivity|]. cbn [digits]. specialize (N c t eq_refl).
    destruct (is_digit c) eqn:E; [|reflexivity]. exfalso. apply N. unfold is_digit, digit in *. lia.
  - assert (is_digit c = true) as -> by (unfold is_digit, digit in *; lia). rewrite IH.
    replace (S n + length ds)%nat with (n + S (length ds))%nat by lia.
    f_equal. f_equal. rewrite Nat2Z.inj_succ, Z.pow_succ_r by lia. ring.
Qed.

Lemma digits_spec s : forall acc n, exists ds rest, s = ds ++ rest /\ Forall digit ds /\ (forall c t, rest = c :: t -> ~ digit c) /\
  digits acc n s = (acc * 10 ^ Z.of_nat (length ds) + place_value ds, (n + length ds)%nat, rest).
Proof.
  intros acc n. assert (X : exists ds rest, s = ds ++ rest /\ Forall digit ds /\ (forall c t, rest = c :: t -> ~ digit c)).
  { clear. induction s as [|c t IH]; [exists [], []; repeat split; auto; discriminate|].
    destruct (is_digit c) eqn:E.
    - destruct IH as (ds & rest & -> & F & N). exists (c :: ds), rest. repeat split; auto.
      constructor; [unfold is_digit, digit in *; lia|assumption].
    - exists [], (c :: t). repeat split; auto. intros c' t' [= <- <-]. unfold is_digit, digit in *. lia. }
  destruct X as (ds & rest & E & F & N). exists ds, rest. repeat split; auto. rewrite E. apply digits_app; assumption.
Qed.

Definition clamp (v : Z) (rest : list Z) : Z * option (list Z) * bool :=
  if v >? LONG_MAX then (LONG_MAX, Some rest, true) else if v <? LONG_MIN then (LONG_MIN, Some rest, true) else (v, Some rest, false).

Lemma strtol_numeral s v rest : numeral s v rest -> strtol s = clamp v rest.
Proof.
  intros (ws & sg & k & ds & -> & Fw & Hs & Hn & Fd & Hr & ->).
  destruct ds as [|d ds]; [congruence|]. assert (Hd : digit d) by (inversion Fd; assumption).
  unfold strtol. rewrite skip_space_app; [|assumption|].
  2:{ intros c t E. unfold blank, digit in *. inversion Hs; subst sg; cbn in E; injection E as <- _; lia. }
  unfold digit in Hd.
  inversion Hs; subst sg k; cbn [app head0 tl].
  - assert (d =? 45 = false) as -> by lia. assert (d =? 43 = false) as -> by lia. cbn [orb].
    change (d :: ds ++ rest) with ((d :: ds) ++ rest). rewrite digits_app by assumption.
    cbn [length Nat.add Nat.eqb]. unfold clamp. rewrite Z.mul_0_l, Z.add_0_l. rewrite Z.mul_1_l. reflexivity.
  - change (43 =? 45) with false. change (43 =? 43) with true. cbn [orb].
    change (d :: ds ++ rest) with ((d :: ds) ++ rest). rewrite digits_app by assumption.
    cbn [length Nat.add Nat.eqb]. unfold clamp. rewrite Z.mul_0_l, Z.add_0_l. rewrite Z.mul_1_l. reflexivity.
  - change (45 =? 45) with true. cbn [orb].
    change (d :: ds ++ rest) with ((d :: ds) ++ rest). rewrite digits_app by assumption.
    cbn [length Nat.add Nat.eqb]. unfold clamp. rewrite Z.mul_0_l, Z.add_0_l.
    replace (-1 * place_value (d :: ds)) with (- place_value (d :: ds)) by ring. reflexivity.
Qed.

Lemma strtol_some s v0 rest e : strtol s = (v0, Some rest, e) -> exists v, numeral s v rest.
Proof.
  intros H. destruct (skip_space_spec s) as (ws & Es & Fw).
  unfold strtol in H. set (s1 := skip_space s) in *.
  set (s2 := if (head0 s1 =? 45) || (head0 s1 =? 43) then tl s1 else s1) in *.
  assert (X : exists sg k, s1 = sg ++ s2 /\ sign sg k).
  { unfold s2. destruct s1 as [|c t]; [exists [], 1; split; [reflexivity|constructor]|]. cbn [head0 tl].
    destruct (Z.eqb_spec c 45) as [->|]; [exists [45], (-1); split; [reflexivity|constructor]|].
    destruct (Z.eqb_spec c 43) as [->|]; [exists [43], 1; split; [reflexivity|constructor]|].
    exists [], 1. split; [reflexivity|constructor]. }
  destruct X as (sg & k & E1 & Hs).
  destruct (digits_spec s2 0 0) as (ds & r & E2 & Fd & N & Ed). rewrite Ed in H.
  destruct ds as [|d ds]; [cbn in H; discriminate|].
  cbn [length Nat.add Nat.eqb] in H.
  assert (r = rest) as ->.
  { repeat match type of H with context[if ?b then _ else _] => destruct b end; congruence. }
  exists (k * place_value (d :: ds)), ws, sg, k, (d :: ds).
  rewrite <- E2, <- E1. repeat split; auto. discriminate.
Qed.

Lemma strtol_cases s : (exists v rest, numeral s v rest /\ strtol s = clamp v rest) \/ ((forall v rest, ~ numeral s v rest) /\ exists v e, strtol s = (v, None, e)).
Proof.
  destruct (strtol s) as [[v0 [rest|]] e] eqn:E.
  - left. destruct (strtol_some _ _ _ _ E) as [v H]. exists v, rest. split; [exact H|]. rewrite <- E. apply strtol_numeral, H.
  - right. split; [|eauto]. intros v rest H. apply strtol_numeral in H. rewrite E in H. unfold clamp in H.
    destruct (v >? LONG_MAX); [discriminate|]. destruct (v <? LONG_MIN); discriminate.
Qed.

(** The value stored by the int parsers for a numeral of value [v]. *)
Definition int_of (v : Z) : Z := s32 (Z.max LONG_MIN (Z.min LONG_MAX v)).

Lemma clamp_val v rest : fst (fst (clamp v rest)) = Z.max LONG_MIN (Z.min LONG_MAX v) /\ snd (fst (clamp v rest)) = Some rest.
Proof.
  unfold clamp, LONG_MAX, LONG_MIN. destruct (Z.gtb_spec v 9223372036854775807); [cbn; split; [lia|reflexivity]|].
  destruct (Z.ltb_spec v (-9223372036854775808)); cbn; split; try reflexivity; lia.
Qed.

Lemma atoi_safe_sep_ok s sep x next : atoi_safe_sep s sep = ATOI_OK (x, next) <->
  exists v rest, numeral s v rest /\ head0 rest = sep /\ next = tl rest /\ x = int_of v.
Proof.
  unfold atoi_safe_sep. destruct (strtol_cases s) as [(v & rest & H & E)|[N (v & e & E)]]; rewrite E.
  - destruct (clamp v rest) as [[a b] c] eqn:Ec. destruct (clamp_val v rest) as [C1 C2]. rewrite Ec in C1, C2. cbn in C1, C2. subst a b.
    destruct (Z.eqb_spec (head0 rest) sep); cbn [negb].
    + split; [intros [= <- <-]; exists v, rest; auto|].
      intros (v' & rest' & H' & E' & -> & ->). f_equal. f_equal.
      * apply strtol_numeral in H'. rewrite E in H'. pose proof (clamp_val v' rest') as [D1 D2]. rewrite <- H' in D1, D2. cbn in D1, D2.
        unfold int_of. f_equal. exact D1.
      * apply strtol_numeral in H'. rewrite E in H'. pose proof (clamp_val v' rest') as [D1 D2]. rewrite <- H' in D1, D2. cbn in D2. congruence.
    + split; [discriminate|]. intros (v' & rest' & H' & E' & _).
      apply strtol_numeral in H'. rewrite E in H'. pose proof (clamp_val v' rest') as [D1 D2]. rewrite <- H' in D1, D2. cbn in D2. congruence.
  - split; [discriminate|]. intros (v' & rest' & H' & _). destruct (N _ _ H').
Qed.

Lemma int_of_small v : is_int v -> int_of v = v.
Proof. unfold is_int, int_of, LONG_MIN, LONG_MAX. intros H. rewrite s32_small; lia. Qed.

Lemma clamp_long v rest : is_long v -> clamp v rest = (v, Some rest, false).
Proof.
  unfold is_long, clamp, LONG_MAX, LONG_MIN. intros H.
  destruct (Z.gtb_spec v 9223372036854775807); [lia|]. destruct (Z.ltb_spec v (-9223372036854775808)); [lia|]. reflexivity.
Qed.
Lemma clamp_nolong v rest : ~ is_long v -> snd (clamp v rest) = true.
Proof.
  unfold is_long, clamp, LONG_MAX, LONG_MIN. intros H.
  destruct (Z.gtb_spec v 9223372036854775807); [reflexivity|]. destruct (Z.ltb_spec v (-9223372036854775808)); [reflexivity|]. lia.
Qed.

Lemma strtol_saferange_iff s min max x next : strtol_saferange s min max = ATOI_OK (x, next) <->
  (numeral s x next /\ is_long x /\ in_range x min max).
Proof.
  unfold strtol_saferange. destruct (strtol_cases s) as [(v & rest & H & E)|[N (v & e & E)]]; rewrite E.
  - assert (D : is_long v \/ ~ is_long v) by (unfold is_long; lia). destruct D as [L|L].
    + rewrite (clamp_long _ rest L). destruct ((v <? min) || ((max >=? min) && (v >? max))) eqn:R.
      * split; [discriminate|]. intros (H' & L' & R'). apply strtol_numeral in H'. rewrite E, clamp_long, clamp_long in H' by assumption.
        injection H' as -> ->. unfold in_range in R'. lia.
      * split.
        -- intros [= <- <-]. split; [assumption|]. split; [assumption|]. unfold in_range. lia.
        -- intros (H' & L' & R'). apply strtol_numeral in H'. rewrite E, clamp_long, clamp_long in H' by assumption. injection H' as -> ->. reflexivity.
    + pose proof (clamp_nolong _ rest L) as X. pose proof (clamp_val v rest) as [_ C]. destruct (clamp v rest) as [[a b] c]. cbn in C, X. subst b c.
      split; [discriminate|]. intros (H' & L' & R'). apply strtol_numeral in H'. rewrite E, clamp_long in H' by assumption. congruence.
  - split; [discriminate|]. intros (H' & _). destruct (N _ _ H').
Qed.

Lemma atoi_safe_ok s x : atoi_safe s = ATOI_OK x <-> exists v, (numeral s v [] \/ exists t, numeral s v (0 :: t)) /\ x = int_of v.
Proof.
  unfold atoi_safe. destruct (atoi_safe_sep s 0) as [[x' n]| |] eqn:E.
  - apply atoi_safe_sep_ok in E. destruct E as (v & rest & H & Hz & _ & ->). split.
    + intros [= <-]. exists v. split; [|reflexivity]. destruct rest as [|c t]; [auto|]. cbn in Hz. subst. eauto.
    + intros (v' & H' & ->). f_equal.
      assert (X : exists r, numeral s v' r) by (destruct H' as [|[t ?]]; eauto). destruct X as [r X].
      apply strtol_numeral in H, X. rewrite H in X. pose proof (clamp_val v rest) as [A _]. pose proof (clamp_val v' r) as [B _].
      rewrite X in A. unfold int_of. f_equal. congruence.
  - split; [discriminate|]. intros (v & H & _).
    assert (X : exists y n, atoi_safe_sep s 0 = ATOI_OK (y, n)).
    { destruct H as [H|[t H]]; eexists; eexists; apply atoi_safe_sep_ok; eexists; eexists; (split; [exact H|]); (split; [reflexivity|]); auto. }
    destruct X as (y & n & X). congruence.
  - exfalso. unfold atoi_safe_sep in E. destruct (strtol s) as [[a [b|]] c]; [|discriminate]. destruct (head0 b =? 0); discriminate.
Qed.

Lemma numeral_suffix s v rest : numeral s v rest -> exists p, s = p ++ rest.
Proof. intros (ws & sg & k & ds & -> & _). exists (ws ++ sg ++ ds). rewrite !app_assoc. reflexivity. Qed.

Lemma atoi_safe_cstring s x : cstring s -> (atoi_safe s = ATOI_OK x <-> exists v, numeral s v [] /\ x = int_of v).
Proof.
  intros Hc. rewrite atoi_safe_ok. split.
  - intros (v & [H|[t H]] & ->); [eauto|]. exfalso. destruct (numeral_suffix _ _ _ H) as [p ->].
    unfold cstring in Hc. apply Forall_app in Hc. destruct Hc as [_ Hc]. inversion Hc; lia.
  - intros (v & H & ->). eauto.
Qed.

Lemma atoi_exact s : cstring s -> (forall v, numeral s v [] -> is_int v) -> forall x, atoi_safe s = ATOI_OK x <-> numeral s x [].
Proof.
  intros Hc Hi x. rewrite (atoi_safe_cstring s x Hc). split.
  - intros (v & H & ->). rewrite int_of_small; auto.
  - intros H. exists x. split; [exact H|]. symmetry. apply int_of_small, Hi, H.
Qed.

Lemma atoi_reject s : cstring s -> ((forall v, ~ numeral s v []) <-> atoi_safe s = ATOI_NOTINT).
Proof.
  intros Hc. split.
  - intros N. destruct (atoi_safe s) as [x| |] eqn:E; [|reflexivity|].
    + exfalso. apply atoi_safe_cstring in E; [|assumption]. destruct E as (v & H & _). exact (N _ H).
    + exfalso. unfold atoi_safe, atoi_safe_sep in E. destruct (strtol s) as [[a [b|]] c]; [|discriminate]. destruct (head0 b =? 0); discriminate.
  - intros E v H. assert (X : atoi_safe s = ATOI_OK (int_of v)) by (apply atoi_safe_cstring; eauto). congruence.
Qed.

Lemma saferange_exact s min max : cstring s -> (forall v, numeral s v [] -> is_int v) ->
  forall x, atoi_saferange s min max = ATOI_OK x <-> numeral s x [] /\ in_range x min max.
Proof.
  intros Hc Hi x. unfold atoi_saferange. destruct (atoi_safe s) as [y| |] eqn:E.
  - apply atoi_exact in E; [|assumption|assumption].
    destruct ((y <? min) || ((max >=? min) && (y >? max))) eqn:R.
    + split; [discriminate|]. intros [H I]. apply atoi_exact in H; [|assumption|assumption]. apply atoi_exact in E; [|assumption|assumption].
      assert (x = y) as -> by congruence. unfold in_range in I. lia.
    + split.
      * intros [= <-]. split; [assumption|]. unfold in_range. lia.
      * intros [H I]. apply atoi_exact in H; [|assumption|assumption]. apply atoi_exact in E; [|assumption|assumption]. congruence.
  - split; [discriminate|]. intros [H I]. apply atoi_exact in H; [congruence|assumption|assumption].
  - split; [discriminate|]. intros [H I]. apply atoi_exact in H; [congruence|assumption|assumption].
Qed.

Lemma sep_exact s sep : sep <> 0 -> (forall v rest, numeral s v rest -> is_int v) ->
  forall x next, atoi_safe_sep s sep = ATOI_OK (x, next) <-> numeral s x (sep :: next).
Proof.
  intros Hs Hi x next. rewrite atoi_safe_sep_ok. split.
  - intros (v & rest & H & E & -> & ->). rewrite int_of_small by eauto. destruct rest as [|c t]; [cbn in E; congruence|].
    cbn in E |- *. congruence.
  - intros H. exists x, (sep :: next). repeat split; auto. symmetry. apply int_of_small. eauto.
Qed.
