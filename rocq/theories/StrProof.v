From Verif Require Import Base Str NumSpec StrSpec.

Definition canon (ds : list Z) : Prop := ds <> [] /\ Forall digit ds /\ (hd 48 ds = 48 -> ds = [48]).

Lemma pv_app a b : place_value (a ++ b) = place_value a * 10 ^ Z.of_nat (length b) + place_value b.
Proof.
  induction a as [|x a IH]; cbn [app place_value]; [lia|]. rewrite IH, app_length, Nat2Z.inj_add, Z.pow_add_r by lia. ring.
Qed.
Lemma pv_snoc a d : place_value (a ++ [d]) = 10 * place_value a + (d - 48).
Proof. rewrite pv_app. cbn [length place_value]. change (10 ^ Z.of_nat 1) with 10. change (10 ^ Z.of_nat 0) with 1. lia. Qed.
Lemma pv_nonneg ds : Forall digit ds -> 0 <= place_value ds.
Proof. induction 1 as [|d ds H F IH]; cbn [place_value]; [lia|]. unfold digit in H. pose proof (Z.pow_nonneg 10 (Z.of_nat (length ds))). nia. Qed.
Lemma pv_pos ds : Forall digit ds -> ds <> [] -> hd 48 ds <> 48 -> 1 <= place_value ds.
Proof.
  intros F N H. destruct ds as [|d ds]; [congruence|]. inversion F; subst. cbn [hd] in H. cbn [place_value].
  pose proof (pv_nonneg ds H3). unfold digit in H2. pose proof (Z.pow_pos_nonneg 10 (Z.of_nat (length ds))). nia.
Qed.

Lemma udec_canon ds : canon ds -> forall fuel acc, place_value ds < 10 ^ Z.of_nat fuel -> (1 <= fuel)%nat -> udec fuel (place_value ds) acc = ds ++ acc.
Proof.
  induction ds as [|d ds IH] using rev_ind; intros (N & F & C) fuel acc Hf H1; [congruence|].
  apply Forall_app in F. destruct F as [F Fd]. inversion Fd as [|? ? Hd _]; subst. unfold digit in Hd.
  destruct fuel as [|fuel]; [lia|]. cbn [udec]. rewrite pv_snoc in *. pose proof (pv_nonneg ds F).
  destruct ds as [|e ds'].
  - cbn [place_value app] in *. replace (10 * 0 + (d - 48) <? 10) with true by lia. f_equal. lia.
  - assert (He : hd 48 (e :: ds') <> 48). { cbn in C |- *. intros ->. specialize (C eq_refl). destruct ds'; discriminate. }
    assert (1 <= place_value (e :: ds')) by (apply pv_pos; [assumption|discriminate|assumption]).
    set (v := place_value (e :: ds')) in *. replace (10 * v + (d - 48) <? 10) with false by lia.
    replace ((10 * v + (d - 48)) / 10) with v by lia. replace (48 + (10 * v + (d - 48)) mod 10) with d by lia.
    assert (Hp : 10 ^ Z.of_nat (S fuel) = 10 * 10 ^ Z.of_nat fuel) by (rewrite Nat2Z.inj_succ, Z.pow_succ_r by lia; reflexivity).
    rewrite Hp in Hf. assert (Hfl : (1 <= fuel)%nat). { destruct fuel; [|lia]. change (10 ^ Z.of_nat 0) with 1 in Hf. lia. }
    unfold v. rewrite IH; [rewrite <- app_assoc; reflexivity| |fold v; lia|exact Hfl].
    split; [discriminate|]. split; [exact F|]. intros X. contradiction.
Qed.

Lemma udec_total fuel : forall n acc, 0 <= n < 10 ^ Z.of_nat fuel -> (1 <= fuel)%nat -> exists ds, udec fuel n acc = ds ++ acc /\ canon ds /\ place_value ds = n /\ (length ds <= fuel)%nat.
Proof.
  induction fuel as [|fuel IH]; intros n acc Hn H1; [lia|]. cbn [udec]. destruct (Z.ltb_spec n 10) as [H|H].
  - exists [48 + n]. repeat split; try discriminate.
    + constructor; [unfold digit; lia|constructor].
    + cbn. intros ->. reflexivity.
    + cbn [place_value length]. change (10 ^ Z.of_nat 0) with 1. lia.
    + cbn. lia.
  - assert (Hp : 10 ^ Z.of_nat (S fuel) = 10 * 10 ^ Z.of_nat fuel) by (rewrite Nat2Z.inj_succ, Z.pow_succ_r by lia; reflexivity).
    rewrite Hp in Hn. assert (Hfl : (1 <= fuel)%nat). { destruct fuel; [|lia]. change (10 ^ Z.of_nat 0) with 1 in Hn. lia. }
    destruct (IH (n / 10) ((48 + n mod 10) :: acc)) as (ds & E & (N & F & C) & V & L); [lia|exact Hfl|].
    exists (ds ++ [48 + n mod 10]). rewrite E. split; [rewrite <- app_assoc; reflexivity|]. split; [|split].
    + split; [destruct ds; discriminate|]. split.
      * apply Forall_app. split; [exact F|]. constructor; [unfold digit; lia|constructor].
      * destruct ds as [|e ds]; [congruence|]. cbn [app hd] in *. intros X. specialize (C X). injection C as -> ->. exfalso.
        cbn [place_value length] in V. change (10 ^ Z.of_nat 0) with 1 in V. lia.
    + rewrite pv_snoc, V. lia.
    + rewrite app_length. cbn. lia.
Qed.

Definition printable (n : Z) : Prop := Z.abs n < 100000000000000000000.
Lemma pow20 : 10 ^ Z.of_nat 20 = 100000000000000000000.
Proof. reflexivity. Qed.

Lemma fmt_d_eq n : fmt_d n = if n <? 0 then 45 :: udec 20 (Z.abs n) [] else udec 20 (Z.abs n) [].
Proof. unfold fmt_d. destruct (Z.ltb_spec n 0); [rewrite Z.abs_neq by lia|rewrite Z.abs_eq by lia]; reflexivity. Qed.
Lemma fmt_d_dec n t : printable n -> (dec n t <-> t = fmt_d n).
Proof.
  intros P. unfold printable in P. rewrite fmt_d_eq. split.
  - intros (ds & N & F & C & V & ->). rewrite <- V. rewrite udec_canon by (rewrite ?pow20; try lia; repeat split; assumption). rewrite app_nil_r. reflexivity.
  - intros ->. destruct (udec_total 20 (Z.abs n) []) as (ds & E & (N & F & C) & V & _); [rewrite pow20; lia|lia|].
    rewrite E, app_nil_r. exists ds. repeat split; assumption.
Qed.
Lemma fmt_u_dec n t : 0 <= n -> printable n -> (dec n t <-> t = fmt_u n).
Proof. intros H P. rewrite fmt_d_dec by assumption. unfold fmt_d, fmt_u. replace (n <? 0) with false by lia. reflexivity. Qed.
Lemma fmt_d_len n : printable n -> (1 <= length (fmt_d n) <= 21)%nat.
Proof.
  intros P. rewrite fmt_d_eq. destruct (udec_total 20 (Z.abs n) []) as (ds & E & (N & _) & V & L); [rewrite pow20; unfold printable in P; lia|lia|].
  rewrite E, app_nil_r. destruct ds; [congruence|]. destruct (n <? 0); cbn [length] in *; lia.
Qed.
