From Verif Require Import Base EaudModel MannModel MannSpec.

(** ** The tables *)
Fixpoint between (l : list (Z * Z)) (i j : Z) : bool :=
  match l with [] => true | r :: l => if j <? fst r then true else if fst r <=? i then between l i j else false end.
Lemma between_entry l : forall cur i j x, between l i j = true -> i <= x <= j -> entry l cur x = entry l cur i.
Proof.
  induction l as [|r l IH]; intros cur i j x H X; cbn [between entry] in *; [reflexivity|].
  destruct (Z.ltb_spec j (fst r)).
  - destruct (Z.ltb_spec x (fst r)), (Z.ltb_spec i (fst r)); try lia. reflexivity.
  - destruct (Z.leb_spec (fst r) i); [|discriminate]. destruct (Z.ltb_spec x (fst r)), (Z.ltb_spec i (fst r)); try lia. now apply (IH r i j).
Qed.

Definition range (n : nat) : list Z := map Z.of_nat (seq 0 n).
Lemma in_range n v : 0 <= v < Z.of_nat n -> In v (range n).
Proof. intros H. unfold range. apply in_map_iff. exists (Z.to_nat v). split; [lia|]. apply in_seq. lia. Qed.

Definition a_lo (neg : bool) (e k : Z) : Z := if neg then - (a_low e k + a_step e) else a_low e k.
Definition a_hi (neg : bool) (e k : Z) : Z := if neg then - a_low e k - 1 else a_low e k + a_step e - 1.
Definition a_level (neg : bool) (e k : Z) : Z := if neg then - (a_low e k + a_step e / 2) else a_low e k + a_step e / 2.
Definition a_check (neg : bool) (e k : Z) : bool :=
  between sl2A_runs (a_lo neg e k / 8 + 4096) (a_hi neg e k / 8 + 4096)
  && (snd (entry sl2A_runs (0, 42) (a_lo neg e k / 8 + 4096)) =? a_code neg e k)
  && (law A2sl (a_code neg e k) =? a_level neg e k).
Lemma a_checked : forallb (fun e => forallb (fun k => a_check false e k && a_check true e k) (range 16)) (range 8) = true.
Proof. vm_compute. reflexivity. Qed.
Lemma a_check_all neg e k : 0 <= e < 8 -> 0 <= k < 16 -> a_check neg e k = true.
Proof.
  intros He Hk. pose proof a_checked as C. rewrite forallb_forall in C. specialize (C e (in_range 8 e ltac:(lia))). cbv beta in C.
  rewrite forallb_forall in C. specialize (C k (in_range 16 k ltac:(lia))). cbv beta in C. apply andb_true_iff in C. destruct neg; apply C.
Qed.
Lemma a_step_even e : 0 <= e < 8 -> exists h, a_step e = 2 * h /\ 0 < h.
Proof.
  intros H. unfold a_step. destruct (Z.eqb_spec e 0); [exists 8; lia|]. exists (2 ^ (e + 2)). split; [|apply Z.pow_pos_nonneg; lia].
  replace (e + 3) with (Z.succ (e + 2)) by lia. rewrite Z.pow_succ_r by lia. reflexivity.
Qed.
Lemma alaw_cell s e k : a_cell s e k -> alaw s = a_code (s <? 0) e k /\ 2 * Z.abs (law A2sl (alaw s) - s) <= a_step e.
Proof.
  intros (He & Hk & Hm). pose proof (a_check_all (s <? 0) e k He Hk) as C. unfold a_check in C.
  apply andb_true_iff in C. destruct C as [C C3]. apply andb_true_iff in C. destruct C as [C1 C2]. apply Z.eqb_eq in C2, C3.
  assert (R : a_lo (s <? 0) e k <= s <= a_hi (s <? 0) e k).
  { unfold a_lo, a_hi. unfold a_mag in Hm. destruct (s <? 0); lia. }
  assert (E : alaw s = a_code (s <? 0) e k).
  { unfold alaw. rewrite Z.shiftr_div_pow2 by lia. change (2 ^ 3) with 8. rewrite (between_entry _ _ _ _ (s / 8 + 4096) C1); [exact C2|].
    split; apply Zplus_le_compat_r; apply Z.div_le_mono; lia. }
  split; [exact E|]. rewrite E, C3. unfold a_level, a_lo, a_hi in *. destruct (a_step_even e He) as (h & Hh & H0). rewrite Hh in *.
  rewrite (Z.mul_comm 2 h), Z.div_mul by lia. destruct (s <? 0); lia.
Qed.
Lemma a_cell_exists s : int16 s -> exists e k, a_cell s e k.
Proof.
  unfold int16, a_cell. intros H. assert (M : 0 <= a_mag s < 32768) by (unfold a_mag; destruct (Z.ltb_spec s 0); lia). clear H.
  generalize dependent (a_mag s). intros m M. unfold a_low, a_step.
  destruct (Z_lt_dec m 256); [exists 0, (m / 16); cbn [Z.eqb]; lia|].
  destruct (Z_lt_dec m 512); [exists 1, (m / 16 - 16); change (2 ^ (1 + 3)) with 16; cbn [Z.eqb]; lia|].
  destruct (Z_lt_dec m 1024); [exists 2, (m / 32 - 16); change (2 ^ (2 + 3)) with 32; cbn [Z.eqb]; lia|].
  destruct (Z_lt_dec m 2048); [exists 3, (m / 64 - 16); change (2 ^ (3 + 3)) with 64; cbn [Z.eqb]; lia|].
  destruct (Z_lt_dec m 4096); [exists 4, (m / 128 - 16); change (2 ^ (4 + 3)) with 128; cbn [Z.eqb]; lia|].
  destruct (Z_lt_dec m 8192); [exists 5, (m / 256 - 16); change (2 ^ (5 + 3)) with 256; cbn [Z.eqb]; lia|].
  destruct (Z_lt_dec m 16384); [exists 6, (m / 512 - 16); change (2 ^ (6 + 3)) with 512; cbn [Z.eqb]; lia|].
  exists 7, (m / 1024 - 16); change (2 ^ (7 + 3)) with 1024; cbn [Z.eqb]; lia.
Qed.

(** mu-law: a cell in terms of p = u_mag - 33 *)
Definition u_p0 (e k : Z) : Z := Z.max 0 ((16 + k) * 2 ^ (e + 1) - 33).
Definition u_p1 (e k : Z) : Z := (17 + k) * 2 ^ (e + 1) - 34.
(* the indices of a cell; the last one goes to the end of the table *)
Definition u_top (neg : bool) (e k : Z) : Z := if (e =? 7) && (k =? 15) then (if neg then 8192 else 8191) else u_p1 e k.
Definition u_i0 (neg : bool) (e k : Z) : Z := if neg then 8192 - u_top true e k else u_p0 e k + 8192.
Definition u_i1 (neg : bool) (e k : Z) : Z := if neg then 8192 - Z.max 1 (u_p0 e k) else u_top false e k + 8192.
Definition u_level (neg : bool) (e k : Z) : Z :=
  let m := if (e =? 0) && (k =? 0) then 2 else 4 * ((16 + k) * 2 ^ (e + 1) + 2 ^ e - 33) in if neg then - m else m.
Definition u_check (neg : bool) (e k : Z) : bool :=
  (neg && (e =? 0) && (k =? 0)) ||
  between sl2u_runs (u_i0 neg e k) (u_i1 neg e k)
  && (snd (entry sl2u_runs (0, 0) (u_i0 neg e k)) =? u_code neg e k)
  && (law u2sl (u_code neg e k) =? u_level neg e k).
Lemma u_checked : forallb (fun e => forallb (fun k => u_check false e k && u_check true e k) (range 16)) (range 8) = true.
Proof. vm_compute. reflexivity. Qed.
Lemma u_check_all neg e k : 0 <= e < 8 -> 0 <= k < 16 -> u_check neg e k = true.
Proof.
  intros He Hk. pose proof u_checked as C. rewrite forallb_forall in C. specialize (C e (in_range 8 e ltac:(lia))). cbv beta in C.
  rewrite forallb_forall in C. specialize (C k (in_range 16 k ltac:(lia))). cbv beta in C. apply andb_true_iff in C. destruct neg; apply C.
Qed.
Lemma ulaw_cell s e k : int16 s -> u_cell s e k ->
  ulaw s = u_code (s <? 0) e k /\ (-32632 <= s <= 32635 -> Z.abs (law u2sl (ulaw s) - s) <= 2 ^ (e + 2) + 3).
Proof.
  intros HI (He & Hk & Hm). pose proof (u_check_all (s <? 0) e k He Hk) as C. unfold u_check in C.
  assert (P : 2 ^ (e + 1) = 2 * 2 ^ e /\ 2 ^ (e + 2) = 4 * 2 ^ e /\ 1 <= 2 ^ e <= 128).
  { rewrite !Z.pow_add_r by lia. change (2 ^ 1) with 2. change (2 ^ 2) with 4. split; [lia|]. split; [lia|]. split; [apply (Z.pow_le_mono_r 2 0 e); lia | apply (Z.pow_le_mono_r 2 e 7); lia]. }
  assert (E7 : e < 7 -> 2 ^ e <= 64) by (intros; apply (Z.pow_le_mono_r 2 e 6); lia).
  assert (E0 : e = 0 -> 2 ^ e = 1) by (intros ->; reflexivity).
  assert (E8 : e = 7 -> 2 ^ e = 128) by (intros ->; reflexivity).
  assert (E1 : e <> 0 -> 2 <= 2 ^ e) by (intros; apply (Z.pow_le_mono_r 2 1 e); lia).
  unfold u_i0, u_i1, u_level, u_top, u_p0, u_p1 in C. unfold u_mag in Hm. unfold int16 in HI.
  destruct P as (P1 & P2 & P3). rewrite P1 in *. rewrite P2. clear P1 P2. set (w := 2 ^ e) in *. clearbody w.
  set (q := s / 4) in *. assert (Q : 4 * q <= s < 4 * q + 4) by (unfold q; lia).
  assert (SI : Z.shiftr s 2 = q) by (rewrite Z.shiftr_div_pow2 by lia; reflexivity).
  unfold ulaw. rewrite SI. clear SI. clearbody q.
  apply orb_true_iff in C. destruct C as [C|C].
  { exfalso. rewrite !andb_true_iff, !Z.eqb_eq, Z.ltb_lt in C. destruct C as [[C1 C2] C3]. subst e k. rewrite (proj2 (Z.ltb_lt s 0) C1) in Hm. specialize (E0 eq_refl). lia. }
  apply andb_true_iff in C. destruct C as [C C3]. apply andb_true_iff in C. destruct C as [C1 C2]. apply Z.eqb_eq in C2, C3.
  assert (EN : snd (entry sl2u_runs (0, 0) (q + 8192)) = u_code (s <? 0) e k).
  { rewrite (between_entry _ _ _ _ (q + 8192) C1); [exact C2|].
    destruct (Z.ltb_spec s 0); destruct (Z.eqb_spec e 7) as [->|]; destruct (Z.eqb_spec k 15) as [->|]; cbn [andb]; try specialize (E8 eq_refl); try specialize (E7 ltac:(lia)); nia. }
  split; [exact EN|]. intros B. rewrite EN, C3. clear C1 C2 C3 EN.
  destruct (Z.ltb_spec s 0); destruct (Z.eqb_spec e 0) as [->|]; destruct (Z.eqb_spec k 0) as [->|]; cbn [andb]; try specialize (E0 eq_refl); nia.
Qed.
Lemma u_cell_exists s : int16 s -> exists e k, u_cell s e k.
Proof.
  unfold int16, u_cell. intros H. assert (M : 33 <= u_mag s < 8192) by (unfold u_mag; destruct (Z.ltb_spec s 0); lia). clear H.
  generalize dependent (u_mag s). intros m M.
  destruct (Z_lt_dec m 64); [exists 0, (m / 2 - 16); change (2 ^ (0 + 1)) with 2; lia|].
  destruct (Z_lt_dec m 128); [exists 1, (m / 4 - 16); change (2 ^ (1 + 1)) with 4; lia|].
  destruct (Z_lt_dec m 256); [exists 2, (m / 8 - 16); change (2 ^ (2 + 1)) with 8; lia|].
  destruct (Z_lt_dec m 512); [exists 3, (m / 16 - 16); change (2 ^ (3 + 1)) with 16; lia|].
  destruct (Z_lt_dec m 1024); [exists 4, (m / 32 - 16); change (2 ^ (4 + 1)) with 32; lia|].
  destruct (Z_lt_dec m 2048); [exists 5, (m / 64 - 16); change (2 ^ (5 + 1)) with 64; lia|].
  destruct (Z_lt_dec m 4096); [exists 6, (m / 128 - 16); change (2 ^ (6 + 1)) with 128; lia|].
  exists 7, (m / 256 - 16); change (2 ^ (7 + 1)) with 256; lia.
Qed.

(** order *)
Fixpoint chain (dec : list Z) (l : list (Z * Z)) (cur : Z) : bool :=
  match l with [] => true | r :: l => (law dec cur <=? law dec (snd r)) && chain dec l (snd r) end.
Lemma chain_le dec l : forall cur j, chain dec l (snd cur) = true -> law dec (snd cur) <= law dec (snd (entry l cur j)).
Proof.
  induction l as [|r l IH]; intros cur j H; cbn [chain entry] in *; [lia|]. apply andb_true_iff in H. destruct H as [H1 H2].
  destruct (j <? fst r); [lia|]. specialize (IH r j H2). lia.
Qed.
Lemma chain_mono dec l : forall cur i j, chain dec l (snd cur) = true -> i <= j -> law dec (snd (entry l cur i)) <= law dec (snd (entry l cur j)).
Proof.
  induction l as [|r l IH]; intros cur i j H L; [cbn; lia|]. destruct (Z.ltb_spec i (fst r)) as [X|X].
  - assert (E : entry (r :: l) cur i = cur) by (cbn [entry]; now rewrite (proj2 (Z.ltb_lt _ _) X)). rewrite E. now apply chain_le.
  - cbn [entry]. rewrite (proj2 (Z.ltb_ge i (fst r)) X), (proj2 (Z.ltb_ge j (fst r)) ltac:(lia)). cbn [chain] in H. apply andb_true_iff in H. now apply (IH r).
Qed.
Lemma chains : chain u2sl sl2u_runs 0 = true /\ chain A2sl sl2A_runs 42 = true.
Proof. split; vm_compute; reflexivity. Qed.
Lemma recodes : forallb (fun b => ((b =? 127) || (ulaw (law u2sl b) =? b)) && (alaw (law A2sl b) =? b)) (range 256) = true.
Proof. vm_compute. reflexivity. Qed.
