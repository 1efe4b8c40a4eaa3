From Verif Require Import Base AnaModel AnaSpec.

(** * The bitmap *)
Lemma land31 n : Z.land n 31 = n mod 32.
Proof. change 31 with (Z.ones 5). rewrite Z.land_ones by lia. reflexivity. Qed.
Lemma land65535 n : Z.land n 65535 = n mod 65536.
Proof. change 65535 with (Z.ones 16). rewrite Z.land_ones by lia. reflexivity. Qed.
Lemma idx_eq n : idx n = Z.to_nat (n mod 131072 / 32).
Proof. unfold idx. rewrite Z.shiftr_div_pow2 by lia. reflexivity. Qed.
Lemma marked_eq seen n : marked seen n = Z.testbit (nth (idx n) seen 0) (n mod 32).
Proof.
  unfold marked. rewrite land31. change 1 with (Z.ones 1) at 1. rewrite Z.land_ones by lia.
  rewrite Z.shiftr_div_pow2 by (pose proof (Z.mod_pos_bound n 32); lia).
  change (2 ^ 1) with 2. rewrite <- Z.testbit_spec' by lia. destruct (Z.testbit _ _); reflexivity.
Qed.
Lemma zeroes_length n : length (zeroes n) = Z.to_nat n.
Proof. apply repeat_length. Qed.
Lemma zeroes_nth n i : nth i (zeroes n) 0 = 0.
Proof. unfold zeroes. generalize (Z.to_nat n). intros k. revert i. induction k as [|k IH]; intros [|i]; cbn; auto. Qed.
Lemma marked_zeroes n m : marked (zeroes n) m = false.
Proof. rewrite marked_eq, zeroes_nth. apply Z.bits_0. Qed.

Lemma idx_bound n : (idx n < Z.to_nat 4096)%nat.
Proof. rewrite idx_eq. lia. Qed.
Lemma mark_length seen a b : length (mark seen a b) = length seen.
Proof. apply upd_length. Qed.
Lemma marked_mark seen a ra b : length seen = Z.to_nat 4096 -> ra mod 32 = a mod 32 ->
  marked (mark seen a ra) b = marked seen b || (a mod 131072 =? b mod 131072).
Proof.
  intros L R. rewrite !marked_eq. unfold mark. rewrite land31, R. pose proof (idx_bound a).
  destruct (Nat.eq_dec (idx a) (idx b)) as [E|E].
  - rewrite <- E. rewrite nth_upd_same by lia. rewrite Z.lor_spec. f_equal. rewrite Z.shiftl_spec by (clear; lia).
    destruct (Z.eqb_spec (a mod 131072) (b mod 131072)) as [Q|Q].
    + replace (b mod 32 - a mod 32) with 0 by (clear - Q; lia). reflexivity.
    + assert (D : b mod 32 - a mod 32 <> 0). { rewrite !idx_eq in E. clear - E Q. lia. }
      destruct (Z.lt_ge_cases (b mod 32 - a mod 32) 0); [apply Z.testbit_neg_r; lia|].
      change 1 with (2 ^ 0). rewrite Z.pow2_bits_false by lia. reflexivity.
  - rewrite nth_upd_other by assumption. destruct (Z.eqb_spec (a mod 131072) (b mod 131072)) as [Q|Q]; [|now rewrite orb_false_r].
    exfalso. apply E. rewrite !idx_eq. congruence.
Qed.

Lemma nth_app' {A} (a b : list A) i d : nth i (a ++ b) d = if (i <? length a)%nat then nth i a d else nth (i - length a) b d.
Proof. destruct (Nat.ltb_spec i (length a)); [apply app_nth1|apply app_nth2]; lia. Qed.
Lemma nth_firstn' {A} (l : list A) k i d : (i < k)%nat -> nth i (firstn k l) d = nth i l d.
Proof. revert k i. induction l as [|x t IH]; intros [|k] [|i] H; cbn; auto; try lia. apply IH. lia. Qed.
Lemma nth_skipn' {A} (l : list A) k i d : nth i (skipn k l) d = nth (k + i) l d.
Proof. revert k. induction l as [|x t IH]; intros [|k]; cbn; auto. destruct i; auto. Qed.

Lemma clear_half_length seen off : length seen = Z.to_nat 4096 -> length (clear_half seen off) = Z.to_nat 4096.
Proof.
  intros L. unfold clear_half. destruct (_ =? _); rewrite app_length, zeroes_length.
  - rewrite firstn_length. lia.
  - rewrite skipn_length. lia.
Qed.
(** half [b]: the numbers of blocks with the parity of [b] *)
Lemma marked_clear_half seen b n : length seen = Z.to_nat 4096 -> 
  marked (clear_half seen (65536 * b)) n = marked seen n && negb ((n / 65536 - b) mod 2 =? 0).
Proof.
  intros L. rewrite !marked_eq. unfold clear_half. pose proof (idx_bound n) as I.
  destruct (Z.eqb_spec (65536 * b mod 131072) 65536) as [E|E]; rewrite nth_app'.
  - rewrite firstn_length, L. replace (Nat.min (Z.to_nat 2048) (Z.to_nat 4096)) with (Z.to_nat 2048) by lia.
    destruct (Nat.ltb_spec (idx n) (Z.to_nat 2048)) as [H|H].
    + rewrite nth_firstn' by assumption. replace ((n / 65536 - b) mod 2 =? 0) with false; [now rewrite andb_true_r|].
      rewrite idx_eq in H. symmetry. apply Z.eqb_neq. clear - E H. lia.
    + rewrite zeroes_nth, Z.bits_0. replace ((n / 65536 - b) mod 2 =? 0) with true; [now rewrite andb_false_r|].
      rewrite idx_eq in H. symmetry. apply Z.eqb_eq. clear - E H. lia.
  - rewrite zeroes_length. destruct (Nat.ltb_spec (idx n) (Z.to_nat 2048)) as [H|H].
    + rewrite zeroes_nth, Z.bits_0. replace ((n / 65536 - b) mod 2 =? 0) with true; [now rewrite andb_false_r|].
      rewrite idx_eq in H. symmetry. apply Z.eqb_eq. clear - E H. lia.
    + rewrite nth_skipn'. replace (Z.to_nat 2048 + (idx n - Z.to_nat 2048))%nat with (idx n) by lia.
      replace ((n / 65536 - b) mod 2 =? 0) with false; [now rewrite andb_true_r|].
      rewrite idx_eq in H. symmetry. apply Z.eqb_neq. clear - E H. lia.
Qed.

(** * One run of packets of one SSRC *)
Lemma distinct_cons e h : distinct (e :: h) = if in_dec Z.eq_dec e h then distinct h else distinct h + 1.
Proof. unfold distinct. cbn [nodup]. destruct (in_dec Z.eq_dec e h); [reflexivity|]. cbn [length]. lia. Qed.

Record inv (ssrc lo hi : Z) (h : list Z) (s : stat) : Prop := {
  i_chg : t_chg s <> 0;
  i_ssrc : l_ssrc (t_last s) = ssrc;
  i_max : l_max (t_last s) = hi;
  i_min : l_min (t_last s) = lo;
  i_off : l_off (t_last s) = 65536 * (hi / 65536);
  i_pc : l_pcount (t_last s) = distinct h;
  i_dups : l_dups (t_last s) = u32 (Z.of_nat (length h) - distinct h);
  i_len : length (l_seen (t_last s)) = Z.to_nat 4096;
  i_bits : forall n, 0 <= n -> hi / 65536 - 1 <= n / 65536 <= hi / 65536 -> (marked (l_seen (t_last s)) n = true <-> In n h);
  i_rng : forall n, In n h -> lo <= n <= hi;
  i_hi : 0 <= hi < 4294901760;
  i_lo : 0 <= lo <= hi;
  i_hiin : In hi h;
  i_jd : In ssrc (t_jd s) }.

Definition others_same (s s' : stat) : Prop :=
  t_chg s' = t_chg s /\ t_psent s' = t_psent s /\ t_precvd s' = t_precvd s /\ t_dups s' = t_dups s.

Lemma u32_add_l a b : u32 (u32 a + b) = u32 (a + b).
Proof. unfold u32. rewrite Zplus_mod_idemp_l. reflexivity. Qed.
Lemma u32_add_r a b : u32 (a + u32 b) = u32 (a + b).
Proof. unfold u32. rewrite Zplus_mod_idemp_r. reflexivity. Qed.

Lemma existsb_in ssrc jd : In ssrc jd -> existsb (Z.eqb ssrc) jd = true.
Proof. intros H. apply existsb_exists. exists ssrc. split; [exact H|apply Z.eqb_refl]. Qed.
Lemma jdata_found jd ssrc m : In ssrc jd -> jdata_by_ssrc jd ssrc m = Some jd.
Proof. intros H. unfold jdata_by_ssrc. destruct jd as [|x t]; [destruct H|]. rewrite existsb_in by exact H. reflexivity. Qed.
Lemma jdata_mem jd ssrc : exists jd', jdata_by_ssrc jd ssrc true = Some jd' /\ In ssrc jd'.
Proof.
  unfold jdata_by_ssrc. destruct jd as [|x t]; [eexists; split; [reflexivity|left; reflexivity]|].
  destruct (existsb _ _) eqn:E.
  - eexists. split; [reflexivity|]. apply existsb_exists in E. destruct E as (y & Y & Q). apply Z.eqb_eq in Q. subst y. exact Y.
  - destruct (Nat.eqb _ _); eexists; (split; [reflexivity|left; reflexivity]).
Qed.

Lemma step_ok ssrc lo hi h s e m : inv ssrc lo hi h s ->
  hi - 535 <= e <= hi + 535 -> 0 <= e < 4294901760 -> (lo <= e \/ hi < 65536) ->
  (m = true -> hi <= e /\ (e / 65536 = hi / 65536 \/ hi mod 65536 = 65535)) ->
  exists s', update s (mkPkt ssrc (e mod 65536) m true) = (s', UPDATE_OK) /\
    inv ssrc (Z.min lo e) (Z.max hi e) (e :: h) s' /\ others_same s s'.
Proof.
  intros [C SS MX MN OF PC DU LN BT RG HI LO HIN JD] W E0 LE MK.
  unfold update. cbn [p_ssrc p_seq p_mark p_mem]. rewrite jdata_found by exact JD.
  destruct (Z.eqb_spec (t_chg s) 0) as [X|_]; [contradiction|]. rewrite SS, Z.eqb_refl. cbn [negb].
  rewrite MX, MN, OF, PC, DU. rewrite land65535.
  set (q := hi / 65536) in *.
  assert (Q : 65536 * q <= hi < 65536 * q + 65536) by (unfold q; lia).
  assert (S0 : u32 (e mod 65536 + 65536 * q) = e mod 65536 + 65536 * q) by (apply u32_small; lia). rewrite S0.
  replace (m && ((e mod 65536 + 65536 * q <? hi) && negb (hi mod 65536 =? 65535))) with false.
  2:{ symmetry. destruct m; [|reflexivity]. cbn [andb]. destruct (MK eq_refl) as [A [B|B]].
      - replace (e mod 65536 + 65536 * q <? hi) with false; [reflexivity|]. symmetry. apply Z.ltb_ge. fold q in B. lia.
      - rewrite B. cbn. apply andb_false_r. }
  assert (GO : forall seen, length seen = Z.to_nat 4096 ->
    (forall n, 0 <= n -> Z.max hi e / 65536 - 1 <= n / 65536 <= Z.max hi e / 65536 -> (marked seen n = true <-> In n h)) ->
    exists s', (let upd_last := fun pc mn mx dups seen =>
              mkStat (t_chg s) (t_psent s) (t_precvd s) (t_dups s) (t_desync s) (t_resets s)
                (mkLast pc mn mx (65536 * (Z.max hi e / 65536)) ssrc seen dups (e mod 65536)) (t_jd s) in
            if marked seen e then (upd_last (distinct h) lo hi (u32 (u32 (Z.of_nat (length h) - distinct h) + 1)) seen, UPDATE_OK)
            else
              let seen := mark seen e (e mod 65536) in
              if hi <=? e then (upd_last (distinct h + 1) lo e (u32 (Z.of_nat (length h) - distinct h)) seen, UPDATE_OK)
              else if lo <=? e then (upd_last (distinct h + 1) lo hi (u32 (Z.of_nat (length h) - distinct h)) seen, UPDATE_OK)
              else if (65536 * (Z.max hi e / 65536) =? 0) && (e <? lo) then (upd_last (distinct h + 1) e hi (u32 (Z.of_nat (length h) - distinct h)) seen, UPDATE_OK)
              else (upd_last (distinct h) lo hi (u32 (Z.of_nat (length h) - distinct h)) seen, UPDATE_ERR)) = (s', UPDATE_OK) /\
      inv ssrc (Z.min lo e) (Z.max hi e) (e :: h) s' /\ others_same s s').
  { intros seen L B.
    assert (BE : marked seen e = true <-> In e h) by (apply B; lia).
    destruct (marked seen e) eqn:ME; cbv zeta.
    - assert (IN : In e h) by (apply BE; reflexivity). pose proof (RG e IN).
      eexists. split; [reflexivity|]. split; [|repeat split].
      replace (Z.max hi e) with hi in * by lia. replace (Z.min lo e) with lo by lia.
      constructor; cbn [t_chg t_last l_ssrc l_max l_min l_off l_pcount l_dups l_seen t_jd]; auto.
      + rewrite distinct_cons. destruct (in_dec Z.eq_dec e h); [reflexivity|contradiction].
      + rewrite u32_add_l, distinct_cons. destruct (in_dec Z.eq_dec e h); [|contradiction]. cbn [length]. f_equal. lia.
      + intros n N1 N2. rewrite B by assumption. cbn [In]. intuition congruence.
      + intros n [<-|N]; auto.
      + right. exact HIN.
    - assert (IN : ~ In e h) by (rewrite <- BE; discriminate).
      assert (K : forall lo' hi', lo' = Z.min lo e -> hi' = Z.max hi e ->
        inv ssrc (Z.min lo e) (Z.max hi e) (e :: h) (mkStat (t_chg s) (t_psent s) (t_precvd s) (t_dups s) (t_desync s) (t_resets s)
                (mkLast (distinct h + 1) lo' hi' (65536 * (Z.max hi e / 65536)) ssrc (mark seen e (e mod 65536)) (u32 (Z.of_nat (length h) - distinct h)) (e mod 65536)) (t_jd s))).
      { intros lo' hi' -> ->. constructor; cbn [t_chg t_last l_ssrc l_max l_min l_off l_pcount l_dups l_seen t_jd]; auto; try lia.
        + rewrite distinct_cons. destruct (in_dec Z.eq_dec e h); [contradiction|reflexivity].
        + rewrite distinct_cons. destruct (in_dec Z.eq_dec e h); [contradiction|]. cbn [length]. f_equal. lia.
        + rewrite mark_length. exact L.
        + intros n N1 N2. rewrite marked_mark by (try exact L; lia). rewrite orb_true_iff, B by assumption. cbn [In]. rewrite Z.eqb_eq.
          assert (N3 : e mod 131072 = n mod 131072 <-> e = n) by lia. rewrite N3. tauto.
        + intros n [<-|N]; [lia|]. specialize (RG n N). lia.
        + destruct (Z.le_ge_cases hi e); [left; lia|right; replace (Z.max hi e) with hi by lia; exact HIN]. }
      destruct (Z.leb_spec hi e); [eexists; split; [reflexivity|split; [apply K; lia|repeat split]]|].
      destruct (Z.leb_spec lo e); [eexists; split; [reflexivity|split; [apply K; lia|repeat split]]|].
      replace ((65536 * (Z.max hi e / 65536) =? 0) && (e <? lo)) with true by lia.
      eexists; split; [reflexivity|split; [apply K; lia|repeat split]]. }
  assert (CASES : e / 65536 = q \/ e / 65536 = q - 1 \/ e / 65536 = q + 1) by (unfold q in *; lia).
  destruct CASES as [D|[D|D]].
  - assert (EQ : e mod 65536 + 65536 * q = e) by lia. rewrite EQ.
    replace ((hi mod 65536 <? 536) && (65000 <? e mod 65536)) with false by lia.
    replace ((65000 <? hi) && (e <? u32 (hi - 65000))) with false.
    2:{ symmetry. destruct (Z.ltb_spec 65000 hi); [|reflexivity]. rewrite u32_small by lia. lia. }
    replace ((u32 (e + 536) <? hi) || (u32 (hi + 536) <? e)) with false by (rewrite !u32_small by lia; lia).
    replace (65536 * q) with (65536 * (Z.max hi e / 65536)) by lia.
    apply GO; [exact LN|]. intros n N1 N2. apply BT; [exact N1|]. lia.
  - replace ((hi mod 65536 <? 536) && (65000 <? e mod 65536)) with true by lia.
    replace (u32 (e mod 65536 + 65536 * q - 65536)) with e by (rewrite u32_small by lia; lia).
    replace (65536 * q) with (65536 * (Z.max hi e / 65536)) by lia.
    apply GO; [exact LN|]. intros n N1 N2. apply BT; [exact N1|]. lia.
  - replace ((hi mod 65536 <? 536) && (65000 <? e mod 65536)) with false by lia.
    replace ((65000 <? hi) && (e mod 65536 + 65536 * q <? u32 (hi - 65000))) with true.
    2:{ symmetry. replace (65000 <? hi) with true by lia. rewrite u32_small by lia. lia. }
    replace (u32 (e mod 65536 + 65536 * q + 65536)) with e by (rewrite u32_small by lia; lia).
    replace (u32 (65536 * q + 65536)) with (65536 * (Z.max hi e / 65536)) by (rewrite u32_small by lia; lia).
    apply GO; [apply clear_half_length; exact LN|]. intros n N1 N2.
    rewrite marked_clear_half by exact LN. destruct (Z.eq_dec (n / 65536) q) as [G|G].
    + replace (negb ((n / 65536 - Z.max hi e / 65536) mod 2 =? 0)) with true by lia. rewrite andb_true_r. apply BT; [exact N1|lia].
    + replace (negb ((n / 65536 - Z.max hi e / 65536) mod 2 =? 0)) with false by lia. rewrite andb_false_r.
      split; [discriminate|]. intros N. specialize (RG n N). lia.
Qed.

Lemma rest_ok ssrc rest : forall lo hi h a, inv ssrc lo hi h (a_stat a) -> tolerated lo hi rest ->
  exists s', ana_run a (map (wire ssrc) rest) = mkAna s' (a_pecount a) (a_aecount a) /\
    inv ssrc (fold_left Z.min (map fst rest) lo) (fold_left Z.max (map fst rest) hi) (rev (map fst rest) ++ h) s' /\ others_same (a_stat a) s'.
Proof.
  induction rest as [|[e m] t IH]; intros lo hi h a I T; cbn [map rev app fold_left].
  - exists (a_stat a). destruct a. split; [reflexivity|]. split; [exact I|unfold others_same; auto].
  - destruct T as (W & E0 & LE & MK & T). destruct (step_ok _ _ _ _ _ e m I W E0 LE MK) as (s1 & U & I1 & O1).
    unfold ana_run. cbn [fold_left]. unfold wire at 2. cbn [fst snd ana_update]. rewrite U.
    destruct (IH _ _ _ (mkAna s1 (a_pecount a) (a_aecount a)) I1 T) as (s2 & R & I2 & O2).
    exists s2. split; [exact R|]. split; [rewrite <- app_assoc; exact I2|].
    destruct O1 as (A1 & A2 & A3 & A4), O2 as (B1 & B2 & B3 & B4). cbn [a_stat] in *. unfold others_same. rewrite B1, B2, B3, B4. auto.
Qed.

Lemma fold_max_right l a : fold_left Z.max l a = fold_right Z.max a l.
Proof. apply fold_symmetric; intros; lia. Qed.
Lemma fold_min_right l a : fold_left Z.min l a = fold_right Z.min a l.
Proof. apply fold_symmetric; intros; lia. Qed.
Lemma fold_max_ge l a : a <= fold_right Z.max a l.
Proof. induction l; cbn [fold_right]; lia. Qed.
Lemma fold_min_le l a : fold_right Z.min a l <= a.
Proof. induction l; cbn [fold_right]; lia. Qed.
Lemma distinct_perm a b : (forall x, In x a <-> In x b) -> distinct a = distinct b.
Proof.
  intros H. unfold distinct. f_equal. apply Nat.le_antisymm; apply NoDup_incl_length; try apply NoDup_nodup; intros x; rewrite !nodup_In; apply H.
Qed.
Lemma numbers_distinct g : distinct (rev (map fst (g_rest g)) ++ [g_first g]) = distinct (numbers g).
Proof. apply distinct_perm. intros x. unfold numbers. rewrite in_app_iff, <- in_rev. cbn. tauto. Qed.
Lemma distinct_pos x l : 0 < distinct (x :: l).
Proof. rewrite distinct_cons. destruct (in_dec Z.eq_dec x l) as [H|]; [|unfold distinct; lia]. unfold distinct. assert (In x (nodup Z.eq_dec l)) as K by now apply nodup_In. destruct (nodup _ l); [destruct K|cbn; lia]. Qed.

Lemma start_inv chg ps pr pd ds rs off ssrc e dups jd : chg <> 0 -> off = 0 -> dups = 0 -> 0 <= e < 65536 -> In ssrc jd ->
  inv ssrc e e [e] (mkStat chg ps pr pd ds rs (mkLast 1 e e off ssrc (mark (zeroes 4096) e e) dups e) jd).
Proof.
  intros C -> -> E J. constructor; cbn [t_chg t_last l_ssrc l_max l_min l_off l_pcount l_dups l_seen t_jd]; auto; try lia.
  - rewrite mark_length. apply zeroes_length.
  - intros n N1 N2. rewrite marked_mark by (try apply zeroes_length; reflexivity). rewrite marked_zeroes. cbn [orb In]. rewrite Z.eqb_eq. split; intros H.
    + left. lia.
    + destruct H as [->|[]]. reflexivity.
  - intros n [<-|[]]. lia.
  - left. reflexivity.
Qed.

(** After the segments so far. *)
Record after (a : ana) (n ps pr pd : Z) (prev : option Z) : Prop := {
  f_tot : totals (a_stat a) = (u32 ps, u32 pr, u32 pd);
  f_chg : t_chg (a_stat a) = n;
  f_pe : a_pecount a = 0;
  f_ae : a_aecount a = 0;
  f_prev : match prev with
           | None => a_stat a = stat0
           | Some p => t_chg (a_stat a) <> 0 /\ l_ssrc (t_last (a_stat a)) = p
           end;
  f_off : l_off (t_last (a_stat a)) = 0 \/ 65536 <= l_max (t_last (a_stat a)) }.

Lemma segment_ok g a n ps pr pd prev : after a n ps pr pd prev -> l_off (t_last (a_stat a)) = 0 -> good g -> prev <> Some (g_ssrc g) -> 0 <= n < 4294967295 ->
  after (ana_run a (packets g)) (n + 1) (ps + span g) (pr + distinct (numbers g)) (pd + copies g) (Some (g_ssrc g)) /\
  (highest (numbers g) < 65536 -> l_off (t_last (a_stat (ana_run a (packets g)))) = 0).
Proof.
  intros [TOT CHG PE AE PV OF] O0 [F T] NE N.
  assert (ST : exists s1 r, update (a_stat a) (mkPkt (g_ssrc g) (g_first g) (g_mark g) true) = (s1, r) /\ r <> UPDATE_ERR /\
     inv (g_ssrc g) (g_first g) (g_first g) [g_first g] s1 /\ t_chg s1 = n + 1 /\ (t_psent s1, t_precvd s1, t_dups s1) = (u32 ps, u32 pr, u32 pd)).
  { unfold update. cbn [p_ssrc p_seq p_mark p_mem]. destruct (jdata_mem (t_jd (a_stat a)) (g_ssrc g)) as (jd & -> & J).
    destruct prev as [p|].
    - destruct PV as [C P]. destruct (Z.eqb_spec (t_chg (a_stat a)) 0) as [X|_]; [contradiction|].
      destruct (Z.eqb_spec (l_ssrc (t_last (a_stat a))) (g_ssrc g)) as [X|_]; [exfalso; apply NE; congruence|]. cbn [negb].
      eexists _, _. split; [reflexivity|]. split; [discriminate|]. unfold restart. rewrite TOT. split; [|split].
      + apply start_inv; auto; try lia. rewrite u32_small by lia. lia.
      + cbn [t_chg]. rewrite u32_small; lia.
      + reflexivity.
    - rewrite PV. cbn [t_chg stat0 Z.eqb]. eexists _, _. split; [reflexivity|]. split; [discriminate|]. split; [|split].
      + apply start_inv; auto; lia.
      + cbn [t_chg]. rewrite <- CHG, PV. reflexivity.
      + rewrite PV in TOT. cbn in TOT. cbn. congruence. }
  destruct ST as (s1 & r & U & NR & I1 & C1 & T1).
  assert (R1 : ana_run a (packets g) = ana_run (mkAna s1 0 0) (map (wire (g_ssrc g)) (g_rest g))).
  { unfold packets, ana_run. cbn [map fold_left]. unfold wire at 2. cbn [fst snd ana_update]. rewrite (Z.mod_small (g_first g)) by lia. rewrite U.
    destruct r; [| |contradiction]; rewrite PE, AE; reflexivity. }
  rewrite R1. destruct (rest_ok (g_ssrc g) (g_rest g) _ _ _ (mkAna s1 0 0) I1 T) as (s2 & R2 & I2 & O2). rewrite R2. cbn [a_pecount a_aecount a_stat] in *.
  assert (LO : fold_left Z.min (map fst (g_rest g)) (g_first g) = lowest (numbers g)).
  { rewrite fold_min_right. unfold lowest, numbers. cbn [hd fold_right]. pose proof (fold_min_le (map fst (g_rest g)) (g_first g)). lia. }
  assert (HI : fold_left Z.max (map fst (g_rest g)) (g_first g) = highest (numbers g)).
  { rewrite fold_max_right. unfold highest, numbers. cbn [hd fold_right]. pose proof (fold_max_ge (map fst (g_rest g)) (g_first g)). lia. }
  rewrite LO, HI in I2. destruct I2 as [C SS MX MN OF2 PC DU LN BT RG HI2 LO2 HIN JD]. destruct O2 as (B1 & B2 & B3 & B4).
  rewrite numbers_distinct in PC, DU. split.
  - constructor; cbn [a_stat a_pecount a_aecount]; auto; try lia.
    unfold totals. rewrite PC, MX, MN, DU, B2, B3, B4. injection T1 as -> -> ->.
    pose proof (distinct_pos (g_first g) (map fst (g_rest g))) as DP. fold (numbers g) in DP.
    destruct (Z.eqb_spec (distinct (numbers g)) 0) as [X|_]; [lia|].
    rewrite !u32_add_l, !u32_add_r. unfold span, copies. 
    assert (LL : length (rev (map fst (g_rest g)) ++ [g_first g]) = length (numbers g)).
    { unfold numbers. rewrite app_length, rev_length. cbn [length]. lia. } rewrite LL. reflexivity.
  - intros H. rewrite OF2. lia.
Qed.

Lemma chain_ok gs : forall a n ps pr pd prev, after a n ps pr pd prev -> l_off (t_last (a_stat a)) = 0 -> chain gs ->
  match gs with [] => True | g :: _ => prev <> Some (g_ssrc g) end -> 0 <= n -> n + Z.of_nat (length gs) < 4294967296 ->
  exists prev', after (ana_run a (flat_map packets gs)) (n + Z.of_nat (length gs)) (ps + zsum span gs) (pr + zsum (fun g => distinct (numbers g)) gs) (pd + zsum copies gs) prev'.
Proof.
  induction gs as [|g t IH]; intros a n ps pr pd prev A O C NE N L.
  - exists prev. cbn. rewrite !Z.add_0_r. exact A.
  - destruct C as (G & H & C). cbn [length] in L. destruct (segment_ok g _ _ _ _ _ _ A O G NE ltac:(lia)) as [A1 O1].
    cbn [flat_map]. unfold ana_run. rewrite fold_left_app. fold (ana_run a (packets g)). 
    destruct t as [|h t'].
    + exists (Some (g_ssrc g)). cbn [flat_map fold_left length map zsum]. rewrite !Z.add_0_r. exact A1.
    + destruct H as [NS HH]. destruct (IH _ _ _ _ _ _ A1 (O1 HH) C) as (pv & A2); [congruence|lia|lia|].
      exists pv. cbn [zsum]. cbn [zsum] in A2. rewrite !Z.add_assoc in *. replace (n + Z.of_nat (length (g :: h :: t'))) with (n + 1 + Z.of_nat (length (h :: t'))) by (cbn [length]; lia). exact A2.
Qed.

Lemma after0 : after ana0 0 0 0 0 None.
Proof. constructor; cbn; auto. Qed.

(** * Nothing is counted twice or not at all *)
Definition counted (a : ana) : Z :=
  let s := a_stat a in let '(_, pr, pd) := totals s in pr + pd + a_pecount a + a_aecount a.
Record cinv (k : Z) (a : ana) : Prop := {
  n_cnt : u32 (counted a) = u32 k;
  n_pc : 0 <= l_pcount (t_last (a_stat a));
  n_chg : 0 <= t_chg (a_stat a) <= k;
  n_pos : t_chg (a_stat a) = 0 \/ 0 < l_pcount (t_last (a_stat a));
  n_new : t_chg (a_stat a) = 0 -> l_dups (t_last (a_stat a)) = 0 /\ l_pcount (t_last (a_stat a)) = 0 }.

Lemma counted_eq a : u32 (counted a) = u32 (t_precvd (a_stat a) + t_dups (a_stat a) +
  (if l_pcount (t_last (a_stat a)) =? 0 then 0 else l_pcount (t_last (a_stat a)) + l_dups (t_last (a_stat a))) + a_pecount a + a_aecount a).
Proof. unfold counted, totals. destruct (_ =? 0); [f_equal; lia|]. unfold u32. lia. Qed.

Lemma restart_totals s chg ds rs ssrc seq rseq jd ps pr pd : totals s = (ps, pr, pd) ->
  t_precvd (restart s chg ds rs ssrc seq rseq jd) = pr /\ t_dups (restart s chg ds rs ssrc seq rseq jd) = pd /\
  t_chg (restart s chg ds rs ssrc seq rseq jd) = chg /\ l_pcount (t_last (restart s chg ds rs ssrc seq rseq jd)) = 1 /\
  l_dups (t_last (restart s chg ds rs ssrc seq rseq jd)) = 0.
Proof. intros H. unfold restart. rewrite H. auto. Qed.

(** what one update does to the counters *)
Inductive effect (s s' : stat) : rval -> Prop :=
| ef_none : t_precvd s' = t_precvd s -> t_dups s' = t_dups s -> t_chg s' = t_chg s ->
    l_pcount (t_last s') = l_pcount (t_last s) -> l_dups (t_last s') = l_dups (t_last s) -> effect s s' UPDATE_ERR
| ef_new : t_precvd s' = t_precvd s -> t_dups s' = t_dups s -> t_chg s' = t_chg s -> t_chg s <> 0 ->
    l_pcount (t_last s') = l_pcount (t_last s) + 1 -> l_dups (t_last s') = l_dups (t_last s) -> effect s s' UPDATE_OK
| ef_dup : t_precvd s' = t_precvd s -> t_dups s' = t_dups s -> t_chg s' = t_chg s -> t_chg s <> 0 ->
    l_pcount (t_last s') = l_pcount (t_last s) -> l_dups (t_last s') = u32 (l_dups (t_last s) + 1) -> effect s s' UPDATE_OK
| ef_first : t_precvd s' = t_precvd s -> t_dups s' = t_dups s -> t_chg s' = 1 -> t_chg s = 0 ->
    l_pcount (t_last s') = 1 -> l_dups (t_last s') = l_dups (t_last s) -> effect s s' UPDATE_OK
| ef_restart : forall r ps, totals s = (ps, t_precvd s', t_dups s') -> r <> UPDATE_ERR -> t_chg s <> 0 ->
    (t_chg s' = t_chg s \/ t_chg s' = u32 (t_chg s + 1)) -> l_pcount (t_last s') = 1 -> l_dups (t_last s') = 0 -> effect s s' r.

Lemma update_effect s p : effect s (fst (update s p)) (snd (update s p)).
Proof.
  unfold update. destruct (jdata_by_ssrc _ _ _) as [jd|]; [|apply ef_none; reflexivity].
  destruct (Z.eqb_spec (t_chg s) 0) as [C|C]; [apply ef_first; auto|].
  assert (R : forall chg ds rs ssrc seq rseq jd r, r <> UPDATE_ERR -> (chg = t_chg s \/ chg = u32 (t_chg s + 1)) -> effect s (restart s chg ds rs ssrc seq rseq jd) r).
  { intros chg ds rs ssrc seq rseq jd' r NR CH. destruct (totals s) as [[ps pr] pd] eqn:T.
    destruct (restart_totals s chg ds rs ssrc seq rseq jd' _ _ _ T) as (A & B & D & E & F).
    apply (ef_restart _ _ _ ps); rewrite ?A, ?B, ?D, ?E, ?F; auto. }
  destruct (negb _); [cbn [fst snd]; apply R; [discriminate|auto]|]. cbv zeta.
  destruct (p_mark p && _); [cbn [fst snd]; apply R; [discriminate|auto]|].
  match goal with |- context [let go := ?G in _] => set (go := G) end || idtac.
  assert (GO : forall seq off seen, effect s
    (fst (if marked seen seq then (mkStat (t_chg s) (t_psent s) (t_precvd s) (t_dups s) (t_desync s) (t_resets s)
                (mkLast (l_pcount (t_last s)) (l_min (t_last s)) (l_max (t_last s)) off (l_ssrc (t_last s)) seen (u32 (l_dups (t_last s) + 1)) (p_seq p)) jd, UPDATE_OK)
          else if l_max (t_last s) <=? seq then (mkStat (t_chg s) (t_psent s) (t_precvd s) (t_dups s) (t_desync s) (t_resets s)
                (mkLast (l_pcount (t_last s) + 1) (l_min (t_last s)) seq off (l_ssrc (t_last s)) (mark seen seq (p_seq p)) (l_dups (t_last s)) (p_seq p)) jd, UPDATE_OK)
          else if l_min (t_last s) <=? seq then (mkStat (t_chg s) (t_psent s) (t_precvd s) (t_dups s) (t_desync s) (t_resets s)
                (mkLast (l_pcount (t_last s) + 1) (l_min (t_last s)) (l_max (t_last s)) off (l_ssrc (t_last s)) (mark seen seq (p_seq p)) (l_dups (t_last s)) (p_seq p)) jd, UPDATE_OK)
          else if (off =? 0) && (seq <? l_min (t_last s)) then (mkStat (t_chg s) (t_psent s) (t_precvd s) (t_dups s) (t_desync s) (t_resets s)
                (mkLast (l_pcount (t_last s) + 1) seq (l_max (t_last s)) off (l_ssrc (t_last s)) (mark seen seq (p_seq p)) (l_dups (t_last s)) (p_seq p)) jd, UPDATE_OK)
          else (mkStat (t_chg s) (t_psent s) (t_precvd s) (t_dups s) (t_desync s) (t_resets s)
                (mkLast (l_pcount (t_last s)) (l_min (t_last s)) (l_max (t_last s)) off (l_ssrc (t_last s)) (mark seen seq (p_seq p)) (l_dups (t_last s)) (p_seq p)) jd, UPDATE_ERR)))
    (snd (if marked seen seq then (mkStat (t_chg s) (t_psent s) (t_precvd s) (t_dups s) (t_desync s) (t_resets s)
                (mkLast (l_pcount (t_last s)) (l_min (t_last s)) (l_max (t_last s)) off (l_ssrc (t_last s)) seen (u32 (l_dups (t_last s) + 1)) (p_seq p)) jd, UPDATE_OK)
          else if l_max (t_last s) <=? seq then (mkStat (t_chg s) (t_psent s) (t_precvd s) (t_dups s) (t_desync s) (t_resets s)
                (mkLast (l_pcount (t_last s) + 1) (l_min (t_last s)) seq off (l_ssrc (t_last s)) (mark seen seq (p_seq p)) (l_dups (t_last s)) (p_seq p)) jd, UPDATE_OK)
          else if l_min (t_last s) <=? seq then (mkStat (t_chg s) (t_psent s) (t_precvd s) (t_dups s) (t_desync s) (t_resets s)
                (mkLast (l_pcount (t_last s) + 1) (l_min (t_last s)) (l_max (t_last s)) off (l_ssrc (t_last s)) (mark seen seq (p_seq p)) (l_dups (t_last s)) (p_seq p)) jd, UPDATE_OK)
          else if (off =? 0) && (seq <? l_min (t_last s)) then (mkStat (t_chg s) (t_psent s) (t_precvd s) (t_dups s) (t_desync s) (t_resets s)
                (mkLast (l_pcount (t_last s) + 1) seq (l_max (t_last s)) off (l_ssrc (t_last s)) (mark seen seq (p_seq p)) (l_dups (t_last s)) (p_seq p)) jd, UPDATE_OK)
          else (mkStat (t_chg s) (t_psent s) (t_precvd s) (t_dups s) (t_desync s) (t_resets s)
                (mkLast (l_pcount (t_last s)) (l_min (t_last s)) (l_max (t_last s)) off (l_ssrc (t_last s)) (mark seen seq (p_seq p)) (l_dups (t_last s)) (p_seq p)) jd, UPDATE_ERR)))).
  { intros seq off seen. destruct (marked seen seq); [apply ef_dup; auto|]. destruct (_ <=? seq); [apply ef_new; auto|].
    destruct (_ <=? seq); [apply ef_new; auto|]. destruct (_ && _); [apply ef_new; auto|apply ef_none; auto]. }
  destruct ((_ <? 536) && _); [apply GO|]. destruct (_ && _); [apply GO|]. destruct (_ || _); [cbn [fst snd]; apply R; [discriminate|auto]|apply GO].
Qed.

Lemma u32_ex x : exists q, u32 x = x + 4294967296 * q.
Proof. exists (- (x / 4294967296)). unfold u32. pose proof (Z.div_mod x 4294967296). lia. Qed.
Lemma u32_cong x y : (exists q, x = y + 4294967296 * q) -> u32 x = u32 y.
Proof. intros [q ->]. unfold u32. rewrite Z.mul_comm. apply Z_mod_plus_full. Qed.
Lemma u32_cong_inv x y : u32 x = u32 y -> exists q, x = y + 4294967296 * q.
Proof. intros H. destruct (u32_ex x) as [a A], (u32_ex y) as [b B]. exists (b - a). lia. Qed.

Lemma step_counted k a p : cinv k a -> 0 <= k < 4294967295 -> cinv (k + 1) (ana_update a p).
Proof.
  intros [CN PC CH PO NW] K. rewrite counted_eq in CN. apply u32_cong_inv in CN. destruct CN as [q CN]. destruct p as [p|].
  2:{ unfold ana_update. constructor; cbn [a_stat]; auto; [|lia]. rewrite counted_eq in *. cbn [a_stat a_pecount a_aecount].
      destruct (u32_ex (a_pecount a + 1)) as [q1 ->]. apply u32_cong. exists (q + q1). lia. }
  cbn [ana_update]. pose proof (update_effect (a_stat a) p) as E. destruct (update (a_stat a) p) as [s' r]. cbn [fst snd] in E.
  destruct E as [A B C D F|A B C C0 D F|A B C C0 D F|A B C C0 D F|r ps T NR C0 C D F]; try (destruct PO as [PO|PO]; [lia|]).
  - constructor; rewrite ?counted_eq; cbn [a_stat a_pecount a_aecount]; rewrite ?A, ?B, ?C, ?D, ?F; auto; try lia.
    destruct (u32_ex (a_aecount a + 1)) as [q1 ->]. apply u32_cong. exists (q + q1). lia.
  - constructor; rewrite ?counted_eq; cbn [a_stat a_pecount a_aecount]; rewrite ?A, ?B, ?C, ?D, ?F; auto; try lia.
    apply u32_cong. exists q. destruct (Z.eqb_spec (l_pcount (t_last (a_stat a)) + 1) 0); [lia|]. destruct (Z.eqb_spec (l_pcount (t_last (a_stat a))) 0); lia.
  - constructor; rewrite ?counted_eq; cbn [a_stat a_pecount a_aecount]; rewrite ?A, ?B, ?C, ?D, ?F; auto; try lia.
    destruct (u32_ex (l_dups (t_last (a_stat a)) + 1)) as [q1 ->]. apply u32_cong. exists (q + q1). destruct (Z.eqb_spec (l_pcount (t_last (a_stat a))) 0); lia.
  - destruct (NW C0) as [N1 N2]. rewrite N2 in *.
    constructor; rewrite ?counted_eq; cbn [a_stat a_pecount a_aecount]; rewrite ?A, ?B, ?C, ?D, ?F; auto; try lia.
    apply u32_cong. exists q. rewrite N1. change (1 =? 0) with false. change (0 =? 0) with true in CN. cbv iota in *. lia.
  - assert (G : cinv (k + 1) (mkAna s' (a_pecount a) (a_aecount a))).
    { constructor; rewrite ?counted_eq; cbn [a_stat a_pecount a_aecount]; rewrite ?D, ?F; auto; try lia.
      - unfold totals in T. destruct (Z.eqb_spec (l_pcount (t_last (a_stat a))) 0); [lia|]. injection T as T1 T2 T3. rewrite <- T2, <- T3.
        destruct (u32_ex (t_precvd (a_stat a) + l_pcount (t_last (a_stat a)))) as [q1 ->], (u32_ex (t_dups (a_stat a) + l_dups (t_last (a_stat a)))) as [q2 ->].
        apply u32_cong. exists (q + q1 + q2). change (1 =? 0) with false. cbv iota. lia.
      - destruct C as [C|C]; rewrite C; [lia|]. rewrite u32_small; lia.
      - destruct C as [C|C]; rewrite C; [lia|]. rewrite u32_small; lia. }
    destruct r; [exact G|exact G|contradiction].
Qed.

Lemma run_counted ps : forall k a, cinv k a -> 0 <= k -> k + Z.of_nat (length ps) < 4294967296 -> cinv (k + Z.of_nat (length ps)) (ana_run a ps).
Proof.
  induction ps as [|p t IH]; intros k a I K L; cbn [length] in *; [rewrite Z.add_0_r; exact I|].
  replace (k + Z.of_nat (S (length t))) with (k + 1 + Z.of_nat (length t)) by lia. apply IH; [apply step_counted; [exact I|lia]|lia|lia].
Qed.
Lemma cinv0 : cinv 0 ana0.
Proof. constructor; cbn; auto; lia. Qed.

(** * The per-SSRC jitter records *)
Lemma removelast_incl {A} (l : list A) x : In x (removelast l) -> In x l.
Proof. induction l as [|a [|b t] IH]; cbn [removelast]; intros H; [destruct H|destruct H|]. destruct H as [->|H]; [left; reflexivity|right; apply IH; exact H]. Qed.
Lemma removelast_nodup {A} (l : list A) : NoDup l -> NoDup (removelast l).
Proof.
  induction l as [|a [|b t] IH]; intros H; cbn [removelast]; [constructor|constructor|]. inversion H; subst. constructor; [|apply IH; assumption].
  intros K. apply (removelast_incl (b :: t)) in K. contradiction.
Qed.
Lemma removelast_len {A} (l : list A) : length (removelast l) = pred (length l).
Proof. induction l as [|a [|b t] IH]; cbn [removelast length pred] in *; auto. Qed.
Lemma jd_step jd ssrc m : NoDup jd -> (length jd <= 10)%nat ->
  match jdata_by_ssrc jd ssrc m with Some jd' => NoDup jd' /\ (length jd' <= 10)%nat /\ In ssrc jd' | None => True end.
Proof.
  intros N L. unfold jdata_by_ssrc. destruct jd as [|x t].
  - split; [repeat constructor; auto|]. cbn. split; [lia|auto].
  - destruct (existsb _ _) eqn:E.
    + apply existsb_exists in E. destruct E as (y & Y & Q). apply Z.eqb_eq in Q. subst y. auto.
    + assert (NI : ~ In ssrc (x :: t)). { intros H. rewrite (existsb_in _ _ H) in E. discriminate. }
      destruct (Nat.eqb_spec (length (x :: t)) JDATA_MAX) as [M|M].
      * split; [constructor; [intros H; apply removelast_incl in H; contradiction|apply removelast_nodup; exact N]|]. split; [|left; reflexivity].
        cbn [length]. rewrite removelast_len. unfold JDATA_MAX in M. lia.
      * destruct m; [|exact I]. split; [constructor; assumption|]. split; [|left; reflexivity]. unfold JDATA_MAX in M. cbn [length] in *. lia.
Qed.

Lemma update_jd s p : t_jd (fst (update s p)) = match jdata_by_ssrc (t_jd s) (p_ssrc p) (p_mem p) with Some jd' => jd' | None => t_jd s end.
Proof.
  unfold update. destruct (jdata_by_ssrc _ _ _) as [jd|]; [|reflexivity]. cbv zeta.
  assert (R : forall chg ds rs ssrc seq rseq, t_jd (restart s chg ds rs ssrc seq rseq jd) = jd).
  { intros. unfold restart. destruct (totals s) as [[? ?] ?]. reflexivity. }
  repeat match goal with |- context [if ?b then _ else _] => destruct b end; cbn [fst t_jd]; auto.
Qed.
Lemma jd_run_ok ps : forall a, NoDup (t_jd (a_stat a)) -> (length (t_jd (a_stat a)) <= 10)%nat ->
  NoDup (t_jd (a_stat (ana_run a ps))) /\ (length (t_jd (a_stat (ana_run a ps))) <= 10)%nat.
Proof.
  induction ps as [|p t IH]; intros a N L; [auto|]. change (ana_run a (p :: t)) with (ana_run (ana_update a p) t).
  assert (K : NoDup (t_jd (a_stat (ana_update a p))) /\ (length (t_jd (a_stat (ana_update a p))) <= 10)%nat).
  { destruct p as [p|]; [|auto]. cbn [ana_update].

    assert (Q' : t_jd (a_stat (match update (a_stat a) p with (s, UPDATE_ERR) => mkAna s (a_pecount a) (u32 (a_aecount a + 1)) | (s, _) => mkAna s (a_pecount a) (a_aecount a) end)) = t_jd (fst (update (a_stat a) p))).
    { destruct (update (a_stat a) p) as [s r]; destruct r; reflexivity. }
    rewrite Q', update_jd. pose proof (jd_step (t_jd (a_stat a)) (p_ssrc p) (p_mem p) N L) as J. destruct (jdata_by_ssrc _ _ _); [tauto|auto]. }
  destruct K. apply IH; assumption.
Qed.

(** a checker for examples *)
Fixpoint toleratedb (lo hi : Z) (l : list (Z * bool)) : bool :=
  match l with
  | [] => true
  | (e, m) :: r => (hi - 535 <=? e) && (e <=? hi + 535) && (0 <=? e) && (e <? 4294901760) && ((lo <=? e) || (hi <? 65536)) &&
      (negb m || (hi <=? e) && ((e / 65536 =? hi / 65536) || (hi mod 65536 =? 65535))) && toleratedb (Z.min lo e) (Z.max hi e) r
  end.
Lemma toleratedb_ok l : forall a b, toleratedb a b l = true -> tolerated a b l.
Proof.
  induction l as [|[e m] r IH]; intros a b H; cbn [tolerated toleratedb] in *; [exact I|]. rewrite !andb_true_iff in H. destruct H as ((((((A & B) & C) & E) & F) & G) & H).
  split; [lia|]. split; [lia|]. split; [lia|]. split; [|apply IH; exact H]. intros ->. cbn [negb orb] in G. lia.
Qed.
