(** Proofs about the counters. *)
From Verif Require Import Base StatsModel StatsSpec.

Definition bytesb (tb : list Z) : Prop := length tb = 256%nat /\ Forall (fun v => 0 <= v < 256) tb.
Lemma zero_bytes : bytesb zero256.
Proof. split; [reflexivity|]. apply Forall_forall. intros x H. apply repeat_spec in H. lia. Qed.
Lemma upd_forall {A} (P : A -> Prop) l : forall i x, Forall P l -> P x -> Forall P (upd l i x).
Proof. induction l as [|h t IH]; intros [|i] x F Px; cbn; inversion F; subst; constructor; auto. Qed.
Lemma fill_bytes rs : forall i tb tb' rs', 1 <= i <= 256 -> bytesb tb -> fill rs i tb = Some (tb', rs') -> bytesb tb'.
Proof.
  induction rs as [|r rs IH]; intros i tb tb' rs' Hi B; cbn [fill]; destruct (Z.eqb_spec i 256) as [E|N].
  - intros [= <- _]. assumption.
  - discriminate.
  - intros [= <- _]. assumption.
  - cbv zeta. destruct (_ =? 0); [|apply IH; auto]. apply IH; [lia|]. destruct B as [L F]. split; [rewrite upd_length; assumption|].
    apply upd_forall; [assumption|lia].
Qed.
Lemma lxor_byte a b : 0 <= a < 256 -> 0 <= b < 256 -> 0 <= Z.lxor a b < 256.
Proof.
  intros A B. split; [apply Z.lxor_nonneg; lia|]. destruct (Z.eq_dec (Z.lxor a b) 0) as [->|N]; [lia|].
  assert (P : 0 < Z.lxor a b) by (pose proof (proj2 (Z.lxor_nonneg a b)); lia).
  change 256 with (2 ^ 8). apply Z.log2_lt_pow2; [assumption|]. eapply Z.le_lt_trans; [apply Z.log2_lxor; lia|].
  apply Z.max_lub_lt; destruct (Z.eq_dec a 0) as [->|]; destruct (Z.eq_dec b 0) as [->|]; try (cbn; lia); apply Z.log2_lt_pow2; lia.
Qed.
Lemma nth_byte tb i : bytesb tb -> 0 <= nth i tb 0 < 256.
Proof.
  intros [L F]. destruct (Nat.lt_ge_cases i (length tb)); [|rewrite nth_overflow by assumption; lia].
  rewrite Forall_forall in F. apply F. apply nth_In. assumption.
Qed.
Lemma hash_byte tb s : bytesb tb -> 0 <= hash8 tb s < 256.
Proof.
  intros B. unfold hash8. pose proof (nth_byte tb 0 B) as H. revert H. generalize (nth 0 tb 0). induction s as [|c s IH]; intros v H; cbn [fold_left]; [assumption|].
  apply IH. apply nth_byte. assumption.
Qed.

(** What [place] leaves behind *)
Lemma place_keep tb names : forall i om om' h, bytesb tb -> 0 <= i -> place tb names i om = Some om' -> nth h om 0 <> 0 -> nth h om' 0 = nth h om 0.
Proof.
  induction names as [|s names IH]; intros i om om' h B Hi; cbn [place]; [intros [= <-]; auto|]. cbv zeta.
  destruct (Z.eqb_spec (nth (Z.to_nat (hash8 tb s)) om 0) 0) as [E|N]; [|discriminate]. intros P H.
  assert (h <> Z.to_nat (hash8 tb s)) by congruence.
  rewrite (IH (i + 1) _ _ h B ltac:(lia) P); rewrite nth_upd_other by congruence; auto.
Qed.
Lemma place_at tb names : forall i om om' j s, bytesb tb -> length om = 256%nat -> 0 <= i -> i + Z.of_nat (length names) <= 255 ->
  place tb names i om = Some om' -> nth_error names j = Some s -> nth (Z.to_nat (hash8 tb s)) om' 0 = i + Z.of_nat j + 1.
Proof.
  induction names as [|s0 names IH]; intros i om om' j s B L Hi Hl; [destruct j; discriminate|]. cbn [place length] in *. cbv zeta.
  destruct (Z.eqb_spec (nth (Z.to_nat (hash8 tb s0)) om 0) 0) as [E|N]; [|discriminate]. intros P. destruct j as [|j]; cbn [nth_error].
  - intros [= <-]. pose proof (hash_byte tb s0 B).
    assert (X : nth (Z.to_nat (hash8 tb s0)) (upd om (Z.to_nat (hash8 tb s0)) ((i + 1) mod 256)) 0 = (i + 1) mod 256) by (apply nth_upd_same; lia).
    assert (M : (i + 1) mod 256 = i + 1) by (apply Z.mod_small; lia).
    rewrite (place_keep _ _ (i + 1) _ _ (Z.to_nat (hash8 tb s0)) B ltac:(lia) P) by lia. lia.
  - intros H. rewrite (IH (i + 1) (upd om (Z.to_nat (hash8 tb s0)) ((i + 1) mod 256)) om' j s); auto; rewrite ?upd_length; lia.
Qed.
Lemma place_range tb names : forall i om om' h, 0 <= i -> i + Z.of_nat (length names) <= 255 -> place tb names i om = Some om' ->
  (forall k, 0 <= nth k om 0 <= i) -> 0 <= nth h om' 0 <= i + Z.of_nat (length names).
Proof.
  induction names as [|s0 names IH]; intros i om om' h Hi Hl; cbn [place length] in *; [intros [= <-] H; specialize (H h); lia|]. cbv zeta.
  destruct (_ =? 0); [|discriminate]. intros P H. specialize (IH (i + 1) _ _ h ltac:(lia) ltac:(lia) P).
  assert (0 <= nth h om' 0 <= i + 1 + Z.of_nat (length names)); [|lia]. apply IH. intros k.
  assert (M : (i + 1) mod 256 = i + 1) by (apply Z.mod_small; lia). rewrite M.
  destruct (Nat.eq_dec (Z.to_nat (hash8 tb s0)) k) as [<-|Nk]; [|rewrite nth_upd_other by assumption; specialize (H k); lia].
  destruct (Nat.lt_ge_cases (Z.to_nat (hash8 tb s0)) (length om)); [rewrite nth_upd_same by assumption; lia|]. rewrite upd_out by lia.
  specialize (H (Z.to_nat (hash8 tb s0))). lia.
Qed.

Definition good (r : rppp) : Prop := exists om0, bytesb (rp r) /\ om0 = zero256 /\ place (rp r) (gv r) 0 om0 = Some (omap r).
Lemma ctor_good tries : forall rs names r, ctor tries rs names = Some r -> gv r = names /\ good r.
Proof.
  induction tries as [|tries IH]; intros rs names r; cbn [ctor]; [discriminate|]. destruct (shuffle rs) as [[tb rs']|] eqn:S; [|discriminate].
  unfold shuffle in S. apply fill_bytes in S; [|lia|apply zero_bytes]. destruct (place tb names 0 zero256) as [om|] eqn:P; [|apply IH].
  intros [= <-]. split; [reflexivity|]. exists zero256. auto.
Qed.
Lemma zero_nth k : nth k zero256 0 = 0.
Proof.
  destruct (Nat.lt_ge_cases k (length zero256)) as [L|L]; [|apply nth_overflow; assumption].
  apply (repeat_spec 256). apply nth_In. assumption.
Qed.

Lemma streq_spec a b : streq a b = true <-> a = b.
Proof. unfold streq. destruct (list_eq_dec Z.eq_dec a b); split; auto; discriminate. Qed.
Lemma lookup_in r i s : good r -> (length (gv r) <= 255)%nat -> nth_error (gv r) i = Some s -> lookup r s = Z.of_nat i.
Proof.
  intros (om0 & B & -> & P) L H. unfold lookup. rewrite (place_at (rp r) (gv r) 0 zero256 (omap r) i s B (proj1 zero_bytes) ltac:(lia) ltac:(lia) P H). cbv zeta.
  replace (0 + Z.of_nat i + 1 - 1) with (Z.of_nat i) by lia. destruct (Z.eqb_spec (Z.of_nat i) (-1)); [lia|].
  rewrite Nat2Z.id, (nth_error_nth _ _ _ H). rewrite (proj2 (streq_spec s s) eq_refl). reflexivity.
Qed.
Lemma lookup_out r s : good r -> (length (gv r) <= 255)%nat -> ~ In s (gv r) -> lookup r s = -1.
Proof.
  intros (om0 & B & -> & P) L H. unfold lookup. cbv zeta.
  pose proof (place_range (rp r) (gv r) 0 zero256 (omap r) (Z.to_nat (hash8 (rp r) s)) ltac:(lia) ltac:(lia) P) as G. specialize (G ltac:(intros k; rewrite zero_nth; lia)).
  set (v := nth (Z.to_nat (hash8 (rp r) s)) (omap r) 0) in *. destruct (Z.eqb_spec (v - 1) (-1)); [reflexivity|].
  destruct (streq s (nth (Z.to_nat (v - 1)) (gv r) [])) eqn:E; [|reflexivity]. apply streq_spec in E. exfalso. apply H. rewrite E. apply nth_In. lia.
Qed.
Lemma good_nodup r : good r -> (length (gv r) <= 255)%nat -> NoDup (gv r).
Proof.
  intros G L. apply NoDup_nth_error. intros i j Hi E. destruct (nth_error (gv r) i) as [s|] eqn:I; [|apply nth_error_None in I; lia].
  symmetry in E. pose proof (lookup_in r i s G L I). pose proof (lookup_in r j s G L E). lia.
Qed.
Lemma index_of_range names s : -1 <= index_of names s < Z.of_nat (length names).
Proof.
  induction names as [|x names IH]; cbn [index_of length]; [lia|]. destruct (list_eq_dec Z.eq_dec x s); [lia|].
  destruct (index_of names s) as [|p|p]; [lia|lia|]. destruct p; lia.
Qed.
Lemma index_of_in names s : In s names -> exists i, nth_error names i = Some s /\ index_of names s = Z.of_nat i.
Proof.
  induction names as [|x names IH]; cbn [In index_of]; [tauto|]. intros H. destruct (list_eq_dec Z.eq_dec x s) as [->|N]; [exists 0%nat; auto|].
  destruct H as [H|H]; [congruence|]. destruct (IH H) as (i & A & B). exists (S i). split; [assumption|]. rewrite B. destruct i; cbn; lia.
Qed.
Lemma index_of_out names s : ~ In s names -> index_of names s = -1.
Proof.
  induction names as [|x names IH]; cbn [In index_of]; auto. intros H. destruct (list_eq_dec Z.eq_dec x s) as [->|N]; [tauto|]. rewrite IH by tauto. reflexivity.
Qed.
Lemma lookup_index r s : good r -> (length (gv r) <= 255)%nat -> lookup r s = index_of (gv r) s.
Proof.
  intros G L. destruct (in_dec (list_eq_dec Z.eq_dec) s (gv r)) as [I|I].
  - destruct (index_of_in _ _ I) as (i & A & B). rewrite B. apply lookup_in; assumption.
  - rewrite index_of_out, lookup_out by assumption. reflexivity.
Qed.

(** ** Values *)
Lemma upd_int_nth s idx f i : (i < length s)%nat -> nth i (fst (upd_int s idx f)) 0 = if idx =? Z.of_nat i then f (nth i s 0) else nth i s 0.
Proof.
  intros L. unfold upd_int. destruct (Z.ltb_spec idx 0), (Z.leb_spec (Z.of_nat (length s)) idx); cbn [orb fst]; destruct (Z.eqb_spec idx (Z.of_nat i)); try lia; auto.
  - subst idx. rewrite Nat2Z.id. apply nth_upd_same. assumption.
  - apply nth_upd_other. lia.
Qed.
Lemma upd_int_length s idx f : length (fst (upd_int s idx f)) = length s.
Proof. unfold upd_int. destruct (_ || _); cbn; [reflexivity|apply upd_length]. Qed.
Lemma step_length dadd r s x : length (fst (step dadd r s x)) = length s.
Proof. destruct x; apply upd_int_length. Qed.
Lemma step_nth dadd r s x i : good r -> (length (gv r) <= 255)%nat -> (i < length s)%nat ->
  nth i (fst (step dadd r s x)) 0 = if target (gv r) x =? Z.of_nat i then (if is_double x then dadd (nth i s 0) (amount x) else u64 (nth i s 0 + amount x)) else nth i s 0.
Proof.
  intros G L Hi. destruct x as [idx n|nm n|nm d]; cbn [step target amount is_double]; rewrite upd_int_nth by assumption; rewrite ?lookup_index by assumption; reflexivity.
Qed.
Lemma run_u64 dadd r i xs : forall s, good r -> (length (gv r) <= 255)%nat -> (i < length s)%nat ->
  (forall x, In x xs -> target (gv r) x = Z.of_nat i -> is_double x = false) ->
  u64 (nth i (run dadd r s xs) 0) = u64 (nth i s 0 + fold_right Z.add 0 (amounts (gv r) (Z.of_nat i) xs)).
Proof.
  induction xs as [|x xs IH]; intros s G L Hi H; cbn [run]; [unfold amounts; cbn; f_equal; lia|].
  rewrite IH; auto; [|rewrite step_length; assumption|intros y Hy; apply H; cbn; auto].
  rewrite step_nth by assumption. unfold amounts. cbn [filter]. destruct (Z.eqb_spec (target (gv r) x) (Z.of_nat i)) as [E|N]; [|reflexivity].
  rewrite (H x) by (cbn; auto). cbn [map fold_right]. unfold u64. rewrite Z.add_mod_idemp_l by lia. f_equal. lia.
Qed.
Lemma run_range dadd r i xs : forall s, good r -> (length (gv r) <= 255)%nat -> (i < length s)%nat ->
  (forall x, In x xs -> target (gv r) x = Z.of_nat i -> is_double x = false) -> 0 <= nth i s 0 < 18446744073709551616 ->
  0 <= nth i (run dadd r s xs) 0 < 18446744073709551616.
Proof.
  induction xs as [|x xs IH]; intros s G L Hi H R; cbn [run]; [assumption|]. apply IH; auto; [rewrite step_length; assumption|intros y Hy; apply H; cbn; auto|].
  rewrite step_nth by assumption. destruct (Z.eqb_spec (target (gv r) x) (Z.of_nat i)) as [E|N]; [|assumption]. rewrite (H x) by (cbn; auto). apply u64_range.
Qed.
Lemma run_dbl dadd r i xs : forall s, good r -> (length (gv r) <= 255)%nat -> (i < length s)%nat ->
  (forall x, In x xs -> target (gv r) x = Z.of_nat i -> is_double x = true) ->
  nth i (run dadd r s xs) 0 = fold_left dadd (amounts (gv r) (Z.of_nat i) xs) (nth i s 0).
Proof.
  induction xs as [|x xs IH]; intros s G L Hi H; cbn [run]; [reflexivity|].
  rewrite IH; auto; [|rewrite step_length; assumption|intros y Hy; apply H; cbn; auto].
  rewrite step_nth by assumption. unfold amounts. cbn [filter]. destruct (Z.eqb_spec (target (gv r) x) (Z.of_nat i)) as [E|N]; [|reflexivity].
  rewrite (H x) by (cbn; auto). reflexivity.
Qed.
Lemma init_nth names i : nth i (init names) 0 = 0.
Proof. unfold init. revert i. induction names as [|x names IH]; intros [|i]; cbn; auto. Qed.
