From Verif Require Import Base MallModel MallSpec.

Lemma land_pow x k : 0 <= k -> Z.land x (2 ^ k - 1) = x mod 2 ^ k.
Proof. intros H. rewrite <- Z.land_ones by exact H. now rewrite Z.ones_equiv, Z.sub_1_r. Qed.

Lemma pad_spec oalign msize : power_of_2 oalign -> 0 <= msize -> 0 <= pad_size oalign msize < oalign /\ (msize + pad_size oalign msize) mod oalign = 0.
Proof.
  intros (k & Hk & ->) Hm. unfold pad_size. rewrite !land_pow by lia.
  assert (P : 0 < 2 ^ k) by (apply Z.pow_pos_nonneg; lia). assert (Q : 2 ^ k < 2 ^ 64) by (apply Z.pow_lt_mono_r; lia).
  pose proof (Z.mod_pos_bound msize (2 ^ k) P) as B. assert (U : u64 (2 ^ k - msize mod 2 ^ k) = 2 ^ k - msize mod 2 ^ k).
  { unfold u64. apply Z.mod_small. lia. }
  rewrite U. split; [apply Z.mod_pos_bound, P|]. rewrite Zplus_mod_idemp_r.
  replace (msize + (2 ^ k - msize mod 2 ^ k)) with ((msize / 2 ^ k + 1) * 2 ^ k); [apply Z.mod_mul; lia|].
  rewrite (Z.mod_eq msize (2 ^ k)) by lia. lia.
Qed.
Lemma asize_spec oalign osize msize : power_of_2 oalign -> 0 <= msize -> 0 <= osize -> msize + oalign + osize <= 2 ^ 64 ->
  asize oalign osize msize = msize + pad_size oalign msize + osize.
Proof. intros A M O L. pose proof (pad_spec oalign msize A M) as [P _]. unfold asize, u64. apply Z.mod_small. lia. Qed.

Lemma aligned_mod oalign p : power_of_2 oalign -> p mod (if oalign <? 8 then 8 else oalign) = 0 -> p mod oalign = 0.
Proof.
  intros (k & Hk & ->) H. destruct (Z.ltb_spec (2 ^ k) 8) as [L|L]; [|exact H].
  assert (K : k < 3) by (apply (Z.pow_lt_mono_r_iff 2); lia). apply Z.mod_divide; [apply Z.pow_nonzero; lia|].
  apply (Z.divide_trans _ 8); [|apply Z.mod_divide; [lia | exact H]]. exists (2 ^ (3 - k)). rewrite <- Z.pow_add_r by lia. now replace (3 - k + k) with 3 by lia.
Qed.

Lemma zero_in a n m x : a <= x < a + n -> zero a n m x = 0.
Proof. intros H. unfold zero. replace (a <=? x) with true by lia. now replace (x <? a + n) with true by lia. Qed.
Lemma zero_out a n m x : ~ (a <= x < a + n) -> zero a n m x = m x.
Proof. intros H. unfold zero. destruct (Z.leb_spec a x), (Z.ltb_spec x (a + n)); cbn [andb]; try reflexivity. lia. Qed.
Lemma store_in a v m x : a <= x < a + 8 -> store a v m x = v.
Proof. intros H. unfold store. replace (a <=? x) with true by lia. now replace (x <? a + 8) with true by lia. Qed.
Lemma store_out a v m x : ~ (a <= x < a + 8) -> store a v m x = m x.
Proof. intros H. unfold store. destruct (Z.leb_spec a x), (Z.ltb_spec x (a + 8)); cbn [andb]; try reflexivity. lia. Qed.

Lemma laid oalign osize msize offs (given : Z -> Z -> Prop) p m :
  power_of_2 oalign -> 0 <= osize -> 0 <= offs -> offs + 8 <= msize -> msize + oalign + osize <= 2 ^ 64 ->
  p mod (if oalign <? 8 then 8 else oalign) = 0 -> given p (asize oalign osize msize) ->
  (forall x, p + msize + pad_size oalign msize <= x < p + msize + pad_size oalign msize + osize -> m x = 0) ->
  laid_out oalign osize msize offs given (store (p + offs) (p + msize + pad_size oalign msize) m) (Object p (p + msize + pad_size oalign msize)).
Proof.
  intros A O F M L P G Z0. pose proof (pad_spec oalign msize A ltac:(lia)) as [B C]. pose proof (aligned_mod _ _ A P) as D.
  assert (PA : 0 < oalign) by lia.
  split; cbn [o_ptr o_cnt].
  - exact D.
  - rewrite <- Z.add_assoc, Z.add_mod, D, C by lia. now rewrite Z.mod_0_l by lia.
  - lia.
  - exists (asize oalign osize msize). split; [exact G|]. rewrite asize_spec by (assumption || lia). lia.
  - intros x X. apply store_in. exact X.
  - intros x X. rewrite store_out by lia. apply Z0. exact X.
Qed.
