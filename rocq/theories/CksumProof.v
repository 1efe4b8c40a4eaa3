From Verif Require Import Base CksumModel CksumSpec.

Fixpoint le_sum (l : list Z) : Z :=
  match l with a :: b :: t => ld16 a b + le_sum t | [a] => a | [] => 0 end.
Fixpoint be_sum (l : list Z) : Z :=
  match l with a :: b :: t => 256 * a + b + be_sum t | [a] => 256 * a | [] => 0 end.

Lemma list_ind2 {A} (P : list A -> Prop) :
  P [] -> (forall a, P [a]) -> (forall a b t, P t -> P (a :: b :: t)) -> forall l, P l.
Proof.
  intros H0 H1 H2 l. enough (P l /\ forall a, P (a :: l)) by tauto.
  induction l as [|x l [IH1 IH2]]; split; auto.
Qed.

Lemma bytes_app l1 l2 : bytes (l1 ++ l2) <-> bytes l1 /\ bytes l2.
Proof. apply Forall_app. Qed.

Lemma le_nonneg l : bytes l -> 0 <= le_sum l.
Proof.
  unfold bytes, ld16. induction l as [|a|a b t IH] using list_ind2; intros H; cbn [le_sum]; unfold ld16; [lia| |].
  - inversion H; subst. lia.
  - inversion H as [|? ? ? H' ]; subst. inversion H'; subst. specialize (IH ltac:(assumption)). lia.
Qed.
Lemma le_bound l : bytes l -> 2 * le_sum l <= 65535 * (Z.of_nat (length l) + 1).
Proof.
  unfold bytes, ld16. induction l as [|a|a b t IH] using list_ind2; intros H; cbn [le_sum length]; unfold ld16; [lia| |].
  - inversion H; subst. lia.
  - inversion H as [|? ? ? H' ]; subst. inversion H'; subst. specialize (IH ltac:(assumption)). lia.
Qed.

Lemma even_app_le l1 l2 : Nat.even (length l1) = true -> le_sum (l1 ++ l2) = le_sum l1 + le_sum l2.
Proof.
  induction l1 as [|a|a b t IH] using list_ind2; intros H; cbn [le_sum app length] in *; [lia| |].
  - discriminate.
  - rewrite IH; [lia|]. exact H.
Qed.

Lemma even_app_len {A} (l1 l2 : list A) : Nat.even (length l1) = true -> Nat.even (length l2) = true ->
  Nat.even (length (l1 ++ l2)) = true.
Proof. intros H1 H2. rewrite app_length, Nat.even_add, H1, H2. reflexivity. Qed.

Lemma be_le l : exists k, 256 * be_sum l - le_sum l = 65535 * k.
Proof.
  induction l as [|a|a b t [k IH]] using list_ind2; cbn [be_sum le_sum]; unfold ld16.
  - exists 0. lia.
  - exists a. lia.
  - exists (k + a). lia.
Qed.
Lemma be_pos l : bytes l -> 0 < le_sum l -> 0 < be_sum l.
Proof.
  enough (bytes l -> 0 <= be_sum l /\ (0 < le_sum l -> 0 < be_sum l)) by tauto.
  unfold bytes, ld16. induction l as [|a|a b t IH] using list_ind2; intros H; cbn [le_sum be_sum]; unfold ld16; [lia| |].
  - inversion H; subst. lia.
  - inversion H as [|? ? ? H' ]; subst. inversion H'; subst. specialize (IH ltac:(assumption)).
    assert (0 <= le_sum t) by (apply le_nonneg; assumption). lia.
Qed.

Lemma oc_be l : bytes l ->
  0 <= oc_sum l <= 65535 /\ (exists k, be_sum l - oc_sum l = 65535 * k) /\ (0 < be_sum l -> 0 < oc_sum l).
Proof.
  unfold bytes. induction l as [|a|a b t IH] using list_ind2; intros H; cbn [oc_sum be_sum].
  - split; [lia|]. split; [exists 0; lia|lia].
  - inversion H; subst. split; [lia|]. split; [exists 0; lia|lia].
  - inversion H as [|? ? ? H' ]; subst. inversion H'; subst.
    specialize (IH ltac:(assumption)). destruct IH as (Hr & (k & Hk) & Hp).
    unfold oc_add. cbv zeta. destruct (Z.ltb_spec (256 * a + b + oc_sum t) 65536).
    + split; [lia|]. split; [exists k; lia|lia].
    + split; [lia|]. split; [exists (k + 1); lia|lia].
Qed.

Lemma verifies_le l : bytes l -> 0 < le_sum l -> (exists k, le_sum l = 65535 * k) -> verifies l.
Proof.
  intros B P [k Hk]. unfold verifies.
  destruct (oc_be l B) as (Hr & (k1 & Hk1) & Hp). destruct (be_le l) as (k2 & Hk2).
  pose proof (be_pos l B P). specialize (Hp ltac:(assumption)).
  assert (256 * oc_sum l = 65535 * (k + k2 - 256 * k1)) by lia.
  set (q := k + k2 - 256 * k1) in *. assert (0 < q <= 256) by lia.
  (* 65535 q divisible by 256 *)
  assert (Hj' : exists j, q = 256 * j). { exists (256 * q - oc_sum l). lia. }
  destruct Hj' as [j Hj]. assert (j = 1) by lia. lia.
Qed.

Lemma in_loop_sum odd l : bytes l -> forall s, 0 <= s -> s + le_sum l < 2147483648 -> in_loop odd l s = Some (s + le_sum l).
Proof.
  unfold bytes. induction l as [|a|a b t IH] using list_ind2; intros H s Hs Hb; cbn [in_loop le_sum] in *.
  - f_equal; lia.
  - inversion H; subst. unfold add_int. destruct (Z.ltb_spec (s + a) 2147483648); [reflexivity|lia].
  - inversion H as [|? ? ? H' ]; subst. inversion H' as [|? ? ? H'']; subst.
    pose proof (le_nonneg t H''). unfold ld16 in *. destruct odd; unfold add_int.
    + destruct (Z.ltb_spec (s + a) 2147483648); [|lia].
      destruct (Z.ltb_spec (s + a + b * 256) 2147483648); [|lia]. rewrite IH; try assumption; try lia. f_equal; lia.
    + destruct (Z.ltb_spec (s + (a + 256 * b)) 2147483648); [|lia]. rewrite IH; try assumption; try lia. f_equal; lia.
Qed.

Lemma ck_update_sum l : bytes l -> forall s, 0 <= s -> s + le_sum l < 4294967296 -> ck_update l s = s + le_sum l.
Proof.
  unfold bytes. induction l as [|a|a b t IH] using list_ind2; intros H s Hs Hb; cbn [ck_update le_sum] in *.
  - lia.
  - inversion H; subst. unfold ld16. rewrite u32_small; lia.
  - inversion H as [|? ? ? H' ]; subst. inversion H' as [|? ? ? H'']; subst.
    pose proof (le_nonneg t H''). unfold ld16 in *. rewrite u32_small by lia. rewrite IH; try assumption; lia.
Qed.

Lemma in_fin_ok s : 0 <= s < 2147483648 -> 0 <= in_fin s < 65536 /\ exists k, s + in_fin s = 65535 * k.
Proof.
  intros H. unfold in_fin. cbv zeta. split; [lia|].
  pose proof (Z.div_mod s 65536 ltac:(lia)). pose proof (Z.mod_pos_bound s 65536 ltac:(lia)).
  set (q := s / 65536) in *. set (r := s mod 65536) in *.
  assert (0 <= q < 32768) by (subst q; lia).
  destruct (Z.le_gt_cases 65536 (q + r)).
  - replace ((q + r) / 65536) with 1 by lia. replace ((- (q + r + 1) - 1) mod 65536) with (131072 - (q + r) - 2) by lia.
    exists (q + 2). lia.
  - replace ((q + r) / 65536) with 0 by lia. replace ((- (q + r + 0) - 1) mod 65536) with (65535 - (q + r)) by lia.
    exists (q + 1). lia.
Qed.
Lemma ck_fin_ok s : 0 <= s < 4294967296 -> 0 <= ck_fin s < 65536 /\ exists k, s + ck_fin s = 65535 * k.
Proof.
  intros H. unfold ck_fin. cbv zeta.
  pose proof (Z.div_mod s 65536 ltac:(lia)). pose proof (Z.mod_pos_bound s 65536 ltac:(lia)).
  set (q := s / 65536) in *. set (r := s mod 65536) in *.
  assert (0 <= q < 65536) by (subst q; lia).
  rewrite (u32_small (q + r)) by lia. rewrite (u32_small (q + r + _)) by lia.
  split; [apply u16_range|]. unfold u16.
  destruct (Z.le_gt_cases 65536 (q + r)).
  - replace ((q + r) / 65536) with 1 by lia. replace ((- (q + r + 1) - 1) mod 65536) with (131072 - (q + r) - 2) by lia.
    exists (q + 2). lia.
  - replace ((q + r) / 65536) with 0 by lia. replace ((- (q + r + 0) - 1) mod 65536) with (65535 - (q + r)) by lia.
    exists (q + 1). lia.
Qed.

Lemma st16_bytes x : 0 <= x < 65536 -> bytes (st16 x).
Proof. intros. unfold st16, bytes. repeat constructor; lia. Qed.
Lemma be16_bytes x : bytes (be16 x).
Proof. unfold be16, bytes. repeat constructor; lia. Qed.
Lemma st16_le x : 0 <= x < 65536 -> le_sum (st16 x) = x.
Proof. intros. cbn. unfold ld16. lia. Qed.
Lemma le_swap1 l1 l2 l3 : Nat.even (length l1) = true -> Nat.even (length l2) = true ->
  le_sum (l1 ++ l2 ++ l3) = le_sum l1 + le_sum l2 + le_sum l3.
Proof. intros. rewrite !even_app_le by assumption. lia. Qed.

Lemma in_cksum_verifies odd hd tl c :
  bytes hd -> bytes tl -> Nat.even (length hd) = true -> 0 < le_sum (hd ++ [0; 0] ++ tl) ->
  (Z.of_nat (length (hd ++ [0; 0] ++ tl)) <= 65535)%Z ->
  in_cksum odd (hd ++ [0; 0] ++ tl) = Some c -> 0 <= c < 65536 /\ verifies (hd ++ st16 c ++ tl).
Proof.
  intros Bh Bt E P L H.
  assert (B : bytes (hd ++ [0; 0] ++ tl)).
  { rewrite !bytes_app. split; [assumption|]. split; [unfold bytes; repeat constructor; lia|assumption]. }
  pose proof (le_bound _ B). unfold in_cksum in H. rewrite in_loop_sum in H; [|assumption|lia|lia].
  assert (Hc : in_fin (0 + le_sum (hd ++ [0; 0] ++ tl)) = c) by congruence. clear H.
  destruct (in_fin_ok (0 + le_sum (hd ++ [0; 0] ++ tl)) ltac:(lia)) as [Hr [k Hk]].
  rewrite Hc in Hr, Hk. split; [assumption|].
  assert (Hs : le_sum (hd ++ st16 c ++ tl) = le_sum (hd ++ [0; 0] ++ tl) + c).
  { rewrite !le_swap1 by (try assumption; reflexivity). rewrite st16_le by lia. change (le_sum [0; 0]) with 0. lia. }
  apply verifies_le.
  - rewrite !bytes_app. split; [assumption|]. split; [apply st16_bytes; lia|assumption].
  - lia.
  - exists k. lia.
Qed.
Lemma in_cksum_defined odd l : bytes l -> Z.of_nat (length l) <= 65535 -> exists c, in_cksum odd l = Some c.
Proof.
  intros B L. pose proof (le_bound _ B). unfold in_cksum. rewrite in_loop_sum by (assumption || lia). eauto.
Qed.
Lemma in_cksum_align l : bytes l -> Z.of_nat (length l) <= 65535 -> in_cksum true l = in_cksum false l.
Proof.
  intros B L. pose proof (le_bound _ B). unfold in_cksum. rewrite !in_loop_sum by (assumption || lia). reflexivity.
Qed.

Lemma ck_verifies parts hd tl :
  bytes parts -> bytes hd -> bytes tl -> Nat.even (length parts) = true -> Nat.even (length hd) = true ->
  0 < le_sum parts -> Z.of_nat (length parts + length hd + length tl) <= 131000 ->
  let c := ck_fin (ck_update tl (ck_update hd (ck_update parts 0))) in
  0 <= c < 65536 /\ verifies (parts ++ hd ++ st16 c ++ tl).
Proof.
  intros Bp Bh Bt Ep Eh P L c. subst c.
  pose proof (le_bound _ Bp). pose proof (le_bound _ Bh). pose proof (le_bound _ Bt).
  pose proof (le_nonneg _ Bp). pose proof (le_nonneg _ Bh). pose proof (le_nonneg _ Bt).
  rewrite (ck_update_sum parts) by (assumption || lia).
  rewrite (ck_update_sum hd) by (assumption || lia). rewrite (ck_update_sum tl) by (assumption || lia).
  destruct (ck_fin_ok (0 + le_sum parts + le_sum hd + le_sum tl) ltac:(lia)) as [Hr [k Hk]].
  set (c := ck_fin _) in *. split; [assumption|].
  assert (Hs : le_sum (parts ++ hd ++ st16 c ++ tl) = le_sum parts + le_sum hd + le_sum tl + c).
  { rewrite even_app_le by assumption. rewrite le_swap1 by (try assumption; reflexivity). rewrite st16_le by lia. lia. }
  apply verifies_le.
  - rewrite !bytes_app. repeat split; try assumption. apply st16_bytes; lia.
  - lia.
  - exists k. lia.
Qed.

Lemma le_pos l : bytes l -> Exists (fun b => b <> 0) l -> 0 < le_sum l.
Proof.
  unfold bytes. induction l as [|a|a b t IH] using list_ind2; intros H X; cbn [le_sum]; unfold ld16.
  - inversion X.
  - inversion H; subst. inversion X as [? ? ?|? ? X']; subst; [lia|]. inversion X'.
  - inversion H as [|? ? ? H' ]; subst. inversion H' as [|? ? ? H'']; subst.
    pose proof (le_nonneg t H''). inversion X as [? ? ?|? ? X']; subst; [lia|].
    inversion X' as [? ? ?|? ? X'']; subst; [lia|]. specialize (IH H'' X''). lia.
Qed.
Lemma exists_app {A} (P : A -> Prop) l1 l2 : Exists P l1 \/ Exists P l2 -> Exists P (l1 ++ l2).
Proof. rewrite !Exists_exists. intros [(x & Hi & Hx)|(x & Hi & Hx)]; exists x; rewrite in_app_iff; tauto. Qed.
