From Verif Require Import Base QueueModel QueueSpec.

Lemma nthe_skipn {A} (l : list A) : forall n k, nth_error (skipn n l) k = nth_error l (n + k).
Proof. induction l as [|x l IH]; intros [|n] k; cbn; try reflexivity; [destruct k; reflexivity|apply IH]. Qed.
Lemma nthe_firstn {A} (l : list A) : forall n k, (k < n)%nat -> nth_error (firstn n l) k = nth_error l k.
Proof. induction l as [|x l IH]; intros [|n] [|k] H; cbn; try reflexivity; try lia. apply IH. lia. Qed.

Definition B31 := 2147483648.
Record CWF (c : cbuf) : Prop := {
  cw_len : 1 <= c_len c <= B31;
  cw_buf : Z.of_nat (length (c_buf c)) = c_len c;
  cw_head : 0 <= c_head c < c_len c;
  cw_tail : 0 <= c_tail c < c_len c
}.
Definition cabs (c : cbuf) : list Z :=
  let h := Z.to_nat (c_head c) in let t := Z.to_nat (c_tail c) in
  if c_head c <? c_tail c then skipn t (c_buf c) ++ firstn h (c_buf c) else firstn (h - t) (skipn t (c_buf c)).

Lemma clen_ok c : CWF c -> cb_clen c = Z.of_nat (length (cabs c)).
Proof.
  intros [L Bf H T]. unfold cb_clen, cabs, u32. assert (B31 = 2147483648) by reflexivity. destruct (Z.ltb_spec (c_head c) (c_tail c)).
  - rewrite app_length, skipn_length, firstn_length. lia.
  - rewrite firstn_length, skipn_length. lia.
Qed.
Lemma idx_ok c k : CWF c -> 0 <= k < cb_clen c -> cb_idx c k = (if c_tail c + k <? c_len c then c_tail c + k else c_tail c + k - c_len c) /\ 0 <= cb_idx c k < c_len c.
Proof.
  intros [L Bf H T]. unfold cb_clen, cb_idx, u32. assert (B31 = 2147483648) by reflexivity. intros K.
  assert (0 <= k < c_len c) by (destruct (c_head c <? c_tail c) eqn:E; lia).
  rewrite (Z.mod_small (c_tail c + k)) by lia. destruct (Z.leb_spec (c_len c) (c_tail c + k)); destruct (Z.ltb_spec (c_tail c + k) (c_len c)); try lia.
Qed.
Lemma cabs_nth c k : CWF c -> 0 <= k < cb_clen c -> nth_error (cabs c) (Z.to_nat k) = nth_error (c_buf c) (Z.to_nat (cb_idx c k)).
Proof.
  intros W K. destruct (idx_ok c k W K) as [-> _]. pose proof (clen_ok c W) as Cl. rewrite Cl in K. destruct W as [L Bf H T]. unfold cabs in *.
  destruct (Z.ltb_spec (c_head c) (c_tail c)).
  - rewrite app_length, skipn_length, firstn_length in K. destruct (Z.ltb_spec (c_tail c + k) (c_len c)).
    + rewrite nth_error_app1 by (rewrite skipn_length; lia). rewrite nthe_skipn. f_equal. lia.
    + rewrite nth_error_app2 by (rewrite skipn_length; lia). rewrite skipn_length, nthe_firstn by lia. f_equal. lia.
  - rewrite firstn_length, skipn_length in K. replace (c_tail c + k <? c_len c) with true by lia.
    rewrite nthe_firstn by lia. rewrite nthe_skipn. f_equal. lia.
Qed.

Lemma push_ok c x : CWF c -> match cb_push c x with
  | Some c' => CWF c' /\ cabs c' = cabs c ++ [x]
  | None => True
  end.
Proof.
  intros W. pose proof W as [L Bf H T]. unfold cb_push. assert (B : B31 = 2147483648) by reflexivity. rewrite u32_small by lia.
  set (n := if c_head c + 1 =? c_len c then 0 else c_head c + 1). destruct (Z.eqb_spec n (c_tail c)) as [|N]; [trivial|].
  assert (Hn : 0 <= n < c_len c) by (unfold n; destruct (Z.eqb_spec (c_head c + 1) (c_len c)); lia).
  split; [constructor; cbn; rewrite ?upd_length; assumption|]. unfold cabs. cbn [c_head c_tail c_buf].
  assert (Hh : (Z.to_nat (c_head c) < length (c_buf c))%nat) by lia.
  assert (Fn : forall (l : list Z) i, (i < length l)%nat -> firstn (S i) (upd l i x) = firstn i l ++ [x]).
  { induction l as [|y l IH]; intros [|i]; cbn; intros Hi; try lia; [reflexivity|]. f_equal. apply IH. lia. }
  assert (Sk : forall (l : list Z) i j, (i < j)%nat -> skipn j (upd l i x) = skipn j l).
  { induction l as [|y l IH]; intros [|i] [|j]; cbn; intros Hi; try lia; try reflexivity. apply IH. lia. }
  assert (Sf : forall (l : list Z) j i, (j <= i)%nat -> skipn j (upd l i x) = upd (skipn j l) (i - j) x).
  { induction l as [|y l IH]; intros [|j] [|i]; cbn; intros Hi; try lia; try reflexivity. apply IH. lia. }
  destruct (Z.eqb_spec (c_head c + 1) (c_len c)) as [E|E]; subst n.
  - replace (0 <? c_tail c) with true by lia. replace (c_head c <? c_tail c) with false by lia. cbn [Z.to_nat firstn]. rewrite app_nil_r.
    rewrite Sf by lia. rewrite <- (firstn_all (upd _ _ _)). rewrite upd_length, skipn_length.
    replace (length (c_buf c) - Z.to_nat (c_tail c))%nat with (S (Z.to_nat (c_head c) - Z.to_nat (c_tail c))) by lia. apply Fn. rewrite skipn_length. lia.
  - replace (Z.to_nat (c_head c + 1)) with (S (Z.to_nat (c_head c))) by lia. destruct (Z.ltb_spec (c_head c) (c_tail c)).
    + replace (c_head c + 1 <? c_tail c) with true by lia. rewrite Fn by lia. rewrite Sk by lia. rewrite app_assoc. reflexivity.
    + replace (c_head c + 1 <? c_tail c) with false by lia. rewrite Sf by lia.
      replace (S (Z.to_nat (c_head c)) - Z.to_nat (c_tail c))%nat with (S (Z.to_nat (c_head c) - Z.to_nat (c_tail c))) by lia. apply Fn. rewrite skipn_length. lia.
Qed.

Lemma slice_ok (b : list Z) f n : 0 <= f -> f + n <= Z.of_nat (length b) -> slice b f n = Some (firstn (Z.to_nat n) (skipn (Z.to_nat f) b)).
Proof. intros. unfold slice. replace (_ && _) with true by lia. reflexivity. Qed.

Lemma popmany_flat fuel c h r : CWF c -> c_tail c <= c_head c -> 0 <= r < h -> h < B31 -> exists c',
  cb_popmany (S (S fuel)) c h r = Some (c', firstn (Z.to_nat (h - r)) (cabs c)) /\ CWF c' /\ cabs c' = skipn (Z.to_nat (h - r)) (cabs c).
Proof.
  intros W Lt R Hh. pose proof W as [L Bf H T]. assert (B : B31 = 2147483648) by reflexivity. cbn [cb_popmany]. unfold cb_isempty.
  destruct (Z.eqb_spec (c_head c) (c_tail c)) as [E|E].
  - exists c. unfold cabs. rewrite E, Z.ltb_irrefl, Nat.sub_diag. cbn [firstn]. rewrite firstn_nil, skipn_nil.
    split; [reflexivity|]. split; [exact W|]. reflexivity.
  - rewrite u32_small by lia. replace (c_head c <? c_tail c) with false by lia.
    destruct (Z.ltb_spec (c_head c) (c_tail c + h - r)) as [Q|Q].
    + rewrite (u32_small (c_head c - _)) by lia. rewrite slice_ok by lia. rewrite u32_small by lia.
      replace (r + (c_head c - c_tail c) =? h) with false by lia. cbn [cb_isempty c_head c_tail]. rewrite Z.eqb_refl.
      eexists. split; [f_equal; f_equal|].
      * unfold cabs. replace (c_head c <? c_tail c) with false by lia. rewrite app_nil_r.
        rewrite firstn_firstn. f_equal. lia.
      * split; [constructor; cbn; lia|]. unfold cabs. cbn [c_head c_tail c_buf]. rewrite Z.ltb_irrefl, Nat.sub_diag. replace (c_head c <? c_tail c) with false by lia. cbn [firstn].
        rewrite skipn_all2; [reflexivity|]. rewrite firstn_length, skipn_length. lia.
    + rewrite (u32_small (_ - c_tail c)) by lia. replace (c_tail c + h - r - c_tail c) with (h - r) by lia. rewrite slice_ok by lia. rewrite u32_small by lia.
      replace (r + (h - r) =? h) with true by lia. eexists. split; [f_equal; f_equal|].
      * unfold cabs. replace (c_head c <? c_tail c) with false by lia. rewrite firstn_firstn. f_equal. lia.
      * split; [constructor; cbn; lia|]. unfold cabs. cbn [c_head c_tail c_buf]. replace (c_head c <? c_tail c + h - r) with false by lia.
        replace (c_head c <? c_tail c) with false by lia. rewrite skipn_firstn_comm, skipn_skipn'. f_equal; [lia|]. f_equal. lia.
Qed.

Lemma popmany_ok c h : CWF c -> 0 < h -> h < B31 -> exists c',
  cb_popmany 3 c h 0 = Some (c', firstn (Z.to_nat h) (cabs c)) /\ CWF c' /\ cabs c' = skipn (Z.to_nat h) (cabs c).
Proof.
  intros W Hp Hh. destruct (Z.leb_spec (c_tail c) (c_head c)) as [Q|Q].
  { destruct (popmany_flat 1 c h 0 W Q) as (c' & A & B & C); [lia|lia|]. rewrite Z.sub_0_r in *. eauto. }
  pose proof W as [L Bf H T]. assert (B : B31 = 2147483648) by reflexivity.
  assert (Ea : cabs c = skipn (Z.to_nat (c_tail c)) (c_buf c) ++ firstn (Z.to_nat (c_head c)) (c_buf c)) by (unfold cabs; replace (c_head c <? c_tail c) with true by lia; reflexivity).
  remember 2%nat as two. cbn [cb_popmany]. unfold cb_isempty.
  replace (c_head c =? c_tail c) with false by lia. rewrite u32_small by lia. replace (c_head c <? c_tail c) with true by lia.
  replace (c_tail c + h - 0) with (c_tail c + h) by lia.
  destruct (Z.leb_spec (c_len c) (c_tail c + h)) as [P|P].
  - rewrite (u32_small (c_len c - _)) by lia. rewrite slice_ok by lia. rewrite u32_small by lia.
    set (c1 := mkCb (c_len c) (c_head c) 0 (c_buf c)).
    assert (W1 : CWF c1) by (constructor; cbn; lia).
    assert (E1 : cabs c1 = firstn (Z.to_nat (c_head c)) (c_buf c)) by (unfold cabs; cbn [c1 c_head c_tail c_buf]; replace (c_head c <? 0) with false by lia; cbn [Z.to_nat skipn]; rewrite Nat.sub_0_r; reflexivity).
    assert (Ed : firstn (Z.to_nat (c_len c - c_tail c)) (skipn (Z.to_nat (c_tail c)) (c_buf c)) = skipn (Z.to_nat (c_tail c)) (c_buf c)) by (apply firstn_all2; rewrite skipn_length; lia).
    rewrite Ed. destruct (Z.eqb_spec (0 + (c_len c - c_tail c)) h) as [E|E].
    + exists c1. split; [f_equal; f_equal|split; [exact W1|]].
      * rewrite Ea, firstn_app, skipn_length. replace (Z.to_nat h - _)%nat with O by lia. cbn [firstn]. rewrite app_nil_r. symmetry. apply firstn_all2. rewrite skipn_length. lia.
      * rewrite E1, Ea, skipn_app, skipn_length. replace (Z.to_nat h - _)%nat with O by lia. cbn [skipn]. rewrite skipn_all2; [reflexivity|]. rewrite skipn_length. lia.
    + subst two. destruct (popmany_flat 0 c1 h (0 + (c_len c - c_tail c)) W1) as (c' & A & Wc & C); [cbn; lia|lia|lia|]. rewrite A.
      exists c'. split; [f_equal; f_equal|split; [exact Wc|]].
      * rewrite Ea, firstn_app, skipn_length, E1. f_equal; [symmetry; apply firstn_all2; rewrite skipn_length; lia|]. f_equal. lia.
      * rewrite C, E1, Ea, skipn_app, skipn_length. rewrite (skipn_all2 (skipn _ _)) by (rewrite skipn_length; lia). cbn [app]. f_equal. lia.
  - rewrite (u32_small (_ - c_tail c)) by lia. replace (c_tail c + h - c_tail c) with h by lia. rewrite slice_ok by lia. rewrite u32_small by lia.
    replace (0 + h =? h) with true by lia. eexists. split; [f_equal; f_equal|].
    + rewrite Ea, firstn_app, skipn_length. replace (Z.to_nat h - _)%nat with O by lia. cbn [firstn]. rewrite app_nil_r. reflexivity.
    + split; [constructor; cbn; lia|]. rewrite Ea, skipn_app, skipn_length. replace (Z.to_nat h - _)%nat with O by lia. cbn [skipn]. rewrite skipn_skipn'.
      unfold cabs. cbn [c_head c_tail c_buf]. replace (c_head c <? c_tail c + h) with true by lia. f_equal. f_equal. lia.
Qed.

Lemma peek_ok c k : CWF c -> cb_peek c (Z.of_nat k) = nth_error (cabs c) k.
Proof.
  intros W. unfold cb_peek, cb_isempty. pose proof (clen_ok c W) as Cl. destruct (Z.eqb_spec (c_head c) (c_tail c)) as [E|E].
  - assert (Hc : cb_clen c = 0) by (unfold cb_clen; rewrite E, Z.ltb_irrefl, Z.sub_diag; reflexivity). symmetry. apply nth_error_None. lia.
  - destruct (Z.leb_spec (cb_clen c) (Z.of_nat k)).
    + symmetry. apply nth_error_None. lia.
    + rewrite <- cabs_nth by (auto; lia). f_equal. lia.
Qed.

Lemma nth_ext' {A} (l l' : list A) : (forall k, nth_error l k = nth_error l' k) -> l = l'.
Proof.
  revert l'; induction l as [|x l IH]; intros [|y l'] H; [reflexivity|specialize (H O); discriminate|specialize (H O); discriminate|].
  pose proof (H O) as E. injection E as ->. f_equal. apply IH. intros k. exact (H (S k)).
Qed.

Lemma replace_ok c k x : CWF c -> (k < length (cabs c))%nat -> exists c', cb_replace c (Z.of_nat k) x = Some c' /\ CWF c' /\ cabs c' = upd (cabs c) k x.
Proof.
  intros W K. pose proof (clen_ok c W) as Cl. unfold cb_replace, cb_isempty.
  destruct (Z.eqb_spec (c_head c) (c_tail c)) as [E|E].
  { assert (Hc : cb_clen c = 0) by (unfold cb_clen; rewrite E, Z.ltb_irrefl, Z.sub_diag; reflexivity). lia. }
  replace (cb_clen c <=? Z.of_nat k) with false by lia. eexists. split; [reflexivity|]. set (c' := mkCb _ _ _ _).
  assert (W' : CWF c') by (destruct W; constructor; cbn; rewrite ?upd_length; assumption).
  split; [exact W'|]. assert (Cl' : cb_clen c' = cb_clen c) by reflexivity. pose proof (clen_ok c' W') as Cl2.
  apply nth_ext'. intros j. destruct (Nat.ltb_spec j (length (cabs c))) as [J|J].
  - pose proof (cabs_nth c' (Z.of_nat j) W') as N1. rewrite Nat2Z.id in N1. rewrite N1 by lia. change (cb_idx c' (Z.of_nat j)) with (cb_idx c (Z.of_nat j)). cbn [c' c_buf].
    assert (Kr : 0 <= Z.of_nat k < cb_clen c) by lia. assert (Jr : 0 <= Z.of_nat j < cb_clen c) by lia.
    destruct (idx_ok c _ W Kr) as [Ik Rk]. destruct (idx_ok c _ W Jr) as [Ij Rj]. pose proof (cw_buf _ W) as Bf.
    destruct (Nat.eq_dec j k) as [->|N].
    + rewrite !nth_error_upd_same by lia. reflexivity.
    + assert (Hk : cb_clen c <= c_len c) by (destruct W as [L0 ? H0 T0]; unfold cb_clen, u32; assert (B31 = 2147483648) by reflexivity; destruct (Z.ltb_spec (c_head c) (c_tail c)); lia).
      rewrite !nth_error_upd_other; [|lia|].
      * pose proof (cabs_nth c (Z.of_nat j) W Jr) as N2. rewrite Nat2Z.id in N2. congruence.
      * intros Q. apply N. assert (cb_idx c (Z.of_nat k) = cb_idx c (Z.of_nat j)) as Q' by lia. rewrite Ik, Ij in Q'.
        destruct (Z.ltb_spec (c_tail c + Z.of_nat k) (c_len c)), (Z.ltb_spec (c_tail c + Z.of_nat j) (c_len c)); lia.
  - assert (length (cabs c') = length (cabs c)) by lia.
    rewrite (proj2 (nth_error_None (cabs c') j)) by lia. symmetry. apply nth_error_None. rewrite upd_length. lia.
Qed.

Lemma upd_firstn {A} (l : list A) k x : firstn k (upd l k x) = firstn k l.
Proof. revert k; induction l as [|y l IH]; intros [|k]; cbn; try reflexivity. f_equal. apply IH. Qed.
Lemma upd_skipn {A} (l : list A) k x : (k < length l)%nat -> skipn k (upd l k x) = x :: skipn (S k) l.
Proof. revert k; induction l as [|y l IH]; intros [|k]; cbn [length upd skipn]; intros H; try lia; [reflexivity|]. rewrite IH by lia. reflexivity. Qed.

Lemma shift_ok k : forall c, CWF c -> (k < length (cabs c))%nat -> exists c' h, cb_shift c k = Some c' /\ CWF c' /\ cabs c' = h :: firstn k (cabs c) ++ skipn (S k) (cabs c).
Proof.
  induction k as [|k IH]; intros c W K; cbn [cb_shift].
  - destruct (cabs c) as [|h t] eqn:E; [cbn in K; lia|]. exists c, h. cbn. auto.
  - rewrite peek_ok by assumption. destruct (nth_error (cabs c) k) as [d|] eqn:E; [|apply nth_error_None in E; lia].
    destruct (replace_ok c (S k) d W K) as (c1 & -> & W1 & A1).
    destruct (IH c1 W1) as (c2 & h & -> & W2 & A2); [rewrite A1, upd_length; lia|].
    exists c2, h. split; [reflexivity|]. split; [exact W2|]. rewrite A2, A1, upd_skipn by lia. f_equal.
    assert (F1 : firstn k (upd (cabs c) (S k) d) = firstn k (cabs c)).
    { clear. generalize (cabs c) as l. intros l. revert k. induction l as [|y l IH]; intros [|k]; cbn; try reflexivity. destruct l; [destruct k; reflexivity|]. f_equal. apply IH. }
    rewrite F1. clear - E. revert E. generalize (cabs c) as l. intros l. revert k. induction l as [|y l IH]; intros [|k]; cbn [nth_error]; intros E; try discriminate.
    + injection E as ->. reflexivity.
    + cbn [firstn skipn app] in *. f_equal. apply IH. exact E.
Qed.

Lemma remove_ok c k : CWF c -> (k < length (cabs c))%nat -> exists c', cb_remove c k = Some c' /\ CWF c' /\ cabs c' = firstn k (cabs c) ++ skipn (S k) (cabs c).
Proof.
  intros W K. unfold cb_remove, cb_isempty. pose proof (clen_ok c W) as Cl.
  destruct (Z.eqb_spec (c_head c) (c_tail c)) as [E|E].
  { assert (Hc : cb_clen c = 0) by (unfold cb_clen; rewrite E, Z.ltb_irrefl, Z.sub_diag; reflexivity). lia. }
  replace (cb_clen c <=? Z.of_nat k) with false by lia. destruct (shift_ok k c W K) as (c1 & h & -> & W1 & A1).
  destruct (popmany_ok c1 1 W1) as (c2 & P & W2 & A2); [lia|reflexivity|]. rewrite A1 in A2. cbn in A2.
  assert (B : B31 = 2147483648) by reflexivity. pose proof W1 as [L Bf H T]. rewrite u32_small by lia.
  assert (c2 = mkCb (c_len c1) (c_head c1) (if c_tail c1 + 1 =? c_len c1 then 0 else c_tail c1 + 1) (c_buf c1)) as <-.
  { assert (N : c_head c1 <> c_tail c1). { intros Q. apply (f_equal (@length Z)) in A1. unfold cabs in A1. rewrite Q, Z.ltb_irrefl, Nat.sub_diag in A1. cbn in A1. lia. }
    cbn [cb_popmany] in P. unfold cb_isempty in P. replace (c_head c1 =? c_tail c1) with false in P by lia.
    rewrite u32_small in P by lia. replace (c_tail c1 + 1 - 0) with (c_tail c1 + 1) in P by lia.
    destruct (Z.ltb_spec (c_head c1) (c_tail c1)) as [Q|Q].
    - destruct (Z.leb_spec (c_len c1) (c_tail c1 + 1)) as [R|R].
      + rewrite (u32_small (c_len c1 - _)) in P by lia. rewrite slice_ok in P by lia. rewrite u32_small in P by lia. replace (0 + (c_len c1 - c_tail c1) =? 1) with true in P by lia. injection P as <- _.
        replace (c_tail c1 + 1 =? c_len c1) with true by lia. reflexivity.
      + rewrite (u32_small (_ - c_tail c1)) in P by lia. rewrite slice_ok in P by lia. rewrite u32_small in P by lia. replace (0 + (c_tail c1 + 1 - c_tail c1) =? 1) with true in P by lia. injection P as <- _.
        replace (c_tail c1 + 1 =? c_len c1) with false by lia. reflexivity.
    - replace (c_head c1 <? c_tail c1 + 1) with false in P by lia.
      rewrite (u32_small (_ - c_tail c1)) in P by lia. rewrite slice_ok in P by lia. rewrite u32_small in P by lia. replace (0 + (c_tail c1 + 1 - c_tail c1) =? 1) with true in P by lia. injection P as <- _.
      replace (c_tail c1 + 1 =? c_len c1) with false by lia. reflexivity. }
  exists c2. split; [reflexivity|]. split; [exact W2|]. exact A2.
Qed.

Record QWF (q : queue) : Prop := { qw_cb : CWF (q_cb q); qw_len : q_len q = Z.of_nat (length (q_list q)) }.
Definition qabs (q : queue) : list Z := cabs (q_cb q) ++ q_list q.

Lemma q_clen_ok q : QWF q -> q_clen q = Z.of_nat (length (qabs q)).
Proof. intros [W L]. unfold q_clen, qabs. rewrite app_length, clen_ok by exact W. lia. Qed.

Lemma list_pop_ok n : forall l, list_pop l n = (firstn n l, Z.of_nat (Nat.min n (length l)), skipn n l).
Proof.
  induction n as [|n IH]; intros [|x l]; try reflexivity. cbn [list_pop firstn skipn]. destruct l as [|y l].
  - rewrite firstn_nil, skipn_nil. cbn [length]. f_equal. f_equal. lia.
  - rewrite IH. f_equal. f_equal. cbn [length]. lia.
Qed.

Lemma extract_ok q n : QWF q -> 1 <= n < B31 -> exists q', q_extract q n = Some (q', firstn (Z.to_nat n) (qabs q)) /\ QWF q' /\
  qabs q' = skipn (Z.to_nat n) (qabs q) /\ q_qlen q' = q_qlen q /\ q_mlen q' = q_mlen q.
Proof.
  intros [W L] N. unfold q_extract, qabs. destruct (popmany_ok (q_cb q) n W) as (c & -> & Wc & A); [lia|lia|].
  rewrite firstn_length. rewrite firstn_app, skipn_app.
  destruct (Z.eqb_spec (Z.of_nat (Nat.min (Z.to_nat n) (length (cabs (q_cb q))))) n) as [E|E]; cbn [orb].
  - replace (Z.to_nat n - length (cabs (q_cb q)))%nat with O by lia. cbn [firstn skipn]. rewrite app_nil_r.
    eexists. split; [reflexivity|]. cbn. rewrite A. split; [constructor; assumption|]. auto.
  - destruct (Z.eqb_spec (q_len q) 0) as [Z0|Z0].
    + destruct (q_list q) eqn:El; [|cbn in L; lia]. rewrite firstn_nil, skipn_nil, !app_nil_r.
      eexists. split; [reflexivity|]. cbn. rewrite A, app_nil_r. split; [constructor; cbn; [assumption|congruence]|]. auto.
    + rewrite list_pop_ok. eexists. split; [f_equal; f_equal; f_equal; f_equal; lia|]. cbn [q_cb q_list q_qlen q_mlen].
      split; [constructor; cbn [q_cb q_list q_len]; [assumption|rewrite skipn_length; lia]|]. split; [|auto]. rewrite A. f_equal. f_equal. lia.
Qed.

Definition full (q : queue) : bool := negb (q_mlen q =? 4294967295) && (q_mlen q <=? Z.of_nat (length (qabs q))).
Lemma put_ok q x sg : QWF q -> exists q' sig, q_put q x sg = (q', negb (full q), sig) /\ QWF q' /\ q_qlen q' = q_qlen q /\ q_mlen q' = q_mlen q /\
  (if full q then q' = q /\ sig = false else qabs q' = qabs q ++ [x] /\ (q_qlen q = 1 -> sig = true)).
Proof.
  intros W. pose proof W as [Wc L]. unfold q_put, full. rewrite q_clen_ok by exact W. change (u32 (-1)) with 4294967295.
  destruct (negb (q_mlen q =? 4294967295) && (q_mlen q <=? Z.of_nat (length (qabs q)))) eqn:F; cbn [negb].
  - exists q, false. auto 10.
  - eexists _, _. split; [reflexivity|]. 
    assert (Sg : forall b c, q_qlen q = 1 -> (q_qlen q =? 1) || b || c = true) by (intros b c ->; reflexivity).
    set (ap := mkQ (q_list q ++ [x]) _ _ _ _).
    assert (Wa : QWF ap) by (constructor; cbn; [assumption|rewrite app_length; cbn; lia]).
    assert (Aa : qabs ap = qabs q ++ [x]) by (unfold qabs; cbn; rewrite app_assoc; reflexivity).
    destruct (Z.ltb_spec 0 (q_len q)); [split; [exact Wa|]; auto 10|].
    pose proof (push_ok (q_cb q) x Wc) as P. destruct (cb_push (q_cb q) x) as [c|]; [|split; [exact Wa|]; auto 10].
    destruct P as [Wp Ap]. split; [constructor; cbn; assumption|]. split; [reflexivity|]. split; [reflexivity|]. split; [|apply Sg].
    unfold qabs. cbn. rewrite Ap. destruct (q_list q) as [|y t] eqn:E; [rewrite !app_nil_r; reflexivity|cbn in L; lia].
Qed.

Lemma scan_ok c p : CWF c -> forall n i, (length (cabs c) - i <= n)%nat ->
  match cb_scan n c i p with
  | Some (j, x) => (i <= j)%nat /\ nth_error (cabs c) j = Some x /\ p x = true /\ forall k y, (i <= k < j)%nat -> nth_error (cabs c) k = Some y -> p y = false
  | None => forall k y, (i <= k)%nat -> nth_error (cabs c) k = Some y -> p y = false
  end.
Proof.
  intros W. induction n as [|n IH]; intros i Hn; cbn [cb_scan].
  - intros k y Hk E. assert (nth_error (cabs c) k <> None) as Q by congruence. apply nth_error_Some in Q. lia.
  - rewrite peek_ok by exact W. destruct (nth_error (cabs c) i) as [x|] eqn:E.
    + destruct (p x) eqn:P.
      * split; [lia|]. split; [exact E|]. split; [exact P|]. intros; lia.
      * specialize (IH (S i)). assert (Hn' : (length (cabs c) - S i <= n)%nat) by lia. specialize (IH Hn'). destruct (cb_scan n c (S i) p) as [[j z]|].
        -- destruct IH as (A & B & C & D). split; [lia|]. split; [exact B|]. split; [exact C|]. intros k y Hk Ek. destruct (Nat.eq_dec k i) as [->|]; [congruence|]. apply (D k y); [lia|exact Ek].
        -- intros k y Hk Ek. destruct (Nat.eq_dec k i) as [->|]; [congruence|]. apply (IH k y); [lia|exact Ek].
    + intros k y Hk Ek. apply nth_error_None in E. assert (nth_error (cabs c) k <> None) as Q by congruence. apply nth_error_Some in Q. lia.
Qed.

Lemma list_remove_ok p l : match list_remove l p with
  | Some (x, r) => exists l1 l2, l = l1 ++ x :: l2 /\ r = l1 ++ l2 /\ p x = true /\ forall y, In y l1 -> p y = false
  | None => forall y, In y l -> p y = false
  end.
Proof.
  induction l as [|x l IH]; cbn [list_remove]; [intros y []|]. destruct (p x) eqn:P.
  - exists [], l. split; [reflexivity|]. split; [reflexivity|]. split; [exact P|]. intros y [].
  - destruct (list_remove l p) as [[y r]|].
    + destruct IH as (l1 & l2 & -> & -> & A & B). exists (x :: l1), l2. split; [reflexivity|]. split; [reflexivity|]. split; [exact A|]. intros z [<-|Hz]; auto.
    + intros y [<-|Hy]; auto.
Qed.

Lemma nth_split' {A} (l : list A) k x : nth_error l k = Some x -> l = firstn k l ++ x :: skipn (S k) l.
Proof. revert k; induction l as [|y l IH]; intros [|k]; cbn [nth_error]; intros E; try discriminate; [injection E as ->; reflexivity|]. cbn [firstn skipn app] in *. f_equal. apply IH. exact E. Qed.
Lemma in_firstn {A} (l : list A) k y : In y (firstn k l) -> exists j, (j < k)%nat /\ nth_error l j = Some y.
Proof.
  intros H. apply In_nth_error in H. destruct H as [j E]. exists j.
  assert (Q : nth_error (firstn k l) j <> None) by congruence. apply nth_error_Some in Q. rewrite firstn_length in Q. split; [lia|]. rewrite nthe_firstn in E by lia. exact E.
Qed.

Lemma match_ok q p : QWF q -> exists q' r, q_match q p = Some (q', r) /\ QWF q' /\ q_qlen q' = q_qlen q /\ q_mlen q' = q_mlen q /\
  match r with
  | Some x => exists l1 l2, qabs q = l1 ++ x :: l2 /\ qabs q' = l1 ++ l2 /\ p x = true /\ forall y, In y l1 -> p y = false
  | None => qabs q' = qabs q /\ forall y, In y (qabs q) -> p y = false
  end.
Proof.
  intros W. pose proof W as [Wc L]. unfold q_match. 
  assert (Hf : (length (cabs (q_cb q)) - 0 <= Z.to_nat (c_len (q_cb q)))%nat).
  { pose proof (clen_ok _ Wc). destruct Wc as [L0 ? H0 T0]. unfold cb_clen, u32 in H. assert (B31 = 2147483648) by reflexivity. destruct (Z.ltb_spec (c_head (q_cb q)) (c_tail (q_cb q))); lia. }
  pose proof (scan_ok (q_cb q) p Wc _ _ Hf) as Sc. destruct (cb_scan _ (q_cb q) 0 p) as [[i x]|].
  - destruct Sc as (_ & E & P & Fr). assert (Hi : (i < length (cabs (q_cb q)))%nat) by (apply nth_error_Some; congruence).
    destruct (remove_ok (q_cb q) i Wc Hi) as (c & -> & Wr & Ar). eexists _, _. split; [reflexivity|].
    split; [constructor; assumption|]. split; [reflexivity|]. split; [reflexivity|].
    exists (firstn i (cabs (q_cb q))), (skipn (S i) (cabs (q_cb q)) ++ q_list q). unfold qabs. cbn [q_cb q_list]. rewrite Ar.
    split; [rewrite (nth_split' _ _ _ E) at 1; rewrite <- app_assoc; reflexivity|]. split; [rewrite <- app_assoc; reflexivity|]. split; [exact P|].
    intros y Hy. apply in_firstn in Hy. destruct Hy as (j & Hj & Ej). apply (Fr j y); [lia|exact Ej].
  - assert (Nc : forall y, In y (cabs (q_cb q)) -> p y = false) by (intros y Hy; apply In_nth_error in Hy; destruct Hy as [k Ek]; apply (Sc k y); [lia|exact Ek]).
    pose proof (list_remove_ok p (q_list q)) as Lr. destruct (list_remove (q_list q) p) as [[x l]|].
    + destruct Lr as (l1 & l2 & E & -> & P & Fr). eexists _, _. split; [reflexivity|].
      split; [constructor; cbn [q_cb q_list q_len]; [assumption|]; rewrite L, E, !app_length; cbn [length]; lia|]. split; [reflexivity|]. split; [reflexivity|].
      exists (cabs (q_cb q) ++ l1), l2. unfold qabs. cbn [q_cb q_list]. rewrite E, <- !app_assoc. split; [reflexivity|]. split; [reflexivity|]. split; [exact P|].
      intros y Hy. apply in_app_iff in Hy. destruct Hy; auto.
    + exists q, None. split; [reflexivity|]. split; [exact W|]. split; [reflexivity|]. split; [reflexivity|]. split; [reflexivity|].
      intros y Hy. apply in_app_iff in Hy. destruct Hy; auto.
Qed.

(** * Histories *)
Definition mopt (q : queue) : option Z := if q_mlen q =? 4294967295 then None else Some (q_mlen q).
Definition cvalid (c : consumer) : Prop := 1 <= fst c < B31.
Record WI (w : world) (tr : list (op * obs)) : Prop := {
  wi_q : QWF (w_q w);
  wi_wait : Forall cvalid (w_wait w);
  wi_woken : Forall cvalid (w_woken w);
  wi_fifo : fifo tr (mopt (w_q w)) (qabs (w_q w))
}.
Definition safe (w : world) : Prop := q_qlen (w_q w) = 1 /\ (w_wait w <> [] -> (length (qabs (w_q w)) <= length (w_woken w))%nat).

Lemma remove_nth_forall {A} (P : A -> Prop) i l : Forall P l -> Forall P (remove_nth i l).
Proof. revert i; induction l as [|x l IH]; intros [|i] H; cbn; auto; inversion H; subst; auto. Qed.
Lemma remove_nth_length {A} (l : list A) i x : nth_error l i = Some x -> length l = S (length (remove_nth i l)).
Proof. revert i; induction l as [|y l IH]; intros [|i] H; cbn in *; try discriminate; auto. Qed.
Lemma nth_error_forall {A} (P : A -> Prop) i l x : Forall P l -> nth_error l i = Some x -> P x.
Proof. intros H E. apply nth_error_In in E. rewrite Forall_forall in H. auto. Qed.

Lemma signal_ok w k : w_q (signal w k) = w_q w /\ (Forall cvalid (w_wait w) -> Forall cvalid (w_woken w) -> Forall cvalid (w_wait (signal w k)) /\ Forall cvalid (w_woken (signal w k))) /\
  (w_wait w <> [] -> length (w_woken (signal w k)) = S (length (w_woken w))) /\ (w_wait w = [] -> signal w k = w).
Proof.
  unfold signal. destruct (w_wait w) as [|c l] eqn:E; [split; [reflexivity|]; split; [rewrite E; auto|]; split; [congruence|reflexivity]|].
  - rewrite <- E in *. assert (Hl : (k mod length (w_wait w) < length (w_wait w))%nat) by (apply Nat.mod_upper_bound; rewrite E; discriminate).
    destruct (nth_error (w_wait w) (k mod length (w_wait w))) as [x|] eqn:N; [|apply nth_error_None in N; lia]. cbn.
    split; [reflexivity|]. split; [|split; [|rewrite E; discriminate]].
    + intros A B. split; [apply remove_nth_forall; exact A|]. apply Forall_app. split; [exact B|]. constructor; [|constructor]. exact (nth_error_forall _ _ _ _ A N).
    + intros _. rewrite app_length. cbn. lia.
Qed.

Lemma signal_safe w k : safe w -> safe (signal w k).
Proof.
  intros [Q S]. destruct (signal_ok w k) as (E & _ & G & N). split; [rewrite E; exact Q|]. intros H.
  destruct (w_wait w) eqn:Ew; [rewrite (N eq_refl) in H; congruence|]. rewrite E. rewrite G by discriminate. assert (X : w_wait w <> []) by (rewrite Ew; discriminate). rewrite Ew in X. specialize (S X). lia.
Qed.

Lemma consume_ok w c fresh tr o : QWF (w_q w) -> Forall cvalid (w_wait w) -> Forall cvalid (w_woken w) -> fifo tr (mopt (w_q w)) (qabs (w_q w)) -> cvalid c ->
  exists w' b, consume w c fresh = Some (w', b) /\ WI w' (tr ++ [(o, b)]) /\ q_qlen (w_q w') = q_qlen (w_q w) /\
    w_woken w' = w_woken w /\ (w_wait w' = w_wait w \/ qabs (w_q w') = []) /\ (qabs (w_q w) = [] -> qabs (w_q w') = []) /\
    (qabs (w_q w) <> [] -> length (qabs (w_q w')) < length (qabs (w_q w)))%nat.
Proof.
  intros W A B F V. destruct c as [n m]. unfold consume. rewrite q_clen_ok by exact W. unfold cvalid in V. cbn [fst] in V.
  destruct (Z.eqb_spec (Z.of_nat (length (qabs (w_q w)))) 0) as [E|E].
  - assert (Ea : qabs (w_q w) = []) by (destruct (qabs (w_q w)); [reflexivity|cbn in E; lia]).
    assert (Slp : exists w' b, Some (mkW (w_q w) (w_wait w ++ [(n, m)]) (w_woken w), OSleep) = Some (w', b) /\ WI w' (tr ++ [(o, b)]) /\ q_qlen (w_q w') = q_qlen (w_q w) /\
    w_woken w' = w_woken w /\ (w_wait w' = w_wait w \/ qabs (w_q w') = []) /\ (qabs (w_q w) = [] -> qabs (w_q w') = []) /\ (qabs (w_q w) <> [] -> length (qabs (w_q w')) < length (qabs (w_q w)))%nat).
    { eexists _, _. split; [reflexivity|]. cbn. split.
      - constructor; cbn; auto; [apply Forall_app; split; [exact A|constructor; [exact V|constructor]]|]. rewrite Ea in *. apply f_sleep. exact F.
      - rewrite Ea. repeat split; auto. congruence. }
    assert (Emp : exists w' b, Some (w, OEmpty) = Some (w', b) /\ WI w' (tr ++ [(o, b)]) /\ q_qlen (w_q w') = q_qlen (w_q w) /\
    w_woken w' = w_woken w /\ (w_wait w' = w_wait w \/ qabs (w_q w') = []) /\ (qabs (w_q w) = [] -> qabs (w_q w') = []) /\ (qabs (w_q w) <> [] -> length (qabs (w_q w')) < length (qabs (w_q w)))%nat).
    { eexists _, _. split; [reflexivity|]. split.
      - constructor; auto. rewrite Ea in *. apply f_empty. exact F.
      - rewrite Ea. repeat split; auto. congruence. }
    destruct fresh, m; assumption.
  - destruct (extract_ok (w_q w) n W V) as (q' & -> & Wq & Aq & Ql & Ml). eexists _, _. split; [reflexivity|]. cbn [w_q w_wait w_woken].
    assert (Ne : qabs (w_q w) <> []) by (intros Q; rewrite Q in E; cbn in E; lia).
    split; [|repeat split; auto; [congruence|]].
    + constructor; cbn [w_q w_wait w_woken]; auto. unfold mopt. rewrite Ml. fold (mopt (w_q w)). rewrite Aq. apply f_got.
      * rewrite firstn_skipn. exact F.
      * destruct (qabs (w_q w)) as [|x t]; [congruence|]. replace (Z.to_nat n) with (S (Z.to_nat (n - 1))) by lia. discriminate.
      * rewrite firstn_length. destruct (Nat.le_gt_cases (Z.to_nat n) (length (qabs (w_q w)))); [left; lia|right]. split; [lia|]. apply skipn_all2. lia.
    + intros _. rewrite Aq, skipn_length. destruct (qabs (w_q w)); [congruence|cbn [length]; lia].
Qed.

Lemma step_ok w tr o : WI w tr -> valid o -> exists w' b, step w o = Some (w', b) /\ WI w' (tr ++ [(o, b)]) /\
  ((forall n, o <> SetQlen n) -> safe w -> safe w').
Proof.
  intros [W A B F] V. destruct o as [x sg k|n m|[|] i|p|n|n|k|k|]; cbn [step valid] in *.
  - destruct (put_ok (w_q w) x sg W) as (q & sig & -> & Wq & Ql & Ml & R). eexists _, _. split; [reflexivity|].
    set (w1 := mkW q (w_wait w) (w_woken w)).
    assert (I1 : WI w1 (tr ++ [(Put x sg k, OPut x (negb (full (w_q w))))])).
    { constructor; cbn [w1 w_q w_wait w_woken]; auto. unfold mopt. rewrite Ml. fold (mopt (w_q w)). unfold full in *.
      destruct (Z.eqb_spec (q_mlen (w_q w)) 4294967295) as [Em|Em]; cbn [negb andb] in *.
      - destruct R as [-> _]. apply f_put; [exact F|]. unfold mopt. rewrite Em. intros k0 X. discriminate.
      - destruct (Z.leb_spec (q_mlen (w_q w)) (Z.of_nat (length (qabs (w_q w))))) as [Lm|Lm]; cbn [negb andb] in *.
        + destruct R as [-> _]. unfold mopt in *. replace (q_mlen (w_q w) =? 4294967295) with false in * by lia. apply f_refuse; assumption.
        + destruct R as [-> _]. apply f_put; [exact F|]. unfold mopt. replace (q_mlen (w_q w) =? 4294967295) with false by lia. intros k0 X. injection X as <-. lia. }
    split.
    + destruct sig; [|exact I1]. destruct (signal_ok w1 k) as (E & G & _). destruct I1 as [W1 A1 B1 F1]. destruct (G A1 B1). constructor; rewrite ?E; assumption.
    + intros _ [Q S]. destruct (full (w_q w)) eqn:Fu.
      * destruct R as [Eq ->]. subst q. split; assumption.
      * destruct R as [Aq Sg]. rewrite (Sg Q). destruct (signal_ok w1 k) as (E & _ & G & N). split; [rewrite E; cbn; congruence|].
        intros H. assert (Hw : w_wait w1 <> []) by (intros X; rewrite (N X) in H; congruence). rewrite E, G by exact Hw. cbn [w1 w_q w_woken w_wait] in *. rewrite Aq, app_length. cbn [length]. specialize (S Hw). lia.
  - destruct (consume_ok w (n, m) true tr (Get n m) W A B F V) as (w' & b & -> & I1 & Ql & Wo & Wt & Em & Lt). eexists _, _. split; [reflexivity|]. split; [exact I1|].
    intros _ [Q S]. split; [congruence|]. intros H. rewrite Wo. destruct Wt as [Wt|Wt]; [|rewrite Wt; cbn; lia]. rewrite Wt in H. specialize (S H).
    destruct (qabs (w_q w)) eqn:E; [rewrite Em by reflexivity; cbn; lia|]. rewrite <- E in *. assert (qabs (w_q w) <> []) as Ne by (rewrite E; discriminate). specialize (Lt Ne). lia.
  - destruct (nth_error (w_woken w) i) as [c|] eqn:N.
    + destruct (consume_ok (mkW (w_q w) (w_wait w) (remove_nth i (w_woken w))) c false tr (Resume true i) W A (remove_nth_forall _ _ _ B) F (nth_error_forall _ _ _ _ B N)) as (w' & b & -> & I1 & Ql & Wo & Wt & Em & Lt).
      eexists _, _. split; [reflexivity|]. split; [exact I1|]. cbn [w_q w_wait w_woken] in *.
      intros _ [Q S]. split; [congruence|]. intros H. rewrite Wo. destruct Wt as [Wt|Wt]; [|rewrite Wt; cbn; lia]. rewrite Wt in H. specialize (S H). apply remove_nth_length in N.
      destruct (qabs (w_q w)) eqn:E; [rewrite Em by reflexivity; cbn; lia|]. rewrite <- E in *. assert (qabs (w_q w) <> []) as Ne by (rewrite E; discriminate). specialize (Lt Ne). lia.
    + eexists _, _. split; [reflexivity|]. split; [|auto]. constructor; auto. apply f_other; [exact F|discriminate].
  - destruct (nth_error (w_wait w) i) as [c|] eqn:N.
    + destruct (consume_ok (mkW (w_q w) (remove_nth i (w_wait w)) (w_woken w)) c false tr (Resume false i) W (remove_nth_forall _ _ _ A) B F (nth_error_forall _ _ _ _ A N)) as (w' & b & -> & I1 & Ql & Wo & Wt & Em & Lt).
      eexists _, _. split; [reflexivity|]. split; [exact I1|]. cbn [w_q w_wait w_woken] in *.
      intros _ [Q S]. split; [congruence|]. intros H. rewrite Wo. destruct Wt as [Wt|Wt]; [|rewrite Wt; cbn; lia]. assert (Hw : w_wait w <> []) by (intros X; rewrite X in N; destruct i; discriminate). specialize (S Hw).
      destruct (qabs (w_q w)) eqn:E; [rewrite Em by reflexivity; cbn; lia|]. rewrite <- E in *. assert (qabs (w_q w) <> []) as Ne by (rewrite E; discriminate). specialize (Lt Ne). lia.
    + eexists _, _. split; [reflexivity|]. split; [|auto]. constructor; auto. apply f_other; [exact F|discriminate].
  - destruct (match_ok (w_q w) p W) as (q & r & -> & Wq & Ql & Ml & R). eexists _, _. split; [reflexivity|]. cbn [w_q w_wait w_woken]. split.
    + constructor; cbn [w_q w_wait w_woken]; auto. unfold mopt. rewrite Ml. fold (mopt (w_q w)). destruct r as [x|].
      * destruct R as (l1 & l2 & E & -> & P & Fr). apply f_found; [rewrite <- E; exact F|exact P|exact Fr].
      * destruct R as [-> R]. apply f_none; assumption.
    + intros _ [Q S]. split; [cbn; congruence|]. cbn. intros H. specialize (S H). destruct r as [x|]; [|destruct R as [-> _]; exact S].
      destruct R as (l1 & l2 & E & -> & _). rewrite E, app_length in S. cbn in S. rewrite app_length. lia.
  - eexists _, _. split; [reflexivity|]. split; [|intros N; exfalso; apply (N n); reflexivity]. constructor; cbn; auto; [destruct W; constructor; assumption|]. apply f_other; [exact F|discriminate].
  - eexists _, _. split; [reflexivity|]. split; [|auto]. constructor; cbn; auto; [destruct W; constructor; assumption|]. unfold mopt. cbn. rewrite u32_small by lia. eapply f_max. exact F.
  - eexists _, _. split; [reflexivity|]. destruct (signal_ok w k) as (E & G & _). destruct (G A B). destruct (0 <? q_clen (w_q w)).
    + split; [constructor; rewrite ?E; auto; apply f_other; [exact F|discriminate]|]. intros _. apply signal_safe.
    + split; [constructor; auto; apply f_other; [exact F|discriminate]|auto].
  - eexists _, _. split; [reflexivity|]. destruct (signal_ok w k) as (E & G & _). destruct (G A B).
    split; [constructor; rewrite ?E; auto; apply f_other; [exact F|discriminate]|]. intros _. apply signal_safe.
  - eexists _, _. split; [reflexivity|]. split; [|auto]. rewrite q_clen_ok by exact W. constructor; auto. apply f_len. exact F.
Qed.

Lemma run_ok os : forall w tr, WI w tr -> Forall valid os -> exists w' tr', run w os = Some (w', tr') /\ WI w' (tr ++ tr') /\
  (Forall (fun o => forall n, o <> SetQlen n) os -> safe w -> safe w').
Proof.
  induction os as [|o os IH]; intros w tr H V; cbn [run]; [exists w, []; rewrite app_nil_r; auto|]. inversion V; subst.
  destruct (step_ok w tr o H H2) as (w1 & b & -> & I1 & S1). destruct (IH w1 _ I1 H3) as (w2 & tr2 & -> & I2 & S2).
  eexists _, _. split; [reflexivity|]. rewrite <- app_assoc in I2. split; [exact I2|]. intros N. inversion N; subst. auto.
Qed.

Lemma world0_ok cap : 0 <= cap < 2147483648 -> WI (world0 cap) [] /\ safe (world0 cap).
Proof.
  intros C. assert (Hb : B31 = 2147483648) by reflexivity.
  assert (E : qabs (w_q (world0 cap)) = []) by reflexivity. split.
  - constructor; [|constructor|constructor|rewrite E; constructor]. constructor; [|reflexivity].
    constructor; cbn [world0 w_q q_init q_cb c_len c_head c_tail c_buf]; rewrite ?u32_small, ?repeat_length by lia; lia.
  - split; [reflexivity|]. intros H. exfalso. apply H. reflexivity.
Qed.

Lemma fifo_order tr m c : fifo tr m c -> (forall p r, ~ In (OMatch p r) (map snd tr)) -> accepted tr = delivered tr ++ c.
Proof.
  assert (St : forall tr (e : op * obs), (forall p r, ~ In (OMatch p r) (map snd (tr ++ [e]))) -> forall p r, ~ In (OMatch p r) (map snd tr)).
  { intros t e H p r X. apply (H p r). rewrite map_app. apply in_app_iff. auto. }
  unfold accepted, delivered. induction 1; intros N; rewrite ?flat_map_app; cbn [flat_map snd fst app]; rewrite ?app_nil_r; try (apply IHfifo; eapply St; eassumption).
  - reflexivity.
  - rewrite IHfifo by (eapply St; eassumption). rewrite app_assoc. reflexivity.
  - rewrite IHfifo by (eapply St; eassumption). rewrite app_assoc. reflexivity.
  - rewrite IHfifo by (eapply St; eassumption). rewrite app_nil_r. reflexivity.
  - rewrite IHfifo by (eapply St; eassumption). rewrite app_nil_r. reflexivity.
  - exfalso. eapply (N p (Some x)). rewrite map_app. apply in_app_iff. right. left. reflexivity.
Qed.

From Coq Require Import Permutation.
Lemma fifo_perm tr m c : fifo tr m c -> Permutation (accepted tr) (delivered tr ++ c).
Proof.
  unfold accepted, delivered. induction 1; rewrite ?flat_map_app; cbn [flat_map snd fst app]; rewrite ?app_nil_r; try assumption.
  - constructor.
  - rewrite app_assoc. apply Permutation_app_tail. exact IHfifo.
  - rewrite <- app_assoc. exact IHfifo.
  - rewrite app_nil_r in IHfifo. exact IHfifo.
  - rewrite app_nil_r in IHfifo. exact IHfifo.
  - rewrite IHfifo. rewrite <- app_assoc. apply Permutation_app_head. symmetry. cbn. apply Permutation_middle.
Qed.
