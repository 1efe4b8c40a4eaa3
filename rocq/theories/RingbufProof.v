From Verif Require Import Base RingbufModel RingbufSpec.

Section Proof.
  Context {A : Type} (eqb : A -> A -> bool).
  Hypothesis eqb_spec : forall x y, eqb x y = true <-> x = y.

  Notation rb := (@ringbuf A).

  (** The valid slots, oldest first. *)
  Definition content (r : rb) : list A :=
    if rb_full r then skipn (rb_c r) (rb_el r) ++ firstn (rb_c r) (rb_el r)
    else firstn (rb_c r) (rb_el r).

  Definition Inv (n : nat) (acc : list A) (r : rb) : Prop :=
    length (rb_el r) = n /\ (rb_c r < n)%nat /\ content r = lastn n acc.

  Lemma skipn_app_len (l1 l2 : list A) k : (k <= length l1)%nat ->
    skipn k (l1 ++ l2) = skipn k l1 ++ l2.
  Proof. intros H. rewrite skipn_app. replace (k - length l1)%nat with O by lia. reflexivity. Qed.

  Lemma lastn_app n (l : list A) x : (0 < n)%nat ->
    lastn n (l ++ [x]) = lastn (n - 1) l ++ [x].
  Proof.
    intros Hn. unfold lastn. rewrite app_length. cbn.
    replace (length l + 1 - n)%nat with (length l - (n - 1))%nat by lia.
    apply skipn_app_len. lia.
  Qed.

  Lemma lastn_pred n (l : list A) : (0 < n)%nat ->
    lastn (n - 1) l = if (length l <? n)%nat then l else tl (lastn n l).
  Proof.
    intros Hn. destruct (Nat.ltb_spec (length l) n) as [H|H].
    - apply lastn_all; lia.
    - unfold lastn. replace (length l - (n - 1))%nat with (S (length l - n))%nat by lia.
      destruct (Nat.eq_dec (length l) 0) as [E|E]; [lia|].
      generalize dependent (length l - n)%nat. clear.
      intros k; revert l. induction k as [|k IH]; intros [|a l]; cbn; auto.
      rewrite <- (IH l). destruct l; reflexivity.
  Qed.

  Lemma upd_split (l : list A) i x : (i < length l)%nat ->
    upd l i x = firstn i l ++ x :: skipn (S i) l.
  Proof.
    revert i; induction l as [|a l IH]; intros [|i] H; cbn in *; try lia; auto.
    f_equal. apply IH. lia.
  Qed.

  Lemma firstn_S_upd (l : list A) i x : (i < length l)%nat ->
    firstn (S i) (upd l i x) = firstn i l ++ [x].
  Proof.
    revert i; induction l as [|a l IH]; intros [|i] H; cbn in *; try lia; auto.
    f_equal. apply IH. lia.
  Qed.

  Lemma skipn_S_upd (l : list A) i x : skipn (S i) (upd l i x) = skipn (S i) l.
  Proof.
    revert i; induction l as [|a l IH]; intros [|i]; cbn; auto.
    apply IH.
  Qed.

  Lemma skipn_S_tl (l : list A) i : skipn (S i) l = tl (skipn i l).
  Proof.
    revert i; induction l as [|a l IH]; intros [|i]; cbn; auto.
    rewrite <- IH. destruct l; reflexivity.
  Qed.

  Lemma push_inv n acc r x : (0 < n)%nat -> Inv n acc r ->
    exists r', rb_push r x = Some r' /\ Inv n (acc ++ [x]) r'.
  Proof.
    intros Hn (Hlen & Hc & Hcont).
    unfold rb_push. rewrite Hlen.
    destruct (Nat.ltb_spec (rb_c r) n) as [_|]; [|lia].
    assert (Hcl : length (content r) = Nat.min n (length acc))
      by (rewrite Hcont; apply lastn_length).
    assert (Hnew : lastn n (acc ++ [x]) =
                   (if rb_full r then tl (content r) else content r) ++ [x]).
    { rewrite lastn_app by assumption. f_equal. rewrite lastn_pred by assumption.
      unfold content in *. destruct (rb_full r).
      - rewrite app_length, skipn_length, firstn_length in Hcl.
        destruct (Nat.ltb_spec (length acc) n) as [H|H]; [lia|]. now rewrite Hcont.
      - rewrite firstn_length in Hcl.
        destruct (Nat.ltb_spec (length acc) n) as [H|H].
        + rewrite Hcont. symmetry. apply lastn_all. lia.
        + lia. }
    destruct (Nat.eqb_spec (S (rb_c r)) n) as [E|E].
    - eexists; split; [reflexivity|].
      split; [cbn; rewrite upd_length; assumption|].
      split; [cbn; lia|].
      rewrite Hnew. unfold content. cbn [rb_full rb_c rb_el].
      cbn [skipn firstn]. rewrite app_nil_r.
      rewrite <- (firstn_all (upd (rb_el r) (rb_c r) x)).
      rewrite upd_length, Hlen, <- E.
      rewrite firstn_S_upd by lia.
      destruct (rb_full r).
      + f_equal.
        assert (Hs : length (skipn (rb_c r) (rb_el r)) = 1%nat) by (rewrite skipn_length; lia).
        destruct (skipn (rb_c r) (rb_el r)) as [|a [|b q]]; cbn in Hs; try lia.
        reflexivity.
      + reflexivity.
    - eexists; split; [reflexivity|].
      split; [cbn; rewrite upd_length; assumption|].
      split; [cbn; lia|].
      rewrite Hnew. unfold content. cbn [rb_full rb_c rb_el].
      rewrite firstn_S_upd by lia.
      destruct (rb_full r); [|reflexivity].
      rewrite skipn_S_upd, app_assoc. f_equal.
      rewrite skipn_S_tl.
      assert (Hs : (0 < length (skipn (rb_c r) (rb_el r)))%nat) by (rewrite skipn_length; lia).
      destruct (skipn (rb_c r) (rb_el r)) as [|a q]; cbn in Hs; [lia|]. reflexivity.
  Qed.

  Lemma scan_in l x : forall i, 0 <= i ->
    (0 <= rb_scan eqb l x i <-> In x l) /\ (rb_scan eqb l x i = -1 <-> ~ In x l).
  Proof.
    induction l as [|y t IH]; intros i Hi; cbn.
    - split; split; intros; try lia; tauto.
    - destruct (eqb y x) eqn:E.
      + apply eqb_spec in E. subst. split; split; intros H; try tauto; lia.
      + assert (Hne : y <> x) by (intros ->; assert (eqb x x = true) by (now apply eqb_spec); congruence).
        destruct (IH (i + 1) ltac:(lia)) as [H1 H2].
        split; [rewrite H1|rewrite H2]; tauto.
  Qed.

  Lemma locate_inv n acc r x : Inv n acc r ->
    (0 <= rb_locate eqb r x <-> In x (lastn n acc)) /\
    (rb_locate eqb r x = -1 <-> ~ In x (lastn n acc)).
  Proof.
    intros (Hlen & Hc & Hcont). unfold rb_locate.
    rewrite <- Hcont.
    destruct (scan_in (firstn (if rb_full r then length (rb_el r) else rb_c r) (rb_el r)) x 0 ltac:(lia))
      as [H1 H2].
    rewrite H1, H2. unfold content. destruct (rb_full r).
    - rewrite firstn_all. rewrite in_app_iff.
      assert (Hin : In x (rb_el r) <-> In x (firstn (rb_c r) (rb_el r)) \/ In x (skipn (rb_c r) (rb_el r))).
      { rewrite <- in_app_iff, firstn_skipn. tauto. }
      rewrite Hin. tauto.
    - tauto.
  Qed.

  Lemma flush_inv n acc r : (0 < n)%nat -> Inv n acc r -> Inv n [] (rb_flush r).
  Proof. intros Hn (H1 & H2 & H3). split; [assumption|]. split; [cbn; lia|]. reflexivity. Qed.

  Lemma run_inv n : (0 < n)%nat -> forall h acc r, Inv n acc r ->
    exists r' outs, rb_run eqb r h = Some (r', outs) /\ Inv n (since_flush acc h) r' /\
      length outs = length h.
  Proof.
    intros Hn. induction h as [|o t IH]; intros acc r HI; cbn.
    - eexists _, _. split; [reflexivity|]. cbn. auto.
    - destruct o as [x| |x]; cbn.
      + destruct (push_inv n acc r x Hn HI) as (r' & -> & HI').
        destruct (IH _ _ HI') as (r'' & outs & -> & HI'' & Hl).
        eexists _, _. split; [reflexivity|]. cbn; auto.
      + destruct (IH _ _ (flush_inv n acc r Hn HI)) as (r'' & outs & -> & HI'' & Hl).
        eexists _, _. split; [reflexivity|]. cbn; auto.
      + destruct (IH _ _ HI) as (r'' & outs & -> & HI'' & Hl).
        eexists _, _. split; [reflexivity|]. cbn; auto.
  Qed.

  Lemma ctor_inv n z : (0 < n)%nat -> Inv n [] (rb_ctor z n).
  Proof. intros Hn. split; [apply repeat_length|]. split; [exact Hn|]. reflexivity. Qed.

  Lemma ringbuf_remembers_last_n n z h x : (0 < n)%nat ->
    exists r outs, rb_run eqb (rb_ctor z n) h = Some (r, outs) /\
      (0 <= rb_locate eqb r x <-> In x (remembered n h)) /\
      (rb_locate eqb r x = -1 <-> ~ In x (remembered n h)).
  Proof.
    intros Hn. destruct (run_inv n Hn h [] _ (ctor_inv n z Hn)) as (r & outs & Hr & HI & _).
    exists r, outs. split; [assumption|]. unfold remembered. eapply locate_inv; eassumption.
  Qed.

  Lemma scan_nth l x : forall i, 0 <= i -> 0 <= rb_scan eqb l x i ->
    i <= rb_scan eqb l x i /\ nth_error l (Z.to_nat (rb_scan eqb l x i - i)) = Some x.
  Proof.
    induction l as [|y t IH]; intros i Hi H; cbn in *; [lia|].
    destruct (eqb y x) eqn:E.
    - apply eqb_spec in E. subst. split; [lia|]. rewrite Z.sub_diag. reflexivity.
    - destruct (IH (i + 1) ltac:(lia) H) as [H1 H2]. split; [lia|].
      replace (Z.to_nat (rb_scan eqb t x (i + 1) - i)) with (S (Z.to_nat (rb_scan eqb t x (i + 1) - (i + 1)))) by lia.
      exact H2.
  Qed.
End Proof.
