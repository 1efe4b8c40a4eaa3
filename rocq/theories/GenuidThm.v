(** C08: unique ids. *)
From Verif Require Import Base GenuidModel.

(** Calls made by thread [t] in a schedule. *)
Definition calls (t : nat) (sched : list nat) : nat := count_occ Nat.eq_dec sched t.

Lemma guid_run_snoc s t : guid_run (s ++ [t]) = guid_gen (guid_run s) t.
Proof. unfold guid_run. rewrite fold_left_app. reflexivity. Qed.

Lemma guid_inv sched : Z.of_nat (length sched) <= 18446744073709551616 ->
  lastuid (guid_run sched) = u64 (Z.of_nat (length sched)) /\
  (forall t x, In x (returned (guid_run sched) t) -> 0 <= x < Z.of_nat (length sched)) /\
  (forall t, NoDup (returned (guid_run sched) t) /\ length (returned (guid_run sched) t) = calls t sched) /\
  (forall t1 t2 x, t1 <> t2 -> In x (returned (guid_run sched) t1) -> ~ In x (returned (guid_run sched) t2)).
Proof.
  induction sched as [|t0 s IH] using rev_ind; intros Hl.
  - cbn. repeat split; intros; try contradiction; try constructor; auto.
  - rewrite app_length in *. cbn [length] in *. destruct IH as (I1 & I2 & I3 & I4); [lia|].
    rewrite guid_run_snoc. set (g := guid_run s) in *. cbn [guid_gen lastuid returned].
    assert (Hlast : lastuid g = Z.of_nat (length s)) by (rewrite I1; apply u64_small; lia).
    split; [rewrite Hlast; f_equal; lia|]. split; [|split].
    + intros t x H. destruct (Nat.eqb t t0); [destruct H as [<-|H]; [lia|]|]; specialize (I2 _ _ H); lia.
    + intros t. destruct (I3 t) as [I3a I3b]. unfold calls in *. rewrite count_occ_app. cbn [count_occ].
      destruct (Nat.eqb_spec t t0) as [->|Hne].
      * destruct (Nat.eq_dec t0 t0); [|congruence]. split; [|cbn [length]; lia].
        constructor; [|assumption]. intros Hin. specialize (I2 _ _ Hin). lia.
      * destruct (Nat.eq_dec t0 t); [congruence|]. split; [assumption|lia].
    + intros t1 t2 x Hne H1 H2.
      destruct (Nat.eqb_spec t1 t0) as [->|E1]; destruct (Nat.eqb_spec t2 t0) as [->|E2]; try congruence.
      * destruct H1 as [<-|H1]; [|exact (I4 _ _ _ Hne H1 H2)]. specialize (I2 _ _ H2). lia.
      * destruct H2 as [<-|H2]; [|exact (I4 _ _ _ Hne H1 H2)]. specialize (I2 _ _ H1). lia.
      * exact (I4 _ _ _ Hne H1 H2).
Qed.

(** C08. For every number of threads and every schedule of up to 2^64 calls: every call returns
    an id, no thread gets an id twice and no two threads get the same id. *)
Theorem uids_unique :
  forall sched, Z.of_nat (length sched) <= 18446744073709551616 ->
  (forall t, NoDup (returned (guid_run sched) t) /\ length (returned (guid_run sched) t) = calls t sched) /\
  (forall t1 t2 x, t1 <> t2 -> In x (returned (guid_run sched) t1) -> ~ In x (returned (guid_run sched) t2)).
Proof. intros s H. destruct (guid_inv s H) as (_ & _ & H3 & H4). exact (conj H3 H4). Qed.
Print Assumptions uids_unique.

(** C08, "no id is zero" is false: the first id handed out is 0, the value reserved for
    "no id" (RTPP_UID_NONE). *)
Theorem uid_never_none_refuted : exists sched t, In 0 (returned (guid_run sched) t).
Proof. exists [3%nat], 3%nat. vm_compute. auto. Qed.
Print Assumptions uid_never_none_refuted.

(** ... but it is the only one: apart from the very first call no id is zero. *)
Theorem uid_none_only_first :
  forall sched t0, Z.of_nat (length (t0 :: sched)) <= 18446744073709551616 ->
  forall t, count_occ Z.eq_dec (returned (guid_run (t0 :: sched)) t) 0 = (if Nat.eqb t t0 then 1 else 0)%nat.
Proof.
  intros sched t0 Hl t.
  assert (Hin : In 0 (returned (guid_run (t0 :: sched)) t0)).
  { clear. unfold guid_run. cbn [fold_left].
    assert (H : In 0 (returned (guid_gen guid_ctor t0) t0)) by (cbn; rewrite Nat.eqb_refl; left; reflexivity).
    revert H. generalize (guid_gen guid_ctor t0). induction sched as [|t s IH]; intros g H; cbn; [assumption|].
    apply IH. cbn. destruct (Nat.eqb t0 t); [right|]; assumption. }
  destruct (guid_inv (t0 :: sched) Hl) as (_ & _ & H3 & H4).
  destruct (Nat.eqb_spec t t0) as [->|Hne].
  - apply NoDup_count_occ'; [apply H3|assumption].
  - apply count_occ_not_In. intros Hc. exact (H4 _ _ _ Hne Hc Hin).
Qed.
Print Assumptions uid_none_only_first.

Example uids_unique_ex :
  map (returned (guid_run [0; 1; 1; 0; 2]%nat)) [0; 1; 2]%nat = [[3; 0]; [2; 1]; [4]].
Proof. reflexivity. Qed.
