(** Proofs about the accounting file: no row is lost, no lock is kept. *)
From Verif Require Import Base Str CsvModel CsvSpec CsvProof CsvProof2 CsvProof3.

(** * A file never shrinks *)
Lemma do_grows s p x i : (length (fdata s i) <= length (fdata (do_step s p x) i))%nat.
Proof.
  assert (U : forall s i t j, (length (fdata s j) <= length (fdata (sappend s i t) j))%nat).
  { clear. intros s i t j. unfold sappend, fdata at 2. cbn [cy_data sdata].
    destruct (Nat.ltb_spec i (length (cy_data s))) as [H|H].
    - rewrite fdata_upd by exact H. destruct (Nat.eqb_spec j i) as [->|]; [rewrite app_length; lia|lia].
    - assert (E : upd (cy_data s) i (fdata s i ++ t) = cy_data s).
      { generalize (fdata s i ++ t). clear -H. revert i H. induction (cy_data s) as [|a l IH]; intros [|i] H z; cbn in *; try lia; try reflexivity.
        f_equal. apply IH. lia. }
      rewrite E. unfold fdata. lia. }
  assert (C : forall s p fd, fdata (sclose s p fd) i = fdata s i).
  { intros. unfold fdata. now rewrite sclose_data. }
  unfold do_step. destruct (cy_proc s p) as [pc fd stt]. cbn [cp_pc cp_fd cp_stt].
  destruct pc as [| | |r|k|k|k|k size|k g|r|r|]; cbv zeta; try reflexivity;
  unfold open_failed; brk;
  match goal with
  | |- (_ <= length (fdata ?z i))%nat =>
      match z with
      | context [sappend s ?a ?b] => change (fdata z i) with (fdata (sappend s a b) i); apply U
      | context [smake (sclose s p ?d)] => change (fdata z i) with (fdata (smake (sclose s p d)) i); rewrite fdata_make, C; lia
      | context [sclose s p ?d] => change (fdata z i) with (fdata (sclose s p d) i); rewrite C; lia
      | _ => change (fdata z i) with (fdata s i); lia
      end
  end.
Qed.
Lemma step_grows s o i : writes_whole o -> (length (fdata s i) <= length (fdata (cstep s o) i))%nat.
Proof.
  intros W. destruct o as [p|p r|p x| |j| |j]; cbn [cstep]; try lia.
  - destruct (cp_pc (cy_proc s p)); reflexivity.
  - destruct (cp_pc (cy_proc s p)); reflexivity.
  - apply do_grows.
  - reflexivity.
  - destruct (Nat.ltb j (length (cy_data s))); reflexivity.
  - rewrite fdata_make. lia.
  - destruct W.
Qed.
Definition tiny (s : csys) : Prop := forall i, Z.of_nat (length (fdata s i)) < 2 ^ 31.
Lemma small_tiny s : small s -> tiny s.
Proof.
  intros H i. unfold fdata. destruct (Nat.ltb_spec i (length (cy_data s))) as [L|L].
  - unfold small in H. rewrite Forall_forall in H. apply H, nth_In, L.
  - rewrite nth_overflow by exact L. reflexivity.
Qed.
Lemma tiny_back s o : writes_whole o -> tiny (cstep s o) -> tiny s.
Proof. intros W T i. specialize (T i). pose proof (step_grows s o i W). lia. Qed.
Lemma tiny_run l : forall s, Forall writes_whole l -> tiny (crun s l) -> tiny s.
Proof.
  induction l as [|o l IH]; intros s W T; [exact T|]. inversion W; subst. cbn in T.
  apply (tiny_back s o); auto.
Qed.

(** * Who holds a lock is at work *)
Definition working (v : cproc) (i : nat) : Prop :=
  match cp_fd v with
  | FOpen j _ => j = i /\ match cp_pc v with POFstat _ | POHead _ _ | POUnlock _ _ | PWrite _ | PUnlock => True | _ => False end
  | _ => False
  end.
Definition held_at_work (s : csys) : Prop := forall i q, cy_lock s i = Some q -> working (cy_proc s q) i.

Lemma held_quiet s s' p :
  held_at_work s -> (forall q, q <> p -> cy_proc s' q = cy_proc s q) ->
  (forall i q, q <> p -> cy_lock s' i = Some q -> cy_lock s i = Some q) ->
  (forall i, cy_lock s' i = Some p -> working (cy_proc s' p) i) -> held_at_work s'.
Proof.
  intros H Q K P i q E. destruct (Nat.eq_dec q p) as [->|N]; [now apply P|].
  rewrite Q by exact N. apply H. now apply K.
Qed.
Lemma sclose_lock_p s p fd i q : cy_lock (sclose s p fd) i = Some q -> cy_lock s i = Some q.
Proof.
  destruct fd as [|j off|]; cbn; auto. destruct (lock_free s p j); auto. cbn.
  unfold fset. destruct (Nat.eqb i j); [discriminate|auto].
Qed.

Lemma s32_tiny off n : 0 <= off <= n -> n < 2 ^ 31 -> (s32 off <? 0) = false.
Proof. intros A C. rewrite s32_small by lia. lia. Qed.

Lemma held_do c0 s p x :
  sinv c0 s -> tiny s -> held_at_work s -> held_at_work (do_step s p x).
Proof.
  intros I T H. pose proof (si_proc _ _ I p) as P.
  assert (Hp : forall i, cy_lock s i = Some p -> working (cy_proc s p) i) by (intros; now apply H).
  apply (held_quiet s _ p H).
  - intros q N. now apply do_other.
  - intros i q N. unfold do_step. destruct (cy_proc s p) as [pc fd stt] eqn:V. cbn [cp_pc cp_fd cp_stt] in *.
    destruct pc as [| | |r|k|k|k|k size|k g|r|r|]; cbv zeta; try (auto; fail);
    unfold open_failed; brk; cbn [cy_lock slog sproc slock smake sappend sdata]; auto;
    try (apply sclose_lock_p); unfold fset; destruct (Nat.eqb i _); auto; congruence.
  - intros i. unfold do_step. destruct (cy_proc s p) as [pc fd stt] eqn:V. cbn [cp_pc cp_fd cp_stt] in *.
    assert (Idle : forall i, cy_lock s i = Some p -> working (CProc pc fd stt) i) by auto.
    destruct pc as [| | |r|k|k|k|k size|k g|r|r|]; cbv zeta;
      try (intros E; rewrite V; now apply Idle).
    all: unfold pok in P; cbn [cp_pc cp_fd cp_stt] in P.
    + intros E. exfalso. assert (E' : cy_lock s i = Some p) by (revert E; brk; auto).
      apply Idle in E'. unfold working in E'. cbn [cp_fd cp_pc] in E'. destruct fd; tauto.
    + intros E. exfalso. assert (E' : cy_lock s i = Some p).
      { revert E. unfold open_failed; brk; cbn [cy_lock slog sproc slock smake]; apply sclose_lock_p. }
      apply Idle in E'. unfold working in E'. cbn [cp_fd cp_pc] in E'. destruct fd; tauto.
    + destruct fd as [|j off|]; try contradiction.
      assert (No : cy_lock s i <> Some p) by (intros E'; apply Idle in E'; unfold working in E'; cbn in E'; tauto).
      destruct x.
      * destruct (lock_free s p j); [|intros E; congruence]. cbn [cy_lock slock sproc cy_proc]. rewrite fset_same.
        unfold fset. destruct (Nat.eqb_spec i j) as [->|]; [|congruence]. intros _. split; [reflexivity|exact Logic.I].
      * intros E. exfalso. apply No. revert E. unfold open_failed. destruct k; cbn [cy_lock slog sproc]; apply sclose_lock_p.
      * intros E. exfalso. apply No. revert E. unfold open_failed. destruct k; cbn [cy_lock slog sproc]; apply sclose_lock_p.
    + destruct fd as [|j off|]; try contradiction. destruct P as (P1 & P2 & P3).
      assert (Only : forall i, cy_lock s i = Some p -> i = j) by (intros i' E'; apply Idle in E'; unfold working in E'; cbn in E'; symmetry; tauto).
      assert (Cl : cy_lock (sclose s p (FOpen j off)) i <> Some p).
      { cbn. unfold lock_free. rewrite P3, Nat.eqb_refl. cbn. unfold fset. destruct (Nat.eqb_spec i j); [discriminate|].
        intros E. apply Only in E. congruence. }
      destruct x; [|intros E; exfalso; apply Cl; revert E; unfold open_failed; destruct k; auto
                   |intros E; exfalso; apply Cl; revert E; unfold open_failed; destruct k; auto].
      cbn [cy_lock sproc cy_proc]. rewrite fset_same. intros E. split; [symmetry; now apply Only|exact Logic.I].
    + destruct fd as [|j off|]; try contradiction.
      assert (Only : forall i, cy_lock s i = Some p -> i = j) by (intros i' E'; apply Idle in E'; unfold working in E'; cbn in E'; symmetry; tauto).
      brk; cbn [cy_lock sproc cy_proc sappend sdata]; rewrite fset_same; intros E; (split; [symmetry; now apply Only|exact Logic.I]).
    + destruct fd as [|j off|]; try contradiction.
      assert (Only : forall i, cy_lock s i = Some p -> i = j) by (intros i' E'; apply Idle in E'; unfold working in E'; cbn in E'; symmetry; tauto).
      intros E. exfalso. assert (E' : fset (cy_lock s) j None i = Some p).
      { revert E. unfold open_failed. brk; cbn [cy_lock slog sproc slock]; auto. }
      unfold fset in E'. destruct (Nat.eqb_spec i j); [discriminate|]. apply Only in E'. congruence.
    + assert (No : forall i, cy_lock s i <> Some p) by (intros i' E'; apply Idle in E'; unfold working in E'; cbn in E'; destruct fd; tauto).
      destruct fd as [|j off|]; try (cbn [cy_lock slog sproc]; intros E; now apply No in E).
      destruct x; try (cbn [cy_lock slog sproc]; intros E; now apply No in E).
      destruct (lock_free s p j); [|intros E; now apply No in E].
      rewrite (s32_tiny off (fend s j)); [|tauto|apply T].
      cbn [cy_lock slock sproc cy_proc]. rewrite fset_same.
      unfold fset. destruct (Nat.eqb_spec i j) as [->|]; [|intros E; now apply No in E]. intros _. split; [reflexivity|exact Logic.I].
    + destruct fd as [|j off|]; try contradiction.
      assert (Only : forall i, cy_lock s i = Some p -> i = j) by (intros i' E'; apply Idle in E'; unfold working in E'; cbn in E'; symmetry; tauto).
      brk; cbn [cy_lock sproc cy_proc sappend sdata slog]; rewrite fset_same; intros E; (split; [symmetry; now apply Only|exact Logic.I]).
    + destruct fd as [|j off|]; try contradiction.
      assert (Only : forall i, cy_lock s i = Some p -> i = j) by (intros i' E'; apply Idle in E'; unfold working in E'; cbn in E'; symmetry; tauto).
      cbn [cy_lock slog sproc slock]. intros E'. exfalso.
      unfold fset in E'. destruct (Nat.eqb_spec i j); [discriminate|]. apply Only in E'. congruence.
Qed.
Lemma held_step c0 s o : sinv c0 s -> tiny s -> held_at_work s -> held_at_work (cstep s o).
Proof.
  intros I T H. destruct o as [p|p r|p x| |i| |i]; cbn [cstep]; try exact H.
  - destruct (cp_pc (cy_proc s p)) eqn:V; try exact H.
    apply (held_quiet s _ p H); cbn [cy_proc cy_lock sproc]; auto.
    + intros q N. now rewrite fset_other.
    + intros i E. apply H in E. unfold working in E. rewrite V in E. destruct (cp_fd (cy_proc s p)); tauto.
  - destruct (cp_pc (cy_proc s p)) eqn:V; try exact H.
    apply (held_quiet s _ p H); cbn [cy_proc cy_lock sproc slog]; auto.
    + intros q N. now rewrite fset_other.
    + intros i E. apply H in E. unfold working in E. rewrite V in E. destruct (cp_fd (cy_proc s p)); tauto.
  - eapply held_do; eassumption.
  - destruct (Nat.ltb i (length (cy_data s))); exact H.
Qed.
Lemma held_run c0 l : forall s, sinv c0 s -> Forall writes_whole l -> heads_written s l -> tiny (crun s l) ->
  held_at_work s -> held_at_work (crun s l).
Proof.
  induction l as [|o l IH]; intros s I W Hw T H; [exact H|]. inversion W as [|? ? W1 W2]; subst. destruct Hw as [H1 H2].
  cbn in *. apply IH; auto; [apply sinv_step; auto|].
  eapply held_step; eauto. apply (tiny_back s o W1). now apply (tiny_run l).
Qed.

(** * Someone can always go on *)
Lemma moves_on c0 s p :
  sinv c0 s -> ~ at_rest (cy_proc s p) ->
  (do_step s p ROk <> s) \/ (exists i q, q <> p /\ cy_lock s i = Some q /\ (forall x, match x with ROk => True | _ => False end -> do_step s p x = s)).
Proof.
  intros I R. pose proof (si_proc _ _ I p) as P. unfold at_rest in R.
  assert (L : do_step s p ROk <> s \/ do_step s p ROk = s).
  { destruct (do_left s p ROk) as [E|E]; [right; exact E|left]. intros F. rewrite F in E. lia. }
  destruct L as [L|L]; [left; exact L|right].
  assert (X : exists i q, q <> p /\ cy_lock s i = Some q).
  { assert (C : forall (a : cproc), cy_proc (do_step s p ROk) p = a -> a = cy_proc s p) by (intros a <-; now rewrite L).
    revert C. unfold do_step. destruct (cy_proc s p) as [pc fd stt] eqn:V. cbn [cp_pc cp_fd cp_stt] in *.
    destruct pc as [| | |r|k|k|k|k size|k g|r|r|]; cbv zeta; try tauto;
    unfold pok in P; cbn [cp_pc cp_fd cp_stt] in P; intros C.
    - exfalso. destruct (cy_name s) as [i|]; [destruct stt as [j|]; [destruct (Nat.eqb i j)|]|];
      cbn [cy_proc sproc] in C; specialize (C _ (fset_same _ _ _)); discriminate.
    - exfalso. destruct (cy_name (sclose s p fd)) as [i|];
      cbn [cy_proc sproc] in C; specialize (C _ (fset_same _ _ _)); discriminate.
    - destruct fd as [|i off|]; try contradiction. unfold lock_free in C. destruct (cy_lock s i) as [q|] eqn:E.
      + destruct (Nat.eqb_spec q p) as [->|N]; [|exists i, q; auto].
        cbn [cy_proc sproc slock] in C. specialize (C _ (fset_same _ _ _)). discriminate.
      + cbn [cy_proc sproc slock] in C. specialize (C _ (fset_same _ _ _)). discriminate.
    - destruct fd as [|i off|]; try contradiction.
      cbn [cy_proc sproc slock] in C. specialize (C _ (fset_same _ _ _)). discriminate.
    - destruct fd as [|i off|]; try contradiction. destruct (size =? 0);
      cbn [cy_proc sproc slock sappend sdata] in C; specialize (C _ (fset_same _ _ _)); discriminate.
    - destruct fd as [|i off|]; try contradiction. unfold open_failed in C. destruct g, k;
      cbn [cy_proc sproc slock slog] in C; specialize (C _ (fset_same _ _ _)); discriminate.
    - destruct fd as [|i off|].
      + cbn [cy_proc sproc slock slog] in C; specialize (C _ (fset_same _ _ _)); discriminate.
      + unfold lock_free in C. destruct (cy_lock s i) as [q|] eqn:E.
        * destruct (Nat.eqb_spec q p) as [->|N]; [|exists i, q; auto].
          destruct (s32 off <? 0); cbn [cy_proc sproc slock slog] in C; specialize (C _ (fset_same _ _ _)); discriminate.
        * destruct (s32 off <? 0); cbn [cy_proc sproc slock slog] in C; specialize (C _ (fset_same _ _ _)); discriminate.
      + cbn [cy_proc sproc slock slog] in C; specialize (C _ (fset_same _ _ _)); discriminate.
    - destruct fd as [|i off|]; try contradiction.
      cbn [cy_proc sproc slock slog sappend sdata] in C; specialize (C _ (fset_same _ _ _)); discriminate.
    - destruct fd as [|i off|]; try contradiction.
      cbn [cy_proc sproc slock slog] in C; specialize (C _ (fset_same _ _ _)); discriminate. }
  destruct X as (i & q & N & E). exists i, q. repeat split; auto. intros x Hx. destruct x; [exact L|contradiction|contradiction].
Qed.
Lemma working_moves c0 s q i : sinv c0 s -> working (cy_proc s q) i -> do_step s q ROk <> s /\ ~ at_rest (cy_proc s q).
Proof.
  intros I W. split.
  - intros E. assert (C : forall (a : cproc), cy_proc (do_step s q ROk) q = a -> a = cy_proc s q) by (intros a <-; now rewrite E).
    revert C. unfold do_step. unfold working in W. destruct (cy_proc s q) as [pc fd stt]. cbn [cp_pc cp_fd cp_stt] in *.
    destruct fd as [|j off|]; try contradiction. destruct W as [-> W].
    destruct pc; try contradiction; cbv zeta; unfold open_failed; brk; intros C;
    cbn [cy_proc sproc slock slog sappend sdata] in C; specialize (C _ (fset_same _ _ _)); discriminate.
  - unfold working, at_rest in *. destruct (cp_fd (cy_proc s q)); try contradiction.
    destruct W as [_ W]. destruct (cp_pc (cy_proc s q)); try contradiction; intros [F|[F|F]]; discriminate.
Qed.
Lemma someone_moves c0 s p :
  sinv c0 s -> held_at_work s -> ~ at_rest (cy_proc s p) ->
  exists q, ~ at_rest (cy_proc s q) /\ do_step s q ROk <> s.
Proof.
  intros I H R. destruct (moves_on c0 s p I R) as [M|(i & q & N & E & _)]; [exists p; auto|].
  destruct (working_moves c0 s q i I (H _ _ E)). exists q. auto.
Qed.

(** * With no failing call no row is lost *)
Definition opened (v : cproc) : Prop :=
  match cp_pc v with
  | PNew => True
  | POpen None => cp_fd v = FNone
  | PDead => False
  | _ => match cp_fd v with FOpen _ _ => True | _ => False end
  end.
Definition only_whole (log : list cev) : Prop :=
  Forall (fun e => match e with ECall _ _ | EWrote _ _ _ => True | _ => False end) log.
Record ginv (s : csys) : Prop := { gi_open : forall q, opened (cy_proc s q); gi_log : only_whole (cy_log s) }.

Lemma ginv_do c0 s p : sinv c0 s -> tiny s -> ginv s -> ginv (do_step s p ROk).
Proof.
  intros I T [G1 G2]. pose proof (si_proc _ _ I p) as P. pose proof (G1 p) as O.
  assert (X : opened (cy_proc (do_step s p ROk) p) /\ only_whole (cy_log (do_step s p ROk))).
  { unfold do_step. destruct (cy_proc s p) as [pc fd stt] eqn:V. unfold pok, opened in P, O. cbn [cp_pc cp_fd cp_stt] in *.
    destruct pc as [| | |r|k|k|k|k size|k g|r|r|]; cbv zeta;
      try (rewrite V; split; [exact O|exact G2]).
    - destruct fd as [|i off|]; try contradiction.
      brk; (split; [cbn [cy_proc sproc]; rewrite fset_same; exact Logic.I|exact G2]).
    - destruct (cy_name (sclose s p fd)) as [i|];
      (split; [cbn [cy_proc sproc]; rewrite fset_same; exact Logic.I|]; cbn [cy_log sproc smake]; rewrite sclose_log;
       destruct fd; [exact G2|exact G2|destruct k; [contradiction|discriminate]]).
    - destruct fd as [|i off|]; try contradiction. destruct (lock_free s p i); [|rewrite V; split; [exact Logic.I|exact G2]].
      split; [cbn [cy_proc sproc slock]; rewrite fset_same; exact Logic.I|exact G2].
    - destruct fd as [|i off|]; try contradiction.
      split; [cbn [cy_proc sproc slock]; rewrite fset_same; exact Logic.I|exact G2].
    - destruct fd as [|i off|]; try contradiction. destruct (size =? 0);
      (split; [cbn [cy_proc sproc slock sappend sdata]; rewrite fset_same; exact Logic.I|exact G2]).
    - destruct fd as [|i off|]; try contradiction. destruct P as (_ & _ & _ & -> & _).
      destruct k; (split; [cbn [cy_proc sproc slock sappend sdata]; rewrite fset_same; exact Logic.I|exact G2]).
    - destruct fd as [|i off|]; try contradiction. destruct (lock_free s p i); [|rewrite V; split; [exact Logic.I|exact G2]].
      rewrite (s32_tiny off (fend s i)); [|tauto|apply T].
      split; [cbn [cy_proc sproc slock]; rewrite fset_same; exact Logic.I|exact G2].
    - destruct fd as [|i off|]; try contradiction.
      split; [cbn [cy_proc sproc slock sappend sdata slog]; rewrite fset_same; exact Logic.I|].
      cbn [cy_log slog sproc sappend sdata app]. constructor; [exact Logic.I|exact G2].
    - destruct fd as [|i off|]; try contradiction.
      split; [cbn [cy_proc sproc slock]; rewrite fset_same; exact Logic.I|exact G2]. }
  constructor; [|apply X]. intros q. destruct (Nat.eq_dec q p) as [->|N]; [apply X|]. rewrite do_other by exact N. apply G1.
Qed.
Lemma ginv_step c0 s o : sinv c0 s -> tiny s -> all_good o -> ginv s -> ginv (cstep s o).
Proof.
  intros I T A [G1 G2]. destruct o as [p|p r|p x| |i| |i]; cbn [cstep].
  - destruct (cp_pc (cy_proc s p)) eqn:V; try (constructor; assumption).
    constructor; [|exact G2]. intros q. cbn [cy_proc sproc]. unfold fset. destruct (Nat.eqb q p); [reflexivity|apply G1].
  - pose proof (G1 p) as O. unfold opened in O. destruct (cp_pc (cy_proc s p)) eqn:V; try (constructor; assumption).
    constructor.
    + intros q. cbn [cy_proc sproc slog]. unfold fset. destruct (Nat.eqb q p); [exact O|apply G1].
    + cbn [cy_log slog sproc app]. constructor; [exact Logic.I|exact G2].
  - destruct x; try contradiction. apply (ginv_do c0); auto. constructor; assumption.
  - constructor; assumption.
  - destruct (Nat.ltb i (length (cy_data s))); constructor; assumption.
  - constructor; assumption.
  - destruct A.
Qed.
Lemma all_good_whole o : all_good o -> writes_whole o.
Proof. destruct o as [| |p [| |]| | | |]; cbn; auto. Qed.
Lemma all_good_heads l : forall s, Forall all_good l -> heads_written s l.
Proof.
  induction l as [|o l IH]; intros s A; [exact Logic.I|]. inversion A as [|? ? A1 A2]; subst. split; [|now apply IH].
  destruct o as [| |p [| |]| | | |]; cbn in *; tauto.
Qed.
Lemma good_wholes l : Forall all_good l -> Forall writes_whole l.
Proof. intros A. eapply Forall_impl; [|exact A]. exact all_good_whole. Qed.
Lemma ginv_run c0 l : forall s, sinv c0 s -> Forall all_good l -> tiny (crun s l) -> ginv s -> ginv (crun s l).
Proof.
  induction l as [|o l IH]; intros s I A T G; [exact G|]. pose proof (good_wholes _ A) as W. pose proof (all_good_heads _ s A) as Hd.
  inversion A as [|? ? A1 A2]; subst. inversion W as [|? ? W1 W2]; subst. destruct Hd as [D1 D2].
  cbn in *. apply IH; auto; [now apply sinv_step|].
  apply (ginv_step c0); auto. apply (tiny_back s o W1). now apply (tiny_run l).
Qed.
Lemma ginv_init c0 name : ginv (cinit c0 name).
Proof. constructor; [intros q; exact Logic.I|constructor]. Qed.
Lemma held_init c0 name : held_at_work (cinit c0 name).
Proof. intros i q E. discriminate. Qed.
Lemma only_whole_fates p log : only_whole log -> Forall (fun f => exists i, snd f = Whole i) (fates p log).
Proof.
  induction 1 as [|e log E L IH]; [constructor|].
  destruct e; try contradiction; cbn [fates]; [exact IH|].
  destruct (Nat.eqb p0 p); [|exact IH]. apply Forall_app. split; [exact IH|]. constructor; [|constructor]. eexists. reflexivity.
Qed.
