From Verif Require Import Base RefcntModel RefcntSpec.

(** * Counting *)
Lemma zsum_two {A} (f : A -> Z) l i j x y : (forall a, 0 <= f a) -> i <> j ->
  nth_error l i = Some x -> nth_error l j = Some y -> f x + f y <= zsum f l.
Proof.
  intros H. revert i j. induction l as [|h t IH]; intros [|i] [|j] Hij; cbn; intros Hi Hj; try discriminate; try congruence.
  - injection Hi as ->. apply nth_error_In in Hj. pose proof (zsum_ge_in f t y H Hj). lia.
  - injection Hj as ->. apply nth_error_In in Hi. pose proof (zsum_ge_in f t x H Hi). lia.
  - assert (i <> j) by congruence. specialize (IH i j H0 Hi Hj). specialize (H h). lia.
Qed.

Lemma zsum_ge_nth {A} (f : A -> Z) l i x : (forall a, 0 <= f a) -> nth_error l i = Some x -> f x <= zsum f l.
Proof. intros H Hi. apply nth_error_In in Hi. apply zsum_ge_in; assumption. Qed.

Lemma ncount_nonneg o l : 0 <= ncount o l.
Proof. apply zsum_nonneg. intros x. destruct (o =? x)%nat; lia. Qed.
Lemma dcount_nonneg o l : 0 <= dcount o l.
Proof. apply zsum_nonneg. intros x. destruct (dent_eqb o x); lia. Qed.
Lemma dcount_app d a b : dcount d (a ++ b) = dcount d a + dcount d b.
Proof. apply zsum_app. Qed.
Lemma dcount_rev d l : dcount d (rev l) = dcount d l.
Proof. induction l as [|x l IH]; [reflexivity|]. cbn [rev]. rewrite dcount_app, IH. unfold dcount. cbn. lia. Qed.
Lemma dcount_firstn d k l : dcount d (firstn k l) <= dcount d l.
Proof. rewrite <- (firstn_skipn k l) at 2. rewrite dcount_app. pose proof (dcount_nonneg d (skipn k l)). lia. Qed.

Lemma holds_In l o : holds l o = true <-> In o l.
Proof.
  unfold holds. rewrite existsb_exists. split.
  - intros (x & Hx & E). apply Nat.eqb_eq in E. subst. exact Hx.
  - intros H. exists o. rewrite Nat.eqb_refl. auto.
Qed.
Lemma ncount_In o l : In o l -> 1 <= ncount o l.
Proof.
  induction l as [|x l IH]; cbn; [tauto|]. intros [->|H]; unfold ncount in *; cbn.
  - rewrite Nat.eqb_refl. pose proof (ncount_nonneg o l). unfold ncount in *. lia.
  - specialize (IH H). destruct (o =? x)%nat; lia.
Qed.
Lemma ncount_remove1 p o l : In o l -> ncount p (remove1 o l) = ncount p l - (if (p =? o)%nat then 1 else 0).
Proof.
  unfold ncount. induction l as [|x l IH]; cbn [In remove1 zsum]; [tauto|]. intros H.
  destruct (Nat.eqb_spec x o) as [->|E]; [lia|].
  cbn [zsum]. rewrite IH by (destruct H; [congruence|assumption]). lia.
Qed.
Lemma ncount_cons p o l : ncount p (o :: l) = (if (p =? o)%nat then 1 else 0) + ncount p l.
Proof. reflexivity. Qed.

(** * Invariant *)
Definition dthr (p : nat) (th : rthr) : Z :=
  zsum (fun f : nat * Z => if (p =? fst f)%nat then 1 else 0) (t_stk th) +
  match t_pc th with RDecZero o => if (p =? o)%nat then 1 else 0 | _ => 0 end.
Definition fthr (p : nat) (th : rthr) : Z := match t_pc th with RAttFail o => if (p =? o)%nat then 1 else 0 | _ => 0 end.
Definition pthr (p : nat) (j : nat) (th : rthr) : Z :=
  match t_pc th with RAttStore o i _ => if (p =? o)%nat && (Z.of_nat j =? i) then 1 else 0 | _ => 0 end.

Lemma thr_refs_nonneg p th : 0 <= thr_refs p th.
Proof. unfold thr_refs. pose proof (ncount_nonneg p (t_hold th)). destruct (t_pc th); try lia; destruct (_ =? _)%nat; lia. Qed.
Lemma dthr_nonneg p th : 0 <= dthr p th.
Proof.
  unfold dthr. assert (0 <= zsum (fun f : nat * Z => if (p =? fst f)%nat then 1 else 0) (t_stk th)).
  { apply zsum_nonneg. intros x. destruct (_ =? _)%nat; lia. }
  destruct (t_pc th); try lia; destruct (_ =? _)%nat; lia.
Qed.
Lemma fthr_nonneg p th : 0 <= fthr p th.
Proof. unfold fthr. destruct (t_pc th); try lia; destruct (_ =? _)%nat; lia. Qed.
Lemma pthr_nonneg p j th : 0 <= pthr p j th.
Proof. unfold pthr. destruct (t_pc th); try lia; destruct (_ && _); lia. Qed.

Definition OI (r d f : Z) (pend : nat -> Z) (x : robj) : Prop :=
  length (o_slot x) = 24%nat /\ ~ In DFree (tl (o_att x)) /\ (length (o_att x) <= 24)%nat /\
  ((r = o_cnt x + 1 /\ 0 <= o_cnt x /\ d = 0 /\ o_freed x = false /\ o_run x = [] /\
    o_ulen x = Z.of_nat (length (o_att x)) - 1 + f /\ (0 < f -> length (o_att x) = 24%nat) /\
    (o_shared x = false -> o_cnt x = 0) /\
    (forall j dd, nth_error (o_att x) j = Some dd -> nth_error (o_slot x) j = Some (Some dd) \/ 0 < pend j))
   \/
   (r = 0 /\ o_run x = firstn (length (o_run x)) (rev (o_att x)) /\ o_ulen x = Z.of_nat (length (o_att x)) - 1 /\
    (forall j dd, (j < length (o_att x) - length (o_run x))%nat -> nth_error (o_att x) j = Some dd -> nth_error (o_slot x) j = Some (Some dd)) /\
    (d = 1 \/ d = 0 /\ o_run x = rev (o_att x)))).

Definition pc_ok (objs : list robj) (th : rthr) : Prop :=
  match t_pc th with
  | RIdle | RDec _ => True
  | RIncAdd o => In o (t_hold th) /\ exists x, nth_error objs o = Some x /\ o_shared x = true
  | RIncSet o => In o (t_hold th) /\ exists x, nth_error objs o = Some x /\ o_shared x = false
  | RIncStore o => In o (t_hold th) /\ exists x, nth_error objs o = Some x /\ o_shared x = true /\ o_cnt x = 0
  | RDecSub o => exists x, nth_error objs o = Some x /\ o_shared x = true
  | RDecZero o => exists x, nth_error objs o = Some x /\ o_run x = [] /\ o_freed x = false
  | RAttStore o i d => In o (t_hold th) /\ 0 <= i /\ exists x, nth_error objs o = Some x /\ nth_error (o_att x) (Z.to_nat i) = Some d
  | RAttFail o => In o (t_hold th)
  end.
Definition frame_ok (objs : list robj) (f : nat * Z) : Prop :=
  exists x, nth_error objs (fst f) = Some x /\ Z.of_nat (length (o_run x)) + snd f + 1 = Z.of_nat (length (o_att x)) /\
            -1 <= snd f /\ (0 <= snd f -> o_freed x = false).
Definition TI (objs : list robj) (th : rthr) : Prop := pc_ok objs th /\ Forall (frame_ok objs) (t_stk th).

Definition D (s : rsys) (p : nat) : Z := zsum (dthr p) (r_thr s).
Definition F (s : rsys) (p : nat) : Z := zsum (fthr p) (r_thr s).
Definition P (s : rsys) (p j : nat) : Z := zsum (pthr p j) (r_thr s).
Lemma D_ge s t th p : nth_error (r_thr s) t = Some th -> dthr p th <= D s p.
Proof. intros H. exact (zsum_ge_nth (dthr p) _ _ _ (dthr_nonneg p) H). Qed.
Lemma D_two s t t2 th th2 p : t <> t2 -> nth_error (r_thr s) t = Some th -> nth_error (r_thr s) t2 = Some th2 -> dthr p th + dthr p th2 <= D s p.
Proof. intros N H H2. exact (zsum_two (dthr p) _ _ _ _ _ (dthr_nonneg p) N H H2). Qed.

Record Inv (k : Z) (s : rsys) : Prop := {
  iv_obj : forall p x, nth_error (r_obj s) p = Some x -> OI (refs s p) (D s p) (F s p) (P s p) x;
  iv_none : forall p, nth_error (r_obj s) p = None -> refs s p = 0;
  iv_thr : forall t th, nth_error (r_thr s) t = Some th -> TI (r_obj s) th;
  iv_max : forall p, refs s p <= k
}.

Lemma OI_refs_nonneg r d f pe x p : OI r d f pe x -> 0 <= obj_refs p x.
Proof.
  intros (_ & _ & _ & [H|H]); unfold obj_refs.
  - destruct H as (_ & _ & _ & _ & -> & _). pose proof (dcount_nonneg (DRc p) (o_att x)). unfold dcount at 2. cbn. lia.
  - destruct H as (_ & -> & _). pose proof (dcount_firstn (DRc p) (length (o_run x)) (rev (o_att x))). rewrite dcount_rev in *. lia.
Qed.

Lemma objs_nonneg k s p : Inv k s -> 0 <= zsum (obj_refs p) (r_obj s).
Proof.
  intros I. assert (forall l, (forall x, In x l -> 0 <= obj_refs p x) -> 0 <= zsum (obj_refs p) l).
  { induction l as [|x l IH]; cbn; intros H; [lia|]. specialize (IH (fun y Hy => H y (or_intror Hy))). specialize (H x (or_introl eq_refl)). lia. }
  apply H. intros x Hx. apply In_nth_error in Hx. destruct Hx as [q Hq]. eapply OI_refs_nonneg. eapply iv_obj; eassumption.
Qed.

Lemma refs_thr k s p t th : Inv k s -> nth_error (r_thr s) t = Some th -> thr_refs p th <= refs s p.
Proof.
  intros I H. unfold refs. pose proof (objs_nonneg k s p I). pose proof (zsum_ge_nth (thr_refs p) _ _ _ (thr_refs_nonneg p) H). lia.
Qed.
Lemma refs_two k s p t t2 th th2 : Inv k s -> t <> t2 -> nth_error (r_thr s) t = Some th -> nth_error (r_thr s) t2 = Some th2 ->
  thr_refs p th + thr_refs p th2 <= refs s p.
Proof.
  intros I Hn H H2. unfold refs. pose proof (objs_nonneg k s p I). pose proof (zsum_two (thr_refs p) _ _ _ _ _ (thr_refs_nonneg p) Hn H H2). lia.
Qed.

(** A referenced object is alive. *)
Lemma alive k s p : Inv k s -> 0 < refs s p -> exists x, nth_error (r_obj s) p = Some x /\ robj_at s p = Some x /\
  length (o_slot x) = 24%nat /\ ~ In DFree (tl (o_att x)) /\ (length (o_att x) <= 24)%nat /\
  refs s p = o_cnt x + 1 /\ 0 <= o_cnt x /\ D s p = 0 /\ o_freed x = false /\ o_run x = [] /\
    o_ulen x = Z.of_nat (length (o_att x)) - 1 + F s p /\ (0 < F s p -> length (o_att x) = 24%nat) /\
    (o_shared x = false -> o_cnt x = 0) /\
    (forall j dd, nth_error (o_att x) j = Some dd -> nth_error (o_slot x) j = Some (Some dd) \/ 0 < P s p j).
Proof.
  intros I Hr. destruct (nth_error (r_obj s) p) as [x|] eqn:E; [|rewrite (iv_none _ _ I _ E) in Hr; lia].
  exists x. destruct (iv_obj _ _ I _ _ E) as (A & B & C & [H|H]); [|lia].
  unfold robj_at. rewrite E. destruct H as (H1 & H2 & H3 & H4 & H). rewrite H4. auto 20.
Qed.

Lemma hold_refs k s p t th : Inv k s -> nth_error (r_thr s) t = Some th -> In p (t_hold th) -> 1 <= refs s p.
Proof.
  intros I H Hi. pose proof (refs_thr k s p t th I H). apply ncount_In in Hi. unfold thr_refs in H0.
  destruct (t_pc th); try lia; destruct (_ =? _)%nat; lia.
Qed.

(** ** Effect of replacing one thread and one object *)
Lemma refs_set s t th th' o x x' p : nth_error (r_thr s) t = Some th -> nth_error (r_obj s) o = Some x ->
  refs (set_thr (set_obj s o x') t th') p = refs s p - thr_refs p th + thr_refs p th' - obj_refs p x + obj_refs p x'.
Proof.
  intros H1 H2. unfold refs, set_thr, set_obj. cbn [r_obj r_thr].
  rewrite (zsum_upd _ _ _ _ _ H1), (zsum_upd _ _ _ _ _ H2). lia.
Qed.

Lemma TI_upd objs o x x' th2 : nth_error objs o = Some x -> TI objs th2 ->
  (o_shared x = true -> o_shared x' = true) ->
  (t_pc th2 = RIncSet o -> o_shared x' = false) -> (t_pc th2 = RIncStore o -> o_cnt x' = o_cnt x) ->
  (exists e, o_att x' = o_att x ++ e) ->
  (0 < dthr o th2 -> o_run x' = o_run x /\ o_freed x' = o_freed x /\ o_att x' = o_att x) ->
  TI (upd objs o x') th2.
Proof.
  intros Ho [Hp Hf] Hsh H1 H2 [e He] H4. assert (Hlen : (o < length objs)%nat) by (apply nth_error_Some; congruence).
  pose proof (nth_error_upd_same objs o x' Hlen) as Hs.
  assert (Hoth : forall q, q <> o -> nth_error (upd objs o x') q = nth_error objs q) by (intros; apply nth_error_upd_other; congruence).
  split.
  - unfold pc_ok in *. destruct (t_pc th2) as [|q|q|q|q|q|q|q i d|q] eqn:E; auto.
    + destruct Hp as (Hi & y & Hy & Hz). split; [exact Hi|]. destruct (Nat.eq_dec q o) as [->|N].
      * exists x'. replace y with x in Hz by congruence. auto.
      * exists y. rewrite Hoth; auto.
    + destruct Hp as (Hi & y & Hy & Hz). split; [exact Hi|]. destruct (Nat.eq_dec q o) as [->|N].
      * exists x'. auto.
      * exists y. rewrite Hoth; auto.
    + destruct Hp as (Hi & y & Hy & Hz & Hc). split; [exact Hi|]. destruct (Nat.eq_dec q o) as [->|N].
      * exists x'. replace y with x in * by congruence. rewrite H2; auto.
      * exists y. rewrite Hoth; auto.
    + destruct Hp as (y & Hy & Hz). destruct (Nat.eq_dec q o) as [->|N].
      * exists x'. replace y with x in * by congruence. auto.
      * exists y. rewrite Hoth; auto.
    + destruct Hp as (y & Hy & Hz & Hc). destruct (Nat.eq_dec q o) as [->|N].
      * exists x'. replace y with x in * by congruence. destruct H4 as (-> & -> & _); auto.
        pose proof (dthr_nonneg o th2). unfold dthr in *. rewrite E, Nat.eqb_refl in *.
        assert (0 <= zsum (fun f : nat * Z => if (o =? fst f)%nat then 1 else 0) (t_stk th2)).
        { apply zsum_nonneg. intros z. destruct (_ =? _)%nat; lia. } lia.
      * exists y. rewrite Hoth; auto.
    + destruct Hp as (Hi & Hz & y & Hy & Hc). split; [exact Hi|]. split; [exact Hz|]. destruct (Nat.eq_dec q o) as [->|N].
      * exists x'. replace y with x in * by congruence. split; [exact Hs|]. rewrite He, nth_error_app1; [exact Hc|].
        apply nth_error_Some. congruence.
      * exists y. rewrite Hoth; auto.
  - rewrite Forall_forall in *. intros [q i] Hq. destruct (Hf _ Hq) as (y & Hy & Hz). cbn [fst snd] in *. unfold frame_ok. cbn [fst snd].
    destruct (Nat.eq_dec q o) as [->|N].
    + exists x'. replace y with x in * by congruence. destruct H4 as (-> & -> & ->); [|auto].
      unfold dthr. assert (1 <= zsum (fun f : nat * Z => if (o =? fst f)%nat then 1 else 0) (t_stk th2)).
      { pose proof (zsum_ge_in (fun f : nat * Z => if (o =? fst f)%nat then 1 else 0) (t_stk th2) (o, i)) as X. cbn [fst] in X.
        rewrite Nat.eqb_refl in X. apply X; [|exact Hq]. intros z. destruct (_ =? _)%nat; lia. }
      destruct (t_pc th2); try lia; destruct (_ =? _)%nat; lia.
    + exists y. rewrite Hoth; auto.
Qed.

(** Step on thread [t] and object [o]. *)
Lemma step_inv k s t th th' o x x' : Inv k s -> nth_error (r_thr s) t = Some th -> nth_error (r_obj s) o = Some x ->
  (forall p, p <> o -> thr_refs p th' + obj_refs p x' = thr_refs p th + obj_refs p x /\ dthr p th' = dthr p th /\ fthr p th' = fthr p th /\
                       forall j, pthr p j th' = pthr p j th) ->
  thr_refs o th' + obj_refs o x' <= thr_refs o th + obj_refs o x + 1 ->
  OI (refs s o - thr_refs o th + thr_refs o th' - obj_refs o x + obj_refs o x')
     (D s o - dthr o th + dthr o th') (F s o - fthr o th + fthr o th') (fun j => P s o j - pthr o j th + pthr o j th') x' ->
  TI (upd (r_obj s) o x') th' ->
  (forall t2 th2, t2 <> t -> nth_error (r_thr s) t2 = Some th2 -> TI (upd (r_obj s) o x') th2) ->
  Inv (k + 1) (set_thr (set_obj s o x') t th').
Proof.
  intros I Ht Ho Hd Hb HO HT HT2.
  assert (Hlo : (o < length (r_obj s))%nat) by (apply nth_error_Some; congruence).
  assert (Hlt : (t < length (r_thr s))%nat) by (apply nth_error_Some; congruence).
  assert (ED : forall p, D (set_thr (set_obj s o x') t th') p = D s p - dthr p th + dthr p th') by (intros p; apply zsum_upd; exact Ht).
  assert (EF : forall p, F (set_thr (set_obj s o x') t th') p = F s p - fthr p th + fthr p th') by (intros p; apply zsum_upd; exact Ht).
  assert (EP : forall p j, P (set_thr (set_obj s o x') t th') p j = P s p j - pthr p j th + pthr p j th') by (intros p j; apply (zsum_upd (pthr p j)); exact Ht).
  assert (ER := refs_set s t th th' o x x').
  split.
  - intros p y Hy. rewrite ED, EF, (ER p Ht Ho). cbn [set_thr set_obj r_obj] in Hy.
    destruct (Nat.eq_dec p o) as [->|N].
    + rewrite nth_error_upd_same in Hy by exact Hlo. injection Hy as <-.
      destruct HO as (A & B & C & HO). split; [exact A|]. split; [exact B|]. split; [exact C|].
      destruct HO as [HO|HO]; [left|right; exact HO].
      destruct HO as (Z1 & Z2 & Z3 & Z4 & Z5 & Z6 & Z7 & Z8 & Z9). repeat (split; [assumption|]).
      intros j dd Hj. specialize (EP o j). cbn beta in EP. rewrite EP. apply Z9; exact Hj.
    + rewrite nth_error_upd_other in Hy by congruence. destruct (Hd p N) as (E1 & E2 & E3 & E4).
      rewrite E2, E3. replace (refs s p - thr_refs p th + thr_refs p th' - obj_refs p x + obj_refs p x') with (refs s p) by lia.
      replace (D s p - dthr p th + dthr p th) with (D s p) by lia. replace (F s p - fthr p th + fthr p th) with (F s p) by lia.
      destruct (iv_obj _ _ I _ _ Hy) as (A & B & C & HP). split; [exact A|]. split; [exact B|]. split; [exact C|].
      destruct HP as [HO'|HO']; [left|right; exact HO'].
      destruct HO' as (Z1 & Z2 & Z3 & Z4 & Z5 & Z6 & Z7 & Z8 & Z9). repeat (split; [assumption|]).
      intros j dd Hj. specialize (EP p j). cbn beta in EP. rewrite EP, E4. destruct (Z9 j dd Hj); [left; assumption|right; lia].
  - intros p Hp. cbn [set_thr set_obj r_obj] in Hp.
    assert (N : p <> o) by (intros ->; rewrite nth_error_upd_same in Hp by exact Hlo; discriminate).
    rewrite nth_error_upd_other in Hp by congruence. rewrite (ER p Ht Ho). destruct (Hd p N) as (E1 & _).
    pose proof (iv_none _ _ I _ Hp). lia.
  - intros t2 th2 H2. cbn [set_thr set_obj r_thr r_obj] in *. destruct (Nat.eq_dec t2 t) as [->|N].
    + rewrite nth_error_upd_same in H2 by exact Hlt. injection H2 as <-. exact HT.
    + rewrite nth_error_upd_other in H2 by congruence. eapply HT2; eassumption.
  - intros p. rewrite (ER p Ht Ho). pose proof (iv_max _ _ I p). destruct (Nat.eq_dec p o) as [->|N]; [lia|]. destruct (Hd p N). lia.
Qed.

Lemma Inv_mono k s : Inv k s -> Inv (k + 1) s.
Proof. intros [A B C M]. split; auto. intros p. specialize (M p). lia. Qed.

(** The other threads do not mind a change of an object the running thread has a reference to. *)
Lemma others_ok k s t th o x x' : Inv k s -> nth_error (r_thr s) t = Some th -> 1 <= thr_refs o th -> nth_error (r_obj s) o = Some x ->
  (o_shared x = true -> o_shared x' = true) -> (exists e, o_att x' = o_att x ++ e) ->
  forall t2 th2, t2 <> t -> nth_error (r_thr s) t2 = Some th2 -> TI (upd (r_obj s) o x') th2.
Proof.
  intros I Ht Hr Ho Hsh He t2 th2 N H2.
  pose proof (refs_thr k s o t th I Ht) as Hr1. destruct (alive k s o I ltac:(lia)) as (y & Hy & _ & _ & _ & _ & Hc & Hc0 & HD & _ & _ & _ & _ & Hu & _).
  replace y with x in * by congruence.
  pose proof (iv_thr _ _ I _ _ H2) as T2. pose proof (refs_two k s o t t2 th th2 I (not_eq_sym N) Ht H2) as R2.
  pose proof (D_ge _ _ _ o H2) as D2.
  apply (TI_upd _ _ x); auto.
  - intros E. exfalso. destruct T2 as [Hp _]. unfold pc_ok in Hp. rewrite E in Hp. destruct Hp as (Hi & z & Hz & Hs).
    apply ncount_In in Hi. unfold thr_refs in R2 at 2. rewrite E in R2. replace z with x in * by congruence. specialize (Hu Hs). lia.
  - intros E. exfalso. destruct T2 as [Hp _]. unfold pc_ok in Hp. rewrite E in Hp. destruct Hp as (Hi & z & Hz & Hs & Hcz).
    apply ncount_In in Hi. unfold thr_refs in R2 at 2. rewrite E in R2. replace z with x in * by congruence. lia.
  - intros. lia.
Qed.

Lemma TI_same objs o x th : nth_error objs o = Some x -> TI objs th -> TI (upd objs o x) th.
Proof. intros H T. rewrite upd_same_id by exact H. exact T. Qed.

Lemma set_obj_same s o x : nth_error (r_obj s) o = Some x -> set_obj s o x = s.
Proof. intros H. unfold set_obj. rewrite upd_same_id by exact H. destruct s; reflexivity. Qed.

Ltac deltas :=
  unfold thr_refs, dthr, fthr, pthr, obj_refs, with_cnt, with_ulen;
  cbn [t_hold t_pc t_stk o_att o_run fst zsum]; rewrite ?ncount_cons, ?dcount_app.

Lemma frames_le objs th o : Forall (frame_ok objs) (t_stk th) -> forall i, In (o, i) (t_stk th) -> 1 <= dthr o th.
Proof.
  intros _ i Hi. unfold dthr.
  pose proof (zsum_ge_in (fun f : nat * Z => if (o =? fst f)%nat then 1 else 0) (t_stk th) (o, i)) as X. cbn [fst] in X.
  rewrite Nat.eqb_refl in X. specialize (X ltac:(intros z; destruct (_ =? _)%nat; lia) Hi).
  destruct (t_pc th); try lia; destruct (_ =? _)%nat; lia.
Qed.

Lemma neqb p o : p <> o -> (p =? o)%nat = false.
Proof. intros. apply Nat.eqb_neq. assumption. Qed.

(** Frames of a thread survive a change of an object that is alive. *)
Lemma stk_alive k s t th o x x' : Inv k s -> nth_error (r_thr s) t = Some th -> nth_error (r_obj s) o = Some x -> D s o = 0 ->
  Forall (frame_ok (upd (r_obj s) o x')) (t_stk th).
Proof.
  intros I Ht Ho HD. destruct (iv_thr _ _ I _ _ Ht) as [_ Hf]. rewrite Forall_forall in *. intros [q i] Hq.
  assert (N : q <> o).
  { intros ->. assert (1 <= dthr o th) by (eapply frames_le; [apply Forall_forall; exact Hf|exact Hq]).
    pose proof (D_ge _ _ _ o Ht). lia. }
  destruct (Hf _ Hq) as (y & Hy & Hz). exists y. cbn [fst snd] in *. rewrite nth_error_upd_other by congruence. auto.
Qed.

Lemma zero_refs_no_att k s p : Inv k s -> forall t th, nth_error (r_thr s) t = Some th -> thr_refs p th = 0 -> fthr p th = 0 /\ forall j, pthr p j th = 0.
Proof.
  intros I t th Ht H0. destruct (iv_thr _ _ I _ _ Ht) as [Hp _]. unfold pc_ok in Hp. unfold thr_refs in H0.
  pose proof (ncount_nonneg p (t_hold th)). unfold fthr, pthr.
  destruct (t_pc th) as [|q|q|q|q|q|q|q i d|q]; split; intros; auto; destruct (Nat.eqb_spec p q) as [<-|N]; auto.
  - destruct Hp as [Hi _]. apply ncount_In in Hi. lia.
  - apply ncount_In in Hp. lia.
Qed.

(** Thread [t] holds the only reference: nobody is attaching. *)
Lemma last_ref_no_att k s p t th : Inv k s -> nth_error (r_thr s) t = Some th -> refs s p = 1 -> thr_refs p th = 1 ->
  F s p = fthr p th /\ forall j, P s p j = pthr p j th.
Proof.
  intros I Ht Hr H1.
  assert (Ho : forall t2 th2, t2 <> t -> nth_error (r_thr s) t2 = Some th2 -> thr_refs p th2 = 0).
  { intros t2 th2 N H2. pose proof (refs_two k s p t t2 th th2 I (not_eq_sym N) Ht H2). pose proof (thr_refs_nonneg p th2). lia. }
  assert (G : forall (f : rthr -> Z), (forall t2 th2, t2 <> t -> nth_error (r_thr s) t2 = Some th2 -> f th2 = 0) -> zsum f (r_thr s) = f th).
  { intros f Hf. clear - Ht Hf. revert t Ht Hf. induction (r_thr s) as [|h l IH]; intros [|t] Ht Hf; cbn in *; try discriminate.
    - injection Ht as ->. rewrite zsum_zero; [lia|]. intros y Hy. apply In_nth_error in Hy. destruct Hy as [n Hn]. apply (Hf (S n)); [lia|exact Hn].
    - rewrite (IH t Ht); [|intros t2 th2 N H2; apply (Hf (S t2)); [lia|exact H2]]. rewrite (Hf 0%nat h); [lia|lia|reflexivity]. }
  split; [apply G|intros j; apply (G (pthr p j))]; intros t2 th2 N H2; destruct (zero_refs_no_att k s p I t2 th2 H2 (Ho _ _ N H2)); auto.
Qed.

Section Steps.
  Context (k : Z) (s : rsys) (t : nat) (th : rthr).
  Hypothesis I : Inv k s.
  Hypothesis Ht : nth_error (r_thr s) t = Some th.
  Hypothesis Hk : k < 2147483646.

  Lemma st_incadd o op : t_pc th = RIncAdd o -> exists s', rc_access s t th op = Some s' /\ Inv (k + 1) s'.
  Proof.
    intros E. pose proof (iv_thr _ _ I _ _ Ht) as [Hp Hf]. unfold pc_ok in Hp. rewrite E in Hp. destruct Hp as (Hi & y & Hy & Hs).
    pose proof (hold_refs k s o t th I Ht Hi) as Hr.
    destruct (alive k s o I ltac:(lia)) as (x & Hx & Ha & A1 & A2 & A3 & A4 & A5 & A6 & A7 & A8 & A9 & A10 & A11 & A12).
    replace y with x in * by congruence. pose proof (iv_max _ _ I o) as Hm.
    unfold rc_access. rewrite E, Ha. eexists. split; [reflexivity|].
    rewrite s32_small by lia.
    eapply step_inv; eauto.
    - intros p N. deltas. rewrite E, (neqb _ _ N). repeat split; lia.
    - deltas. rewrite E, Nat.eqb_refl. lia.
    - unfold OI, with_cnt. deltas. rewrite E, Nat.eqb_refl. cbn [o_cnt o_shared o_slot o_freed o_ulen].
      split; [exact A1|]. split; [exact A2|]. split; [exact A3|]. left.
      split; [lia|]. split; [lia|]. split; [lia|]. split; [exact A7|]. split; [exact A8|]. split; [lia|]. split; [intros; apply A10; lia|].
      split; [congruence|]. intros j dd Hj. destruct (A12 j dd Hj); [auto|right; lia].
    - split; [exact Logic.I|]. cbn [t_stk]. eapply stk_alive; eassumption.
    - eapply others_ok; eauto; cbn; auto.
      + unfold thr_refs. rewrite E. apply ncount_In in Hi. lia.
      + exists []. rewrite app_nil_r. reflexivity.
  Qed.

  Lemma st_incset o op : t_pc th = RIncSet o -> exists s', rc_access s t th op = Some s' /\ Inv (k + 1) s'.
  Proof.
    intros E. pose proof (iv_thr _ _ I _ _ Ht) as [Hp Hf]. unfold pc_ok in Hp. rewrite E in Hp. destruct Hp as (Hi & y & Hy & Hs).
    pose proof (hold_refs k s o t th I Ht Hi) as Hr.
    destruct (alive k s o I ltac:(lia)) as (x & Hx & Ha & A1 & A2 & A3 & A4 & A5 & A6 & A7 & A8 & A9 & A10 & A11 & A12).
    replace y with x in * by congruence. pose proof (iv_max _ _ I o) as Hm.
    unfold rc_access. rewrite E, Ha. eexists. split; [reflexivity|].
    eapply step_inv; eauto.
    - intros p N. deltas. rewrite E. repeat split; lia.
    - deltas. rewrite E. lia.
    - unfold OI, with_cnt. deltas. rewrite E. cbn [o_cnt o_shared o_slot o_freed o_ulen].
      split; [exact A1|]. split; [exact A2|]. split; [exact A3|]. left.
      split; [lia|]. split; [lia|]. split; [lia|]. split; [exact A7|]. split; [exact A8|]. split; [lia|]. split; [intros; apply A10; lia|].
      split; [congruence|]. intros j dd Hj. destruct (A12 j dd Hj); [auto|right; lia].
    - split; [|cbn [t_stk]; eapply stk_alive; eassumption]. unfold pc_ok. cbn [t_pc t_hold]. split; [exact Hi|].
      eexists. split; [apply nth_error_upd_same; apply nth_error_Some; congruence|]. cbn. auto.
    - eapply others_ok; eauto; cbn; auto.
      + unfold thr_refs. rewrite E. apply ncount_In in Hi. lia.
      + exists []. rewrite app_nil_r. reflexivity.
  Qed.

  Lemma st_incstore o op : t_pc th = RIncStore o -> exists s', rc_access s t th op = Some s' /\ Inv (k + 1) s'.
  Proof.
    intros E. pose proof (iv_thr _ _ I _ _ Ht) as [Hp Hf]. unfold pc_ok in Hp. rewrite E in Hp. destruct Hp as (Hi & y & Hy & Hs & Hc).
    pose proof (hold_refs k s o t th I Ht Hi) as Hr.
    destruct (alive k s o I ltac:(lia)) as (x & Hx & Ha & A1 & A2 & A3 & A4 & A5 & A6 & A7 & A8 & A9 & A10 & A11 & A12).
    replace y with x in * by congruence. pose proof (iv_max _ _ I o) as Hm.
    unfold rc_access. rewrite E, Ha. eexists. split; [reflexivity|].
    eapply step_inv; eauto.
    - intros p N. deltas. rewrite E, (neqb _ _ N). repeat split; lia.
    - deltas. rewrite E, Nat.eqb_refl. lia.
    - unfold OI, with_cnt. deltas. rewrite E, Nat.eqb_refl. cbn [o_cnt o_shared o_slot o_freed o_ulen].
      split; [exact A1|]. split; [exact A2|]. split; [exact A3|]. left.
      split; [lia|]. split; [lia|]. split; [lia|]. split; [exact A7|]. split; [exact A8|]. split; [lia|]. split; [intros; apply A10; lia|].
      split; [congruence|]. intros j dd Hj. destruct (A12 j dd Hj); [auto|right; lia].
    - split; [exact Logic.I|]. cbn [t_stk]. eapply stk_alive; eassumption.
    - eapply others_ok; eauto; cbn; auto.
      + unfold thr_refs. rewrite E. apply ncount_In in Hi. lia.
      + exists []. rewrite app_nil_r. reflexivity.
  Qed.

  (** Thread-only moves that keep every count. *)
  Lemma st_move o x th' : nth_error (r_obj s) o = Some x ->
    (forall p, thr_refs p th' = thr_refs p th /\ dthr p th' = dthr p th /\ fthr p th' = fthr p th /\ forall j, pthr p j th' = pthr p j th) ->
    TI (r_obj s) th' -> Inv (k + 1) (set_thr s t th').
  Proof.
    intros Ho Hd HT. rewrite <- (set_obj_same s o x Ho) at 1. eapply step_inv; eauto.
    - intros p N. destruct (Hd p) as (-> & -> & -> & E). auto.
    - destruct (Hd o) as (-> & _). lia.
    - destruct (Hd o) as (-> & -> & -> & E). pose proof (iv_obj _ _ I _ _ Ho) as HO.
      replace (refs s o - thr_refs o th + thr_refs o th - obj_refs o x + obj_refs o x) with (refs s o) by lia.
      replace (D s o - dthr o th + dthr o th) with (D s o) by lia. replace (F s o - fthr o th + fthr o th) with (F s o) by lia.
      destruct HO as (A & B & C & HO). split; [exact A|]. split; [exact B|]. split; [exact C|].
      destruct HO as [HO|HO]; [left|right; exact HO].
      destruct HO as (Z1 & Z2 & Z3 & Z4 & Z5 & Z6 & Z7 & Z8 & Z9). repeat (split; [assumption|]).
      intros j dd Hj. rewrite E. destruct (Z9 j dd Hj); [auto|right; lia].
    - apply TI_same; assumption.
    - intros t2 th2 N H2. apply TI_same; [assumption|]. eapply iv_thr; eassumption.
  Qed.

  Lemma st_dec o op : t_pc th = RDec o -> exists s', rc_access s t th op = Some s' /\ Inv (k + 1) s'.
  Proof.
    intros E. pose proof (iv_thr _ _ I _ _ Ht) as [Hp Hf].
    assert (Hh : thr_refs o th = ncount o (t_hold th) + 1) by (unfold thr_refs; rewrite E, Nat.eqb_refl; reflexivity).
    pose proof (ncount_nonneg o (t_hold th)) as Hnn. pose proof (refs_thr k s o t th I Ht) as Hr.
    destruct (alive k s o I ltac:(lia)) as (x & Hx & Ha & A1 & A2 & A3 & A4 & A5 & A6 & A7 & A8 & A9 & A10 & A11 & A12).
    unfold rc_access. rewrite E, Ha. destruct (o_shared x) eqn:Es.
    - eexists. split; [reflexivity|]. eapply st_move; [exact Hx| |].
      + intros p. deltas. rewrite E. repeat split; lia.
      + split; [|exact Hf]. unfold pc_ok. cbn [t_pc]. exists x. auto.
    - (* unshared: the last reference goes *)
      assert (Hc : o_cnt x = 0) by auto. assert (R1 : refs s o = 1) by lia.
      assert (T1 : thr_refs o th = 1) by lia.
      destruct (last_ref_no_att k s o t th I Ht R1 T1) as [HF HP].
      eexists. split; [reflexivity|]. rewrite <- (set_obj_same s o x Hx) at 1.
      assert (F0 : F s o = 0) by (rewrite HF; unfold fthr; rewrite E; reflexivity).
      assert (P0 : forall j, P s o j = 0) by (intros j; rewrite HP; unfold pthr; rewrite E; reflexivity).
      eapply step_inv; eauto.
      + intros p N. deltas. rewrite E, (neqb _ _ N). repeat split; lia.
      + deltas. rewrite E, Nat.eqb_refl. lia.
      + unfold OI. deltas. rewrite E, Nat.eqb_refl.
        split; [exact A1|]. split; [exact A2|]. split; [exact A3|]. right.
        split; [lia|]. split; [rewrite A8; reflexivity|]. split; [lia|]. split; [|left; lia].
        intros j dd _ Hj. destruct (A12 j dd Hj) as [X|X]; [exact X|]. rewrite P0 in X. lia.
      + apply TI_same; [exact Hx|]. split; [|exact Hf]. unfold pc_ok. cbn [t_pc]. exists x. auto.
      + intros t2 th2 N H2. apply TI_same; [exact Hx|]. eapply iv_thr; eassumption.
  Qed.

  Lemma st_decsub o op : t_pc th = RDecSub o -> exists s', rc_access s t th op = Some s' /\ Inv (k + 1) s'.
  Proof.
    intros E. pose proof (iv_thr _ _ I _ _ Ht) as [Hp Hf]. unfold pc_ok in Hp. rewrite E in Hp. destruct Hp as (y & Hy & Hs).
    assert (Hh : thr_refs o th = ncount o (t_hold th) + 1) by (unfold thr_refs; rewrite E, Nat.eqb_refl; reflexivity).
    pose proof (ncount_nonneg o (t_hold th)) as Hnn. pose proof (refs_thr k s o t th I Ht) as Hr.
    destruct (alive k s o I ltac:(lia)) as (x & Hx & Ha & A1 & A2 & A3 & A4 & A5 & A6 & A7 & A8 & A9 & A10 & A11 & A12).
    replace y with x in * by congruence. pose proof (iv_max _ _ I o) as Hm.
    unfold rc_access. rewrite E, Ha. rewrite s32_small by lia.
    eexists. split; [reflexivity|].
    destruct (Z.eqb_spec (o_cnt x) 0) as [Ec|Ec].
    - assert (R1 : refs s o = 1) by lia.
      assert (T1 : thr_refs o th = 1) by lia.
      destruct (last_ref_no_att k s o t th I Ht R1 T1) as [HF HP].
      assert (F0 : F s o = 0) by (rewrite HF; unfold fthr; rewrite E; reflexivity).
      assert (P0 : forall j, P s o j = 0) by (intros j; rewrite HP; unfold pthr; rewrite E; reflexivity).
      eapply step_inv; eauto.
      + intros p N. deltas. rewrite E, (neqb _ _ N). repeat split; lia.
      + deltas. rewrite E, Nat.eqb_refl. lia.
      + unfold OI. deltas. rewrite E, Nat.eqb_refl. cbn [o_cnt o_shared o_slot o_freed o_ulen].
        split; [exact A1|]. split; [exact A2|]. split; [exact A3|]. right.
        split; [lia|]. split; [rewrite A8; reflexivity|]. split; [lia|]. split; [|left; lia].
        intros j dd _ Hj. destruct (A12 j dd Hj) as [X|X]; [exact X|]. rewrite P0 in X. lia.
      + split; [|cbn [t_stk]; eapply stk_alive; eassumption]. unfold pc_ok. cbn [t_pc].
        eexists. split; [apply nth_error_upd_same; apply nth_error_Some; congruence|]. cbn. auto.
      + eapply others_ok; eauto; cbn; auto; [lia|]. exists []. rewrite app_nil_r. reflexivity.
    - eapply step_inv; eauto.
      + intros p N. deltas. rewrite E, (neqb _ _ N). repeat split; lia.
      + deltas. rewrite E, Nat.eqb_refl. lia.
      + unfold OI. deltas. rewrite E, Nat.eqb_refl. cbn [o_cnt o_shared o_slot o_freed o_ulen].
        split; [exact A1|]. split; [exact A2|]. split; [exact A3|]. left.
        split; [lia|]. split; [lia|]. split; [lia|]. split; [exact A7|]. split; [exact A8|]. split; [lia|]. split; [intros; apply A10; lia|].
        split; [congruence|]. intros j dd Hj. destruct (A12 j dd Hj); [auto|right; lia].
      + split; [exact Logic.I|]. cbn [t_stk]. eapply stk_alive; eassumption.
      + eapply others_ok; eauto; cbn; auto; [lia|]. exists []. rewrite app_nil_r. reflexivity.
  Qed.

  Lemma st_deczero o op : t_pc th = RDecZero o -> exists s', rc_access s t th op = Some s' /\ Inv (k + 1) s'.
  Proof.
    intros E. pose proof (iv_thr _ _ I _ _ Ht) as [Hp Hf]. unfold pc_ok in Hp. rewrite E in Hp. destruct Hp as (x & Hx & Hr & Hfr).
    unfold rc_access, robj_at. rewrite E, Hx, Hfr. eexists. split; [reflexivity|].
    assert (HD : 1 <= D s o).
    { assert (1 <= dthr o th).
      { unfold dthr. rewrite E, Nat.eqb_refl. assert (0 <= zsum (fun f : nat * Z => if (o =? fst f)%nat then 1 else 0) (t_stk th)).
        { apply zsum_nonneg. intros z. destruct (_ =? _)%nat; lia. } lia. }
      pose proof (D_ge _ _ _ o Ht). lia. }
    destruct (iv_obj _ _ I _ _ Hx) as (A1 & A2 & A3 & [HO|HO]); [lia|]. destruct HO as (B1 & B2 & B3 & B4 & B5).
    eapply st_move; [exact Hx| |].
    - intros p. deltas. rewrite E. repeat split; lia.
    - split; [exact Logic.I|]. cbn [t_stk]. constructor; [|exact Hf]. exists x. cbn [fst snd]. rewrite Hr. cbn [length].
      split; [exact Hx|]. split; [lia|]. split; [lia|]. auto.
  Qed.

  Lemma st_loop o i stk op : t_pc th = RIdle -> t_stk th = (o, i) :: stk -> exists s', rc_access s t th op = Some s' /\ Inv (k + 1) s'.
  Proof.
    intros E Es. pose proof (iv_thr _ _ I _ _ Ht) as [Hp Hf]. rewrite Es in Hf. inversion Hf as [|? ? Hf0 Hfs]; subst.
    destruct Hf0 as (x & Hx & Hl & Hge & Hfr). cbn [fst snd] in *.
    assert (HD1 : 1 <= dthr o th).
    { unfold dthr. rewrite Es. cbn [zsum fst]. rewrite Nat.eqb_refl. assert (0 <= zsum (fun f : nat * Z => if (o =? fst f)%nat then 1 else 0) stk).
        { apply zsum_nonneg. intros z. destruct (_ =? _)%nat; lia. } destruct (t_pc th); try lia; destruct (_ =? _)%nat; lia. }
    pose proof (D_ge _ _ _ o Ht) as HDs.
    destruct (iv_obj _ _ I _ _ Hx) as (A1 & A2 & A3 & [HO|HO]); [lia|]. destruct HO as (B1 & B2 & B3 & B4 & B5).
    assert (HD : D s o = 1) by lia.
    unfold rc_access. rewrite E, Es. destruct (Z.ltb_spec i 0) as [Hi|Hi].
    - (* end of the loop *)
      eexists. split; [reflexivity|]. rewrite <- (set_obj_same s o x Hx) at 1.
      assert (Hall : o_run x = rev (o_att x)).
      { rewrite B2. rewrite firstn_all2; [reflexivity|]. rewrite rev_length. lia. }
      eapply step_inv; eauto.
      + intros p N. deltas. rewrite E, Es. cbn [zsum fst]. rewrite (neqb _ _ N). repeat split; lia.
      + deltas. rewrite E. lia.
      + unfold OI. deltas. rewrite E, Es. cbn [zsum fst]. rewrite Nat.eqb_refl.
        split; [exact A1|]. split; [exact A2|]. split; [exact A3|]. right.
        split; [lia|]. split; [exact B2|]. split; [exact B3|]. split; [exact B4|]. right. split; [lia|exact Hall].
      + apply TI_same; [exact Hx|]. split; [exact Logic.I|exact Hfs].
      + intros t2 th2 N H2. apply TI_same; [exact Hx|]. eapply iv_thr; eassumption.
    - unfold robj_at. rewrite Hx, (Hfr Hi).
      destruct (nth_error (o_att x) (Z.to_nat i)) as [d|] eqn:Ed; [|apply nth_error_None in Ed; lia].
      rewrite (B4 (Z.to_nat i) d ltac:(lia) Ed).
      eexists. split; [reflexivity|].
      assert (Hnd : nth_error (rev (o_att x)) (length (o_run x)) = Some d).
      { rewrite <- Ed. rewrite <- (rev_involutive (o_att x)) at 2. rewrite <- (firstn_skipn (length (o_run x)) (rev (o_att x))) at 1 2.
        rewrite nth_error_app2 by (rewrite firstn_length, rev_length; lia).
        rewrite firstn_length, rev_length. replace (length (o_run x) - _)%nat with O by lia.
        rewrite rev_app_distr.
        assert (Hsl : length (rev (skipn (length (o_run x)) (rev (o_att x)))) = S (Z.to_nat i)) by (rewrite rev_length, skipn_length, rev_length; lia).
        rewrite nth_error_app1 by lia.
        destruct (skipn (length (o_run x)) (rev (o_att x))) as [|z zs] eqn:Ez; [cbn in Hsl; discriminate|].
        cbn [rev nth_error]. cbn [rev] in Hsl. rewrite app_length in Hsl. cbn [length] in Hsl.
        rewrite nth_error_app2 by lia. replace (Z.to_nat i - length (rev zs))%nat with O by lia. reflexivity. }
      assert (Hrun : o_run x ++ [d] = firstn (length (o_run x ++ [d])) (rev (o_att x))).
      { rewrite app_length, Nat.add_comm. cbn [length Nat.add].
        rewrite B2 at 1. clear - Hnd. revert Hnd. generalize (length (o_run x)). induction (rev (o_att x)) as [|z zs IH]; intros [|n]; cbn; intros H; try discriminate.
        - injection H as ->. reflexivity.
        - f_equal. apply IH; exact H. }
      assert (Hnstk : forall j, ~ In (o, j) stk).
      { intros j Hj. pose proof (zsum_ge_in (fun f : nat * Z => if (o =? fst f)%nat then 1 else 0) stk (o, j)) as X. cbn [fst] in X.
        rewrite Nat.eqb_refl in X. specialize (X ltac:(intros z; destruct (_ =? _)%nat; lia) Hj).
        unfold dthr in HDs. rewrite E, Es in HDs. cbn [zsum fst] in HDs. rewrite Nat.eqb_refl in HDs. lia. }
      assert (Hlen : (length (o_run x ++ [d]) = S (length (o_run x)))%nat) by (rewrite app_length; cbn; lia).
      eapply step_inv; eauto.
      + intros p N. deltas. rewrite E, Es. cbn [zsum fst]. rewrite (neqb _ _ N).
        assert (Hdc : dcount (DRc p) [d] = match d with DRc q => if (p =? q)%nat then 1 else 0 | _ => 0 end).
        { unfold dcount. cbn. destruct d; cbn; try lia; destruct (_ =? _)%nat; lia. }
        rewrite Hdc. destruct d as [f| |q]; cbn [dent_eqb]; repeat split; lia.
      + deltas. rewrite E. assert (Hdc : dcount (DRc o) [d] = match d with DRc q => if (o =? q)%nat then 1 else 0 | _ => 0 end).
        { unfold dcount. cbn. destruct d; cbn; try lia; destruct (_ =? _)%nat; lia. }
        rewrite Hdc. destruct d as [f| |q]; lia.
      + unfold OI. deltas. rewrite E, Es. cbn [zsum fst o_slot o_ulen o_cnt o_freed o_shared]. rewrite Nat.eqb_refl.
        assert (Hdc : dcount (DRc o) [d] = match d with DRc q => if (o =? q)%nat then 1 else 0 | _ => 0 end).
        { unfold dcount. cbn. destruct d; cbn; try lia; destruct (_ =? _)%nat; lia. }
        rewrite Hdc.
        split; [exact A1|]. split; [exact A2|]. split; [exact A3|]. right.
        split; [destruct d as [f| |q]; lia|]. split; [exact Hrun|]. split; [exact B3|].
        split; [|left; destruct d as [f| |q]; lia].
        intros j dd Hj Hd. apply B4; [|exact Hd]. rewrite Hlen in Hj. lia.
      + split; [unfold pc_ok; cbn [t_pc]; destruct d; exact Logic.I|]. cbn [t_stk]. constructor.
        * eexists. cbn [fst snd]. split; [apply nth_error_upd_same; apply nth_error_Some; congruence|]. cbn [o_run o_att o_freed].
          rewrite Hlen. split; [lia|]. split; [lia|]. intros Hi1. destruct d as [f| |q]; auto.
          exfalso. apply A2. destruct (o_att x) as [|z zs]; [destruct (Z.to_nat i); discriminate|].
          destruct (Z.to_nat i) as [|n] eqn:En; [lia|]. cbn in Ed. cbn [tl]. apply nth_error_In in Ed. exact Ed.
        * rewrite Forall_forall in *. intros [q j] Hq. destruct (Hfs _ Hq) as (z & Hz & Hz2). exists z. cbn [fst snd] in *.
          rewrite nth_error_upd_other; [auto|]. intros <-. exact (Hnstk _ Hq).
      + intros t2 th2 N H2. pose proof (iv_thr _ _ I _ _ H2) as T2.
        pose proof (D_two _ _ _ _ _ o N H2 Ht) as D2.
        pose proof (dthr_nonneg o th2). apply (TI_upd _ _ x); auto; cbn.
        * intros E2. destruct T2 as [Hp2 _]. unfold pc_ok in Hp2. rewrite E2 in Hp2. destruct Hp2 as (_ & z & Hz & Hzs). congruence.
        * exists []. rewrite app_nil_r. reflexivity.
        * intros. lia.
  Qed.

  Lemma att_ok o d hold' : t_pc th = RIdle -> t_stk th = [] -> In o (t_hold th) -> d <> DFree -> In o hold' ->
    (forall p, ncount p hold' + dcount (DRc p) [d] = ncount p (t_hold th)) ->
    exists s', att_begin s t th o d hold' = Some s' /\ Inv (k + 1) s'.
  Proof.
    intros E Es Hi Hd Hi' Hn. pose proof (iv_thr _ _ I _ _ Ht) as [Hp Hf].
    pose proof (hold_refs k s o t th I Ht Hi) as Hr.
    destruct (alive k s o I ltac:(lia)) as (x & Hx & Ha & A1 & A2 & A3 & A4 & A5 & A6 & A7 & A8 & A9 & A10 & A11 & A12).
    assert (FN : 0 <= F s o) by (apply zsum_nonneg; apply fthr_nonneg).
    assert (Htr : 1 <= thr_refs o th) by (unfold thr_refs; rewrite E; apply ncount_In in Hi; lia).
    unfold att_begin. rewrite Ha. unfold MAX_DTORS. destruct (Z.geb_spec (o_ulen x + 1) 24) as [Hfull|Hroom].
    - eexists. split; [reflexivity|]. eapply step_inv; eauto.
      + intros p N. deltas. rewrite E, (neqb _ _ N). repeat split; lia.
      + deltas. rewrite E. lia.
      + unfold OI. deltas. rewrite E, Nat.eqb_refl. cbn [o_cnt o_shared o_slot o_freed o_ulen].
        split; [exact A1|]. split; [exact A2|]. split; [exact A3|]. left.
        split; [lia|]. split; [lia|]. split; [lia|]. split; [exact A7|]. split; [exact A8|]. split; [lia|].
        split; [intros _; destruct (Z.eq_dec (F s o) 0); [lia|apply A10; lia]|].
        split; [exact A11|]. intros j dd Hj. destruct (A12 j dd Hj); [auto|right; lia].
      + split; [exact Hi|]. cbn [t_stk]. eapply stk_alive; eassumption.
      + eapply others_ok; eauto; cbn; auto. exists []. rewrite app_nil_r. reflexivity.
    - assert (F0 : F s o = 0) by (destruct (Z.eq_dec (F s o) 0); [assumption|specialize (A10 ltac:(lia)); lia]).
      eexists. split; [reflexivity|]. eapply step_inv; eauto.
      + intros p N. deltas. specialize (Hn p). rewrite E, (neqb _ _ N). cbn [andb]. repeat split; lia.
      + deltas. specialize (Hn o). rewrite E. lia.
      + unfold OI. deltas. specialize (Hn o). rewrite E, Nat.eqb_refl. cbn [o_cnt o_shared o_slot o_freed o_ulen andb].
        split; [exact A1|]. split.
        { destruct (o_att x) as [|z zs]; cbn [app tl] in *; [auto|]. intros Hc. apply in_app_or in Hc. destruct Hc as [Hc|[Hc|[]]]; [tauto|congruence]. }
        rewrite app_length. cbn [length]. split; [lia|]. left.
        split; [lia|]. split; [lia|]. split; [lia|]. split; [exact A7|]. split; [exact A8|]. split; [lia|].
        split; [lia|].
        split; [exact A11|]. intros j dd Hj.
        destruct (Nat.eq_dec j (length (o_att x))) as [->|Nj].
        * right. replace (Z.of_nat (length (o_att x)) =? o_ulen x + 1) with true by lia.
          assert (0 <= P s o (length (o_att x))) by (apply zsum_nonneg; apply pthr_nonneg). lia.
        * rewrite nth_error_app1 in Hj; [|assert (j < length (o_att x ++ [d]))%nat by (apply nth_error_Some; congruence); rewrite app_length in *; cbn [length] in *; lia].
          destruct (A12 j dd Hj); [auto|right]. destruct (Z.of_nat j =? o_ulen x + 1); lia.
      + split; [|cbn [t_stk]; eapply stk_alive; eassumption]. unfold pc_ok. cbn [t_pc t_hold]. split; [exact Hi'|]. split; [lia|].
        eexists. split; [apply nth_error_upd_same; apply nth_error_Some; congruence|]. cbn [o_att].
        rewrite nth_error_app2 by lia. replace (Z.to_nat (o_ulen x + 1) - length (o_att x))%nat with O by lia. reflexivity.
      + eapply others_ok; eauto; cbn; auto. exists [d]. reflexivity.
  Qed.

  Lemma st_attstore o i d op : t_pc th = RAttStore o i d -> exists s', rc_access s t th op = Some s' /\ Inv (k + 1) s'.
  Proof.
    intros E. pose proof (iv_thr _ _ I _ _ Ht) as [Hp Hf]. unfold pc_ok in Hp. rewrite E in Hp. destruct Hp as (Hi & Hge & y & Hy & Hd).
    pose proof (hold_refs k s o t th I Ht Hi) as Hr.
    destruct (alive k s o I ltac:(lia)) as (x & Hx & Ha & A1 & A2 & A3 & A4 & A5 & A6 & A7 & A8 & A9 & A10 & A11 & A12).
    replace y with x in * by congruence.
    assert (Hlt : (Z.to_nat i < length (o_att x))%nat) by (apply nth_error_Some; congruence).
    unfold rc_access. rewrite E, Ha, A1.
    replace ((0 <=? i) && (i <? Z.of_nat 24)) with true by lia.
    eexists. split; [reflexivity|]. eapply step_inv; eauto.
    - intros p N. deltas. rewrite E, (neqb _ _ N). cbn [andb]. repeat split; lia.
    - deltas. rewrite E. lia.
    - unfold OI. deltas. rewrite E, Nat.eqb_refl. cbn [o_cnt o_shared o_slot o_freed o_ulen andb].
      split; [rewrite upd_length; exact A1|]. split; [exact A2|]. split; [exact A3|]. left.
      split; [lia|]. split; [lia|]. split; [lia|]. split; [exact A7|]. split; [exact A8|]. split; [lia|]. split; [intros; apply A10; lia|].
      split; [exact A11|]. intros j dd Hj. destruct (Nat.eq_dec j (Z.to_nat i)) as [->|Nj].
      + left. rewrite nth_error_upd_same by lia. congruence.
      + rewrite nth_error_upd_other by congruence. destruct (A12 j dd Hj); [auto|right].
        replace (Z.of_nat j =? i) with false by lia. lia.
    - split; [exact Logic.I|]. cbn [t_stk]. eapply stk_alive; eassumption.
    - eapply others_ok; eauto; cbn; auto.
      + unfold thr_refs. rewrite E. apply ncount_In in Hi. lia.
      + exists []. rewrite app_nil_r. reflexivity.
  Qed.

  Lemma st_attfail o op : t_pc th = RAttFail o -> exists s', rc_access s t th op = Some s' /\ Inv (k + 1) s'.
  Proof.
    intros E. pose proof (iv_thr _ _ I _ _ Ht) as [Hp Hf]. unfold pc_ok in Hp. rewrite E in Hp. rename Hp into Hi.
    pose proof (hold_refs k s o t th I Ht Hi) as Hr.
    destruct (alive k s o I ltac:(lia)) as (x & Hx & Ha & A1 & A2 & A3 & A4 & A5 & A6 & A7 & A8 & A9 & A10 & A11 & A12).
    unfold rc_access. rewrite E, Ha. eexists. split; [reflexivity|]. eapply step_inv; eauto.
    - intros p N. deltas. rewrite E, (neqb _ _ N). repeat split; lia.
    - deltas. rewrite E. lia.
    - unfold OI. deltas. rewrite E, Nat.eqb_refl. cbn [o_cnt o_shared o_slot o_freed o_ulen].
      split; [exact A1|]. split; [exact A2|]. split; [exact A3|]. left.
      split; [lia|]. split; [lia|]. split; [lia|]. split; [exact A7|]. split; [exact A8|]. split; [lia|]. split; [intros; apply A10; lia|].
      split; [exact A11|]. intros j dd Hj. destruct (A12 j dd Hj); [auto|right; lia].
    - split; [exact Logic.I|]. cbn [t_stk]. eapply stk_alive; eassumption.
    - eapply others_ok; eauto; cbn; auto.
      + unfold thr_refs. rewrite E. apply ncount_In in Hi. lia.
      + exists []. rewrite app_nil_r. reflexivity.
  Qed.
End Steps.

Lemma TI_app objs y th : TI objs th -> TI (objs ++ [y]) th.
Proof.
  assert (A : forall q x, nth_error objs q = Some x -> nth_error (objs ++ [y]) q = Some x).
  { intros q x H. rewrite nth_error_app1; [exact H|]. apply nth_error_Some. congruence. }
  intros [Hp Hf]. split.
  - unfold pc_ok in *. destruct (t_pc th) as [|q|q|q|q|q|q|q i d|q]; auto.
    + destruct Hp as (H & x & Hx & H2). eauto.
    + destruct Hp as (H & x & Hx & H2). eauto.
    + destruct Hp as (H & x & Hx & H2). eauto 6.
    + destruct Hp as (x & Hx & H2). eauto.
    + destruct Hp as (x & Hx & H2). eauto.
    + destruct Hp as (H & H1 & x & Hx & H2). eauto 6.
  - rewrite Forall_forall in *. intros f H. destruct (Hf f H) as (x & Hx & H2). exists x. eauto.
Qed.

Lemma dthr_exists objs th p : TI objs th -> 0 < dthr p th -> exists x, nth_error objs p = Some x.
Proof.
  intros [Hp Hf] H. unfold dthr in H.
  assert (C : (exists i, In (p, i) (t_stk th)) \/ zsum (fun f : nat * Z => if (p =? fst f)%nat then 1 else 0) (t_stk th) = 0).
  { clear. induction (t_stk th) as [|[q i] l IH]; cbn; [auto|]. destruct (Nat.eqb_spec p q) as [->|N]; [left; eauto|].
    destruct IH as [[j IH]|IH]; [left; eauto|right; lia]. }
  destruct C as [[i C]|C].
  - rewrite Forall_forall in Hf. destruct (Hf _ C) as (x & Hx & _). eauto.
  - rewrite C in H. unfold pc_ok in Hp. destruct (t_pc th); try lia.
    destruct (Nat.eqb_spec p o) as [->|N]; [|lia]. destruct Hp as (x & Hx & _). eauto.
Qed.

Lemma fresh_counts k s p : Inv k s -> nth_error (r_obj s) p = None -> D s p = 0 /\ F s p = 0 /\ forall j, P s p j = 0.
Proof.
  intros I Hn. pose proof (iv_none _ _ I _ Hn) as R0.
  assert (Hz : forall th, In th (r_thr s) -> dthr p th = 0 /\ fthr p th = 0 /\ forall j, pthr p j th = 0).
  { intros th Hi. apply In_nth_error in Hi. destruct Hi as [t Ht].
    pose proof (refs_thr k s p t th I Ht). pose proof (thr_refs_nonneg p th).
    destruct (zero_refs_no_att k s p I t th Ht ltac:(lia)) as [E1 E2]. split; [|auto].
    pose proof (dthr_nonneg p th). destruct (Z.eq_dec (dthr p th) 0) as [|N]; [assumption|].
    destruct (dthr_exists _ th p (iv_thr _ _ I _ _ Ht) ltac:(lia)) as [x Hx]. congruence. }
  split; [|split; [|intros j]]; apply zsum_zero; intros th Hi; destruct (Hz th Hi) as (A & B & C); auto.
Qed.

Section Ops.
  Context (k : Z) (s : rsys) (t : nat) (th : rthr).
  Hypothesis I : Inv k s.
  Hypothesis Ht : nth_error (r_thr s) t = Some th.
  Hypothesis E : t_pc th = RIdle.
  Hypothesis Es : t_stk th = [].

  Lemma op_new kd : Inv (k + 1) (mkRsys (r_obj s ++ [rnew kd]) (upd (r_thr s) t (mkRthr (length (r_obj s) :: t_hold th) RIdle []))).
  Proof.
    set (th' := mkRthr _ _ _). set (s' := mkRsys _ _).
    assert (Hlt : (t < length (r_thr s))%nat) by (apply nth_error_Some; congruence).
    assert (ER : forall p, refs s' p = refs s p + (if (p =? length (r_obj s))%nat then 1 else 0)).
    { intros p. unfold refs, s'. cbn [r_obj r_thr]. rewrite (zsum_upd _ _ _ _ _ Ht), zsum_app. cbn [zsum].
      assert (obj_refs p (rnew kd) = 0) as -> by (destruct kd; reflexivity).
      unfold thr_refs at 2 3. unfold th'. cbn [t_hold t_pc]. rewrite E, ncount_cons. lia. }
    assert (ED : forall p, D s' p = D s p).
    { intros p. unfold D, s'. cbn [r_thr]. rewrite (zsum_upd _ _ _ _ _ Ht). unfold dthr at 2 3. unfold th'. cbn [t_stk t_pc]. rewrite E, Es. lia. }
    assert (EF : forall p, F s' p = F s p).
    { intros p. unfold F, s'. cbn [r_thr]. rewrite (zsum_upd _ _ _ _ _ Ht). unfold fthr at 2 3. unfold th'. cbn [t_stk t_pc]. rewrite E. lia. }
    assert (EP : forall p j, P s' p j = P s p j).
    { intros p j. unfold P, s'. cbn [r_thr]. rewrite (zsum_upd _ _ _ _ _ Ht). unfold pthr at 2 3. unfold th'. cbn [t_stk t_pc]. rewrite E. lia. }
    assert (Hnone : nth_error (r_obj s) (length (r_obj s)) = None) by (apply nth_error_None; lia).
    split.
    - intros p x Hx. rewrite ER, ED, EF. unfold s' in Hx. cbn [r_obj] in Hx.
      destruct (Nat.eqb_spec p (length (r_obj s))) as [->|N].
      + rewrite nth_error_app2, Nat.sub_diag in Hx by lia. injection Hx as <-.
        destruct (fresh_counts k s _ I Hnone) as (D0 & F0 & P0). rewrite (iv_none _ _ I _ Hnone), D0, F0.
        destruct kd; unfold OI, rnew; cbn [o_slot o_att o_cnt o_freed o_run o_ulen o_shared length tl];
          (split; [reflexivity|]); (split; [cbn; intros X; repeat (destruct X as [X|X]; try discriminate); auto|]);
          (split; [lia|]); left; repeat (split; [first [reflexivity|lia|auto]|]);
          intros [|[|j]] dd Hj; cbn in *; auto; try discriminate; try (destruct j; discriminate); left; congruence.
      + rewrite Z.add_0_r. rewrite nth_error_app1 in Hx; [|assert (p < length (r_obj s ++ [rnew kd]))%nat by (apply nth_error_Some; congruence); rewrite app_length in *; cbn [length] in *; lia].
        destruct (iv_obj _ _ I _ _ Hx) as (A & B & C & HO). split; [exact A|]. split; [exact B|]. split; [exact C|].
        destruct HO as [HO|HO]; [left|right; exact HO]. destruct HO as (Z1 & Z2 & Z3 & Z4 & Z5 & Z6 & Z7 & Z8 & Z9). repeat (split; [assumption|]).
        intros j dd Hj. rewrite EP. auto.
    - intros p Hp. rewrite ER. unfold s' in Hp. cbn [r_obj] in Hp. apply nth_error_None in Hp. rewrite app_length in Hp. cbn [length] in Hp.
      replace (p =? length (r_obj s))%nat with false by lia. rewrite (iv_none _ _ I); [lia|]. apply nth_error_None. lia.
    - intros t2 th2 H2. unfold s' in *. cbn [r_thr r_obj] in *. destruct (Nat.eq_dec t2 t) as [->|N].
      + rewrite nth_error_upd_same in H2 by exact Hlt. injection H2 as <-. split; [exact Logic.I|constructor].
      + rewrite nth_error_upd_other in H2 by congruence. apply TI_app. eapply iv_thr; eassumption.
    - intros p. rewrite ER. pose proof (iv_max _ _ I p). destruct (_ =? _)%nat; lia.
  Qed.

  Lemma op_give o t2 th2 : In o (t_hold th) ->
    let s1 := set_thr s t (mkRthr (remove1 o (t_hold th)) RIdle []) in
    nth_error (r_thr s1) t2 = Some th2 -> Inv (k + 1) (set_thr s1 t2 (mkRthr (o :: t_hold th2) (t_pc th2) (t_stk th2))).
  Proof.
    intros Hi s1 H2. set (th1 := mkRthr (remove1 o (t_hold th)) RIdle []) in s1. set (th3 := mkRthr (o :: t_hold th2) _ _).
    assert (Hlt : (t < length (r_thr s))%nat) by (apply nth_error_Some; congruence).
    assert (Hlt2 : (t2 < length (r_thr s))%nat).
    { rewrite <- (upd_length (r_thr s) t th1). apply nth_error_Some. unfold s1, set_thr in H2. cbn [r_thr] in H2. congruence. }
    assert (ER : forall p, refs (set_thr s1 t2 th3) p = refs s p).
    { intros p. unfold refs. cbn [set_thr r_obj r_thr s1] in *. rewrite (zsum_upd _ _ _ _ _ H2), (zsum_upd _ _ _ _ _ Ht).
      assert (thr_refs p th1 = thr_refs p th - (if (p =? o)%nat then 1 else 0)) as -> by (unfold thr_refs, th1; cbn [t_hold t_pc]; rewrite E, ncount_remove1 by exact Hi; lia).
      assert (thr_refs p th3 = thr_refs p th2 + (if (p =? o)%nat then 1 else 0)) as -> by (unfold thr_refs, th3; cbn [t_hold t_pc]; rewrite ncount_cons; lia). lia. }
    assert (ED : forall p, D (set_thr s1 t2 th3) p = D s p).
    { intros p. unfold D. cbn [set_thr r_obj r_thr s1] in *. rewrite (zsum_upd _ _ _ _ _ H2), (zsum_upd _ _ _ _ _ Ht).
      assert (dthr p th1 = dthr p th) as -> by (unfold dthr, th1; cbn [t_stk t_pc]; rewrite E, Es; reflexivity).
      assert (dthr p th3 = dthr p th2) as -> by reflexivity. lia. }
    assert (EF : forall p, F (set_thr s1 t2 th3) p = F s p).
    { intros p. unfold F. cbn [set_thr r_obj r_thr s1] in *. rewrite (zsum_upd _ _ _ _ _ H2), (zsum_upd _ _ _ _ _ Ht).
      assert (fthr p th1 = fthr p th) as -> by (unfold fthr, th1; cbn [t_stk t_pc]; rewrite E; reflexivity).
      assert (fthr p th3 = fthr p th2) as -> by reflexivity. lia. }
    assert (EP : forall p j, P (set_thr s1 t2 th3) p j = P s p j).
    { intros p j. unfold P. cbn [set_thr r_obj r_thr s1] in *. rewrite (zsum_upd _ _ _ _ _ H2), (zsum_upd _ _ _ _ _ Ht).
      assert (pthr p j th1 = pthr p j th) as -> by (unfold pthr, th1; cbn [t_stk t_pc]; rewrite E; reflexivity).
      assert (pthr p j th3 = pthr p j th2) as -> by reflexivity. lia. }
    assert (T1 : TI (r_obj s) th1) by (split; [exact Logic.I|constructor]).
    assert (T2 : TI (r_obj s) th2).
    { unfold s1, set_thr in H2. cbn [r_thr] in H2. destruct (Nat.eq_dec t2 t) as [->|N].
      - rewrite nth_error_upd_same in H2 by exact Hlt. injection H2 as <-. exact T1.
      - rewrite nth_error_upd_other in H2 by congruence. eapply iv_thr; eassumption. }
    split.
    - intros p x Hx. rewrite ER, ED, EF. destruct (iv_obj _ _ I _ _ Hx) as (A & B & C & HO). split; [exact A|]. split; [exact B|]. split; [exact C|].
      destruct HO as [HO|HO]; [left|right; exact HO]. destruct HO as (Z1 & Z2 & Z3 & Z4 & Z5 & Z6 & Z7 & Z8 & Z9). repeat (split; [assumption|]).
      intros j dd Hj. rewrite EP. auto.
    - intros p Hp. rewrite ER. apply (iv_none _ _ I). exact Hp.
    - intros t3 th0 H3. cbn [set_thr r_thr s1 r_obj] in *. destruct (Nat.eq_dec t3 t2) as [->|N].
      + rewrite nth_error_upd_same in H3 by (rewrite upd_length; exact Hlt2). injection H3 as <-.
        destruct T2 as [Hp Hf]. split; [|exact Hf]. unfold pc_ok, th3 in *. cbn [t_pc t_hold].
        destruct (t_pc th2); cbn [In]; intuition.
      + rewrite nth_error_upd_other in H3 by congruence. destruct (Nat.eq_dec t3 t) as [->|N2].
        * rewrite nth_error_upd_same in H3 by exact Hlt. injection H3 as <-. exact T1.
        * rewrite nth_error_upd_other in H3 by congruence. eapply iv_thr; eassumption.
    - intros p. rewrite ER. pose proof (iv_max _ _ I p). lia.
  Qed.

  Lemma st_op op : exists s', rc_access s t th op = Some s' /\ Inv (k + 1) s'.
  Proof.
    unfold rc_access. rewrite E, Es. destruct op as [kd|o|o|o f|o other|o t2].
    - eexists. split; [reflexivity|]. apply op_new.
    - destruct (holds (t_hold th) o) eqn:H; [|eexists; split; [reflexivity|apply Inv_mono; exact I]].
      apply holds_In in H. pose proof (hold_refs k s o t th I Ht H) as Hr. destruct (alive k s o I ltac:(lia)) as (x & Hx & Ha & _).
      rewrite Ha. eexists. split; [reflexivity|]. eapply st_move; [exact I|exact Ht|exact Hx| |].
      + intros p. unfold thr_refs, dthr, fthr, pthr. cbn [t_hold t_pc t_stk]. rewrite E, Es. destruct (o_shared x); repeat split; lia.
      + split; [|constructor]. unfold pc_ok. cbn [t_pc]. destruct (o_shared x) eqn:Esh; (split; [exact H|eauto]).
    - destruct (holds (t_hold th) o) eqn:H; [|eexists; split; [reflexivity|apply Inv_mono; exact I]].
      apply holds_In in H. pose proof (hold_refs k s o t th I Ht H) as Hr. destruct (alive k s o I ltac:(lia)) as (x & Hx & Ha & _).
      eexists. split; [reflexivity|]. eapply st_move; [exact I|exact Ht|exact Hx| |].
      + intros p. unfold thr_refs, dthr, fthr, pthr. cbn [t_hold t_pc t_stk]. rewrite E, Es, ncount_remove1 by exact H. repeat split; lia.
      + split; [exact Logic.I|constructor].
    - destruct (holds (t_hold th) o) eqn:H; [|eexists; split; [reflexivity|apply Inv_mono; exact I]].
      apply holds_In in H. apply (att_ok k s t th I Ht o (DFun f)); auto; [discriminate|]. intros p. unfold dcount. cbn. lia.
    - destruct (holds (t_hold th) o && holds (remove1 o (t_hold th)) other) eqn:H; [|eexists; split; [reflexivity|apply Inv_mono; exact I]].
      apply andb_true_iff in H. destruct H as [H1 H2]. apply holds_In in H1. apply holds_In in H2.
      assert (H3 : In other (t_hold th)).
      { clear - H2. induction (t_hold th) as [|z l IH]; cbn in *; [tauto|]. destruct (Nat.eqb_spec z o); [auto|]. destruct H2; auto. }
      apply (att_ok k s t th I Ht o (DRc other)); auto; [discriminate| |].
      + (* o is still held after other is given away *)
        destruct (Nat.eq_dec o other) as [<-|N].
        * apply ncount_In in H2. rewrite ncount_remove1, Nat.eqb_refl in H2 by exact H1.
          assert (1 <= ncount o (remove1 o (t_hold th))) by (rewrite ncount_remove1, Nat.eqb_refl by exact H1; lia).
          clear - H. induction (remove1 o (t_hold th)) as [|z l IH]; [cbn in H; lia|]. rewrite ncount_cons in H.
          destruct (Nat.eqb_spec o z) as [->|]; [left; reflexivity|right; apply IH; lia].
        * clear - H1 N. induction (t_hold th) as [|z l IH]; cbn in *; [tauto|]. destruct (Nat.eqb_spec z other).
          -- destruct H1; [congruence|auto].
          -- destruct H1; [left; auto|right; auto].
      + intros p. rewrite ncount_remove1 by exact H3. unfold dcount. cbn. destruct (p =? other)%nat; lia.
    - destruct (holds (t_hold th) o) eqn:H; [|eexists; split; [reflexivity|apply Inv_mono; exact I]].
      apply holds_In in H. cbv zeta.
      destruct (nth_error (r_thr (set_thr s t (mkRthr (remove1 o (t_hold th)) RIdle []))) t2) as [th2|] eqn:H2.
      + eexists. split; [reflexivity|]. apply op_give; assumption.
      + eexists. split; [reflexivity|apply Inv_mono; exact I].
  Qed.
End Ops.

Lemma step_ok k s e : Inv k s -> k < 2147483646 -> exists s', rc_step s e = Some s' /\ Inv (k + 1) s'.
Proof.
  intros I Hk. unfold rc_step. destruct e as [t op]. cbn [fst snd].
  destruct (nth_error (r_thr s) t) as [th|] eqn:Ht; [|eexists; split; [reflexivity|apply Inv_mono; exact I]].
  destruct (t_pc th) as [|o|o|o|o|o|o|o i d|o] eqn:E.
  - destruct (t_stk th) as [|[o i] stk] eqn:Es.
    + eapply st_op; eassumption.
    + eapply st_loop; eassumption.
  - eapply st_incadd; eassumption.
  - eapply st_incset; eassumption.
  - eapply st_incstore; eassumption.
  - eapply st_dec; eassumption.
  - eapply st_decsub; eassumption.
  - eapply st_deczero; eassumption.
  - eapply st_attstore; eassumption.
  - eapply st_attfail; eassumption.
Qed.

Lemma exec_ok sched : forall k s, Inv k s -> k + Z.of_nat (length sched) < 2147483647 ->
  exists s', rc_exec s sched = Some s' /\ Inv (k + Z.of_nat (length sched)) s'.
Proof.
  induction sched as [|e sched IH]; intros k s I Hk; cbn [rc_exec length] in *.
  - exists s. split; [reflexivity|]. rewrite Z.add_0_r. exact I.
  - destruct (step_ok k s e I ltac:(lia)) as (s1 & E1 & I1). rewrite E1.
    destruct (IH (k + 1) s1 I1 ltac:(lia)) as (s2 & E2 & I2). exists s2. split; [exact E2|].
    replace (k + Z.of_nat (S (length sched))) with (k + 1 + Z.of_nat (length sched)) by lia. exact I2.
Qed.

Lemma init_inv n : Inv 0 (mkRsys [] (repeat (mkRthr [] RIdle []) n)).
Proof.
  assert (R0 : forall p, refs (mkRsys [] (repeat (mkRthr [] RIdle []) n)) p = 0).
  { intros p. unfold refs. cbn [r_obj r_thr zsum]. rewrite zsum_zero; [lia|]. intros x Hx. apply repeat_spec in Hx. subst. reflexivity. }
  split.
  - intros p x H. destruct p; discriminate.
  - intros p _. apply R0.
  - intros t th H. apply nth_error_In, repeat_spec in H. subst. split; [exact Logic.I|constructor].
  - intros p. rewrite R0. lia.
Qed.

Lemma D_destroying s p : 0 < D s p -> destroying s p.
Proof.
  unfold D, destroying. induction (r_thr s) as [|th l IH]; cbn [zsum]; [lia|]. intros H.
  destruct (Z.eq_dec (dthr p th) 0) as [Ez|N].
  - destruct IH as (th2 & Hi & H2); [lia|]. exists th2. split; [right; exact Hi|exact H2].
  - exists th. split; [left; reflexivity|]. unfold dthr in N.
    assert (C : (exists i, In (p, i) (t_stk th)) \/ zsum (fun f : nat * Z => if (p =? fst f)%nat then 1 else 0) (t_stk th) = 0).
    { clear. induction (t_stk th) as [|[q i] l IH]; cbn; [auto|]. destruct (Nat.eqb_spec p q) as [->|N]; [left; eauto|].
      destruct IH as [[j IH]|IH]; [left; eauto|right; lia]. }
    destruct C as [C|C]; [right; exact C|left]. rewrite C in N. destruct (t_pc th); try lia.
    destruct (Nat.eqb_spec p o) as [->|]; [reflexivity|lia].
Qed.

Lemma final_ok k s p x : Inv k s -> nth_error (r_obj s) p = Some x ->
  0 <= refs s p /\ (0 < refs s p -> o_run x = [] /\ o_freed x = false /\ ~ destroying s p) /\
  (exists rest, rev (o_att x) = o_run x ++ rest) /\
  (refs s p = 0 -> o_run x = rev (o_att x) \/ destroying s p).
Proof.
  intros I Hx. destruct (iv_obj _ _ I _ _ Hx) as (_ & _ & _ & [H|H]).
  - destruct H as (H1 & H2 & H3 & H4 & H5 & _). split; [lia|]. split.
    + intros _. split; [exact H5|]. split; [exact H4|]. intros (th & Hi & Hd). apply In_nth_error in Hi. destruct Hi as [t Ht].
      pose proof (D_ge s t th p Ht) as HD. destruct Hd as [Hd|[i Hd]].
      * unfold dthr in HD. rewrite Hd, Nat.eqb_refl in HD. assert (0 <= zsum (fun f : nat * Z => if (p =? fst f)%nat then 1 else 0) (t_stk th)).
        { apply zsum_nonneg. intros z. destruct (_ =? _)%nat; lia. } lia.
      * pose proof (frames_le (r_obj s) th p (proj2 (iv_thr _ _ I _ _ Ht)) i Hd). lia.
    + split; [exists (rev (o_att x)); rewrite H5; reflexivity|lia].
  - destruct H as (H1 & H2 & H3 & H4 & H5). split; [lia|]. split; [lia|]. split.
    + exists (skipn (length (o_run x)) (rev (o_att x))). rewrite H2 at 1. symmetry. apply firstn_skipn.
    + intros _. destruct H5 as [H5|[_ H5]]; [right; apply D_destroying; lia|left; exact H5].
Qed.
