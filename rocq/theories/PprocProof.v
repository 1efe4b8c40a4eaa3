(** Proofs about the packet processor chain. *)
From Verif Require Import Base PprocModel PprocSpec.

Local Opaque MAXHELD.

(** ** Frame lemmas *)
Definition ext (s s' : st) : Prop :=
  forall k tb, nth_error (tabs s) k = Some tb -> exists tb', nth_error (tabs s') k = Some tb' /\ t_ps tb' = t_ps tb.
Lemma ext_refl s : ext s s.
Proof. intros k tb H. exists tb. auto. Qed.
Lemma ext_trans a b c : ext a b -> ext b c -> ext a c.
Proof. intros A B k tb H. destruct (A _ _ H) as (t1 & H1 & E1). destruct (B _ _ H1) as (t2 & H2 & E2). exists t2. split; congruence. Qed.
Lemma ext_eq s s' : tabs s' = tabs s -> ext s s'.
Proof. intros E k tb H. exists tb. rewrite E. auto. Qed.
Lemma ext_app s s' l : tabs s' = tabs s ++ l -> ext s s'.
Proof. intros E k tb H. exists tb. rewrite E. split; [|reflexivity]. rewrite nth_error_app1; [assumption|]. apply nth_error_Some. congruence. Qed.
Lemma ext_upd s s' k tb tb1 : nth_error (tabs s) k = Some tb -> t_ps tb1 = t_ps tb -> tabs s' = upd (tabs s) k tb1 -> ext s s'.
Proof.
  intros H P E j tj Hj. rewrite E. destruct (Nat.eq_dec k j) as [<-|N].
  - exists tb1. split; [apply nth_error_upd_same; apply nth_error_Some; congruence|]. congruence.
  - exists tj. rewrite nth_error_upd_other by assumption. auto.
Qed.

Definition quiet (t : nat) (es : list event) : Prop := filter (mine t) es = [].
Lemma quiet_app t a b : quiet t a -> quiet t b -> quiet t (a ++ b).
Proof. unfold quiet. rewrite filter_app. intros -> ->. reflexivity. Qed.

Lemma incref_frame s o : tabs (incref s o) = tabs s /\ thrs (incref s o) = thrs s /\ mgrs (incref s o) = mgrs s /\ own (incref s o) = own s /\
  leak (incref s o) = leak s /\ nobj (incref s o) = nobj s.
Proof. unfold incref. destruct (_ <=? _); cbn; repeat split; reflexivity. Qed.
Lemma increfs_frame l : forall s, let s' := fold_left incref l s in tabs s' = tabs s /\ thrs s' = thrs s /\ mgrs s' = mgrs s /\ own s' = own s /\
  leak s' = leak s /\ nobj s' = nobj s.
Proof.
  induction l as [|o l IH]; intros s; cbn [fold_left]; [repeat split; reflexivity|]. cbv zeta in *.
  destruct (incref_frame s o) as (A & B & C & D & E & F). destruct (IH (incref s o)) as (A1 & B1 & C1 & D1 & E1 & F1).
  repeat split; congruence.
Qed.
Lemma decref_frame s o s' e : decref s o = (s', e) -> tabs s' = tabs s /\ thrs s' = thrs s /\ mgrs s' = mgrs s /\ own s' = own s /\
  leak s' = leak s /\ nobj s' = nobj s /\ (e = [] \/ e = [EFree o]).
Proof. unfold decref. destruct (_ <=? _); intros [= <- <-]; cbn; repeat split; auto. destruct (_ =? _); auto. Qed.
Lemma decref_all_frame l : forall s s' e, decref_all s l = (s', e) -> tabs s' = tabs s /\ thrs s' = thrs s /\ mgrs s' = mgrs s /\ own s' = own s /\
  leak s' = leak s /\ nobj s' = nobj s /\ Forall (fun x => exists o, x = EFree o) e.
Proof.
  induction l as [|o l IH]; intros s s' e; cbn [decref_all]; [intros [= <- <-]; repeat split; auto|].
  destruct (decref s o) as [s1 e1] eqn:D. destruct (decref_all s1 l) as [s2 e2] eqn:DA. intros [= <- <-].
  destruct (decref_frame _ _ _ _ D) as (A & B & C & E & F & G & H). destruct (IH _ _ _ DA) as (A1 & B1 & C1 & E1 & F1 & G1 & H1).
  repeat split; try congruence. apply Forall_app. split; [|assumption]. destruct H as [->| ->]; constructor; eauto.
Qed.
Lemma frees_quiet t e : Forall (fun x => exists o, x = EFree o) e -> quiet t e.
Proof. induction 1 as [|x e (o & ->) _ IH]; [reflexivity|]. exact IH. Qed.
Lemma drop_table_frame s k s' e : drop_table s k = (s', e) -> ext s s' /\ thrs s' = thrs s /\ mgrs s' = mgrs s /\ own s' = own s /\
  leak s' = leak s /\ nobj s' = nobj s /\ Forall (fun x => exists o, x = EFree o) e.
Proof.
  unfold drop_table. destruct (nth_error (tabs s) k) as [tb|] eqn:K; [|intros [= <- <-]; repeat split; auto using ext_refl].
  destruct (_ =? 0).
  - intros D. apply decref_all_frame in D as (A & B & C & E & F & G & H). repeat split; try assumption.
    eapply ext_upd; [exact K| |exact A]; reflexivity.
  - intros [= <- <-]. repeat split; auto. eapply ext_upd; [exact K| |reflexivity]; reflexivity.
Qed.
Lemma new_table_frame s ps s' k e : new_table s ps = (s', k, e) -> k = length (tabs s) /\
  tabs s' = tabs s ++ [mkTab 1 ps (firstn MAXHELD (objs ps))] /\ thrs s' = thrs s /\ mgrs s' = mgrs s /\ own s' = own s /\ nobj s' = nobj s /\
  e = [ETable (length (objs ps))] /\ (forall o, leak s' o = leak s o + Z.of_nat (count_occ Nat.eq_dec (skipn MAXHELD (objs ps)) o)).
Proof.
  unfold new_table. destruct (increfs_frame (objs ps) s) as (A & B & C & D & E & F). intros [= <- <- <-]. cbn [tabs thrs mgrs own nobj leak set_tabs set_leak].
  rewrite A, B, C, D, E, F. repeat split; reflexivity.
Qed.
Lemma borrow_to_frame k l : forall s, let s' := borrow_to s k l in ext s s' /\ thrs s' = thrs s /\ mgrs s' = mgrs s.
Proof.
  induction l as [|o l IH]; intros s; cbn [borrow_to]; [repeat split; auto using ext_refl|].
  destruct (nth_error (tabs s) k) as [tb|] eqn:K; [|repeat split; auto using ext_refl]. cbv zeta.
  destruct (_ <? _)%nat; [|apply IH].
  match goal with |- context [borrow_to ?x k l] => destruct (IH x) as (A & B & C) end.
  match type of A with ext ?x _ => assert (X : ext s x) end.
  { eapply ext_upd; [exact K| |]; [|exact (proj1 (incref_frame _ o))]; reflexivity. }
  split; [eapply ext_trans; eassumption|]. rewrite B, C.
  destruct (incref_frame (set_tabs s (upd (tabs s) k (mkTab (t_rc tb) (t_ps tb) (t_held tb ++ [o])))) o) as (A' & B' & C' & _).
  rewrite B', C'. split; reflexivity.
Qed.
Lemma hold_table_frame s k : ext s (hold_table s k) /\ thrs (hold_table s k) = thrs s /\ mgrs (hold_table s k) = mgrs s.
Proof.
  unfold hold_table. destruct (nth_error (tabs s) k) as [tb|] eqn:K; [|repeat split; auto using ext_refl].
  repeat split; auto. eapply ext_upd; [exact K| |reflexivity]; reflexivity.
Qed.

Ltac inj H := injection H as <- <-.

Lemma swap_table s ps m k s' e :
  (let '(s1, k', e1) := new_table s ps in
   let (s2, e2) := drop_table (set_mgrs s1 (upd (mgrs s1) m (Some k'))) k in (s2, e1 ++ e2)) = (s', e) ->
  ext s s' /\ thrs s' = thrs s /\ mgrs s' = upd (mgrs s) m (Some (length (tabs s))) /\ own s' = own s /\ nobj s' = nobj s /\
  exists e2, e = ETable (length (objs ps)) :: e2 /\ Forall (fun x => exists o, x = EFree o) e2.
Proof.
  destruct (new_table s ps) as [[s1 k'] e1] eqn:N. destruct (drop_table _ k) as [s2 e2] eqn:D. intros H. inj H.
  apply new_table_frame in N as (-> & A & B & C & Ow & Nb & -> & L). apply drop_table_frame in D as (A1 & B1 & C1 & Ow1 & L1 & Nb1 & F).
  cbn [tabs thrs mgrs own leak nobj set_mgrs] in *. repeat split; try congruence.
  - eapply ext_trans; [eapply ext_app; exact A|]. eapply ext_trans; [|exact A1]. apply ext_eq. reflexivity.
  - exists e2. auto.
Qed.

(** What an operation does to the tables and to a thread it is not about *)
Lemma step_frame s x s' e : step s x = (s', e) -> ext s s' /\
  (forall t, (forall b a, x <> Step t b a) -> starts t x = false -> nth_error (thrs s') t = nth_error (thrs s) t /\ quiet t e).
Proof.
  unfold step. destruct (out s); try (intros H; inj H; split; [apply ext_refl|]; intros; split; reflexivity).
  destruct x as [ | o | o | m p mem | m key mem | m key | m | m | t' m sa pk lg | t' b a]; intros H.
  - inj H. split; [apply ext_eq; reflexivity|]. intros; split; reflexivity.
  - destruct (_ <=? _); inj H; [split; [apply ext_refl|]; intros; split; reflexivity|].
    destruct (incref_frame s o) as (A & B & _). split; [apply ext_eq; exact A|]. intros. cbn [thrs set_own]. rewrite B. split; reflexivity.
  - destruct (_ <=? _); [inj H; split; [apply ext_refl|]; intros; split; reflexivity|].
    apply decref_frame in H as (A & B & C & D & E & F & G). split; [apply ext_eq; exact A|]. intros t _ _. rewrite B. split; [reflexivity|].
    destruct G as [->| ->]; reflexivity.
  - destruct (table_of s m) as [[k ps]|]; [|inj H; split; [apply ext_refl|]; intros; split; reflexivity].
    destruct (match p_obj p with Some o => _ | None => _ end); [inj H; split; [apply ext_refl|]; intros; split; reflexivity|].
    destruct mem; cbn [negb] in H; [|inj H; split; [apply ext_refl|]; intros; split; reflexivity].
    apply swap_table in H as (A & B & C & D & E & e2 & -> & F). split; [assumption|]. intros t _ _. rewrite B. split; [reflexivity|].
    apply (frees_quiet t) in F. exact F.
  - destruct (table_of s m) as [[k ps]|]; [|inj H; split; [apply ext_refl|]; intros; split; reflexivity].
    destruct (remove key ps); [|inj H; split; [apply ext_eq; reflexivity|]; intros; split; reflexivity].
    destruct mem; cbn [negb] in H; [|inj H; split; [apply ext_refl|]; intros; split; reflexivity].
    apply swap_table in H as (A & B & C & D & E & e2 & -> & F). split; [assumption|]. intros t _ _. rewrite B. split; [reflexivity|].
    apply (frees_quiet t) in F. exact F.
  - destruct (table_of s m) as [[k ps]|]; [|inj H; split; [apply ext_refl|]; intros; split; reflexivity].
    destruct (find_key key ps) as [p|]; [|inj H; split; [apply ext_refl|]; intros; split; reflexivity].
    destruct (p_obj p) as [o|]; inj H; [|split; [apply ext_refl|]; intros; split; reflexivity].
    destruct (incref_frame s o) as (A & B & _). split; [apply ext_eq; exact A|]. intros. cbn [thrs set_own]. rewrite B. split; reflexivity.
  - destruct (table_of s m) as [[k ps]|]; [|inj H; split; [apply ext_refl|]; intros; split; reflexivity].
    inj H. match goal with |- context [borrow_to ?x ?k ?l] => destruct (borrow_to_frame k l x) as (A & B & C) end. cbn [thrs set_mgrs set_tabs] in B.
    split; [eapply ext_trans; [|exact A]; eapply ext_app; reflexivity|]. intros t _ _. rewrite B. split; reflexivity.
  - destruct (table_of s m) as [[k ps]|]; [|inj H; split; [apply ext_refl|]; intros; split; reflexivity].
    apply drop_table_frame in H as (A & B & C & D & E & F & G). split; [eapply ext_trans; [|exact A]; apply ext_eq; reflexivity|].
    intros t _ _. rewrite B. split; [reflexivity|]. apply frees_quiet. assumption.
  - destruct (nth_error (thrs s) t') as [[|k i res sa' pk' lg']|] eqn:T; try (inj H; split; [apply ext_refl|]; intros; split; reflexivity).
    destruct (table_of s m) as [[k ps]|]; [|inj H; split; [apply ext_refl|]; intros; split; reflexivity].
    inj H. destruct (hold_table_frame s k) as (A & B & C). split; [eapply ext_trans; [exact A|apply ext_eq; reflexivity]|].
    intros t _ Hs. cbn [starts] in Hs. apply Nat.eqb_neq in Hs. cbn [thrs set_thrs]. rewrite nth_error_upd_other by assumption. split; reflexivity.
  - assert (O : forall t, (forall b0 a0, Step t' b a <> Step t b0 a0) -> t' <> t) by (intros t Hn ->; exact (Hn b a eq_refl)).
    destruct (nth_error (thrs s) t') as [[|k i res sa pk lg]|] eqn:T; try (inj H; split; [apply ext_refl|]; intros; split; reflexivity).
    destruct (nth_error (tabs s) k) as [tb|] eqn:K; [|inj H; split; [apply ext_refl|]; intros; split; reflexivity].
    destruct (nth_error (t_ps tb) i) as [p|] eqn:I.
    + destruct (_ && _); [inj H; split; [apply ext_eq; reflexivity|]; intros t Hn _; cbn [thrs set_thrs]; rewrite nth_error_upd_other by auto; split; reflexivity|].
      destruct (negb (alive s p)); [inj H; split; [apply ext_eq; reflexivity|]; intros; split; reflexivity|].
      destruct (p_taste p && negb b); inj H; (split; [apply ext_eq; reflexivity|]); intros t Hn _; cbn [thrs set_thrs]; rewrite nth_error_upd_other by auto;
        (split; [reflexivity|]); apply O in Hn; apply Nat.eqb_neq in Hn.
      * unfold quiet. cbn [filter mine]. rewrite Hn. reflexivity.
      * unfold quiet. rewrite filter_app. destruct (p_taste p); cbn [filter mine app]; rewrite !Hn; reflexivity.
    + destruct (drop_table _ k) as [s1 e1] eqn:D. inj H. apply drop_table_frame in D as (A & B & C & _ & _ & _ & F). cbn [thrs set_thrs mgrs] in *.
      split; [eapply ext_trans; [|exact A]; apply ext_eq; reflexivity|]. intros t Hn _. rewrite B, nth_error_upd_other by auto. split; [reflexivity|].
      apply O in Hn; apply Nat.eqb_neq in Hn. apply quiet_app; [apply frees_quiet; assumption|]. unfold quiet. rewrite filter_app.
      destruct (_ || _); [destruct lg|]; cbn [filter mine app]; rewrite !Hn; reflexivity.
Qed.

(** ** Bits *)
Lemma land2 r : (Z.land r 2 =? 0) = negb (Z.testbit r 1).
Proof.
  replace 2 with (2 ^ 1) by reflexivity. destruct (Z.testbit r 1) eqn:T; cbn [negb].
  - apply Z.eqb_neq. intros E. apply (f_equal (fun x => Z.testbit x 1)) in E. rewrite Z.land_spec, T, Z.pow2_bits_true in E by lia. discriminate.
  - apply Z.eqb_eq. apply Z.bits_inj'. intros n Hn. rewrite Z.land_spec, Z.bits_0. destruct (Z.eq_dec n 1) as [->|N]; [rewrite T; reflexivity|].
    rewrite (Z.pow2_bits_false 1 n) by lia. apply andb_false_r.
Qed.
Lemma land4 r : (Z.land r 4 =? 0) = negb (Z.testbit r 2).
Proof.
  replace 4 with (2 ^ 2) by reflexivity. destruct (Z.testbit r 2) eqn:T; cbn [negb].
  - apply Z.eqb_neq. intros E. apply (f_equal (fun x => Z.testbit x 2)) in E. rewrite Z.land_spec, T, Z.pow2_bits_true in E by lia. discriminate.
  - apply Z.eqb_eq. apply Z.bits_inj'. intros n Hn. rewrite Z.land_spec, Z.bits_0. destruct (Z.eq_dec n 2) as [->|N]; [rewrite T; reflexivity|].
    rewrite (Z.pow2_bits_false 2 n) by lia. apply andb_false_r.
Qed.
Lemma land6 r : (Z.land r 6 =? 0) = negb (Z.testbit r 1 || Z.testbit r 2).
Proof.
  rewrite negb_orb, <- land2, <- land4. replace 6 with (Z.lor 2 4) by reflexivity. rewrite Z.land_lor_distr_r.
  destruct (Z.eqb_spec (Z.land r 2) 0) as [E|E], (Z.eqb_spec (Z.land r 4) 0) as [F|F]; cbn [andb].
  - rewrite E, F. reflexivity.
  - apply Z.eqb_neq. intros X. apply Z.lor_eq_0_iff in X. tauto.
  - apply Z.eqb_neq. intros X. apply Z.lor_eq_0_iff in X. tauto.
  - apply Z.eqb_neq. intros X. apply Z.lor_eq_0_iff in X. tauto.
Qed.

(** ** A thread going through its list *)
Definition acts (vs : list visit) : Z := fold_left Z.lor (map vact vs) 0.
Lemma acts_snoc vs v : acts (vs ++ [v]) = Z.lor (acts vs) (vact v).
Proof. unfold acts. rewrite map_app, fold_left_app. reflexivity. Qed.
Lemma acts_bit vs n : Z.testbit (acts vs) n = existsb (fun v => Z.testbit (vact v) n) vs.
Proof.
  induction vs as [|v vs IH] using rev_ind; [destruct n; reflexivity|]. rewrite acts_snoc, Z.lor_spec, IH, existsb_app. cbn [existsb]. rewrite orb_false_r. reflexivity.
Qed.
Definition walking (ps : list proc) (sa : Z) (i : nat) (res : Z) (vs : list visit) : Prop :=
  res = acts vs /\ Forall legal vs /\
  ((i <= length ps)%nat /\ map vproc vs = filter (wanted sa) (firstn i ps) /\ Forall (fun v => stops v = false) vs \/
   i = length ps /\ (exists rest, map vproc vs ++ rest = filter (wanted sa) ps) /\ Forall (fun v => stops v = false) (removelast vs) /\
   exists v, last (map Some vs) None = Some v /\ stops v = true).
Definition tracks (ps : list proc) (sa pk : Z) (lg : bool) (t : nat) (s : st) (evs : list event) : Prop :=
  (exists k i res vs, nth_error (thrs s) t = Some (Busy k i res sa pk lg) /\ option_map t_ps (nth_error (tabs s) k) = Some ps /\
     walking ps sa i res vs /\ evs = flat_map (shown t) vs) \/
  (nth_error (thrs s) t = Some Idle /\ handled ps sa pk lg t evs true).

Lemma removelast_Forall {A} (P : A -> Prop) l : Forall P l -> Forall P (removelast l).
Proof. induction 1 as [|x l Hx Hl IH]; cbn; [constructor|]. destruct l; constructor; auto. Qed.
Lemma walking_handled ps sa pk lg t i res vs : walking ps sa i res vs ->
  handled ps sa pk lg t (flat_map (shown t) vs) false.
Proof.
  intros (R & L & [(I & M & F)|(I & (rest & M) & F & X)]).
  - exists vs, (filter (wanted sa) (skipn i ps)). split; [|split; [assumption|split; [apply removelast_Forall; assumption|reflexivity]]].
    rewrite M, <- filter_app, firstn_skipn. reflexivity.
  - exists vs, rest. auto.
Qed.
Lemma walking_ends ps sa pk lg t res vs : walking ps sa (length ps) res vs ->
  handled ps sa pk lg t (flat_map (shown t) vs ++ ending t pk lg vs) true.
Proof.
  intros (R & L & [(I & M & F)|(I & (rest & M) & F & X)]).
  - exists vs, []. rewrite firstn_all in M. rewrite app_nil_r. split; [assumption|]. split; [assumption|]. split; [apply removelast_Forall; assumption|]. auto.
  - exists vs, rest. split; [assumption|]. split; [assumption|]. split; [assumption|]. split; [right; assumption|reflexivity].
Qed.
Lemma last_snoc {A} (l : list A) x d : last (l ++ [x]) d = x.
Proof. induction l as [|y l IH]; [reflexivity|]. cbn [app last]. destruct (l ++ [x]) eqn:E; [destruct l; discriminate|exact IH]. Qed.
Lemma removelast_snoc {A} (l : list A) x : removelast (l ++ [x]) = l.
Proof. apply removelast_last. Qed.
Lemma firstn_snoc {A} (l : list A) : forall i x, nth_error l i = Some x -> firstn (S i) l = firstn i l ++ [x].
Proof. induction l as [|y l IH]; intros [|i] x; cbn; intros H; try discriminate; [congruence|]. f_equal. apply IH. assumption. Qed.

Lemma none_stops vs : Forall (fun v => stops v = false) vs -> Z.testbit (acts vs) 1 = false /\ Z.testbit (acts vs) 2 = false.
Proof.
  intros F. rewrite !acts_bit. split; apply Bool.not_true_iff_false; rewrite existsb_exists; intros (v & Iv & T);
    rewrite Forall_forall in F; specialize (F v Iv); unfold stops, takes, drops in F; rewrite T in F; [discriminate|rewrite orb_true_r in F; discriminate].
Qed.

Lemma tracks_step ps sa pk lg t s evs x s' e : tracks ps sa pk lg t s evs -> starts t x = false -> step s x = (s', e) ->
  tracks ps sa pk lg t s' (evs ++ filter (mine t) e).
Proof.
  intros T St H. destruct (step_frame _ _ _ _ H) as [X Fr].
  assert (Other : (forall b a, x <> Step t b a) -> tracks ps sa pk lg t s' (evs ++ filter (mine t) e)).
  { intros N. destruct (Fr t N St) as [Et Q]. unfold quiet in Q. rewrite Q, app_nil_r. destruct T as [(k & i & res & vs & A & B & C & D)|(A & B)].
    - left. exists k, i, res, vs. rewrite Et. split; [assumption|]. split; [|auto]. destruct (nth_error (tabs s) k) as [tb|] eqn:K; [|discriminate].
      destruct (X _ _ K) as (tb' & K' & Ep). rewrite K'. cbn in *. congruence.
    - right. rewrite Et. auto. }
  destruct x as [ | o | o | m p mem | m key mem | m key | m | m | t' m sa' pk' lg' | t' b a]; try (apply Other; discriminate).
  destruct (Nat.eq_dec t' t) as [->|N]; [|apply Other; congruence]. clear Other Fr X.
  unfold step in H. destruct (out s); try (inj H; rewrite app_nil_r; exact T).
  destruct T as [(k & i & res & vs & A & B & C & D)|(A & B)]; [|rewrite A in H; inj H; cbn [filter]; rewrite app_nil_r; right; auto].
  assert (Lt : (t < length (thrs s))%nat) by (apply nth_error_Some; congruence).
  rewrite A in H. destruct (nth_error (tabs s) k) as [tb|] eqn:K; [|discriminate]. cbn in B. assert (Ep : ps = t_ps tb) by congruence. subst ps. clear B.
  destruct (nth_error (t_ps tb) i) as [p|] eqn:I.
  - assert (Il : (i < length (t_ps tb))%nat) by (apply nth_error_Some; congruence).
    destruct C as (R & L & [(I1 & M & F)|(-> & _)]); [|lia].
    assert (Adv : forall (r : Z) vs' es, r = acts (vs ++ vs') -> Forall legal vs' -> Forall (fun v => stops v = false) vs' ->
       map vproc vs' = filter (wanted sa) [p] -> es = flat_map (shown t) vs' ->
       tracks (t_ps tb) sa pk lg t (set_thrs s (upd (thrs s) t (Busy k (S i) r sa pk lg))) (evs ++ es)).
    { intros r vs' es Hr Hl Hs Hm ->. left. exists k, (S i), r, (vs ++ vs'). cbn [thrs tabs set_thrs]. rewrite nth_error_upd_same by assumption. rewrite K.
      repeat split; auto.
      - apply Forall_app; auto.
      - left. split; [lia|]. rewrite map_app, M, Hm, (firstn_snoc _ _ _ I), filter_app. split; [reflexivity|]. apply Forall_app; auto.
      - rewrite D, flat_map_app. reflexivity. }
    assert (Wf : wanted sa p = negb ((0 <? sa) && (p_ord p <? sa))) by (unfold wanted; lia).
    destruct ((0 <? sa) && (p_ord p <? sa)) eqn:W.
    + inj H. apply (Adv res []); auto; [rewrite app_nil_r; assumption|cbn [filter]; rewrite Wf; reflexivity].
    + destruct (negb (alive s p)) eqn:Al.
      { inj H. cbn [filter]. rewrite app_nil_r. left. exists k, i, res, vs. cbn [thrs tabs set_out]. rewrite K. repeat split; auto. }
      destruct (p_taste p && negb b) eqn:Ta.
      * inj H. apply andb_true_iff in Ta as [Ta _]. apply (Adv res [Declined p]).
        -- rewrite acts_snoc. cbn [vact]. rewrite Z.lor_0_r. assumption.
        -- repeat constructor. exact Ta.
        -- repeat constructor.
        -- cbn [map vproc filter]. rewrite Wf. reflexivity.
        -- cbn. rewrite Nat.eqb_refl. reflexivity.
      * assert (Se : filter (mine t) ((if p_taste p then [ETaste t p true] else []) ++ [ECall t p a]) = flat_map (shown t) [Called p a]).
        { cbn [flat_map shown]. rewrite app_nil_r. destruct (p_taste p); cbn [app filter mine]; rewrite !Nat.eqb_refl; reflexivity. }
        inj H. rewrite Se. rewrite land6. rewrite !Z.lor_spec. destruct (none_stops vs F) as [N1 N2]. rewrite R at 1 2. rewrite N1, N2. cbn [orb].
        destruct (Z.testbit a 1 || Z.testbit a 2) eqn:Sp; cbn [negb].
        -- left. exists k, (length (t_ps tb)), (Z.lor res a), (vs ++ [Called p a]). cbn [thrs tabs set_thrs]. rewrite nth_error_upd_same by assumption. rewrite K.
           split; [reflexivity|]. split; [reflexivity|]. split; [|rewrite D, flat_map_app; reflexivity].
           split; [rewrite acts_snoc, R; reflexivity|]. split; [apply Forall_app; repeat constructor; assumption|]. right. split; [reflexivity|].
           rewrite removelast_snoc. split; [|split; [assumption|]].
           ++ exists (filter (wanted sa) (skipn (S i) (t_ps tb))). rewrite map_app, M. cbn [map vproc].
              rewrite <- (firstn_skipn (S i) (t_ps tb)) at 3. rewrite (firstn_snoc _ _ _ I), !filter_app. cbn [filter]. rewrite Wf. reflexivity.
           ++ exists (Called p a). rewrite map_app. cbn [map]. rewrite last_snoc. split; [reflexivity|]. exact Sp.
        -- apply (Adv (Z.lor res a) [Called p a]).
           ++ rewrite acts_snoc, R. reflexivity.
           ++ repeat constructor.
           ++ constructor; [exact Sp|constructor].
           ++ cbn [map vproc filter]. rewrite Wf. reflexivity.
           ++ reflexivity.
  - destruct (drop_table _ k) as [s1 e1] eqn:Dr. apply drop_table_frame in Dr as (A1 & B1 & C1 & _ & _ & _ & F1). inj H. right.
    cbn [thrs set_thrs] in B1. rewrite B1, nth_error_upd_same by assumption. split; [reflexivity|].
    assert (Il : i = length (t_ps tb)).
    { apply nth_error_None in I. destruct C as (_ & _ & [(I1 & _)|(I1 & _)]); lia. }
    subst i. apply (walking_ends _ _ pk lg t) in C as C'. rewrite D.
    match goal with |- handled _ _ _ _ _ (_ ++ ?e) _ => replace e with (ending t pk lg vs); [assumption|] end.
    rewrite filter_app, (frees_quiet t _ F1). cbn [app]. destruct C as (R & _).
    unfold ending. rewrite land2, land4, R, !acts_bit. unfold takes, drops.
    destruct (existsb (fun v => Z.testbit (vact v) 1) vs), (existsb (fun v => Z.testbit (vact v) 2) vs); cbn [negb orb andb]; destruct lg; cbn; rewrite ?Nat.eqb_refl; reflexivity.
Qed.

Lemma tracks_run ps sa pk lg t os : forall s evs s' e, tracks ps sa pk lg t s evs -> forallb (fun x => negb (starts t x)) os = true ->
  run s os = (s', e) -> tracks ps sa pk lg t s' (evs ++ filter (mine t) e).
Proof.
  induction os as [|x os IH]; intros s evs s' e T F; cbn [run]; [intros H; inj H; cbn [filter]; rewrite app_nil_r; assumption|].
  cbn [forallb] in F. apply andb_true_iff in F as [F1 F2]. apply negb_true_iff in F1.
  destruct (step s x) as [s1 e1] eqn:S1. destruct (run s1 os) as [s2 e2] eqn:R2. intros H; inj H. rewrite filter_app, app_assoc.
  eapply IH; [|assumption|exact R2]. eapply tracks_step; eassumption.
Qed.

Lemma handling ps sa pk lg t m s os s' e : out s = Ok -> nth_error (thrs s) t = Some Idle -> registered s m = Some ps ->
  forallb (fun x => negb (starts t x)) os = true -> run s (Start t m sa pk lg :: os) = (s', e) ->
  handled ps sa pk lg t (filter (mine t) e) (idle s' t).
Proof.
  intros Ok I Rg F. cbn [run]. destruct (step s (Start t m sa pk lg)) as [s1 e1] eqn:S1. destruct (run s1 os) as [s2 e2] eqn:R2. intros H; inj H.
  unfold step in S1. rewrite Ok, I in S1. unfold registered in Rg. unfold table_of in S1.
  destruct (nth_error (mgrs s) m) as [[k|]|]; try discriminate. destruct (nth_error (tabs s) k) as [tb|] eqn:K; [|discriminate]. cbn in Rg.
  assert (Ep : t_ps tb = ps) by congruence. inj S1.
  assert (Lt : (t < length (thrs s))%nat) by (apply nth_error_Some; congruence).
  assert (T : tracks ps sa pk lg t (set_thrs (hold_table s k) (upd (thrs s) t (Busy k 0 0 sa pk lg))) []).
  { left. exists k, 0%nat, 0, []. cbn [thrs tabs set_thrs]. rewrite nth_error_upd_same by assumption. destruct (hold_table_frame s k) as (A & _).
    destruct (A _ _ K) as (tb' & K' & E'). rewrite K'. cbn [option_map]. rewrite E', Ep. repeat split; auto. left. repeat split; auto. lia. }
  eapply tracks_run in T; [|exact F|exact R2]. cbn [app] in T. unfold idle. cbn [app filter]. destruct T as [(k' & i & res & vs & A & B & C & ->)|(A & B)].
  - rewrite A. eapply walking_handled. exact C.
  - rewrite A. exact B.
Qed.
