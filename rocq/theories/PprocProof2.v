(** Order of the list and lifetime of the processors' objects. *)
From Coq Require Import Sorting.Sorted.
From Verif Require Import Base PprocModel PprocSpec PprocProof.

Local Opaque MAXHELD.

(** ** Order *)
Definition le_ord (p q : proc) : Prop := p_ord p <= p_ord q.
Lemma sorted_ascending ps : StronglySorted le_ord ps -> ascending ps.
Proof.
  induction 1 as [|p ps H IH F]; intros i j a b L A B; [destruct i; discriminate|].
  destruct j as [|j]; [lia|]. cbn in B. destruct i as [|i]; cbn in A.
  - injection A as <-. rewrite Forall_forall in F. apply F. eapply nth_error_In. exact B.
  - apply (IH i j); auto. lia.
Qed.
Lemma insert_split p ps : exists a b, ps = a ++ b /\ insert p ps = a ++ p :: b /\ Forall (fun q => p_ord q <= p_ord p) a /\
  (b = [] \/ exists q b', b = q :: b' /\ p_ord p < p_ord q).
Proof.
  induction ps as [|q ps (a & b & E & I & F & B)]; [exists [], []; auto|]. cbn [insert].
  destruct (Z.ltb_spec (p_ord p) (p_ord q)).
  - exists [], (q :: ps). repeat split; auto. right. exists q, ps. auto.
  - exists (q :: a), b. rewrite E at 1. rewrite I. repeat split; auto.
Qed.
Lemma sorted_app a b : StronglySorted le_ord (a ++ b) <-> StronglySorted le_ord a /\ StronglySorted le_ord b /\ (forall x y, In x a -> In y b -> le_ord x y).
Proof.
  induction a as [|x a IH]; cbn [app].
  - split; [intros H; repeat split; auto; [constructor|intros ? ? []]|tauto].
  - split.
    + intros H. apply StronglySorted_inv in H as [H F]. apply IH in H as (A & B & C). rewrite Forall_app in F. destruct F as [F1 F2].
      repeat split; auto; [constructor; assumption|]. intros u v [<-|Hu] Hv; [rewrite Forall_forall in F2; auto|auto].
    + intros (A & B & C). apply StronglySorted_inv in A as [A F]. constructor.
      * apply IH. repeat split; auto. intros; apply C; cbn; auto.
      * apply Forall_app. split; [assumption|]. apply Forall_forall. intros y Hy. apply C; cbn; auto.
Qed.
Lemma insert_sorted p ps : StronglySorted le_ord ps -> StronglySorted le_ord (insert p ps).
Proof.
  intros H. destruct (insert_split p ps) as (a & b & E & I & F & B). rewrite I. subst ps. apply sorted_app in H as (A & Bs & C).
  assert (G : forall y, In y b -> le_ord p y).
  { intros y Hy. destruct B as [->|(q & b' & -> & L)]; [destruct Hy|]. apply StronglySorted_inv in Bs as [_ Fq]. rewrite Forall_forall in Fq.
    unfold le_ord. destruct Hy as [<-|Hy]; [lia|]. specialize (Fq y Hy). unfold le_ord in Fq. lia. }
  apply sorted_app. repeat split; auto.
  - constructor; [assumption|]. apply Forall_forall. exact G.
  - rewrite Forall_forall in F. intros x y Hx [<-|Hy]; [apply F; assumption|auto].
Qed.
Lemma remove_split key ps : forall ps', remove key ps = Some ps' -> exists a p b, ps = a ++ p :: b /\ ps' = a ++ b /\ p_key p = key /\ Forall (fun q => p_key q <> key) a.
Proof.
  induction ps as [|q ps IH]; intros ps'; cbn [remove]; [discriminate|]. destruct (Z.eqb_spec (p_key q) key) as [E|N].
  - intros [= <-]. exists [], q, ps. auto.
  - destruct (remove key ps) as [l|]; [|discriminate]. intros [= <-]. destruct (IH l eq_refl) as (a & p & b & E1 & E2 & E3 & E4).
    exists (q :: a), p, b. cbn. rewrite E1 at 1. rewrite E2. repeat split; auto.
Qed.
Lemma remove_none key ps : remove key ps = None -> Forall (fun q => p_key q <> key) ps.
Proof.
  induction ps as [|q ps IH]; cbn [remove]; [constructor|]. destruct (Z.eqb_spec (p_key q) key) as [E|N]; [discriminate|].
  destruct (remove key ps); [discriminate|]. intros _. constructor; auto.
Qed.
Lemma remove_sorted key ps ps' : remove key ps = Some ps' -> StronglySorted le_ord ps -> StronglySorted le_ord ps'.
Proof.
  intros R H. apply remove_split in R as (a & p & b & -> & -> & _). apply sorted_app in H as (A & B & C). apply StronglySorted_inv in B as [B _].
  apply sorted_app. repeat split; auto. intros; apply C; cbn; auto.
Qed.

(** Where the tables of the next state come from *)
Lemma tabs_back s x s' e k tb : step s x = (s', e) -> nth_error (tabs s') k = Some tb ->
  (exists tb0, nth_error (tabs s) k = Some tb0 /\ t_ps tb = t_ps tb0) \/
  (exists m k0 ps, table_of s m = Some (k0, ps) /\
     ((exists p mem, x = Reg m p mem /\ t_ps tb = insert p ps) \/ (exists key mem, x = Unreg m key mem /\ remove key ps = Some (t_ps tb)) \/ (x = Clone m /\ t_ps tb = ps))).
Proof.
  intros H K. destruct (step_frame _ _ _ _ H) as [X _].
  destruct (nth_error (tabs s) k) as [tb0|] eqn:K0.
  { left. destruct (X _ _ K0) as (tb1 & K1 & E). exists tb0. split; [reflexivity|]. congruence. }
  right. clear X.
  assert (Len : forall s1, (length (tabs s1) <= length (tabs s))%nat -> nth_error (tabs s1) k = None).
  { intros s1 L. apply nth_error_None. apply nth_error_None in K0. lia. }
  assert (DL : forall s1 s2 j e2, drop_table s1 j = (s2, e2) -> length (tabs s2) = length (tabs s1)).
  { intros s1 s2 j e2. unfold drop_table. destruct (nth_error (tabs s1) j); [|intros Hx; inj Hx; reflexivity]. destruct (_ =? 0); [|intros Hx; inj Hx; apply upd_length].
    intros Hx. apply decref_all_frame in Hx as (A & _). rewrite A. apply upd_length. }
  assert (SW : forall ps m j, (let '(s1, k', e1) := new_table s ps in
     let (s2, e2) := drop_table (set_mgrs s1 (upd (mgrs s1) m (Some k'))) j in (s2, e1 ++ e2)) = (s', e) -> t_ps tb = ps).
  { intros ps m j Hx. destruct (new_table s ps) as [[s1 k'] e1] eqn:N. destruct (drop_table _ j) as [s2 e2] eqn:D. inj Hx.
    apply new_table_frame in N as (-> & A & _). pose proof (DL _ _ _ _ D) as L. apply drop_table_frame in D as (X & _). cbn [tabs set_mgrs] in L.
    assert (k = length (tabs s)). { apply nth_error_None in K0. assert (k < length (tabs s2))%nat by (apply nth_error_Some; congruence). rewrite L, A, app_length in H0. cbn in H0. lia. }
    subst k. destruct (X (length (tabs s)) (mkTab 1 ps (firstn MAXHELD (objs ps)))) as (tb' & K' & E').
    - cbn [tabs set_mgrs]. rewrite A, nth_error_app2, Nat.sub_diag by lia. reflexivity.
    - rewrite K in K'. injection K' as <-. exact E'. }
  assert (Absurd : (length (tabs s') <= length (tabs s))%nat -> False) by (intros L; rewrite (Len _ L) in K; discriminate).
  unfold step in H. destruct (out s); try (inj H; exfalso; apply Absurd; lia).
  destruct x as [ | o | o | m p mem | m key mem | m key | m | m | t' m sa pk lg | t' b a].
  - inj H. exfalso; apply Absurd; cbn; lia.
  - destruct (_ <=? _); inj H; exfalso; apply Absurd; [lia|]. cbn [tabs set_own]. rewrite (proj1 (incref_frame s o)). lia.
  - destruct (_ <=? _); [inj H; exfalso; apply Absurd; lia|]. apply decref_frame in H as (A & _). exfalso; apply Absurd. rewrite A. cbn. lia.
  - destruct (table_of s m) as [[j ps]|] eqn:T; [|inj H; exfalso; apply Absurd; lia]. destruct (match p_obj p with Some _ => _ | None => _ end); [inj H; exfalso; apply Absurd; lia|].
    destruct mem; cbn [negb] in H; [|inj H; exfalso; apply Absurd; lia]. apply SW in H. exists m, j, ps. split; [assumption|]. left. exists p, true. auto.
  - destruct (table_of s m) as [[j ps]|] eqn:T; [|inj H; exfalso; apply Absurd; lia]. destruct (remove key ps) as [ps'|] eqn:R; [|inj H; exfalso; apply Absurd; cbn; lia].
    destruct mem; cbn [negb] in H; [|inj H; exfalso; apply Absurd; lia]. apply SW in H. exists m, j, ps. split; [assumption|]. right. left. exists key, true. rewrite H. auto.
  - destruct (table_of s m) as [[j ps]|] eqn:T; [|inj H; exfalso; apply Absurd; lia]. destruct (find_key key ps) as [p|]; [|inj H; exfalso; apply Absurd; lia].
    destruct (p_obj p) as [o|]; inj H; exfalso; apply Absurd; [|lia]. cbn [tabs set_own]. rewrite (proj1 (incref_frame s o)). lia.
  - destruct (table_of s m) as [[j ps]|] eqn:T; [|inj H; exfalso; apply Absurd; lia]. exists m, j, ps. split; [assumption|]. right. right. split; [reflexivity|].
    assert (BL : forall l s1, length (tabs (borrow_to s1 j l)) = length (tabs s1)).
    { induction l as [|o l IH]; intros s1; cbn [borrow_to]; [reflexivity|]. destruct (nth_error (tabs s1) j); [|reflexivity]. rewrite IH. destruct (_ <? _)%nat; [|reflexivity].
      rewrite (proj1 (incref_frame _ o)). apply upd_length. }
    inj H. match type of K with context [borrow_to ?s1 _ ?l] => destruct (borrow_to_frame j l s1) as (X & _); pose proof (BL l s1) as L end.
    cbn [tabs set_mgrs set_tabs] in L.
    assert (k = length (tabs s)). { apply nth_error_None in K0. match type of K with nth_error ?t _ = _ => assert (k < length t)%nat by (apply nth_error_Some; congruence) end. rewrite L, app_length in H. cbn in H. lia. }
    subst k. destruct (X (length (tabs s)) (mkTab 1 ps [])) as (tb' & K' & E').
    + cbn [tabs set_mgrs set_tabs]. rewrite nth_error_app2, Nat.sub_diag by lia. reflexivity.
    + rewrite K in K'. injection K' as <-. exact E'.
  - destruct (table_of s m) as [[j ps]|] eqn:T; [|inj H; exfalso; apply Absurd; lia]. apply DL in H. exfalso; apply Absurd. rewrite H. cbn. lia.
  - destruct (nth_error (thrs s) t') as [[|? ? ? ? ? ?]|] eqn:Th; try (inj H; exfalso; apply Absurd; lia).
    destruct (table_of s m) as [[j ps]|] eqn:T; inj H; exfalso; apply Absurd; [|lia]. cbn [tabs set_thrs]. unfold hold_table. destruct (nth_error (tabs s) j); [cbn; rewrite upd_length|]; lia.
  - destruct (nth_error (thrs s) t') as [[|j i res sa pk lg]|] eqn:T; try (inj H; exfalso; apply Absurd; lia).
    destruct (nth_error (tabs s) j) as [tj|] eqn:J; [|inj H; exfalso; apply Absurd; lia].
    destruct (nth_error (t_ps tj) i) as [p|].
    + destruct (_ && _); [inj H; exfalso; apply Absurd; cbn; lia|]. destruct (negb (alive s p)); [inj H; exfalso; apply Absurd; cbn; lia|].
      destruct (p_taste p && negb b); inj H; exfalso; apply Absurd; cbn; lia.
    + destruct (drop_table _ j) as [s1 e1] eqn:D. inj H. apply DL in D. exfalso; apply Absurd. rewrite D. cbn. lia.
Qed.

Definition all_sorted (s : st) : Prop := forall k tb, nth_error (tabs s) k = Some tb -> StronglySorted le_ord (t_ps tb).
Lemma table_of_nth s m k ps : table_of s m = Some (k, ps) -> nth_error (mgrs s) m = Some (Some k) /\ exists tb, nth_error (tabs s) k = Some tb /\ t_ps tb = ps.
Proof.
  unfold table_of. destruct (nth_error (mgrs s) m) as [[j|]|]; try discriminate. destruct (nth_error (tabs s) j) as [tb|] eqn:J; [|discriminate].
  intros [= -> <-]. split; [reflexivity|]. exists tb. auto.
Qed.
Lemma step_sorted s x s' e : all_sorted s -> step s x = (s', e) -> all_sorted s'.
Proof.
  intros A H k tb K. destruct (tabs_back _ _ _ _ _ _ H K) as [(tb0 & K0 & E)|(m & k0 & ps & T & C)]; [rewrite E; eapply A; eassumption|].
  apply table_of_nth in T as (_ & tb0 & K0 & <-). apply A in K0.
  destruct C as [(p & mem & _ & ->)|[(key & mem & _ & R)|(_ & ->)]]; [apply insert_sorted; assumption|eapply remove_sorted; eassumption|assumption].
Qed.
Lemma run_sorted os : forall s s' e, all_sorted s -> run s os = (s', e) -> all_sorted s'.
Proof.
  induction os as [|x os IH]; intros s s' e A; cbn [run]; [intros H; inj H; assumption|].
  destruct (step s x) as [s1 e1] eqn:S1. destruct (run s1 os) as [s2 e2] eqn:R2. intros H; inj H. eapply IH; [|exact R2]. eapply step_sorted; eassumption.
Qed.
Lemma start_sorted n : all_sorted (start n).
Proof. intros [|[|k]] tb K; cbn in K; try discriminate. injection K as <-. constructor. Qed.

(** ** Lifetime *)
Definition cnt (o : nat) (l : list nat) : Z := Z.of_nat (count_occ Nat.eq_dec l o).
Lemma cnt_app o a b : cnt o (a ++ b) = cnt o a + cnt o b.
Proof. unfold cnt. rewrite count_occ_app. lia. Qed.
Lemma cnt_cons o x l : cnt o (x :: l) = (if Nat.eqb o x then 1 else 0) + cnt o l.
Proof. unfold cnt. cbn [count_occ]. destruct (Nat.eq_dec x o), (Nat.eqb_spec o x); lia. Qed.
Lemma cnt1 u o : cnt u [o] = if Nat.eqb u o then 1 else 0.
Proof. rewrite cnt_cons. unfold cnt. cbn. lia. Qed.
Lemma cnt_nonneg o l : 0 <= cnt o l.
Proof. unfold cnt. lia. Qed.
Lemma cnt_in o l : In o l <-> 0 < cnt o l.
Proof. unfold cnt. rewrite (count_occ_In Nat.eq_dec). lia. Qed.
Definition hs (o : nat) (tb : table) : Z := if 0 <? t_rc tb then cnt o (t_held tb) else 0.
Lemma hs_nonneg o tb : 0 <= hs o tb.
Proof. unfold hs. pose proof (cnt_nonneg o (t_held tb)). destruct (0 <? t_rc tb); lia. Qed.
Definition pm (k : nat) (m : option nat) : Z := match m with Some j => if Nat.eqb j k then 1 else 0 | None => 0 end.
Definition pt (k : nat) (t : thr) : Z := match t with Busy j _ _ _ _ _ => if Nat.eqb j k then 1 else 0 | Idle => 0 end.
Lemma pm_nonneg k m : 0 <= pm k m.
Proof. destruct m as [j|]; cbn; [destruct (Nat.eqb j k)|]; lia. Qed.
Lemma pt_nonneg k m : 0 <= pt k m.
Proof. destruct m as [|j ? ? ? ? ?]; cbn; [|destruct (Nat.eqb j k)]; lia. Qed.
Definition rc_of (s : st) (k : nat) : Z := match nth_error (tabs s) k with Some tb => t_rc tb | None => 0 end.

Record inv (x : nat -> Z) (s : st) : Prop := mkInv {
  i_refs : forall o, refs s o = own s o + zsum (hs o) (tabs s) + leak s o;
  i_own : forall o, 0 <= own s o;
  i_leak : forall o, 0 <= leak s o;
  i_x : forall k, 0 <= x k;
  i_rc : forall k, rc_of s k = zsum (pm k) (mgrs s) + zsum (pt k) (thrs s) + x k;
  i_in : forall k tb p o, nth_error (tabs s) k = Some tb -> 0 < t_rc tb -> In p (t_ps tb) -> p_obj p = Some o -> In o (t_held tb) \/ 0 < leak s o;
  i_out : out s <> UseAfterFree;
  i_new : forall o, (nobj s <= o)%nat -> refs s o = 0 }.
(** [e] frees exactly the objects that have lost their last reference between [s] and [s'] *)
Definition fr (s : st) (e : list event) (s' : st) : Prop :=
  forall o, ((o < nobj s')%nat /\ refs s' o = 0) <-> ((o < nobj s)%nat /\ refs s o = 0) \/ In (EFree o) e.

Lemma fr_trans s e s1 e1 s2 : fr s e s1 -> fr s1 e1 s2 -> fr s (e ++ e1) s2.
Proof. intros A B o. specialize (A o). specialize (B o). rewrite in_app_iff. tauto. Qed.
Lemma fr_same s e s' : refs s' = refs s -> nobj s' = nobj s -> (forall o, ~ In (EFree o) e) -> fr s e s'.
Proof. intros A B C o. rewrite A, B. specialize (C o). tauto. Qed.
Lemma inv_ext x y s : (forall k, x k = y k) -> inv x s -> inv y s.
Proof. intros E [A B C D F G H I]. constructor; auto; intros k; [rewrite <- E|rewrite F, E]; auto. Qed.

Lemma objs_in o ps : In o (objs ps) <-> exists p, In p ps /\ p_obj p = Some o.
Proof.
  unfold objs. rewrite in_flat_map. split; intros (p & Ip & H).
  - exists p. split; [assumption|]. destruct (p_obj p); [|destruct H]. destruct H as [->|[]]. reflexivity.
  - exists p. split; [assumption|]. rewrite H. cbn; auto.
Qed.
Lemma inv_alive x s k tb p o : inv x s -> nth_error (tabs s) k = Some tb -> 0 < t_rc tb -> In p (t_ps tb) -> p_obj p = Some o -> 0 < refs s o.
Proof.
  intros I K R P O. rewrite (i_refs _ _ I). pose proof (i_own _ _ I o). pose proof (i_leak _ _ I o). pose proof (zsum_nonneg (hs o) (tabs s) (hs_nonneg o)).
  destruct (i_in _ _ I _ _ _ _ K R P O) as [H2|H2]; [|lia].
  pose proof (zsum_ge_in (hs o) (tabs s) tb (hs_nonneg o) (nth_error_In _ _ K)) as G. unfold hs in G at 1. apply cnt_in in H2. destruct (Z.ltb_spec 0 (t_rc tb)); lia.
Qed.

Lemma fset_same f o v : fset f o v o = v.
Proof. unfold fset. rewrite Nat.eqb_refl. reflexivity. Qed.
Lemma increfs_refs l : forall s, (forall o, In o l -> 0 < refs s o) ->
  let s' := fold_left incref l s in (forall o, refs s' o = refs s o + cnt o l) /\ out s' = out s.
Proof.
  induction l as [|x l IH]; intros s H; cbn [fold_left]; [split; auto; intros o; unfold cnt; cbn; lia|]. cbv zeta.
  assert (P : 0 < refs s x) by (apply H; cbn; auto).
  assert (E : incref s x = set_refs s (fset (refs s) x (refs s x + 1))) by (unfold incref; destruct (Z.leb_spec (refs s x) 0); [lia|reflexivity]).
  rewrite E. destruct (IH (set_refs s (fset (refs s) x (refs s x + 1)))) as [A B].
  - intros o Ho. cbn [refs set_refs]. unfold fset. destruct (Nat.eqb_spec o x) as [->|N]; [lia|]. apply H. cbn; auto.
  - split; [|exact B]. intros o. rewrite A, cnt_cons. cbn [refs set_refs]. unfold fset. destruct (Nat.eqb_spec o x) as [->|N]; lia.
Qed.
Lemma decref_ok s o s' e : 0 < refs s o -> (forall o, (nobj s <= o)%nat -> refs s o = 0) -> decref s o = (s', e) ->
  (forall u, refs s' u = refs s u - cnt u [o]) /\ out s' = out s /\ fr s e s'.
Proof.
  intros P N. unfold decref. destruct (Z.leb_spec (refs s o) 0); [lia|]. intros H'. inj H'. cbn [refs out set_refs].
  assert (R : forall u, fset (refs s) o (refs s o - 1) u = refs s u - cnt u [o]).
  { intros u. rewrite cnt_cons. unfold fset, cnt. cbn. destruct (Nat.eqb_spec u o) as [->|]; lia. }
  split; [exact R|]. split; [reflexivity|]. intros u. cbn [refs nobj set_refs]. rewrite R, cnt_cons. unfold cnt. cbn [count_occ].
  destruct (Nat.eqb_spec u o) as [->|Nu].
  - assert (o < nobj s)%nat by (destruct (Nat.lt_ge_cases o (nobj s)) as [|G]; [assumption|specialize (N _ G); lia]).
    destruct (Z.eqb_spec (refs s o) 1); cbn [In]; split; intros X; try (destruct X; lia); try lia; auto.
  - destruct (refs s o =? 1); cbn [In]; split; intros X.
    + left. lia.
    + destruct X as [X|[X|[]]]; [lia|]. injection X as X. congruence.
    + left. lia.
    + destruct X as [X|[]]; lia.
Qed.
Lemma decref_all_ok l : forall s s' e, (forall o, cnt o l <= refs s o) -> (forall o, (nobj s <= o)%nat -> refs s o = 0) -> decref_all s l = (s', e) ->
  (forall o, refs s' o = refs s o - cnt o l) /\ out s' = out s /\ fr s e s'.
Proof.
  induction l as [|x l IH]; intros s s' e H N; cbn [decref_all].
  - intros H'. inj H'. split; [intros o; unfold cnt; cbn; lia|]. split; [reflexivity|]. apply fr_same; auto.
  - destruct (decref s x) as [s1 e1] eqn:D. destruct (decref_all s1 l) as [s2 e2] eqn:DA. intros H'. inj H'.
    pose proof (decref_frame _ _ _ _ D) as (_ & _ & _ & _ & _ & Nb & _).
    assert (P : 0 < refs s x). { specialize (H x). rewrite cnt_cons, Nat.eqb_refl in H. pose proof (cnt_nonneg x l). lia. }
    destruct (decref_ok _ _ _ _ P N D) as (A & B & C).
    destruct (IH s1 s2 e2) as (A2 & B2 & C2); auto.
    + intros o. rewrite A, cnt1. specialize (H o). rewrite cnt_cons in H. lia.
    + rewrite Nb. intros o Ho. rewrite A. pose proof (N o Ho) as Z0. rewrite cnt1. destruct (Nat.eqb_spec o x) as [->|]; lia.
    + split; [intros o; rewrite A2, A, cnt1, cnt_cons; lia|]. split; [congruence|]. eapply fr_trans; eassumption.
Qed.

Lemma out_ne s s' : out s' = out s -> out s <> UseAfterFree -> out s' <> UseAfterFree.
Proof. congruence. Qed.

Lemma new_table_inv x s ps s1 k e : inv x s -> (forall o, In o (objs ps) -> 0 < refs s o) -> new_table s ps = (s1, k, e) ->
  inv (fset x k (x k + 1)) s1 /\ fr s e s1 /\ out s1 = out s.
Proof.
  intros I P N. pose proof (new_table_frame _ _ _ _ _ N) as (-> & T & Th & M & Ow & Nb & -> & L).
  assert (R : (forall o, refs s1 o = refs s o + cnt o (objs ps)) /\ out s1 = out s).
  { unfold new_table in N. injection N as <-. apply (increfs_refs (objs ps) s P). }
  destruct R as [R O]. clear N.
  assert (K0 : forall j tb, nth_error (tabs s1) j = Some tb -> nth_error (tabs s) j = Some tb \/ j = length (tabs s) /\ tb = mkTab 1 ps (firstn MAXHELD (objs ps))).
  { intros j tb. rewrite T. destruct (Nat.lt_ge_cases j (length (tabs s))); [rewrite nth_error_app1 by assumption; auto|]. rewrite nth_error_app2 by assumption.
    destruct (j - length (tabs s))%nat eqn:Ej; cbn; [|destruct n; discriminate]. intros [= <-]. right. split; [lia|reflexivity]. }
  assert (Rc : forall j, rc_of s1 j = rc_of s j + (if Nat.eqb j (length (tabs s)) then 1 else 0)).
  { intros j. unfold rc_of. rewrite T. destruct (Nat.lt_ge_cases j (length (tabs s))) as [Lj|Lj].
    - rewrite nth_error_app1 by assumption. destruct (Nat.eqb_spec j (length (tabs s))); [lia|]. lia.
    - rewrite nth_error_app2 by assumption. assert (nth_error (tabs s) j = None) as -> by (apply nth_error_None; lia). destruct (Nat.eqb_spec j (length (tabs s))) as [->|Nj].
      + rewrite Nat.sub_diag. reflexivity.
      + destruct (j - length (tabs s))%nat eqn:Ej; [lia|]. cbn. destruct n; reflexivity. }
  split; [|split; [|exact O]].
  - destruct I as [A B C D F G H J]. constructor.
    + intros o. rewrite R, A, T, zsum_app, Ow, L. cbn [zsum]. unfold hs at 3. cbn [t_rc t_held]. change (0 <? 1) with true. cbv iota.
      rewrite <- (firstn_skipn MAXHELD (objs ps)) at 1. rewrite cnt_app. unfold cnt at 2. lia.
    + rewrite Ow. exact B.
    + intros o. rewrite L. specialize (C o). lia.
    + intros j. unfold fset. specialize (D j). destruct (Nat.eqb_spec j (length (tabs s))) as [->|]; lia.
    + intros j. rewrite Rc, F, M, Th. unfold fset. destruct (Nat.eqb_spec j (length (tabs s))) as [->|]; lia.
    + intros j tb p o Kj Rj Pj Oj. rewrite L. destruct (K0 _ _ Kj) as [Ks|[-> ->]].
      * destruct (G _ _ _ _ Ks Rj Pj Oj); [auto|right; lia].
      * cbn [t_held t_ps] in *. assert (X : In o (objs ps)) by (apply objs_in; eauto). rewrite <- (firstn_skipn MAXHELD (objs ps)) in X. apply in_app_iff in X as [X|X]; [auto|].
        right. apply cnt_in in X. unfold cnt in X. specialize (C o). lia.
    + rewrite O. exact H.
    + intros o Ho. rewrite Nb in Ho. rewrite R, (J _ Ho). assert (cnt o (objs ps) = 0); [|lia].
      destruct (Z.le_gt_cases (cnt o (objs ps)) 0) as [|G0]; [pose proof (cnt_nonneg o (objs ps)); lia|]. apply Z.lt_gt in G0. apply Z.gt_lt, cnt_in, P in G0. specialize (J _ Ho). lia.
  - intros o. rewrite Nb, R. cbn [In]. split; [intros [A B]|intros [[A B]|[C|[]]]; [|discriminate]].
    + left. split; [assumption|]. pose proof (cnt_nonneg o (objs ps)). destruct (Z.le_gt_cases (refs s o) 0) as [|G0].
      * rewrite (i_refs _ _ I) in *. pose proof (i_own _ _ I o). pose proof (i_leak _ _ I o). pose proof (zsum_nonneg (hs o) (tabs s) (hs_nonneg o)). lia.
      * lia.
    + split; [assumption|]. assert (cnt o (objs ps) = 0); [|lia]. destruct (Z.le_gt_cases (cnt o (objs ps)) 0) as [|G0]; [pose proof (cnt_nonneg o (objs ps)); lia|].
      apply cnt_in, P in G0. lia.
Qed.

Lemma drop_table_inv x s k s' e : inv x s -> 1 <= x k -> drop_table s k = (s', e) -> inv (fset x k (x k - 1)) s' /\ fr s e s' /\ out s' = out s.
Proof.
  intros I X D. pose proof (i_rc _ _ I k) as Rk. pose proof (zsum_nonneg (pm k) (mgrs s) (pm_nonneg k)). pose proof (zsum_nonneg (pt k) (thrs s) (pt_nonneg k)).
  unfold rc_of in Rk. unfold drop_table in D. destruct (nth_error (tabs s) k) as [tb|] eqn:K; [|lia].
  set (tb' := mkTab (t_rc tb - 1) (t_ps tb) (t_held tb)) in *. set (s1 := set_tabs s (upd (tabs s) k tb')) in *.
  assert (Lk : (k < length (tabs s))%nat) by (apply nth_error_Some; congruence).
  assert (Hr : forall o, zsum (hs o) (tabs s1) = zsum (hs o) (tabs s) - (if t_rc tb - 1 =? 0 then cnt o (t_held tb) else 0)).
  { intros o. unfold s1. cbn [tabs set_tabs]. rewrite (zsum_upd _ _ _ _ _ K). unfold hs, tb'; cbn [t_rc t_held].
    destruct (Z.eqb_spec (t_rc tb - 1) 0), (Z.ltb_spec 0 (t_rc tb)), (Z.ltb_spec 0 (t_rc tb - 1)); lia. }
  assert (Rc : forall j, rc_of s1 j = rc_of s j - (if Nat.eqb j k then 1 else 0)).
  { intros j. unfold rc_of, s1. cbn [tabs set_tabs]. destruct (Nat.eqb_spec j k) as [->|Nj]; [rewrite nth_error_upd_same by assumption; rewrite K; reflexivity|].
    rewrite nth_error_upd_other by congruence. lia. }
  assert (Kn : forall s2, tabs s2 = tabs s1 -> leak s2 = leak s1 -> forall j tj p o, nth_error (tabs s2) j = Some tj -> 0 < t_rc tj -> In p (t_ps tj) -> p_obj p = Some o -> In o (t_held tj) \/ 0 < leak s2 o).
  { intros s2 E1 E2 j tj p o. rewrite E1, E2. unfold s1. cbn [tabs set_tabs leak]. destruct (Nat.eq_dec j k) as [->|Nj].
    - rewrite nth_error_upd_same by assumption. intros [= <-]. cbn [t_rc t_ps t_held tb']. intros R1 P O. apply (i_in _ _ I k tb p o); auto. lia.
    - rewrite nth_error_upd_other by congruence. apply (i_in _ _ I). }
  destruct (t_rc tb - 1 =? 0) eqn:E0.
  - assert (Ge : forall o, cnt o (t_held tb) <= refs s1 o).
    { intros o. cbn [refs s1 set_tabs]. rewrite (i_refs _ _ I). pose proof (i_own _ _ I o). pose proof (i_leak _ _ I o).
      specialize (Hr o). pose proof (zsum_nonneg (hs o) (tabs s1) (hs_nonneg o)). lia. }
    destruct (decref_all_ok (t_held tb) s1 s' e Ge (i_new _ _ I) D) as (A & B & C). apply decref_all_frame in D as (Ft & Fh & Fm & Fo & Fl & Fn & _).
    split; [|split; [|exact B]].
    + constructor.
      * intros o. rewrite A, Ft, Hr, Fo, Fl. cbn [refs own leak s1 set_tabs]. rewrite (i_refs _ _ I o). lia.
      * rewrite Fo. apply (i_own _ _ I).
      * rewrite Fl. apply (i_leak _ _ I).
      * intros j. unfold fset. pose proof (i_x _ _ I j). destruct (Nat.eqb_spec j k) as [->|]; lia.
      * intros j. unfold rc_of. rewrite Ft. fold (rc_of s1 j). rewrite Rc, Fm, Fh, (i_rc _ _ I j). cbn [mgrs thrs s1 set_tabs]. unfold fset. destruct (Nat.eqb_spec j k) as [->|]; lia.
      * apply Kn; assumption.
      * rewrite B. apply (i_out _ _ I).
      * intros o Ho. rewrite Fn in Ho. rewrite A. cbn [refs s1 set_tabs nobj] in *. pose proof (i_new _ _ I _ Ho). specialize (Ge o). cbn [refs s1 set_tabs] in Ge. pose proof (cnt_nonneg o (t_held tb)). lia.
    + intros o. rewrite (C o). cbn [refs nobj s1 set_tabs]. tauto.
  - inj D. split; [|split; [apply fr_same; auto|reflexivity]]. constructor.
    + intros o. rewrite Hr. cbn [refs own leak s1 set_tabs]. rewrite (i_refs _ _ I o). lia.
    + apply (i_own _ _ I).
    + apply (i_leak _ _ I).
    + intros j. unfold fset. pose proof (i_x _ _ I j). destruct (Nat.eqb_spec j k) as [->|]; lia.
    + intros j. rewrite Rc, (i_rc _ _ I j). cbn [mgrs thrs s1 set_tabs]. unfold fset. destruct (Nat.eqb_spec j k) as [->|]; lia.
    + apply Kn; reflexivity.
    + apply (i_out _ _ I).
    + apply (i_new _ _ I).
Qed.
Lemma hold_table_inv x s k tb : inv x s -> nth_error (tabs s) k = Some tb -> 0 < t_rc tb -> inv (fset x k (x k + 1)) (hold_table s k).
Proof.
  intros I K P. unfold hold_table. rewrite K. assert (Lk : (k < length (tabs s))%nat) by (apply nth_error_Some; congruence).
  destruct I as [A B C D F G H J]. constructor; cbn [refs own leak nobj tabs mgrs thrs out set_tabs]; auto.
  - intros o. rewrite (zsum_upd _ _ _ _ _ K), A. unfold hs; cbn [t_rc t_held]. destruct (Z.ltb_spec 0 (t_rc tb)), (Z.ltb_spec 0 (t_rc tb + 1)); lia.
  - intros j. unfold fset. specialize (D j). destruct (Nat.eqb_spec j k) as [->|]; lia.
  - intros j. specialize (F j). unfold rc_of in *. cbn [tabs set_tabs]. unfold fset. destruct (Nat.eqb_spec j k) as [->|Nj].
    + rewrite nth_error_upd_same by assumption. rewrite K in F. cbn [t_rc]. lia.
    + rewrite nth_error_upd_other by congruence. assumption.
  - intros j tj p o. destruct (Nat.eq_dec j k) as [->|Nj].
    + rewrite nth_error_upd_same by assumption. intros [= <-]. cbn [t_rc t_ps t_held]. intros _. apply (G k tb p o K P).
    + rewrite nth_error_upd_other by congruence. apply G.
Qed.
Lemma set_mgr_inv x s m old new : inv x s -> nth_error (mgrs s) m = Some old -> (forall k, pm k new <= x k + pm k old) ->
  inv (fun k => x k + pm k old - pm k new) (set_mgrs s (upd (mgrs s) m new)).
Proof.
  intros [A B C D F G H J] M P. constructor; cbn [refs own leak nobj tabs mgrs thrs out set_mgrs]; auto.
  - intros k. specialize (P k). lia.
  - intros k. rewrite (zsum_upd _ _ _ _ _ M). specialize (F k). unfold rc_of in *. cbn [tabs set_mgrs]. lia.
Qed.
Lemma set_thr_inv x s t old new : inv x s -> nth_error (thrs s) t = Some old -> (forall k, pt k new <= x k + pt k old) ->
  inv (fun k => x k + pt k old - pt k new) (set_thrs s (upd (thrs s) t new)).
Proof.
  intros [A B C D F G H J] M P. constructor; cbn [refs own leak nobj tabs mgrs thrs out set_thrs]; auto.
  - intros k. specialize (P k). lia.
  - intros k. rewrite (zsum_upd _ _ _ _ _ M). specialize (F k). unfold rc_of in *. cbn [tabs set_thrs]. lia.
Qed.

Definition no_x : nat -> Z := fun _ => 0.
Lemma mgr_live s m k ps : inv no_x s -> table_of s m = Some (k, ps) -> nth_error (mgrs s) m = Some (Some k) /\
  exists tb, nth_error (tabs s) k = Some tb /\ t_ps tb = ps /\ 0 < t_rc tb.
Proof.
  intros I T. apply table_of_nth in T as (M & tb & K & E). split; [assumption|]. exists tb. repeat split; auto.
  pose proof (i_rc _ _ I k) as R. unfold rc_of in R. rewrite K in R. pose proof (zsum_nonneg (pt k) (thrs s) (pt_nonneg k)).
  pose proof (zsum_ge_in (pm k) (mgrs s) _ (pm_nonneg k) (nth_error_In _ _ M)) as G. cbn [pm] in G. rewrite Nat.eqb_refl in G. unfold no_x in R. lia.
Qed.
Lemma thr_live s t k i res sa pk lg tb : inv no_x s -> nth_error (thrs s) t = Some (Busy k i res sa pk lg) -> nth_error (tabs s) k = Some tb -> 0 < t_rc tb.
Proof.
  intros I T K. pose proof (i_rc _ _ I k) as R. unfold rc_of in R. rewrite K in R. pose proof (zsum_nonneg (pm k) (mgrs s) (pm_nonneg k)).
  pose proof (zsum_ge_in (pt k) (thrs s) _ (pt_nonneg k) (nth_error_In _ _ T)) as G. cbn [pt] in G. rewrite Nat.eqb_refl in G. unfold no_x in R. lia.
Qed.
Lemma swap_inv s ps m k ps0 s' e : inv no_x s -> table_of s m = Some (k, ps0) -> (forall o, In o (objs ps) -> 0 < refs s o) ->
  (let '(s1, k', e1) := new_table s ps in
   let (s2, e2) := drop_table (set_mgrs s1 (upd (mgrs s1) m (Some k'))) k in (s2, e1 ++ e2)) = (s', e) -> inv no_x s' /\ fr s e s'.
Proof.
  intros I T P. destruct (mgr_live _ _ _ _ I T) as (M & _). destruct (new_table s ps) as [[s1 k'] e1] eqn:N. pose proof (new_table_frame _ _ _ _ _ N) as (_ & _ & _ & Mg & _ & Nb & _).
  destruct (new_table_inv _ _ _ _ _ _ I P N) as (I1 & F1 & O1). destruct (drop_table _ k) as [s2 e2] eqn:D. intros H. inj H.
  rewrite <- Mg in M. eapply set_mgr_inv with (new := Some k') in I1; [|exact M|].
  - destruct (drop_table_inv _ _ k s2 e2 I1) as (I2 & F2 & O2).
    + cbn [pm]. rewrite Nat.eqb_refl. unfold fset, no_x. rewrite (Nat.eqb_sym k k'). destruct (Nat.eqb k' k); lia.
    + exact D.
    + split.
      * eapply inv_ext; [|exact I2]. intros j. unfold no_x, fset. cbn [pm]. rewrite Nat.eqb_refl, (Nat.eqb_sym k j), (Nat.eqb_sym k' j), (Nat.eqb_sym k k').
        repeat match goal with |- context [Nat.eqb ?a ?b] => destruct (Nat.eqb_spec a b) end; lia.
      * eapply fr_trans; [exact F1|]. exact F2.
  - intros j. cbn [pm]. unfold fset, no_x. rewrite (Nat.eqb_sym k' j). destruct (Nat.eqb j k'), (Nat.eqb k j); lia.
Qed.

Lemma insert_in p ps q : In q (insert p ps) -> q = p \/ In q ps.
Proof.
  destruct (insert_split p ps) as (a & b & E & I & _). rewrite I, E, !in_app_iff. cbn. intros [H|[H|H]]; auto.
Qed.
Lemma remove_in key ps ps' q : remove key ps = Some ps' -> In q ps' -> In q ps.
Proof. intros R. apply remove_split in R as (a & p & b & -> & -> & _). rewrite !in_app_iff. cbn. tauto. Qed.

Lemma own_incref_inv s o : inv no_x s -> 0 < refs s o -> inv no_x (set_own (incref s o) (fset (own s) o (own s o + 1))) /\ fr s [] (set_own (incref s o) (fset (own s) o (own s o + 1))).
Proof.
  intros [A B C D F G H J] P. unfold incref. destruct (Z.leb_spec (refs s o) 0); [lia|]. split.
  - constructor; cbn [refs own leak nobj tabs mgrs thrs out set_own set_refs]; auto.
    + intros u. specialize (A u). unfold fset. destruct (Nat.eqb_spec u o) as [->|]; lia.
    + intros u. specialize (B u). unfold fset. destruct (Nat.eqb_spec u o) as [->|]; lia.
    + intros u Hu. specialize (J u Hu). unfold fset. destruct (Nat.eqb_spec u o) as [->|]; lia.
  - intros u. cbn [refs nobj set_own set_refs In]. unfold fset. destruct (Nat.eqb_spec u o) as [->|]; lia.
Qed.

Lemma step_inv s x s' e : inv no_x s -> plain_clones e -> step s x = (s', e) -> inv no_x s' /\ fr s e s'.
Proof.
  intros I PC H. assert (Nop : s' = s -> (forall o, ~ In (EFree o) e) -> inv no_x s' /\ fr s e s') by (intros -> Ne; split; [assumption|apply fr_same; auto]).
  unfold step in H. destruct (out s) eqn:Ho; try (inj H; apply Nop; auto).
  destruct x as [ | o | o | m p mem | m key mem | m key | m | m | t' m sa pk lg | t' b a].
  - inj H. destruct I as [A B C D F G H J]. split.
    + pose proof (J (nobj s) (Nat.le_refl _)) as Z0. rewrite (A (nobj s)) in Z0. pose proof (B (nobj s)). pose proof (C (nobj s)). pose proof (zsum_nonneg (hs (nobj s)) (tabs s) (hs_nonneg (nobj s))).
      constructor; cbn [refs own leak nobj tabs mgrs thrs out]; auto; [| |discriminate|].
      * intros u. specialize (A u). unfold fset. destruct (Nat.eqb_spec u (nobj s)) as [->|]; lia.
      * intros u. specialize (B u). unfold fset. destruct (Nat.eqb_spec u (nobj s)) as [->|]; lia.
      * intros u Hu. unfold fset. destruct (Nat.eqb_spec u (nobj s)) as [->|]; [lia|]. apply J. lia.
    + intros u. cbn [refs nobj In]. unfold fset. destruct (Nat.eqb_spec u (nobj s)) as [->|]; [lia|]. split; [intros [X Y]; left; split; [lia|assumption]|intros [X|[]]; lia].
  - destruct (Z.leb_spec (own s o) 0); [inj H; apply Nop; auto|]. inj H. apply own_incref_inv; [assumption|].
    rewrite (i_refs _ _ I). pose proof (i_leak _ _ I o). pose proof (zsum_nonneg (hs o) (tabs s) (hs_nonneg o)). lia.
  - destruct (Z.leb_spec (own s o) 0); [inj H; apply Nop; auto|].
    assert (P : 0 < refs s o) by (rewrite (i_refs _ _ I); pose proof (i_leak _ _ I o); pose proof (zsum_nonneg (hs o) (tabs s) (hs_nonneg o)); lia).
    pose proof (decref_frame _ _ _ _ H) as (Ft & Fh & Fm & Fo & Fl & Fn & _). apply decref_ok in H as (A & B & C); [|exact P|exact (i_new _ _ I)]. cbn [refs tabs thrs mgrs own leak nobj out set_own] in *.
    split; [|exact C]. destruct I as [A0 B0 C0 D0 F0 G0 H1 J0].
    assert (Cu : forall u, cnt u [o] = if Nat.eqb u o then 1 else 0) by (intros u; rewrite cnt_cons; unfold cnt; cbn; lia).
    constructor; rewrite ?Ft, ?Fh, ?Fm, ?Fo, ?Fl, ?Fn, ?B; auto.
    + intros u. rewrite A, Cu, A0. unfold fset. destruct (Nat.eqb_spec u o) as [->|]; lia.
    + intros u. specialize (B0 u). unfold fset. destruct (Nat.eqb_spec u o) as [->|]; lia.
    + intros k. specialize (F0 k). unfold rc_of in *. rewrite Ft. assumption.
    + intros u Hu. rewrite A, Cu, (J0 _ Hu). destruct (Nat.eqb_spec u o) as [->|]; [|lia]. rewrite (J0 _ Hu) in P. lia.
  - destruct (table_of s m) as [[k ps]|] eqn:T; [|inj H; apply Nop; auto].
    destruct (match p_obj p with Some o => own s o <=? 0 | None => false end) eqn:Ob; [inj H; apply Nop; auto|].
    destruct mem; cbn [negb] in H; [|inj H; apply Nop; auto; intros o [X|[]]; discriminate].
    eapply swap_inv; [exact I|exact T| |exact H]. intros o Hu. apply objs_in in Hu as (q & Iq & Oq). apply insert_in in Iq as [->|Iq].
    + rewrite Oq in Ob. rewrite (i_refs _ _ I). pose proof (i_leak _ _ I o). pose proof (zsum_nonneg (hs o) (tabs s) (hs_nonneg o)). lia.
    + destruct (mgr_live _ _ _ _ I T) as (_ & tb & K & E & R). subst ps. eapply inv_alive; eassumption.
  - destruct (table_of s m) as [[k ps]|] eqn:T; [|inj H; apply Nop; auto].
    destruct (remove key ps) as [ps'|] eqn:Rm.
    + destruct mem; cbn [negb] in H; [|inj H; apply Nop; auto; intros o [X|[]]; discriminate].
      eapply swap_inv; [exact I|exact T| |exact H]. intros o Hu. apply objs_in in Hu as (q & Iq & Oq). eapply remove_in in Iq; [|exact Rm].
      destruct (mgr_live _ _ _ _ I T) as (_ & tb & K & E & R). subst ps. eapply inv_alive; eassumption.
    + inj H. split; [|apply fr_same; auto]. destruct I as [A B C D F G H J]. constructor; cbn; auto. discriminate.
  - destruct (table_of s m) as [[k ps]|] eqn:T; [|inj H; apply Nop; auto]. destruct (find_key key ps) as [p|] eqn:Fk; [|inj H; apply Nop; auto; intros o [X|[]]; discriminate].
    destruct (p_obj p) as [o|] eqn:Op; [|inj H; apply Nop; auto; intros o [X|[]]; discriminate].
    assert (P : 0 < refs s o). { apply find_some in Fk as [Ip _]. destruct (mgr_live _ _ _ _ I T) as (_ & tb & K & E & R). subst ps. eapply inv_alive; eassumption. }
    inj H. destruct (own_incref_inv _ _ I P) as [X Y]. split; [exact X|]. intros u. rewrite (Y u). cbn [In]. split; [tauto|]. intros [Z0|[Z0|[]]]; [auto|discriminate].
  - destruct (table_of s m) as [[k ps]|] eqn:T; [|inj H; apply Nop; auto]. inj H.
    assert (Em : objs ps = []). { destruct (objs ps) as [|o l] eqn:Eo; [reflexivity|]. assert (X : In o (objs ps)) by (rewrite Eo; cbn; auto).
      apply objs_in in X as (p & Ip & Op). specialize (PC ps p (or_introl eq_refl) Ip). congruence. }
    rewrite Em. cbn [borrow_to]. split; [|apply fr_same; auto; intros o [X|[]]; discriminate].
    destruct I as [A B C D F G H J]. constructor; cbn [refs own leak nobj tabs mgrs thrs out set_mgrs set_tabs]; auto.
    + intros o. rewrite zsum_app, A. cbn [zsum]. unfold hs at 3, cnt. cbn. lia.
    + intros j. specialize (F j). unfold rc_of in *. cbn [tabs set_mgrs set_tabs]. rewrite zsum_app. cbn [zsum pm]. destruct (Nat.lt_ge_cases j (length (tabs s))) as [Lj|Lj].
      * rewrite nth_error_app1 by assumption. destruct (Nat.eqb_spec (length (tabs s)) j); lia.
      * rewrite nth_error_app2 by assumption. rewrite (proj2 (nth_error_None (tabs s) j) Lj) in F. destruct (Nat.eqb_spec (length (tabs s)) j) as [<-|Nj].
        -- rewrite Nat.sub_diag. cbn [nth_error t_rc]. lia.
        -- destruct (j - length (tabs s))%nat eqn:Ej; [lia|]. cbn [nth_error]. destruct n; cbn [nth_error]; lia.
    + intros j tb p o. destruct (Nat.lt_ge_cases j (length (tabs s))) as [Lj|Lj]; [rewrite nth_error_app1 by assumption; apply G|]. rewrite nth_error_app2 by assumption.
      destruct (j - length (tabs s))%nat; cbn; [|destruct n; discriminate]. intros [= <-] _ Ip Op. cbn [t_ps] in Ip.
      assert (X : In o (objs ps)) by (apply objs_in; eauto). rewrite Em in X. destruct X.
  - destruct (table_of s m) as [[k ps]|] eqn:T; [|inj H; apply Nop; auto]. destruct (mgr_live _ _ _ _ I T) as (M & _).
    eapply set_mgr_inv with (new := None) in I; [|exact M|intros j; cbn [pm]; unfold no_x; destruct (Nat.eqb k j); lia].
    destruct (drop_table_inv _ _ k s' e I) as (I2 & F2 & O2); [cbn [pm]; unfold no_x; rewrite Nat.eqb_refl; lia|exact H|].
    split; [|exact F2]. eapply inv_ext; [|exact I2]. intros j. unfold fset, no_x. cbn [pm]. rewrite Nat.eqb_refl, (Nat.eqb_sym k j). destruct (Nat.eqb j k); lia.
  - destruct (nth_error (thrs s) t') as [[|? ? ? ? ? ?]|] eqn:Th; try (inj H; apply Nop; auto).
    destruct (table_of s m) as [[k ps]|] eqn:T; [|inj H; apply Nop; auto]. destruct (mgr_live _ _ _ _ I T) as (M & tb & K & E & R). inj H.
    destruct (hold_table_frame s k) as (_ & Ht & _). pose proof (hold_table_inv _ _ _ _ I K R) as I1. rewrite <- Ht in *.
    split.
    + eapply set_thr_inv with (new := Busy k 0 0 sa pk lg) in I1; [|exact Th|].
      * eapply inv_ext; [|exact I1]. intros j. unfold fset, no_x. cbn [pt]. rewrite (Nat.eqb_sym k j). destruct (Nat.eqb j k); lia.
      * intros j. unfold fset, no_x. cbn [pt]. rewrite (Nat.eqb_sym k j). destruct (Nat.eqb j k); lia.
    + unfold hold_table. rewrite K. apply fr_same; auto.
  - destruct (nth_error (thrs s) t') as [[|k i res sa pk lg]|] eqn:Th; try (inj H; apply Nop; auto).
    destruct (nth_error (tabs s) k) as [tb|] eqn:K; [|inj H; apply Nop; auto].
    assert (Go : forall i' r, inv no_x (set_thrs s (upd (thrs s) t' (Busy k i' r sa pk lg)))).
    { intros i' r. eapply inv_ext; [|eapply set_thr_inv; [exact I|exact Th|]]; intros j; cbn [pt]; unfold no_x; lia. }
    destruct (nth_error (t_ps tb) i) as [p|] eqn:Np.
    + destruct (_ && _); [inj H; split; [apply Go|apply fr_same; auto]|].
      destruct (negb (alive s p)) eqn:Al.
      { exfalso. unfold alive in Al. destruct (p_obj p) as [o|] eqn:Op; [|discriminate].
        assert (0 < refs s o); [|lia]. eapply inv_alive; [exact I|exact K|eapply thr_live; eassumption|eapply nth_error_In; exact Np|exact Op]. }
      destruct (p_taste p && negb b); inj H; (split; [apply Go|apply fr_same; auto]).
      * intros o [X|[]]; discriminate.
      * intros o. rewrite in_app_iff. destruct (p_taste p); cbn [In]; intros [X|X]; repeat destruct X as [X|X]; try discriminate; auto.
    + destruct (drop_table _ k) as [s1 e1] eqn:D. inj H.
      eapply set_thr_inv with (new := Idle) in I; [|exact Th|intros j; cbn [pt]; unfold no_x; destruct (Nat.eqb k j); lia].
      destruct (drop_table_inv _ _ k s1 e1 I) as (I2 & F2 & O2); [cbn [pt]; unfold no_x; rewrite Nat.eqb_refl; lia|exact D|].
      split; [eapply inv_ext; [|exact I2]; intros j; unfold fset, no_x; cbn [pt]; rewrite Nat.eqb_refl, (Nat.eqb_sym k j); destruct (Nat.eqb j k); lia|].
      intros u. rewrite (F2 u). cbn [refs nobj set_thrs]. rewrite in_app_iff. split; [tauto|]. intros [X|[X|X]]; auto. exfalso. apply in_app_iff in X as [X|[X|[]]]; [|discriminate].
      destruct (_ || _); [destruct lg|]; cbn [In] in X; repeat destruct X as [X|X]; try discriminate; auto.
Qed.
Lemma plain_app a b : plain_clones (a ++ b) -> plain_clones a /\ plain_clones b.
Proof. intros H. split; intros ps p I; apply (H ps p); apply in_app_iff; auto. Qed.
Lemma run_inv os : forall s s' e, inv no_x s -> plain_clones e -> run s os = (s', e) -> inv no_x s' /\ fr s e s'.
Proof.
  induction os as [|x os IH]; intros s s' e I P; cbn [run]; [intros H; inj H; split; [assumption|apply fr_same; auto]|].
  destruct (step s x) as [s1 e1] eqn:S1. destruct (run s1 os) as [s2 e2] eqn:R2. intros H; inj H. apply plain_app in P as [P1 P2].
  destruct (step_inv _ _ _ _ I P1 S1) as [I1 F1]. destruct (IH _ _ _ I1 P2 R2) as [I2 F2]. split; [assumption|]. eapply fr_trans; eassumption.
Qed.
Lemma start_inv n : inv no_x (start n).
Proof.
  assert (Z0 : forall k, zsum (pt k) (repeat Idle n) = 0) by (intros k; apply zsum_zero; intros x Hx; apply repeat_spec in Hx; subst; reflexivity).
  constructor; cbn [refs own leak nobj tabs mgrs thrs out start]; auto; try discriminate; try lia.
  - intros k. rewrite Z0. unfold no_x, rc_of. cbn [tabs start zsum pm]. destruct k as [|[|k]]; reflexivity.
  - intros [|[|k]] tb p o K; cbn in K; try discriminate. injection K as <-. intros _ [].
Qed.

(** Objects that nobody leaks *)
Lemma step_leak s x s' e : step s x = (s', e) -> small_tables e -> MAXHELD = 23%nat -> forall o, leak s' o = leak s o.
Proof.
  intros H Sm Mh. 
  assert (SW : forall ps m k, (let '(s1, k', e1) := new_table s ps in
     let (s2, e2) := drop_table (set_mgrs s1 (upd (mgrs s1) m (Some k'))) k in (s2, e1 ++ e2)) = (s', e) -> forall o, leak s' o = leak s o).
  { intros ps m k Hx o. destruct (new_table s ps) as [[s1 k'] e1] eqn:N. destruct (drop_table _ k) as [s2 e2] eqn:D. inj Hx.
    apply new_table_frame in N as (_ & _ & _ & _ & _ & _ & -> & L). apply drop_table_frame in D as (_ & _ & _ & _ & Fl & _). rewrite Fl. cbn [leak set_mgrs]. rewrite L.
    assert (length (objs ps) <= 23)%nat by (apply Sm; cbn; auto). rewrite Mh, skipn_all2 by assumption. cbn. lia. }
  unfold step in H. destruct (out s); try (inj H; reflexivity).
  destruct x as [ | o | o | m p mem | m key mem | m key | m | m | t' m sa pk lg | t' b a].
  - inj H. reflexivity.
  - destruct (_ <=? _); inj H; [reflexivity|]. cbn [leak set_own]. destruct (incref_frame s o) as (_ & _ & _ & _ & L & _). rewrite L. reflexivity.
  - destruct (_ <=? _); [inj H; reflexivity|]. apply decref_frame in H as (_ & _ & _ & _ & L & _). rewrite L. reflexivity.
  - destruct (table_of s m) as [[j ps]|]; [|inj H; reflexivity]. destruct (match p_obj p with Some _ => _ | None => _ end); [inj H; reflexivity|].
    destruct mem; cbn [negb] in H; [|inj H; reflexivity]. eapply SW; exact H.
  - destruct (table_of s m) as [[j ps]|]; [|inj H; reflexivity]. destruct (remove key ps) as [ps'|]; [|inj H; reflexivity].
    destruct mem; cbn [negb] in H; [|inj H; reflexivity]. eapply SW; exact H.
  - destruct (table_of s m) as [[j ps]|]; [|inj H; reflexivity]. destruct (find_key key ps) as [p|]; [|inj H; reflexivity].
    destruct (p_obj p) as [o|]; inj H; [|reflexivity]. cbn [leak set_own]. destruct (incref_frame s o) as (_ & _ & _ & _ & L & _). rewrite L. reflexivity.
  - destruct (table_of s m) as [[j ps]|]; [|inj H; reflexivity].
    assert (BL : forall l s1, leak (borrow_to s1 j l) = leak s1).
    { induction l as [|o l IH]; intros s1; cbn [borrow_to]; [reflexivity|]. destruct (nth_error (tabs s1) j); [|reflexivity]. rewrite IH. destruct (_ <? _)%nat; [|reflexivity].
      unfold incref. destruct (_ <=? _); reflexivity. }
    inj H. rewrite BL. reflexivity.
  - destruct (table_of s m) as [[j ps]|]; [|inj H; reflexivity]. apply drop_table_frame in H as (_ & _ & _ & _ & L & _). rewrite L. reflexivity.
  - destruct (nth_error (thrs s) t') as [[|? ? ? ? ? ?]|]; try (inj H; reflexivity).
    destruct (table_of s m) as [[j ps]|]; inj H; [|reflexivity]. unfold hold_table. destruct (nth_error (tabs s) j); reflexivity.
  - destruct (nth_error (thrs s) t') as [[|j i res sa pk lg]|]; try (inj H; reflexivity).
    destruct (nth_error (tabs s) j) as [tj|]; [|inj H; reflexivity]. destruct (nth_error (t_ps tj) i) as [p|].
    + destruct (_ && _); [inj H; reflexivity|]. destruct (negb (alive s p)); [inj H; reflexivity|]. destruct (p_taste p && negb b); inj H; reflexivity.
    + destruct (drop_table _ j) as [s1 e1] eqn:D. inj H. apply drop_table_frame in D as (_ & _ & _ & _ & L & _). rewrite L. reflexivity.
Qed.
Lemma run_leak os : forall s s' e, run s os = (s', e) -> small_tables e -> MAXHELD = 23%nat -> forall o, leak s' o = leak s o.
Proof.
  induction os as [|x os IH]; intros s s' e; cbn [run]; [intros H; inj H; reflexivity|].
  destruct (step s x) as [s1 e1] eqn:S1. destruct (run s1 os) as [s2 e2] eqn:R2. intros H; inj H. intros Sm Mh o.
  rewrite (IH _ _ _ R2), (step_leak _ _ _ _ S1); auto; intros n Hn; apply Sm, in_app_iff; auto.
Qed.

Lemma reg_ext s s' m ps : mgrs s' = mgrs s -> ext s s' -> registered s m = Some ps -> registered s' m = Some ps.
Proof.
  intros M X. unfold registered. rewrite M. destruct (nth_error (mgrs s) m) as [[k|]|]; try discriminate. destruct (nth_error (tabs s) k) as [tb|] eqn:K; [|discriminate].
  destruct (X _ _ K) as (tb' & K' & E). rewrite K'. cbn. congruence.
Qed.
Lemma swap_registered s ps m k ps0 s' e : registered s m = Some ps0 ->
  (let '(s1, k', e1) := new_table s ps in
   let (s2, e2) := drop_table (set_mgrs s1 (upd (mgrs s1) m (Some k'))) k in (s2, e1 ++ e2)) = (s', e) ->
  registered s' m = Some ps /\ forall m' qs, m' <> m -> registered s m' = Some qs -> registered s' m' = Some qs.
Proof.
  intros Rg H. pose proof (swap_table _ _ _ _ _ _ H) as (X & _ & Mg & _). destruct (new_table s ps) as [[s1 k'] e1] eqn:N. destruct (drop_table _ k) as [s2 e2] eqn:D. inj H.
  apply new_table_frame in N as (-> & T & _ & Mg1 & _). apply drop_table_frame in D as (Y & _).
  destruct (Y (length (tabs s)) (mkTab 1 ps (firstn MAXHELD (objs ps)))) as (tb' & K' & E').
  { cbn [tabs set_mgrs]. rewrite T, nth_error_app2, Nat.sub_diag by lia. reflexivity. }
  unfold registered in *. rewrite Mg. assert (Lm : (m < length (mgrs s))%nat) by (apply nth_error_Some; intros E; rewrite E in Rg; discriminate). split.
  - rewrite nth_error_upd_same by assumption. rewrite K'. cbn in *. congruence.
  - intros m' qs Nm. rewrite nth_error_upd_other by congruence. destruct (nth_error (mgrs s) m') as [[j|]|]; try discriminate. destruct (nth_error (tabs s) j) as [tj|] eqn:J; [|discriminate].
    destruct (X _ _ J) as (tj' & J' & Ej). rewrite J'. cbn. congruence.
Qed.
Lemma registered_table s m ps : registered s m = Some ps -> exists k tb, table_of s m = Some (k, ps) /\ nth_error (mgrs s) m = Some (Some k) /\ nth_error (tabs s) k = Some tb /\ t_ps tb = ps.
Proof.
  unfold registered, table_of. destruct (nth_error (mgrs s) m) as [[k|]|]; try discriminate. destruct (nth_error (tabs s) k) as [tb|] eqn:K; [|discriminate]. intros [= <-]. exists k, tb. auto.
Qed.

(** ** What is left *)
Lemma incref_out s o : out (incref s o) = Aborted -> out s = Aborted.
Proof. unfold incref. destruct (_ <=? _); cbn; [discriminate|auto]. Qed.
Lemma increfs_out l : forall s, out (fold_left incref l s) = Aborted -> out s = Aborted.
Proof. induction l as [|o l IH]; intros s; cbn [fold_left]; auto. intros H. apply IH in H. eapply incref_out. exact H. Qed.
Lemma decref_out s o s' e : decref s o = (s', e) -> out s' = Aborted -> out s = Aborted.
Proof. unfold decref. destruct (_ <=? _); intros H; inj H; cbn; [discriminate|auto]. Qed.
Lemma decref_all_out l : forall s s' e, decref_all s l = (s', e) -> out s' = Aborted -> out s = Aborted.
Proof.
  induction l as [|o l IH]; intros s s' e; cbn [decref_all]; [intros H; inj H; auto|]. destruct (decref s o) as [s1 e1] eqn:D. destruct (decref_all s1 l) as [s2 e2] eqn:DA.
  intros H X; inj H. eapply decref_out; [exact D|]. eapply IH; eassumption.
Qed.
Lemma drop_out s k s' e : drop_table s k = (s', e) -> out s' = Aborted -> out s = Aborted.
Proof.
  unfold drop_table. destruct (nth_error (tabs s) k) as [tb|]; [|intros H; inj H; auto]. destruct (_ =? 0); [|intros H; inj H; auto].
  intros D X. apply decref_all_out in D; auto.
Qed.

Definition held_listed (s : st) : Prop := forall k tb o, nth_error (tabs s) k = Some tb -> In o (t_held tb) -> In o (objs (t_ps tb)).
Lemma start_held n : held_listed (start n).
Proof. intros [|[|k]] tb o K; cbn in K; try discriminate. injection K as <-. intros []. Qed.
Lemma held_same s s' : tabs s' = tabs s -> held_listed s -> held_listed s'.
Proof. intros E H k tb o. rewrite E. apply H. Qed.
Lemma held_upd s s' k tb r : nth_error (tabs s) k = Some tb -> tabs s' = upd (tabs s) k (mkTab r (t_ps tb) (t_held tb)) -> held_listed s -> held_listed s'.
Proof.
  intros K E H j tj o. rewrite E. destruct (Nat.eq_dec k j) as [<-|N].
  - rewrite nth_error_upd_same by (apply nth_error_Some; congruence). intros [= <-]. cbn. apply (H _ _ _ K).
  - rewrite nth_error_upd_other by assumption. apply H.
Qed.
Lemma held_app s s' tb : tabs s' = tabs s ++ [tb] -> (forall o, In o (t_held tb) -> In o (objs (t_ps tb))) -> held_listed s -> held_listed s'.
Proof.
  intros E P H j tj o. rewrite E. destruct (Nat.lt_ge_cases j (length (tabs s))); [rewrite nth_error_app1 by assumption; apply H|]. rewrite nth_error_app2 by assumption.
  destruct (j - length (tabs s))%nat; cbn; [intros [= <-]; apply P|destruct n; discriminate].
Qed.
Lemma drop_held s k s' e : drop_table s k = (s', e) -> held_listed s -> held_listed s'.
Proof.
  unfold drop_table. destruct (nth_error (tabs s) k) as [tb|] eqn:K; [|intros H; inj H; auto]. destruct (_ =? 0).
  - intros D. apply decref_all_frame in D as (A & _). eapply held_upd; [exact K|exact A].
  - intros H; inj H. eapply held_upd; [exact K|reflexivity].
Qed.
Lemma in_firstn {A} (x : A) n l : In x (firstn n l) -> In x l.
Proof. intros H. rewrite <- (firstn_skipn n l). apply in_app_iff. auto. Qed.
Lemma step_held s x s' e : held_listed s -> plain_clones e -> step s x = (s', e) -> held_listed s'.
Proof.
  intros Hh PC H.
  assert (SW : forall ps m k, (let '(s1, k', e1) := new_table s ps in
     let (s2, e2) := drop_table (set_mgrs s1 (upd (mgrs s1) m (Some k'))) k in (s2, e1 ++ e2)) = (s', e) -> held_listed s').
  { intros ps m k Hx. destruct (new_table s ps) as [[s1 k'] e1] eqn:N. destruct (drop_table _ k) as [s2 e2] eqn:D. inj Hx. apply new_table_frame in N as (_ & T & _).
    eapply drop_held; [exact D|]. eapply held_app; [exact T| |exact Hh]. cbn [t_held t_ps]. intros o Ho. apply in_firstn in Ho. exact Ho. }
  unfold step in H. destruct (out s); try (inj H; assumption).
  destruct x as [ | o | o | m p mem | m key mem | m key | m | m | t' m sa pk lg | t' b a].
  - inj H. exact Hh.
  - destruct (_ <=? _); inj H; [assumption|]. eapply held_same; [|exact Hh]. exact (proj1 (incref_frame s o)).
  - destruct (_ <=? _); [inj H; assumption|]. apply decref_frame in H as (A & _). eapply held_same; [exact A|exact Hh].
  - destruct (table_of s m) as [[j ps]|]; [|inj H; assumption]. destruct (match p_obj p with Some _ => _ | None => _ end); [inj H; assumption|].
    destruct mem; cbn [negb] in H; [|inj H; assumption]. eapply SW; exact H.
  - destruct (table_of s m) as [[j ps]|]; [|inj H; assumption]. destruct (remove key ps) as [ps'|]; [|inj H; exact Hh].
    destruct mem; cbn [negb] in H; [|inj H; assumption]. eapply SW; exact H.
  - destruct (table_of s m) as [[j ps]|]; [|inj H; assumption]. destruct (find_key key ps) as [p|]; [|inj H; assumption].
    destruct (p_obj p) as [o|]; inj H; [|assumption]. eapply held_same; [|exact Hh]. exact (proj1 (incref_frame s o)).
  - destruct (table_of s m) as [[j ps]|]; [|inj H; assumption]. inj H.
    assert (Em : objs ps = []). { destruct (objs ps) as [|o l] eqn:Eo; [reflexivity|]. assert (X : In o (objs ps)) by (rewrite Eo; cbn; auto).
      apply objs_in in X as (p & Ip & Op). specialize (PC ps p (or_introl eq_refl) Ip). congruence. }
    rewrite Em. cbn [borrow_to]. eapply held_app; [reflexivity|intros o []|exact Hh].
  - destruct (table_of s m) as [[j ps]|]; [|inj H; assumption]. eapply drop_held; [exact H|exact Hh].
  - destruct (nth_error (thrs s) t') as [[|? ? ? ? ? ?]|]; try (inj H; assumption).
    destruct (table_of s m) as [[j ps]|]; inj H; [|assumption]. unfold hold_table. destruct (nth_error (tabs s) j) as [tj|] eqn:J; [|exact Hh].
    eapply held_upd; [exact J|reflexivity|exact Hh].
  - destruct (nth_error (thrs s) t') as [[|j i res sa pk lg]|]; try (inj H; assumption).
    destruct (nth_error (tabs s) j) as [tj|]; [|inj H; assumption]. destruct (nth_error (t_ps tj) i) as [p|].
    + destruct (_ && _); [inj H; exact Hh|]. destruct (negb (alive s p)); [inj H; exact Hh|]. destruct (p_taste p && negb b); inj H; exact Hh.
    + destruct (drop_table _ j) as [s1 e1] eqn:D. inj H. eapply drop_held; [exact D|exact Hh].
Qed.
Lemma run_held os : forall s s' e, held_listed s -> plain_clones e -> run s os = (s', e) -> held_listed s'.
Proof.
  induction os as [|x os IH]; intros s s' e Hh P; cbn [run]; [intros H; injection H as <- <-; assumption|].
  destruct (step s x) as [s1 e1] eqn:S1. destruct (run s1 os) as [s2 e2] eqn:R2. intros H; injection H as <- <-. apply plain_app in P as [P1 P2].
  eapply IH; [|exact P2|exact R2]. exact (step_held _ _ _ _ Hh P1 S1).
Qed.
Lemma swap_out s ps m k s' e :
  (let '(s1, k', e1) := new_table s ps in
   let (s2, e2) := drop_table (set_mgrs s1 (upd (mgrs s1) m (Some k'))) k in (s2, e1 ++ e2)) = (s', e) -> out s' = Aborted -> out s = Aborted.
Proof.
  destruct (new_table s ps) as [[s1 k'] e1] eqn:N. destruct (drop_table _ k) as [s2 e2] eqn:D. intros H. inj H. intros X. apply (drop_out _ _ _ _ D) in X. cbn [out set_mgrs] in X.
  unfold new_table in N. injection N as <- _ _. apply (increfs_out (objs ps)). exact X.
Qed.
Lemma no_clone_plain tr : forallb (fun e => match e with EClone _ => false | _ => true end) tr = true -> plain_clones tr.
Proof. rewrite forallb_forall. intros H ps p I. apply H in I. discriminate. Qed.
