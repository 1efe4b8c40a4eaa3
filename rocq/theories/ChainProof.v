From Verif Require Import Base SessModel SessSpec SessProof ChainModel ChainSpec.
From Verif Require TtlModel.
Import TtlModel (max_ttl, cur_ttl, ttl_ctor, ttl_reset, ttl_reset_with, ttl_decr).

(** * The delete sub-command has no to tag *)
Definition unmatched (ht : list sess) (to : list Z) : Prop := forall s, In s ht -> compare_session_tags (s_tag s) to = 0.
Lemma pass_none call from to weak ht : unmatched ht to -> del_pass ht call from None weak = del_pass ht call from (Some to) weak.
Proof.
  induction ht as [|s t IH]; intros U; cbn [del_pass]; auto. rewrite IH by (intros x X; apply U; right; exact X).
  assert (M : del_match from None s = del_match from (Some to) s).
  { unfold del_match. cbn zeta. rewrite (U s) by (left; auto). reflexivity. }
  rewrite M. auto.
Qed.
Lemma pass_tags call from to weak ht : forall ht' n d, del_pass ht call from to weak = (ht', n, d) -> forall x, In x ht' -> exists s, In s ht /\ s_tag x = s_tag s /\ s_call x = s_call s /\ s_uid x = s_uid s.
Proof.
  induction ht as [|s t IH]; intros ht' n d; cbn [del_pass]; [intros E x X; injection E as <- <- <-; destruct X|].
  assert (K : forall t' n' d' y, del_pass t call from to weak = (t', n', d') -> (s_tag y = s_tag s /\ s_call y = s_call s /\ s_uid y = s_uid s) -> forall x, In x (y :: t') -> exists s0, In s0 (s :: t) /\ s_tag x = s_tag s0 /\ s_call x = s_call s0 /\ s_uid x = s_uid s0).
  { intros t' n' d' y E Y x [<-|X]; [exists s; split; [left; auto|auto]|]. destruct (IH _ _ _ E _ X) as (z & Z1 & Z2). exists z. split; [right; auto|auto]. }
  destruct (beq (s_call s) call).
  - destruct (del_match from to s) as [[idx c]|].
    + destruct (held (clear_flag s weak idx)).
      * destruct (del_pass t call from to weak) as [[t' n'] d'] eqn:E. intros Q x X. injection Q as <- <- <-. eapply K; [reflexivity| |exact X]. destruct (clear_tag s weak idx) as (A & B & C). auto.
      * intros Q x X. injection Q as <- <- <-. exists x. split; [right; auto|auto].
    + destruct (del_pass t call from to weak) as [[t' n'] d'] eqn:E. intros Q x X. injection Q as <- <- <-. eapply K; [reflexivity| |exact X]. auto.
  - destruct (del_pass t call from to weak) as [[t' n'] d'] eqn:E. intros Q x X. injection Q as <- <- <-. eapply K; [reflexivity| |exact X]. auto.
Qed.
Lemma delete_none call from to weak fuel : forall tb nd, unmatched (t_ht tb) to -> do_delete fuel tb call from None weak nd = do_delete fuel tb call from (Some to) weak nd.
Proof.
  induction fuel as [|fuel IH]; intros tb nd U; cbn [do_delete]; auto. rewrite (pass_none call from to weak (t_ht tb) U).
  destruct (del_pass (t_ht tb) call from (Some to) weak) as [[ht' n] [[s c]|]] eqn:E; auto. destruct (c =? 2); auto. apply IH. cbn [t_ht].
  intros x X. destruct (pass_tags _ _ _ _ _ _ _ _ E x X) as (z & Z1 & Z2 & _). rewrite Z2. apply U. auto.
Qed.
Lemma some_unmatched ht : exists to, unmatched ht to.
Proof.
  exists (repeat 0 (S (list_max (map (fun s => length (s_tag s)) ht)))). intros s X. unfold compare_session_tags. rewrite repeat_length.
  assert (L : (length (s_tag s) <= list_max (map (fun s => length (s_tag s)) ht))%nat).
  { pose proof (proj1 (list_max_le (map (fun s => length (s_tag s)) ht) _) (Nat.le_refl _)) as F. rewrite Forall_forall in F. apply F. apply in_map_iff. exists s. auto. }
  destruct (Nat.ltb_spec (length (s_tag s)) (S (list_max (map (fun s => length (s_tag s)) ht)))); [auto|lia].
Qed.

(** * Commands on an existing session *)
Section ul.
  Context (c_shared : bool) (c_setup c_max c_tos : Z) (v4 : Z -> bool).
  Notation ul_one := (ul_one v4).
  Lemma ul_sess_existing tb up o l s i :
    ul_existing tb up o l s i = (mkTab (put (t_ht tb) (fst (ul_sess up o l s i))) (t_wrt tb) (t_next tb), snd (ul_sess up o l s i)).
  Proof.
    unfold ul_existing, ul_sess, listens. cbn zeta. destruct (negb (st_skt (stream s i)) || (st_port (stream s i) =? 0) || o_new o); auto. destruct l; auto.
  Qed.
  Lemma ul_one_tb y up u l s i : let '(y', s', rep) := ul_one y up u l s i in
    (y_tb y', rep) = ul_existing (y_tb y) up (u_o u) l s i /\ s' = fst (ul_sess up (u_o u) l s i) /\ rep = snd (ul_sess up (u_o u) l s i).
  Proof.
    unfold ChainModel.ul_one. rewrite ul_sess_existing. destruct (ul_sess up (u_o u) l s i) as [s' rep]. destruct rep; auto.
  Qed.
  Lemma ul_sess_same up o l s i : let s' := fst (ul_sess up o l s i) in s_uid s' = s_uid s /\ s_call s' = s_call s /\ s_tag s' = s_tag s.
  Proof.
    unfold ul_sess. cbn zeta. destruct (listens o s i); [destruct l|]; cbn [fst]; unfold set_stream; destruct (i =? 0); auto.
  Qed.
  Lemma put_absent ht s : ~ In (s_uid s) (map s_uid ht) -> put ht s = ht.
  Proof.
    intros N. unfold put. induction ht as [|x t IH]; auto. cbn [map In] in *. destruct (Z.eqb_spec (s_uid x) (s_uid s)); [exfalso; apply N; left; auto|]. rewrite IH; auto.
  Qed.
End ul.

(** * The table: sub-commands do what plain commands do *)
Definition UT (ht : list sess) : Prop := forall s s', In s ht -> In s' ht -> s_call s = s_call s' -> s_tag s = s_tag s' -> s_uid s = s_uid s'.
Definition KOK (tb : table) (k : cursor) : Prop :=
  (In (k_s k) (t_ht tb) \/ ~ In (s_uid (k_s k)) (map s_uid (t_ht tb))) /\ (k_in k = 0 \/ k_in k = 1) /\ s_uid (k_s k) < t_next tb.
Definition GOOD (tb : table) : Prop := TInv tb /\ UT (t_ht tb).

Lemma uid_inj tb s s' : TInv tb -> In s (t_ht tb) -> In s' (t_ht tb) -> s_uid s = s_uid s' -> s = s'.
Proof.
  intros T. pose proof (v_nd _ T) as N. revert N. induction (t_ht tb) as [|x t IH]; intros N X Y E; [destruct X|]. cbn [map] in N. inversion N; subst.
  destruct X as [<-|X], Y as [<-|Y]; auto.
  - exfalso. apply H1. rewrite E. apply in_map. auto.
  - exfalso. apply H1. rewrite <- E. apply in_map. auto.
Qed.
Lemma flow_good nw tb tb' : GOOD tb -> TInv tb' -> t_next tb' = t_next tb -> flow nw (t_next tb) (t_ht tb) (t_ht tb') -> GOOD tb'.
Proof.
  intros (T & U) T' N F. split; auto. intros s s' X Y C G.
  destruct (flow_in _ _ _ _ _ F X) as [E|(a & A & (A1 & A2 & A3 & _))]; [pose proof (v_lt _ T' _ X); lia|].
  destruct (flow_in _ _ _ _ _ F Y) as [E|(b & B & (B1 & B2 & B3 & _))]; [pose proof (v_lt _ T' _ Y); lia|].
  rewrite A1, B1. apply U; congruence.
Qed.
Lemma find_self ht s j : NoDup (map s_uid ht) -> UT ht -> In s ht -> j = 0 \/ j = 1 -> exists from to, find_stream ht (s_call s) from to = Some (s, j).
Proof.
  intros N U X J. destruct (in_split _ _ X) as (l1 & l2 & E).
  assert (D : forall s', In s' l1 -> s_call s' = s_call s -> s_tag s' <> s_tag s).
  { intros s' Y C G. assert (Q : s_uid s' = s_uid s) by (apply U; auto; rewrite E; apply in_app_iff; auto).
    rewrite E, map_app in N. cbn [map] in N. apply NoDup_remove_2 in N. apply N. rewrite <- Q. apply in_app_iff. left. apply in_map. auto. }
  destruct J as [-> | ->].
  - exists (s_tag s), None. apply find_some. exists l1, l2. split; [exact E|]. split; [reflexivity|]. split; [left; auto|].
    intros s' k Y C [(-> & G)|(_ & _ & t & T & _)]; [|discriminate]. apply (D s'); auto.
  - set (f := repeat 0 (S (list_max (map (fun s => length (s_tag s)) ht)))).
    assert (L : forall s', In s' ht -> s_tag s' <> f).
    { intros s' Y G. assert (Q : (length (s_tag s') <= list_max (map (fun s => length (s_tag s)) ht))%nat).
      { pose proof (proj1 (list_max_le (map (fun s => length (s_tag s)) ht) _) (Nat.le_refl _)) as F. rewrite Forall_forall in F. apply F. apply in_map_iff. exists s'. auto. }
      rewrite G in Q. unfold f in Q. rewrite repeat_length in Q. lia. }
    assert (NS : ~ In 59 f) by (intros Q; apply repeat_spec in Q; discriminate).
    exists f, (Some (s_tag s)). apply find_some. exists l1, l2. split; [exact E|]. split; [reflexivity|]. split.
    + right. split; [auto|]. split; [apply L; auto|]. exists (s_tag s). auto.
    + intros s' k Y C [(-> & G)|(-> & _ & t & T & G)].
      * apply (L s'); auto. rewrite E. apply in_app_iff. auto.
      * injection T as <-. destruct G as [G|(_ & p & _ & (q & G & _))]; [apply (D s'); auto|]. apply NS. rewrite G. apply in_app_iff. right. left. auto.
Qed.

Section plain.
  Context (v4 : Z -> bool).
  Notation run_sub := (run_sub v4).
  Notation run_subs := (run_subs v4).
  Notation ul_one := (ul_one v4).

  Definition plainly (tb tb' : table) : Prop := exists es tr, SessModel.run tb es = Some (tb', tr).
  Lemma plain_refl tb : plainly tb tb.
  Proof. exists [], []. reflexivity. Qed.
  Lemma plain_one tb tb' c l r rep : SessModel.step tb c l r = Some (tb', rep) -> plainly tb tb'.
  Proof. intros E. exists [(c, l, r)], [((c, l, r), rep)]. cbn [SessModel.run]. rewrite E. reflexivity. Qed.
  Lemma plain_trans a b c : plainly a b -> plainly b c -> plainly a c.
  Proof. intros (e1 & t1 & R1) (e2 & t2 & R2). exists (e1 ++ e2), (t1 ++ t2). rewrite run_app, R1, R2. reflexivity. Qed.

  (** A command on a session of the table *)
  Lemma ul_plain y up u l s i : GOOD (y_tb y) -> In s (t_ht (y_tb y)) -> i = 0 \/ i = 1 ->
    let '(y', s', rep) := ul_one y up u l s i in
    GOOD (y_tb y') /\ t_next (y_tb y') = t_next (y_tb y) /\ In s' (t_ht (y_tb y')) /\ s_uid s' = s_uid s /\ s_call s' = s_call s /\ s_tag s' = s_tag s /\
    (y_tb y', rep) = ul_existing (y_tb y) up (u_o u) l s i.
  Proof.
    intros G X J. pose proof (ul_one_tb v4 y up u l s i) as O. destruct (ul_one y up u l s i) as [[y' s'] rep]. destruct O as (O1 & O2 & O3).
    destruct (in_split _ _ X) as (l1 & l2 & E). pose proof (ul_flow_at (y_tb y) up (u_o u) l s i l1 l2 (t_next (y_tb y)) (proj1 G) E J) as (F & T').
    pose proof (ul_sess_same up (u_o u) l s i) as (U1 & U2 & U3). rewrite <- O1 in F, T'. cbn [fst] in F, T'.
    pose proof (ul_sess_existing (y_tb y) up (u_o u) l s i) as Q. rewrite <- O1 in Q. injection Q as Q _. rewrite <- O2 in *.
    split; [eapply flow_good; [exact G|exact T'| |exact F]; rewrite Q; auto|]. split; [rewrite Q; auto|]. split; [|auto].
    rewrite Q. cbn [t_ht]. rewrite E, put_split; [apply in_app_iff; right; left; auto|rewrite <- E; apply (v_nd _ (proj1 G))|exact U1].
  Qed.
  Lemma refetch_in ht s weak : (In (refetch ht s weak) ht \/ ~ In (s_uid s) (map s_uid ht)) /\ s_uid (refetch ht s weak) = s_uid s.
  Proof.
    unfold refetch. destruct (find (fun x => s_uid x =? s_uid s) ht) as [x|] eqn:F.
    - apply List.find_some in F as (F & E). split; auto. lia.
    - split; [|apply clear_tag]. right. intros X. apply in_map_iff in X as (x & E & X). pose proof (List.find_none _ _ F x X). cbn in H. lia.
  Qed.
  Lemma sub_plain y k b : GOOD (y_tb y) -> KOK (y_tb y) k -> exists y' k' r d, run_sub y k b = Some (y', k', r, d) /\
    GOOD (y_tb y') /\ t_next (y_tb y') = t_next (y_tb y) /\ KOK (y_tb y') k' /\ s_uid (k_s k') = s_uid (k_s k) /\ plainly (y_tb y) (y_tb y').
  Proof.
    intros G (K1 & K2 & K3). destruct b as [u l|weak|rev v|rev v f0 f1|r]; cbn [ChainModel.run_sub].
    - destruct K1 as [K1|K1].
      + pose proof (ul_plain y false u l (k_s k) (k_in k) G K1 K2) as U. destruct (ul_one y false u l (k_s k) (k_in k)) as [[y' s'] rep]. destruct U as (U1 & U2 & U3 & U4 & U5 & U6 & U7).
        assert (P : plainly (y_tb y) (y_tb y')).
        { destruct (find_self (t_ht (y_tb y)) (k_s k) (1 - k_in k) (v_nd _ (proj1 G)) (proj2 G) K1) as (from & to & F); [lia|].
          eapply (plain_one _ _ (Lookup (s_call (k_s k)) from to (u_o u)) l false rep). cbn [SessModel.step]. rewrite F. replace (1 - (1 - k_in k)) with (k_in k) by lia. congruence. }
        assert (KK : forall j, j = 0 \/ j = 1 -> KOK (y_tb y') (mkCur s' j)) by (intros j J; split; [left; exact U3|split; [exact J|cbn [k_s]; rewrite U4, U2; exact K3]]).
        destruct rep; eexists _, _, _, _; (split; [reflexivity|]); cbn [k_s]; (split; [exact U1|]; split; [exact U2|]; split; [apply KK; lia|auto]).
      + pose proof (ul_one_tb v4 y false u l (k_s k) (k_in k)) as O. destruct (ul_one y false u l (k_s k) (k_in k)) as [[y' s'] rep]. destruct O as (O1 & O2 & O3).
        pose proof (ul_sess_same false (u_o u) l (k_s k) (k_in k)) as (V1 & V2 & V3). rewrite <- O2 in V1, V2, V3.
        assert (E : y_tb y' = y_tb y). { rewrite ul_sess_existing, <- O2 in O1. injection O1 as -> _. rewrite put_absent by (rewrite V1; auto). destruct (y_tb y); auto. }
        assert (KK : forall j, j = 0 \/ j = 1 -> KOK (y_tb y') (mkCur s' j)) by (intros j J; split; [right; cbn [k_s]; rewrite V1, E; exact K1|split; [exact J|cbn [k_s]; rewrite V1, E; exact K3]]).
        destruct rep; eexists _, _, _, _; (split; [reflexivity|]); cbn [k_s]; (split; [rewrite E; auto|]; split; [rewrite E; auto|]; split; [apply KK; lia|split; [auto|rewrite E; apply plain_refl]]).
    - destruct (some_unmatched (t_ht (y_tb y))) as (to & UM). rewrite (delete_none _ _ to weak _ _ 0 UM).
      destruct (step_ok (y_tb y) (Delete (s_call (k_s k)) (s_tag (k_s k)) to weak) None false (proj1 G)) as (tb' & rep & E & T' & F & _).
      pose proof E as E0. cbn [SessModel.step] in E.
      pose proof (do_delete_run (y_tb y) (s_call (k_s k)) (s_tag (k_s k)) to weak (proj1 G)) as (l & r & E2 & Sw). rewrite E2 in *. injection E as <- <-.
      eexists _, _, _, _. split; [reflexivity|]. cbn [y_tb t_ht t_next]. split; [eapply flow_good; [exact G|exact T'|reflexivity|exact F]|]. split; [reflexivity|].
      destruct (refetch_in l (k_s k) weak) as (R1 & R2). split; [split; [cbn [k_s t_ht]; rewrite R2; exact R1|split; [exact K2|cbn [k_s]; rewrite R2; exact K3]]|]. split; [exact R2|].
      eapply plain_one. exact E0.
    - eexists _, _, _, _. split; [reflexivity|]. cbn [y_tb]. split; [exact G|]; split; [reflexivity|]; split; [exact (conj K1 (conj K2 K3))|]; split; [reflexivity|apply plain_refl].
    - destruct (set_tos v4 (k_s k) (y_ext y (s_uid (k_s k))) (if rev then 1 - k_in k else k_in k) v f0 f1) as [e r]. eexists _, _, _, _. split; [reflexivity|]. cbn [y_tb]. split; [exact G|]; split; [reflexivity|]; split; [exact (conj K1 (conj K2 K3))|]; split; [reflexivity|apply plain_refl].
    - eexists _, _, _, _. split; [reflexivity|]. cbn [y_tb]. split; [exact G|]; split; [reflexivity|]; split; [exact (conj K1 (conj K2 K3))|]; split; [reflexivity|apply plain_refl].
  Qed.
  Lemma subs_plain bs : forall y k, GOOD (y_tb y) -> KOK (y_tb y) k -> exists y' rs d, run_subs y k bs = Some (y', rs, d) /\
    GOOD (y_tb y') /\ t_next (y_tb y') = t_next (y_tb y) /\ plainly (y_tb y) (y_tb y').
  Proof.
    induction bs as [|b t IH]; intros y k G K; cbn [ChainModel.run_subs].
    - eexists _, _, _. split; [reflexivity|]. auto using plain_refl.
    - destruct (sub_plain y k b G K) as (y1 & k1 & r & d & E & G1 & N1 & K1 & _ & P1). rewrite E. destruct (negb (fst r =? 0)).
      + eexists _, _, _. split; [reflexivity|]. auto.
      + destruct (IH y1 k1 G1 K1) as (y2 & rs & d2 & E2 & G2 & N2 & P2). rewrite E2. eexists _, _, _. split; [reflexivity|]. split; [exact G2|]. split; [lia|]. eapply plain_trans; eassumption.
  Qed.
  Lemma then_plain y rep k bs : GOOD (y_tb y) -> KOK (y_tb y) k -> exists y' a d, then_subs v4 y rep k bs = Some (y', a, d) /\
    GOOD (y_tb y') /\ t_next (y_tb y') = t_next (y_tb y) /\ plainly (y_tb y) (y_tb y').
  Proof. intros G K. unfold then_subs. destruct (subs_plain bs y k G K) as (y' & rs & d & E & A). rewrite E. eexists _, _, _. split; [reflexivity|]. exact A. Qed.

  Lemma find_side ht call from to s i : find_stream ht call from to = Some (s, i) -> In s ht /\ (i = 0 \/ i = 1).
  Proof. intros F. apply SessProof.find_some in F as (l1 & l2 & E & _ & Sd & _). split; [rewrite E; apply in_app_iff; right; left; auto|eapply side_range; exact Sd]. Qed.
  Lemma new_good tb call from to u l r tb' p a : GOOD tb -> find_stream (t_ht tb) call from to = None -> ul_new tb call from u l r = (tb', RPort p a) ->
    GOOD tb' /\ t_next tb' = t_next tb + 1 /\ exists s, t_ht tb' = t_ht tb ++ [s] /\
      s = mkSess (t_next tb) call from (negb (o_weak u)) false (mkStrm p true (o_weak u) (match o_local u with Some a => a | None => o_lia0 u end)) (mkStrm 0 false false (match o_local u with Some a => a | None => o_lia1 u end)).
  Proof.
    intros (T & U) F E. destruct (step_ok tb (Update call from to u) l r T) as (tb2 & rep & S & T' & _). cbn [SessModel.step] in S. rewrite F, E in S. injection S as <- <-.
    unfold ul_new in E. destruct r; [discriminate|]. destruct l as [q|]; [|discriminate]. injection E as <- <- <-. split; [|split; [reflexivity|eexists; split; reflexivity]].
    split; auto. cbn [t_ht]. set (s := mkSess _ _ _ _ _ _ _). intros x z X Z C G. apply in_app_iff in X, Z. pose proof (proj1 (SessProof.find_none _ _ _ _) F) as NF.
    destruct X as [X|[<-|[]]], Z as [Z|[<-|[]]]; auto.
    - exfalso. apply (NF x 0 X C). left. auto.
    - exfalso. apply (NF z 0 Z (eq_sym C)). left. auto.
  Qed.
End plain.
Section plain2.
  Context (c_shared : bool) (c_setup c_max c_tos : Z) (v4 : Z -> bool).
  Notation ul_one := (ul_one v4).
  Notation cstep := (ChainModel.step c_shared c_setup c_max c_tos v4).
  Notation crun := (ChainModel.run c_shared c_setup c_max c_tos v4).
  Lemma step_plain y c : GOOD (y_tb y) -> exists y' a d, cstep y c = Some (y', a, d) /\ GOOD (y_tb y') /\ t_next (y_tb y) <= t_next (y_tb y') /\ plainly (y_tb y) (y_tb y').
  Proof.
    intros G. destruct c as [call from to u l refuse subs|call from to u l subs|call from to ok subs|call from to weak| |uid| |uid d]; cbn [ChainModel.step].
    - destruct (find_stream (t_ht (y_tb y)) call from to) as [[s i]|] eqn:F.
      + destruct (find_side _ _ _ _ _ _ F) as (X & J). pose proof (ul_plain v4 y true u l s i G X J) as U. destruct (ul_one y true u l s i) as [[y' s'] rep]. destruct U as (U1 & U2 & U3 & U4 & U5 & U6 & U7).
        assert (P : plainly (y_tb y) (y_tb y')) by (eapply (plain_one _ _ (Update call from to (u_o u)) l refuse rep); cbn [SessModel.step]; rewrite F; congruence).
        assert (KK : KOK (y_tb y') (mkCur s' (1 - i))) by (split; [left; exact U3|split; [cbn [k_in]; lia|cbn [k_s]; apply (v_lt _ (proj1 U1)); exact U3]]).
        destruct rep; try (eexists _, _, _; split; [reflexivity|]; split; [exact U1|]; split; [lia|exact P]).
        destruct (then_plain v4 y' (RPort port addr) _ subs U1 KK) as (y2 & a & d & E & G2 & N2 & P2). eexists _, _, _. split; [exact E|]. split; [exact G2|]. split; [lia|eapply plain_trans; eassumption].
      + destruct (ul_new (y_tb y) call from (u_o u) l refuse) as [tb' rep] eqn:N.
        assert (P : plainly (y_tb y) tb') by (eapply (plain_one _ _ (Update call from to (u_o u)) l refuse rep); cbn [SessModel.step]; rewrite F; congruence).
        assert (NP : (forall p a, rep <> RPort p a) -> tb' = y_tb y).
        { intros Q. unfold ul_new in N. destruct refuse; [injection N as <- _; auto|]. destruct l; injection N as <- <-; auto. exfalso. eapply Q. reflexivity. }
        destruct rep as [p a| | |]; try (rewrite NP by discriminate; eexists _, _, _; split; [reflexivity|]; cbn [y_tb]; split; [exact G|]; split; [lia|apply plain_refl]).
        destruct (new_good _ _ _ _ _ _ _ _ _ _ G F N) as (G1 & N1 & s & S1 & S2).
        match goal with |- context [then_subs v4 ?y1 ?r ?k subs] => destruct (then_plain v4 y1 r k subs) as (y2 & a2 & d2 & E2 & G2 & N2 & P2) end.
        { exact G1. }
        { split; [left; cbn [k_s y_tb]; rewrite S1; apply in_app_iff; right; left; exact S2|]. split; [right; reflexivity|]. cbn [k_s s_uid y_tb]. lia. }
        eexists _, _, _. split; [exact E2|]. split; [exact G2|]. cbn [y_tb] in *. split; [lia|eapply plain_trans; eassumption].
    - destruct (find_stream (t_ht (y_tb y)) call from to) as [[s i]|] eqn:F.
      + destruct (find_side _ _ _ _ _ _ F) as (X & J). assert (J' : 1 - i = 0 \/ 1 - i = 1) by lia.
        pose proof (ul_plain v4 y false u l s (1 - i) G X J') as U. destruct (ul_one y false u l s (1 - i)) as [[y' s'] rep]. destruct U as (U1 & U2 & U3 & U4 & U5 & U6 & U7).
        assert (P : plainly (y_tb y) (y_tb y')) by (eapply (plain_one _ _ (Lookup call from to (u_o u)) l false rep); cbn [SessModel.step]; rewrite F; congruence).
        assert (KK : KOK (y_tb y') (mkCur s' i)) by (split; [left; exact U3|split; [cbn [k_in]; lia|cbn [k_s]; apply (v_lt _ (proj1 U1)); exact U3]]).
        destruct rep; try (eexists _, _, _; split; [reflexivity|]; split; [exact U1|]; split; [lia|exact P]).
        destruct (then_plain v4 y' (RPort port addr) _ subs U1 KK) as (y2 & a & d & E & G2 & N2 & P2). eexists _, _, _. split; [exact E|]. split; [exact G2|]. split; [lia|eapply plain_trans; eassumption].
      + eexists _, _, _. split; [reflexivity|]. split; [exact G|]. split; [lia|apply plain_refl].
    - destruct (find_stream (t_ht (y_tb y)) call from to) as [[s i]|] eqn:F; [destruct ok|].
      + destruct (find_side _ _ _ _ _ _ F) as (X & J).
        assert (KK : KOK (y_tb y) (mkCur s (1 - i))) by (split; [left; exact X|split; [cbn [k_in]; lia|cbn [k_s]; apply (v_lt _ (proj1 G)); exact X]]).
        destruct (then_plain v4 y ROk _ subs G KK) as (y2 & a & d & E & G2 & N2 & P2). eexists _, _, _. split; [exact E|]. split; [exact G2|]. split; [lia|exact P2].
      + eexists _, _, _. split; [reflexivity|]. split; [exact G|]. split; [lia|apply plain_refl].
      + eexists _, _, _. split; [reflexivity|]. split; [exact G|]. split; [lia|apply plain_refl].
    - destruct (step_ok (y_tb y) (Delete call from to weak) None false (proj1 G)) as (tb' & rep & E & T' & F & _). pose proof E as E0. cbn [SessModel.step] in E.
      destruct (do_delete_run (y_tb y) call from to weak (proj1 G)) as (l & r & E2 & Sw). rewrite E2 in *. injection E as <- <-.
      eexists _, _, _. split; [reflexivity|]. cbn [y_tb]. split; [eapply flow_good; [exact G|exact T'|reflexivity|exact F]|]. split; [cbn [t_next y_tb]; lia|eapply plain_one; exact E0].
    - eexists _, _, _. split; [reflexivity|]. cbn [y_tb]. destruct (step_ok (y_tb y) DeleteAll None false (proj1 G)) as (tb' & rep & E & T' & F & _). pose proof E as E0. cbn [SessModel.step] in E. injection E as <- <-.
      split; [eapply flow_good; [exact G|exact T'|reflexivity|exact F]|]. split; [cbn [t_next y_tb]; lia|eapply plain_one; exact E0].
    - eexists _, _, _. split; [reflexivity|]. cbn [y_tb]. destruct (step_ok (y_tb y) (Timeout uid) None false (proj1 G)) as (tb' & rep & E & T' & F & _). pose proof E as E0. cbn [SessModel.step] in E. injection E as <- <-.
      split; [eapply flow_good; [exact G|exact T'|reflexivity|exact F]|]. split; [cbn [t_next y_tb]; lia|eapply plain_one; exact E0].
    - eexists _, _, _. split; [reflexivity|]. split; [exact G|]. split; [cbn [t_next y_tb]; lia|apply plain_refl].
    - eexists _, _, _. split; [reflexivity|]. split; [exact G|]. split; [cbn [t_next y_tb]; lia|apply plain_refl].
  Qed.
  Lemma run_plain cs : forall y, GOOD (y_tb y) -> exists y' l d, crun y cs = Some (y', l, d) /\ GOOD (y_tb y') /\ plainly (y_tb y) (y_tb y').
  Proof.
    induction cs as [|c t IH]; intros y G; cbn [ChainModel.run].
    - eexists _, _, _. split; [reflexivity|]. split; [exact G|apply plain_refl].
    - destruct (step_plain y c G) as (y1 & a & d & E & G1 & _ & P1). rewrite E. destruct (IH y1 G1) as (y2 & l & d2 & E2 & G2 & P2). rewrite E2. eexists _, _, _. split; [reflexivity|]. split; [exact G2|eapply plain_trans; eassumption].
  Qed.
  Lemma good0 : GOOD table0.
  Proof. split; [apply inv_table0|intros s s' []]. Qed.
End plain2.

(** * The times to live and the types of service *)
Definition dflt (v : Z) (o : option Z) : Z := match o with Some w => w | None => v end.
Lemma last_ttl_app sh uid d l x : last_ttl sh uid d (l ++ [x]) = ttl_step sh uid d (last_ttl sh uid d l) x.
Proof. unfold last_ttl. rewrite fold_left_app. reflexivity. Qed.
Lemma last_tos_app t uid d l x : last_tos t uid d (l ++ [x]) = tos_step uid d (last_tos t uid d l) x.
Proof. unfold last_tos. rewrite fold_left_app. reflexivity. Qed.
Lemma fine_app uid d l x : tos_fine uid d (l ++ [x]) -> tos_fine uid d l.
Proof. intros F v r X. apply F. apply in_app_iff. auto. Qed.
Lemma fine_same uid d l x : tos_fine uid d l -> match x with DTos u e _ _ => u <> uid \/ e <> d | _ => True end -> tos_fine uid d (l ++ [x]).
Proof. intros F N v r X. apply in_app_iff in X as [X|[->|[]]]; [auto|]. destruct N; congruence. Qed.
Definition duid (x : done) : Z := match x with DTtl u _ _ => u | DTos u _ _ _ => u end.
Definition evolved (s s' : sess) : Prop :=
  s_uid s' = s_uid s /\ s_complete s' = s_complete s /\ st_skt (s_st0 s') = st_skt (s_st0 s) /\ st_skt (s_st1 s') = st_skt (s_st1 s).
Lemma swept_in call from to weak l l' r : swept call from to weak l l' r -> forall x, In x l' -> exists s, In s l /\ evolved s x.
Proof.
  assert (R : forall s, evolved s s) by (intros s; repeat split).
  induction 1; intros x X.
  - destruct X.
  - destruct X as [<-|X]; [exists s; split; [left; auto|auto]|]. destruct (IHswept _ X) as (z & Z1 & Z2). exists z. split; [right; auto|auto].
  - destruct H0 as (L1 & L2 & L3 & L4 & (L5 & L5b & _) & (L6 & L6b & _) & _). destruct X as [<-|X]; [exists s; split; [left; auto|repeat split; auto]|]. destruct (IHswept _ X) as (z & Z1 & Z2). exists z. split; [right; auto|auto].
  - destruct (IHswept _ X) as (z & Z1 & Z2). exists z. split; [right; auto|auto].
  - exists x. split; [right; auto|auto].
Qed.

Section times.
  Context (c_shared : bool) (c_setup c_max c_tos : Z) (v4 : Z -> bool).
  Notation run_sub := (run_sub v4).
  Notation run_subs := (run_subs v4).
  Notation ul_one := (ul_one v4).
  Notation ext_ul := (ext_ul v4).
  Notation cstep := (ChainModel.step c_shared c_setup c_max c_tos v4).
  Notation crun := (ChainModel.run c_shared c_setup c_max c_tos v4).

  Record SD (s : sess) (e : ext) (ds : list done) (d : Z) : Prop := {
    d_skt : sx_sock (xside e d) <> None <-> st_skt (stream s d) = true;
    d_sttl : sx_sttl (xside e d) = dflt c_max (last_ttl c_shared (s_uid s) d ds);
    d_max : max_ttl (ttl_of (x_ttl e) d) = dflt (if s_complete s then c_max else c_setup) (last_ttl c_shared (s_uid s) d ds);
    d_tos : 0 <= c_tos -> tos_fine (s_uid s) d ds ->
      0 <= last_tos c_tos (s_uid s) d ds /\ sx_tos (xside e d) = last_tos c_tos (s_uid s) d ds /\
      (forall a b, sx_sock (xside e d) = Some (true, a, b) -> a = last_tos c_tos (s_uid s) d ds /\ b = last_tos c_tos (s_uid s) d ds)
  }.
  Definition SI (s : sess) (e : ext) (ds : list done) : Prop :=
    (match x_ttl e with TtlModel.Shared _ => true | TtlModel.Indep _ _ => false end) = c_shared /\ SD s e ds 0 /\ SD s e ds 1.

  Lemma SI_same s s' e ds : evolved s s' -> SI s e ds -> SI s' e ds.
  Proof.
    intros (E1 & E2 & E3 & E4) (H & A & B). split; [exact H|]. split; [destruct A|destruct B]; constructor; rewrite ?E1, ?E2; auto; cbn [stream] in *; change (stream s' 0) with (s_st0 s'); change (stream s' 1) with (s_st1 s'); rewrite ?E3, ?E4; auto.
  Qed.
  Lemma SI_other s e ds x : duid x <> s_uid s -> SI s e ds -> SI s e (ds ++ [x]).
  Proof.
    intros N (H & A & B). split; [exact H|].
    assert (L : forall d, last_ttl c_shared (s_uid s) d (ds ++ [x]) = last_ttl c_shared (s_uid s) d ds).
    { intros d. rewrite last_ttl_app. destruct x; cbn [ttl_step duid] in *; auto. destruct (Z.eqb_spec uid (s_uid s)); auto. lia. }
    assert (L2 : forall d, last_tos c_tos (s_uid s) d (ds ++ [x]) = last_tos c_tos (s_uid s) d ds).
    { intros d. rewrite last_tos_app. destruct x; cbn [tos_step duid] in *; auto. destruct (Z.eqb_spec uid (s_uid s)); auto. lia. }
    split; [destruct A|destruct B]; constructor; rewrite ?L, ?L2; auto; intros C F; apply fine_app in F; auto.
  Qed.
  Lemma fresh_some la tos : fresh v4 la tos <> None.
  Proof. unfold fresh. destruct (v4 la && (tos >=? 0)); discriminate. Qed.
  Lemma fresh_tos la tos a b : 0 <= tos -> fresh v4 la tos = Some (true, a, b) -> a = tos /\ b = tos.
  Proof.
    unfold fresh. intros T. destruct (v4 la) eqn:V; cbn [andb].
    - destruct (Z.geb_spec tos 0); [|lia]. intros E. injection E as -> ->. auto.
    - discriminate.
  Qed.
  Lemma SI_new uid call from w p la0 la1 sg m ds : (forall x, In x ds -> duid x < uid) ->
    SI (mkSess uid call from sg false (mkStrm p true w la0) (mkStrm 0 false false la1)) (ext_new c_shared c_setup c_max c_tos v4 la0 la1 m) ds.
  Proof.
    intros N.
    assert (L : forall d, last_ttl c_shared uid d ds = None).
    { intros d. revert N. induction ds as [|x t IH] using rev_ind; intros N; auto. rewrite last_ttl_app, IH by (intros y Y; apply N; apply in_app_iff; auto). assert (Nx : duid x < uid) by (apply N; apply in_app_iff; right; left; auto).
      destruct x; cbn [ttl_step duid] in *; auto. destruct (Z.eqb_spec uid0 uid); auto. lia. }
    assert (L2 : forall d, last_tos c_tos uid d ds = c_tos).
    { intros d. revert N. clear L. induction ds as [|x t IH] using rev_ind; intros N; auto. rewrite last_tos_app, IH by (intros y Y; apply N; apply in_app_iff; auto). assert (Nx : duid x < uid) by (apply N; apply in_app_iff; right; left; auto).
      destruct x; cbn [tos_step duid] in *; auto. destruct (Z.eqb_spec uid0 uid); auto. lia. }
    unfold ext_new. split; [cbn [x_ttl]; destruct c_shared; auto|].
    split; constructor; cbn [s_uid]; rewrite ?L, ?L2; cbn [xside Z.eqb x_0 x_1 sx_sock sx_sttl sx_tos stream s_st0 s_st1 st_skt x_ttl s_complete dflt]; auto.
    - split; auto. intros _. apply fresh_some.
    - destruct c_shared; reflexivity.
    - intros C _. split; auto. split; auto. intros a b. apply fresh_tos. auto.
    - split; [congruence|discriminate].
    - destruct c_shared; reflexivity.
    - intros C _. split; auto. split; auto. discriminate.
  Qed.
  (** Which stream *)
  Lemma xside_xset e i j x : (i = 0 \/ i = 1) -> (j = 0 \/ j = 1) -> xside (xset e i x) j = if j =? i then x else xside e j.
  Proof. intros [-> | ->] [-> | ->]; reflexivity. Qed.
  Lemma x_ttl_xset e i x : x_ttl (xset e i x) = x_ttl e.
  Proof. unfold xset. destruct (i =? 0); auto. Qed.
  Lemma xside_with e t j : xside (with_ttl e t) j = xside e j.
  Proof. reflexivity. Qed.
  Lemma stream_set s i x sg c j : (i = 0 \/ i = 1) -> (j = 0 \/ j = 1) -> stream (set_stream s i x sg c) j = if j =? i then x else stream s j.
  Proof. intros [-> | ->] [-> | ->]; reflexivity. Qed.
  Lemma set_uid s i x sg c : s_uid (set_stream s i x sg c) = s_uid s /\ s_complete (set_stream s i x sg c) = c.
  Proof. unfold set_stream. destruct (i =? 0); auto. Qed.

  (** What a command leaves in the session *)
  Lemma ul_sess_skt up o l s i s' rep j : (i = 0 \/ i = 1) -> (j = 0 \/ j = 1) -> ul_sess up o l s i = (s', rep) ->
    match rep with
    | RPort _ _ => st_skt (stream s' j) = (if (j =? i) && listens o s i then true else st_skt (stream s j)) /\ s_complete s' = (listens o s i || s_complete s) /\ s_uid s' = s_uid s
    | _ => st_skt (stream s' j) = st_skt (stream s j) /\ s_complete s' = s_complete s /\ s_uid s' = s_uid s
    end.
  Proof.
    intros I J. unfold ul_sess. cbn zeta. destruct (listens o s i) eqn:L; [destruct l as [p|]|]; intros E; injection E as <- <-.
    - rewrite stream_set by auto. destruct (set_uid s i (if o_weak o then set_weak (mkStrm p true (st_weak (stream s i)) (match o_local o with Some a => a | None => if o_new o && o_nolidx o then o_lia0 o else st_laddr (stream s i) end)) true else mkStrm p true (st_weak (stream s i)) (match o_local o with Some a => a | None => if o_new o && o_nolidx o then o_lia0 o else st_laddr (stream s i) end)) (if negb (o_weak o) && up then true else s_strong s) true) as (-> & ->).
      destruct (j =? i); cbn [andb orb]; auto. destruct (o_weak o); auto.
    - rewrite stream_set by auto. destruct (set_uid s i (mkStrm (st_port (stream s i)) (st_skt (stream s i)) (st_weak (stream s i)) (match o_local o with Some a => a | None => if o_new o && o_nolidx o then o_lia0 o else st_laddr (stream s i) end)) (s_strong s) (s_complete s)) as (-> & ->).
      destruct (Z.eqb_spec j i) as [-> |]; auto.
    - rewrite stream_set by auto. destruct (set_uid s i (if o_weak o then set_weak (stream s i) true else stream s i) (if negb (o_weak o) && up then true else s_strong s) (s_complete s)) as (-> & ->).
      destruct (Z.eqb_spec j i) as [-> |]; cbn [andb orb]; auto. destruct (o_weak o); auto.
  Qed.

  Lemma reset_both_max p d : max_ttl (ttl_of (TtlModel.pipe_reset (TtlModel.pipe_reset p TtlModel.SideO) TtlModel.SideA) d) = max_ttl (ttl_of p d) /\
    cur_ttl (ttl_of (TtlModel.pipe_reset (TtlModel.pipe_reset p TtlModel.SideO) TtlModel.SideA) d) = max_ttl (ttl_of p d).
  Proof. destruct p; cbn [TtlModel.pipe_reset ttl_of]; auto. destruct (d =? 0); auto. Qed.
  Definition shaped (p : TtlModel.pipe_ttl) : bool := match p with TtlModel.Shared _ => true | TtlModel.Indep _ _ => false end.
  Lemma shaped_reset p d : shaped (TtlModel.pipe_reset p d) = shaped p.
  Proof. destruct p, d; reflexivity. Qed.
  Lemma shaped_with p d m : shaped (TtlModel.pipe_reset_with p d m) = shaped p.
  Proof. destruct p, d; reflexivity. Qed.
  Lemma shaped_decr p : shaped (TtlModel.pipe_decr_ttl p) = shaped p.
  Proof. destruct p; reflexivity. Qed.
  Lemma decr_max p d : max_ttl (ttl_of (TtlModel.pipe_decr_ttl p) d) = max_ttl (ttl_of p d).
  Proof. destruct p; cbn [TtlModel.pipe_decr_ttl ttl_of]; auto. destruct (d =? 0); auto. Qed.
  Lemma reset_max p sd d : max_ttl (ttl_of (TtlModel.pipe_reset p sd) d) = max_ttl (ttl_of p d).
  Proof. destruct p, sd; cbn [TtlModel.pipe_reset ttl_of]; auto; destruct (d =? 0); auto. Qed.

  (** The parts of ext_ul *)
  Lemma ext_ul_side e s i la lst m j : (i = 0 \/ i = 1) -> (j = 0 \/ j = 1) ->
    let x := xside (ext_ul e s i la lst m) j in
    sx_sttl x = sx_sttl (xside e j) /\ sx_tos x = sx_tos (xside e j) /\ sx_sock x = (if (j =? i) && lst then fresh v4 la (sx_tos (xside e j)) else sx_sock (xside e j)) /\
    sx_media x = (if j =? 1 - i then m else sx_media (xside e j)).
  Proof.
    intros I J. unfold ChainModel.ext_ul. cbn zeta. destruct I as [-> | ->], J as [-> | ->], lst, (s_complete s); cbn; auto.
  Qed.
  Lemma ext_ul_ttl e s i la lst m : (i = 0 \/ i = 1) ->
    x_ttl (ext_ul e s i la lst m) = TtlModel.pipe_reset (TtlModel.pipe_reset (if lst && negb (s_complete s)
      then TtlModel.pipe_reset_with (TtlModel.pipe_reset_with (x_ttl e) TtlModel.SideO (sx_sttl (xside e 0))) TtlModel.SideA (sx_sttl (xside e 1)) else x_ttl e) TtlModel.SideO) TtlModel.SideA.
  Proof. intros I. unfold ChainModel.ext_ul. cbn zeta. destruct I as [-> | ->], lst, (s_complete s); cbn; auto. Qed.
  Lemma last_shared uid ds : last_ttl true uid 0 ds = last_ttl true uid 1 ds.
  Proof. reflexivity. Qed.

  Lemma SI_ul up o l s i s' p a e ds m : (i = 0 \/ i = 1) -> ul_sess up o l s i = (s', RPort p a) -> SI s e ds ->
    SI s' (ext_ul e s i (st_laddr (stream s' i)) (listens o s i) m) ds.
  Proof.
    intros I U (H & A & B). set (la := st_laddr (stream s' i)). split.
    - rewrite ext_ul_ttl by auto. fold shaped. change (shaped (TtlModel.pipe_reset (TtlModel.pipe_reset (if listens o s i && negb (s_complete s) then TtlModel.pipe_reset_with (TtlModel.pipe_reset_with (x_ttl e) TtlModel.SideO (sx_sttl (xside e 0))) TtlModel.SideA (sx_sttl (xside e 1)) else x_ttl e) TtlModel.SideO) TtlModel.SideA) = c_shared).
      rewrite !shaped_reset. destruct (listens o s i && negb (s_complete s)); rewrite ?shaped_with; exact H.
    - assert (K : forall j, j = 0 \/ j = 1 -> SD s e ds j -> SD s' (ext_ul e s i la (listens o s i) m) ds j).
      { intros j J D. pose proof (ul_sess_skt up o l s i s' _ j I J U) as (K1 & K2 & K3). destruct (ext_ul_side e s i la (listens o s i) m j I J) as (X1 & X2 & X3 & X4).
        destruct D as [D1 D2 D3 D4]. constructor.
        - rewrite X3, K1. destruct ((j =? i) && listens o s i); auto. split; auto. intros _. apply fresh_some.
        - rewrite X1, K3. exact D2.
        - rewrite ext_ul_ttl by auto. destruct (reset_both_max (if listens o s i && negb (s_complete s) then TtlModel.pipe_reset_with (TtlModel.pipe_reset_with (x_ttl e) TtlModel.SideO (sx_sttl (xside e 0))) TtlModel.SideA (sx_sttl (xside e 1)) else x_ttl e) j) as (-> & _).
          rewrite K2, K3. destruct (listens o s i); cbn [andb orb]; [|exact D3]. destruct (s_complete s); cbn [negb]; [exact D3|].
          pose proof (d_sttl _ _ _ _ A) as A2. pose proof (d_sttl _ _ _ _ B) as B2.
          destruct (x_ttl e); cbn in H; cbn [TtlModel.pipe_reset_with ttl_of max_ttl ttl_reset_with].
          + rewrite B2. rewrite <- H. destruct J as [-> | ->]; rewrite ?last_shared; auto.
          + destruct J as [-> | ->]; cbn [Z.eqb ttl_of max_ttl ttl_reset_with]; [exact A2|exact B2].
        - rewrite K3. intros C F. destruct (D4 C F) as (E1 & E2 & E3). split; [exact E1|]. split; [congruence|]. intros x y. rewrite X3. destruct ((j =? i) && listens o s i).
          + rewrite E2. apply fresh_tos. auto.
          + apply E3. }
      split; apply K; auto.
  Qed.
  Lemma SI_fail up o l s i s' rep e ds : (i = 0 \/ i = 1) -> ul_sess up o l s i = (s', rep) -> (forall p a, rep <> RPort p a) -> SI s e ds -> SI s' e ds.
  Proof.
    intros I U N H. apply (SI_same s); auto.
    pose proof (ul_sess_skt up o l s i s' rep 0 I (or_introl eq_refl) U) as A. pose proof (ul_sess_skt up o l s i s' rep 1 I (or_intror eq_refl) U) as B.
    destruct rep; try (exfalso; eapply N; reflexivity); destruct A as (A1 & A2 & A3), B as (B1 & _ & _); repeat split; auto.
  Qed.
  Lemma SI_ttl s e ds d v : (d = 0 \/ d = 1) -> SI s e ds -> SI s (set_ttl e d v) (ds ++ [DTtl (s_uid s) d v]).
  Proof.
    intros I (H & A & B).
    assert (X : forall j, j = 0 \/ j = 1 -> sx_sttl (xside (set_ttl e d v) j) = (if c_shared || (d =? j) then v else sx_sttl (xside e j)) /\ sx_tos (xside (set_ttl e d v) j) = sx_tos (xside e j) /\ sx_sock (xside (set_ttl e d v) j) = sx_sock (xside e j) /\
      max_ttl (ttl_of (x_ttl (set_ttl e d v)) j) = (if c_shared || (d =? j) then v else max_ttl (ttl_of (x_ttl e) j))).
    { intros j J. unfold set_ttl. cbn zeta. rewrite <- H. destruct (x_ttl e) eqn:T, I as [-> | ->], J as [-> | ->]; cbn; rewrite ?T; cbn; auto. }
    split; [unfold set_ttl; cbn zeta; cbn [x_ttl with_ttl]; fold shaped|].
    - change (shaped (TtlModel.pipe_reset_with (x_ttl (match x_ttl e with TtlModel.Shared _ => xset (xset e d (with_sttl (xside e d) v)) (1 - d) (with_sttl (xside (xset e d (with_sttl (xside e d) v)) (1 - d)) v) | TtlModel.Indep _ _ => xset e d (with_sttl (xside e d) v) end)) (tside d) v) = c_shared).
      rewrite shaped_with. destruct (x_ttl e) eqn:T; rewrite ?x_ttl_xset, T; exact H.
    - assert (K : forall j, j = 0 \/ j = 1 -> SD s e ds j -> SD s (set_ttl e d v) (ds ++ [DTtl (s_uid s) d v]) j).
      { intros j J [D1 D2 D3 D4]. destruct (X j J) as (X1 & X2 & X3 & X4). constructor.
        - rewrite X3. exact D1.
        - rewrite X1, last_ttl_app. cbn [ttl_step]. rewrite Z.eqb_refl. cbn [andb]. destruct (c_shared || (d =? j)); auto.
        - rewrite X4, last_ttl_app. cbn [ttl_step]. rewrite Z.eqb_refl. cbn [andb]. destruct (c_shared || (d =? j)); auto.
        - rewrite last_tos_app. cbn [tos_step]. intros C F. apply fine_app in F. rewrite X2, X3. auto. }
      split; apply K; auto.
  Qed.
  Lemma SI_tos s e ds d v f0 f1 e' r : (d = 0 \/ d = 1) -> SI s e ds -> set_tos v4 s e d v f0 f1 = (e', r) -> SI s e' (ds ++ [DTos (s_uid s) d v r]).
  Proof.
    intros I (H & A & B) E.
    assert (X : x_ttl e' = x_ttl e /\ forall j, j = 0 \/ j = 1 -> sx_sttl (xside e' j) = sx_sttl (xside e j) /\ (sx_sock (xside e' j) <> None <-> sx_sock (xside e j) <> None) /\
      (j <> d -> xside e' j = xside e j)).
    { unfold set_tos in E. cbn zeta in E. destruct (negb (v4 (st_laddr (stream s d))) || ((match sx_sock (xside e d) with Some _ => true | None => false end) && f0)).
      { injection E as <- _. split; auto. intros j J. split; [auto|]. split; [reflexivity|auto]. }
      destruct (negb (v4 (sx_claddr (xside e d))) || ((match sx_sock (xside e d) with Some _ => true | None => false end) && f1)); injection E as <- _; split; try apply x_ttl_xset; intros j J; rewrite xside_xset by auto; destruct (Z.eqb_spec j d) as [-> |].
      - cbn [sx_sttl sx_sock with_tos]. split; [auto|]. split; [destruct (sx_sock (xside e d)) as [[[? ?] ?]|]; split; congruence|congruence].
      - split; [auto|]. split; [reflexivity|auto].
      - cbn [sx_sttl sx_sock with_tos with_ctos]. split; [auto|]. split; [destruct (sx_sock (xside e d)) as [[[? ?] ?]|]; split; congruence|congruence].
      - split; [auto|]. split; [reflexivity|auto]. }
    destruct X as (X0 & X). split; [rewrite X0; exact H|].
    assert (K : forall j, j = 0 \/ j = 1 -> SD s e ds j -> SD s e' (ds ++ [DTos (s_uid s) d v r]) j).
    { intros j J [D1 D2 D3 D4]. destruct (X j J) as (X1 & X2 & X3). constructor.
      - rewrite X2. exact D1.
      - rewrite X1, last_ttl_app. exact D2.
      - rewrite X0, last_ttl_app. exact D3.
      - rewrite last_tos_app. cbn [tos_step]. rewrite Z.eqb_refl. cbn [andb]. intros C F. destruct (D4 C (fine_app _ _ _ _ F)) as (E1 & E2 & E3).
        destruct (Z.eqb_spec d j) as [-> | N]; [|rewrite (X3 ltac:(auto)); auto].
        destruct (F v r) as (F1 & F2); [apply in_app_iff; right; left; auto|]. subst r. split; [lia|].
        unfold set_tos in E. cbn zeta in E. destruct (negb (v4 (st_laddr (stream s j))) || ((match sx_sock (xside e j) with Some _ => true | None => false end) && f0)); [discriminate|].
        destruct (negb (v4 (sx_claddr (xside e j))) || ((match sx_sock (xside e j) with Some _ => true | None => false end) && f1)); [discriminate|]. injection E as <-.
        rewrite xside_xset by auto. rewrite Z.eqb_refl. cbn [sx_tos sx_sock with_tos with_ctos]. split; auto.
        intros a b. destruct (sx_sock (xside e j)) as [[[? ?] ?]|]; [|discriminate]. intros Q. injection Q as -> <- <-. auto. }
    split; apply K; auto.
  Qed.
  Lemma SI_ttl_only s e ds t : shaped t = shaped (x_ttl e) -> (forall d, max_ttl (ttl_of t d) = max_ttl (ttl_of (x_ttl e) d)) -> SI s e ds -> SI s (with_ttl e t) ds.
  Proof.
    intros S1 M (H & A & B). split; [exact (eq_trans S1 H)|]. split; [destruct A as [D1 D2 D3 D4]|destruct B as [D1 D2 D3 D4]]; constructor; auto; cbn [x_ttl with_ttl]; rewrite M; auto.
  Qed.

  Record EI (y : sys) (ds : list done) : Prop := {
    e_lt : forall x, In x ds -> duid x < t_next (y_tb y);
    e_si : forall s, In s (t_ht (y_tb y)) -> SI s (y_ext y (s_uid s)) ds
  }.
  Lemma fset_same f i x : fset f i x i = x.
  Proof. unfold fset. rewrite Z.eqb_refl. auto. Qed.
  Lemma fset_other f i x j : j <> i -> fset f i x j = f j.
  Proof. intros N. unfold fset. destruct (Z.eqb_spec j i); [contradiction|auto]. Qed.
  Lemma put_in ht s' x : In x (put ht s') -> x = s' \/ (In x ht /\ s_uid x <> s_uid s').
  Proof.
    unfold put. induction ht as [|z t IH]; [intros []|]. cbn [map]. intros [E|X].
    - destruct (Z.eqb_spec (s_uid z) (s_uid s')); [left; auto|right]. subst z. split; [left; auto|auto].
    - destruct (IH X) as [|(A & B)]; auto. right. split; [right; auto|auto].
  Qed.
  Lemma EI_ul y up u l s i ds : GOOD (y_tb y) -> (In s (t_ht (y_tb y)) \/ ~ In (s_uid s) (map s_uid (t_ht (y_tb y)))) -> (i = 0 \/ i = 1) -> EI y ds ->
    EI (fst (fst (ul_one y up u l s i))) ds.
  Proof.
    intros G X I [E1 E2]. unfold ChainModel.ul_one. pose proof (ul_sess_same up (u_o u) l s i) as (V1 & _). destruct (ul_sess up (u_o u) l s i) as [s' rep] eqn:U. cbn [fst] in V1.
    assert (K : forall z, In z (put (t_ht (y_tb y)) s') -> (z = s' /\ In s (t_ht (y_tb y))) \/ (In z (t_ht (y_tb y)) /\ s_uid z <> s_uid s)).
    { intros z Z1. destruct X as [X|X].
      - destruct (put_in _ _ _ Z1) as [->|(A & B)]; auto. right. rewrite <- V1. auto.
      - rewrite put_absent in Z1 by (rewrite V1; auto). right. split; auto. intros Q. apply X. rewrite <- Q. apply in_map. auto. }
    destruct rep; cbn [fst]; (constructor; cbn [y_tb y_ext t_next t_ht]; [exact E1|]); intros z Z1; destruct (K z Z1) as [(-> & Xs)|(Z2 & Z3)].
    - rewrite V1, fset_same. eapply SI_ul; eauto.
    - rewrite fset_other by auto. auto.
    - rewrite V1. eapply SI_fail; eauto. discriminate.
    - auto.
    - rewrite V1. eapply SI_fail; eauto. discriminate.
    - auto.
    - rewrite V1. eapply SI_fail; eauto. discriminate.
    - auto.
  Qed.
  Lemma EI_sub y k b ds y' k' r d : GOOD (y_tb y) -> KOK (y_tb y) k -> EI y ds -> run_sub y k b = Some (y', k', r, d) -> EI y' (ds ++ d).
  Proof.
    intros G (K1 & K2 & K3) H E. pose proof (e_lt _ _ H) as H1. pose proof (e_si _ _ H) as H2. destruct b as [u l|weak|rev v|rev v f0 f1|r0]; cbn [ChainModel.run_sub] in E.
    - pose proof (EI_ul y false u l (k_s k) (k_in k) ds G K1 K2 H) as Q. destruct (ul_one y false u l (k_s k) (k_in k)) as [[y1 s1] rep]. cbn [fst] in Q. destruct rep; injection E as <- <- <- <-; rewrite app_nil_r; exact Q.
    - destruct (some_unmatched (t_ht (y_tb y))) as (to & UM). rewrite (delete_none _ _ to weak _ _ 0 UM) in E.
      destruct (do_delete_run (y_tb y) (s_call (k_s k)) (s_tag (k_s k)) to weak (proj1 G)) as (l & r1 & E2 & Sw). rewrite E2 in E. injection E as <- <- <- <-. rewrite app_nil_r.
      constructor; cbn [y_tb y_ext t_next t_ht]; [exact H1|]. intros z Z1. destruct (swept_in _ _ _ _ _ _ _ Sw z Z1) as (s & S1 & S2). rewrite (proj1 S2). eapply SI_same; eauto.
    - set (dd := if rev then 1 - k_in k else k_in k) in *. assert (DD : dd = 0 \/ dd = 1) by (unfold dd; destruct rev; lia). injection E as <- <- <- <-. constructor; cbn [y_tb y_ext].
      + intros x X. apply in_app_iff in X as [X|[<-|[]]]; [auto|cbn [duid]; auto].
      + intros s X. destruct (Z.eq_dec (s_uid s) (s_uid (k_s k))) as [Q|Q].
        * assert (s = k_s k). { destruct K1 as [K1|K1]; [|exfalso; apply K1; rewrite <- Q; apply in_map; auto]. eapply uid_inj; eauto. apply G. } subst s. rewrite fset_same. apply SI_ttl; auto.
        * rewrite fset_other by auto. apply SI_other; [cbn [duid]; congruence|auto].
    - set (dd := if rev then 1 - k_in k else k_in k) in *. assert (DD : dd = 0 \/ dd = 1) by (unfold dd; destruct rev; lia). destruct (set_tos v4 (k_s k) (y_ext y (s_uid (k_s k))) dd v f0 f1) as [e rr] eqn:T. injection E as <- <- <- <-. constructor; cbn [y_tb y_ext].
      + intros x X. apply in_app_iff in X as [X|[<-|[]]]; [auto|cbn [duid]; auto].
      + intros s X. destruct (Z.eq_dec (s_uid s) (s_uid (k_s k))) as [Q|Q].
        * assert (s = k_s k). { destruct K1 as [K1|K1]; [|exfalso; apply K1; rewrite <- Q; apply in_map; auto]. eapply uid_inj; eauto. apply G. } subst s. rewrite fset_same. eapply SI_tos; eauto.
        * rewrite fset_other by auto. apply SI_other; [cbn [duid]; congruence|auto].
    - injection E as <- <- <- <-. rewrite app_nil_r. exact H.
  Qed.
  Lemma EI_subs bs : forall y k ds y' rs d, GOOD (y_tb y) -> KOK (y_tb y) k -> EI y ds -> run_subs y k bs = Some (y', rs, d) -> EI y' (ds ++ d).
  Proof.
    induction bs as [|b t IH]; intros y k ds y' rs d G K H; cbn [ChainModel.run_subs]; intros E.
    - injection E as <- <- <-. rewrite app_nil_r. exact H.
    - destruct (sub_plain v4 y k b G K) as (y1 & k1 & r & d1 & E1 & G1 & N1 & KK & _). rewrite E1 in E. pose proof (EI_sub _ _ _ _ _ _ _ _ G K H E1) as H1.
      destruct (negb (fst r =? 0)); [injection E as <- <- <-; exact H1|]. destruct (run_subs y1 k1 t) as [[[y2 rs2] d2]|] eqn:E2; [|discriminate]. injection E as <- <- <-. rewrite app_assoc. eapply IH; eauto.
  Qed.
  Lemma EI_then y rep k bs ds y' a d : GOOD (y_tb y) -> KOK (y_tb y) k -> EI y ds -> then_subs v4 y rep k bs = Some (y', a, d) -> EI y' (ds ++ d).
  Proof. intros G K H. unfold then_subs. destruct (run_subs y k bs) as [[[y2 rs] d2]|] eqn:E; [|discriminate]. intros Q. injection Q as <- _ <-. eapply EI_subs; eauto. Qed.
  Lemma EI_step y c ds y' a d : GOOD (y_tb y) -> EI y ds -> cstep y c = Some (y', a, d) -> EI y' (ds ++ d).
  Proof.
    intros G H E. pose proof (e_lt _ _ H) as H1. pose proof (e_si _ _ H) as H2. destruct c as [call from to u l refuse subs|call from to u l subs|call from to ok subs|call from to weak| |uid| |uid dd]; cbn [ChainModel.step] in E.
    - destruct (find_stream (t_ht (y_tb y)) call from to) as [[s i]|] eqn:F.
      + destruct (find_side _ _ _ _ _ _ F) as (X & J). pose proof (ul_plain v4 y true u l s i G X J) as U. pose proof (EI_ul y true u l s i ds G (or_introl X) J H) as Q. destruct (ul_one y true u l s i) as [[y1 s1] rep]. cbn [fst] in Q. destruct U as (U1 & U2 & U3 & U4 & U5 & U6 & U7).
        assert (KK : KOK (y_tb y1) (mkCur s1 (1 - i))) by (split; [left; exact U3|split; [cbn [k_in]; lia|cbn [k_s]; apply (v_lt _ (proj1 U1)); exact U3]]).
        destruct rep; try (injection E as <- <- <-; rewrite app_nil_r; exact Q). eapply EI_then; eauto.
      + destruct (ul_new (y_tb y) call from (u_o u) l refuse) as [tb' rep] eqn:N.
        assert (NP : (forall p a, rep <> RPort p a) -> tb' = y_tb y).
        { intros Q. unfold ul_new in N. destruct refuse; [injection N as <- _; auto|]. destruct l; injection N as <- <-; auto. exfalso. eapply Q. reflexivity. }
        destruct rep as [p a0| | |]; try (rewrite NP in E by discriminate; injection E as <- <- <-; rewrite app_nil_r; destruct y; exact H).
        destruct (new_good _ _ _ _ _ _ _ _ _ _ G F N) as (G1 & N1 & s & S1 & S2). eapply EI_then; [| | |exact E].
        * exact G1.
        * split; [left; cbn [k_s y_tb]; rewrite S1; apply in_app_iff; right; left; exact S2|]. split; [right; reflexivity|]. cbn [k_s s_uid y_tb]. lia.
        * constructor; cbn [y_tb y_ext].
          -- intros x X. apply H1 in X. lia.
          -- intros z Z1. rewrite S1 in Z1. apply in_app_iff in Z1 as [Z1|[<-|[]]].
             ++ pose proof (v_lt _ (proj1 G) _ Z1). rewrite fset_other by lia. auto.
             ++ rewrite S2. cbn [s_uid]. rewrite fset_same. apply SI_new. auto.
    - destruct (find_stream (t_ht (y_tb y)) call from to) as [[s i]|] eqn:F.
      + destruct (find_side _ _ _ _ _ _ F) as (X & J). assert (J' : 1 - i = 0 \/ 1 - i = 1) by lia.
        pose proof (ul_plain v4 y false u l s (1 - i) G X J') as U. pose proof (EI_ul y false u l s (1 - i) ds G (or_introl X) J' H) as Q. destruct (ul_one y false u l s (1 - i)) as [[y1 s1] rep]. cbn [fst] in Q. destruct U as (U1 & U2 & U3 & U4 & U5 & U6 & U7).
        assert (KK : KOK (y_tb y1) (mkCur s1 i)) by (split; [left; exact U3|split; [cbn [k_in]; lia|cbn [k_s]; apply (v_lt _ (proj1 U1)); exact U3]]).
        destruct rep; try (injection E as <- <- <-; rewrite app_nil_r; exact Q). eapply EI_then; eauto.
      + injection E as <- <- <-. rewrite app_nil_r. exact H.
    - destruct (find_stream (t_ht (y_tb y)) call from to) as [[s i]|] eqn:F; [destruct ok|]; try (injection E as <- <- <-; rewrite app_nil_r; exact H).
      destruct (find_side _ _ _ _ _ _ F) as (X & J).
      assert (KK : KOK (y_tb y) (mkCur s (1 - i))) by (split; [left; exact X|split; [cbn [k_in]; lia|cbn [k_s]; apply (v_lt _ (proj1 G)); exact X]]). eapply EI_then; eauto.
    - destruct (do_delete_run (y_tb y) call from to weak (proj1 G)) as (l & r & E2 & Sw). rewrite E2 in E. injection E as <- <- <-. rewrite app_nil_r.
      constructor; cbn [y_tb y_ext t_next t_ht]; [exact H1|]. intros z Z1. destruct (swept_in _ _ _ _ _ _ _ Sw z Z1) as (s & S1 & S2). rewrite (proj1 S2). eapply SI_same; eauto.
    - injection E as <- <- <-. rewrite app_nil_r. constructor; cbn [y_tb y_ext t_next t_ht]; [exact H1|]. intros s [].
    - injection E as <- <- <-. rewrite app_nil_r. constructor; cbn [y_tb y_ext t_next t_ht]; [exact H1|]. intros s X. apply filter_In in X as (X & _). auto.
    - injection E as <- <- <-. rewrite app_nil_r. constructor; cbn [y_tb y_ext]; [exact H1|]. intros s X. apply SI_ttl_only; auto using shaped_decr, decr_max.
    - injection E as <- <- <-. rewrite app_nil_r. constructor; cbn [y_tb y_ext]; [exact H1|]. intros s X. destruct (Z.eq_dec (s_uid s) uid) as [<-|Q].
      + rewrite fset_same. apply SI_ttl_only; auto using shaped_reset, reset_max.
      + rewrite fset_other by auto. auto.
  Qed.
  Lemma EI_run cs : forall y ds y' l d, GOOD (y_tb y) -> EI y ds -> crun y cs = Some (y', l, d) -> EI y' (ds ++ d) /\ GOOD (y_tb y').
  Proof.
    induction cs as [|c t IH]; intros y ds y' l d G H; cbn [ChainModel.run]; intros E.
    - injection E as <- <- <-. rewrite app_nil_r. auto.
    - destruct (step_plain c_shared c_setup c_max c_tos v4 y c G) as (y1 & a & d1 & E1 & G1 & _). rewrite E1 in E. destruct (crun y1 t) as [[[y2 l2] d2]|] eqn:E2; [|discriminate]. injection E as <- <- <-.
      rewrite app_assoc. exact (IH y1 (ds ++ d1) y2 l2 d2 G1 (EI_step _ _ _ _ _ _ G H E1) E2).
  Qed.
  Lemma EI0 : EI (sys0 c_shared c_setup c_max c_tos v4) [].
  Proof. constructor; intros x []. Qed.
End times.

(** * Chains *)
Lemma stops v4 bs : forall y k y' rs d, run_subs v4 y k bs = Some (y', rs, d) -> stops_at_failure bs rs.
Proof.
  induction bs as [|b t IH]; intros y k y' rs d; cbn [run_subs]; intros E.
  - injection E as <- <- <-. left. split; auto.
  - destruct (run_sub v4 y k b) as [[[[y1 k1] r] d1]|]; [|discriminate]. destruct (Z.eqb_spec (fst r) 0) as [Z0|N]; cbn [negb] in E.
    + destruct (run_subs v4 y1 k1 t) as [[[y2 rs2] d2]|] eqn:E2; [|discriminate]. injection E as <- <- <-. destruct (IH _ _ _ _ _ E2) as [(L & F)|(rs' & r' & -> & N & F & L)].
      * left. split; [cbn [length]; lia|constructor; auto].
      * right. exists (r :: rs'), r'. repeat split; auto. cbn [length List.app] in *. lia.
    + injection E as <- <- <-. right. exists [], r. repeat split; auto. cbn [length]. lia.
Qed.
Lemma sub_same v4 y k b y' k' r d : GOOD (y_tb y) -> KOK (y_tb y) k -> run_sub v4 y k b = Some (y', k', r, d) ->
  s_uid (k_s k') = s_uid (k_s k) /\ s_call (k_s k') = s_call (k_s k) /\ s_tag (k_s k') = s_tag (k_s k) /\
  (forall uid, uid <> s_uid (k_s k) -> y_ext y' uid = y_ext y uid).
Proof.
  intros G (K1 & K2 & K3) E. destruct b as [u l|weak|rev v|rev v f0 f1|r0]; cbn [run_sub] in E.
  - pose proof (ul_one_tb v4 y false u l (k_s k) (k_in k)) as O. pose proof (ul_sess_same false (u_o u) l (k_s k) (k_in k)) as V.
    assert (X : forall uid, uid <> s_uid (k_s k) -> y_ext (fst (fst (ul_one v4 y false u l (k_s k) (k_in k)))) uid = y_ext y uid).
    { intros uid N. unfold ul_one. destruct (ul_sess false (u_o u) l (k_s k) (k_in k)) as [s1 rep]. destruct rep; cbn [fst y_ext]; auto. apply fset_other. auto. }
    destruct (ul_one v4 y false u l (k_s k) (k_in k)) as [[y1 s1] rep]. destruct O as (_ & O & _). rewrite <- O in V. cbn [fst] in X. destruct rep; injection E as <- <- <- <-; cbn [k_s]; destruct V as (V1 & V2 & V3); auto.
  - destruct (do_delete (S (length (t_ht (y_tb y)))) (y_tb y) (s_call (k_s k)) (s_tag (k_s k)) None weak 0) as [[tb' rr]|] eqn:D; [|discriminate]. injection E as <- <- <- <-. cbn [k_s y_ext].
    destruct (some_unmatched (t_ht (y_tb y))) as (to & UM). rewrite (delete_none _ _ to weak _ _ 0 UM) in D.
    destruct (do_delete_run (y_tb y) (s_call (k_s k)) (s_tag (k_s k)) to weak (proj1 G)) as (l & r1 & E2 & Sw). rewrite E2 in D. injection D as <- <-. cbn [t_ht].
    split; [apply refetch_in|]. unfold refetch. destruct (find (fun x => s_uid x =? s_uid (k_s k)) l) as [x|] eqn:F; [|split; [apply clear_tag|split; [apply clear_tag|auto]]].
    apply List.find_some in F as (F & Q). assert (Q' : s_uid x = s_uid (k_s k)) by lia.
    destruct (flow_in _ _ _ _ _ (swept_flow _ _ _ _ false (t_next (y_tb y)) _ _ _ Sw) F) as [W|(z & Z1 & (Z2 & Z3 & Z4 & _))]; [lia|].
    assert (z = k_s k). { destruct K1 as [K1|K1]; [eapply uid_inj; eauto; [apply G|congruence]|]. exfalso. apply K1. rewrite <- Q', Z2. apply in_map. auto. }
    subst z. auto.
  - injection E as <- <- <- <-. cbn [y_ext]. repeat split; auto. intros uid N. apply fset_other. auto.
  - destruct (set_tos v4 (k_s k) (y_ext y (s_uid (k_s k))) (if rev then 1 - k_in k else k_in k) v f0 f1) as [e rr]. injection E as <- <- <- <-. cbn [y_ext]. repeat split; auto. intros uid N. apply fset_other. auto.
  - injection E as <- <- <- <-. auto.
Qed.
Lemma sub_calm v4 y k b y' k' r d : calm b -> run_sub v4 y k b = Some (y', k', r, d) -> y_tb y' = y_tb y /\ k' = k.
Proof.
  destruct b; cbn [calm run_sub]; try contradiction; intros _ E.
  - injection E as <- <- <- <-. auto.
  - destruct (set_tos _ _ _ _ _ _ _) as [e rr]. injection E as <- <- <- <-. auto.
  - injection E as <- <- <- <-. auto.
Qed.
Lemma subs_app v4 bs : forall y k y1 rs d, GOOD (y_tb y) -> KOK (y_tb y) k -> run_subs v4 y k bs = Some (y1, rs, d) -> Forall (fun r => fst r = 0) rs -> exists k1,
  GOOD (y_tb y1) /\ KOK (y_tb y1) k1 /\ s_call (k_s k1) = s_call (k_s k) /\ s_tag (k_s k1) = s_tag (k_s k) /\ s_uid (k_s k1) = s_uid (k_s k) /\
  (Forall calm bs -> y_tb y1 = y_tb y /\ k1 = k) /\
  forall cs, run_subs v4 y k (bs ++ cs) = match run_subs v4 y1 k1 cs with None => None | Some (y2, rs2, d2) => Some (y2, rs ++ rs2, d ++ d2) end.
Proof.
  induction bs as [|b t IH]; intros y k y1 rs d G K; cbn [run_subs]; intros E F.
  - injection E as <- <- <-. exists k. repeat (split; [solve [auto]|]). intros cs. cbn [List.app]. destruct (run_subs v4 y k cs) as [[[? ?] ?]|]; auto.
  - destruct (sub_plain v4 y k b G K) as (ya & ka & r & da & E1 & G1 & N1 & KK & _). rewrite E1 in E. destruct (sub_same _ _ _ _ _ _ _ _ G K E1) as (S1 & S2 & S3 & S4).
    destruct (Z.eqb_spec (fst r) 0) as [Z0|N]; cbn [negb] in E.
    + destruct (run_subs v4 ya ka t) as [[[y2 rs2] d2]|] eqn:E2; [|discriminate]. injection E as <- <- <-. inversion F; subst. destruct (IH _ _ _ _ _ G1 KK E2 H2) as (k1 & A1 & A2 & A3 & A4 & A5 & A6 & A7).
      exists k1. split; [exact A1|]. split; [exact A2|]. split; [congruence|]. split; [congruence|]. split; [congruence|]. split.
      * intros C. inversion C; subst. destruct (A6 H4) as (B1 & B2). destruct (sub_calm _ _ _ _ _ _ _ _ H3 E1) as (B3 & B4). split; congruence.
      * intros cs. cbn [List.app run_subs]. rewrite E1. destruct (Z.eqb_spec (fst r) 0); [|contradiction]. cbn [negb]. rewrite A7. destruct (run_subs v4 y2 k1 cs) as [[[? ?] ?]|]; auto. rewrite app_assoc. auto.
    + injection E as <- <- <-. inversion F; subst. contradiction.
Qed.
Lemma subs_other v4 bs : forall y k y1 rs d uid, GOOD (y_tb y) -> KOK (y_tb y) k -> run_subs v4 y k bs = Some (y1, rs, d) -> uid <> s_uid (k_s k) -> y_ext y1 uid = y_ext y uid.
Proof.
  induction bs as [|b t IH]; intros y k y1 rs d uid G K; cbn [run_subs]; intros E N; [injection E as <- <- <-; auto|].
  destruct (sub_plain v4 y k b G K) as (ya & ka & r & da & E1 & G1 & N1 & KK & _). rewrite E1 in E. destruct (sub_same _ _ _ _ _ _ _ _ G K E1) as (S1 & S2 & S3 & S4).
  destruct (negb (fst r =? 0)); [injection E as <- <- <-; auto|]. destruct (run_subs v4 ya ka t) as [[[y2 rs2] d2]|] eqn:E2; [|discriminate]. injection E as <- <- <-. rewrite (IH _ _ _ _ _ uid G1 KK E2); [auto|congruence].
Qed.
Lemma subs_settings v4 bs : forall y k y1 rs d, GOOD (y_tb y) -> KOK (y_tb y) k -> run_subs v4 y k bs = Some (y1, rs, d) -> d = settings (s_uid (k_s k)) (k_in k) bs rs.
Proof.
  induction bs as [|b t IH]; intros y k y1 rs d G K; cbn [run_subs]; intros E; [injection E as <- <- <-; reflexivity|].
  destruct (sub_plain v4 y k b G K) as (ya & ka & r & da & E1 & G1 & N1 & KK & _). rewrite E1 in E. destruct (sub_same _ _ _ _ _ _ _ _ G K E1) as (S1 & S2 & S3 & S4).
  assert (H : match b with
    | SubTtl rev v => da = [DTtl (s_uid (k_s k)) (if rev then 1 - k_in k else k_in k) v] /\ k_in ka = k_in k
    | SubTos rev v _ _ => da = [DTos (s_uid (k_s k)) (if rev then 1 - k_in k else k_in k) v (fst r)] /\ k_in ka = k_in k
    | SubL _ _ => da = [] /\ (fst r = 0 -> k_in ka = 1 - k_in k)
    | _ => da = [] /\ k_in ka = k_in k
    end).
  { destruct b as [u l|weak|rev v|rev v f0 f1|r0]; cbn [run_sub] in E1.
    - destruct (ul_one v4 y false u l (k_s k) (k_in k)) as [[y3 s3] rep]. destruct rep; injection E1 as <- <- <- <-; split; auto; discriminate.
    - destruct (do_delete (S (length (t_ht (y_tb y)))) (y_tb y) (s_call (k_s k)) (s_tag (k_s k)) None weak 0) as [[tb' rr]|]; [|discriminate]. injection E1 as <- <- <- <-. auto.
    - injection E1 as <- <- <- <-. auto.
    - destruct (set_tos v4 (k_s k) (y_ext y (s_uid (k_s k))) (if rev then 1 - k_in k else k_in k) v f0 f1) as [e rr]. injection E1 as <- <- <- <-. auto.
    - injection E1 as <- <- <- <-. auto. }
  destruct (Z.eqb_spec (fst r) 0) as [Z0|N]; cbn [negb] in E.
  - destruct (run_subs v4 ya ka t) as [[[y2 rs2] d2]|] eqn:E2; [|discriminate]. injection E as <- <- <-. rewrite (IH _ _ _ _ _ G1 KK E2), S1.
    destruct b; cbn [settings]; destruct H as (-> & H); rewrite H by auto; reflexivity.
  - injection E as <- <- <-. destruct b; cbn [settings]; destruct H as (-> & H); destruct t as [|[] ?]; reflexivity.
Qed.
Lemma full_ul v4 e s i la lst m : i = 0 \/ i = 1 -> restarted (ext_ul v4 e s i la lst m).
Proof. intros I d. rewrite ext_ul_ttl by auto. match goal with |- context [TtlModel.pipe_reset (TtlModel.pipe_reset ?p _) _] => destruct (reset_both_max p d) as (-> & ->) end. auto. Qed.
Lemma full_set e d v : restarted e -> restarted (set_ttl e d v).
Proof.
  intros R j. unfold set_ttl. cbn zeta. cbn [x_ttl with_ttl]. specialize (R j).
  assert (X : x_ttl (match x_ttl e with TtlModel.Shared _ => xset (xset e d (with_sttl (xside e d) v)) (1 - d) (with_sttl (xside (xset e d (with_sttl (xside e d) v)) (1 - d)) v) | TtlModel.Indep _ _ => xset e d (with_sttl (xside e d) v) end) = x_ttl e).
  { destruct (x_ttl e) eqn:T; rewrite ?x_ttl_xset, T; auto. }
  rewrite X. destruct (x_ttl e); cbn [ttl_of] in *; unfold tside; destruct (d =? 0); cbn [TtlModel.pipe_reset_with ttl_of]; auto; destruct (j =? 0); auto.
Qed.
Lemma sub_full v4 y k b y' k' r d : KOK (y_tb y) k -> run_sub v4 y k b = Some (y', k', r, d) -> restarted (y_ext y (s_uid (k_s k))) -> restarted (y_ext y' (s_uid (k_s k))).
Proof.
  intros (_ & K2 & _) E R. destruct b as [u l|weak|rev v|rev v f0 f1|r0]; cbn [run_sub] in E.
  - assert (X : restarted (y_ext (fst (fst (ul_one v4 y false u l (k_s k) (k_in k)))) (s_uid (k_s k)))).
    { unfold ul_one. destruct (ul_sess false (u_o u) l (k_s k) (k_in k)) as [s1 rep]. destruct rep; cbn [fst y_ext]; auto. rewrite fset_same. apply full_ul. auto. }
    destruct (ul_one v4 y false u l (k_s k) (k_in k)) as [[y1 s1] rep]. destruct rep; injection E as <- <- <- <-; exact X.
  - destruct (do_delete (S (length (t_ht (y_tb y)))) (y_tb y) (s_call (k_s k)) (s_tag (k_s k)) None weak 0) as [[tb' rr]|]; [|discriminate]. injection E as <- <- <- <-. auto.
  - injection E as <- <- <- <-. cbn [y_ext]. rewrite fset_same. apply full_set. auto.
  - destruct (set_tos v4 (k_s k) (y_ext y (s_uid (k_s k))) (if rev then 1 - k_in k else k_in k) v f0 f1) as [e rr] eqn:T. injection E as <- <- <- <-. cbn [y_ext]. rewrite fset_same.
    intros j. unfold set_tos in T. cbn zeta in T. destruct (negb _ || _) in T; [injection T as <- _; apply R|]. destruct (negb _ || _) in T; injection T as <- _; rewrite !x_ttl_xset; apply R.
  - injection E as <- <- <- <-. auto.
Qed.
Lemma subs_full v4 bs : forall y k y' rs d, GOOD (y_tb y) -> KOK (y_tb y) k -> run_subs v4 y k bs = Some (y', rs, d) -> restarted (y_ext y (s_uid (k_s k))) -> restarted (y_ext y' (s_uid (k_s k))).
Proof.
  induction bs as [|b t IH]; intros y k y' rs d G K; cbn [run_subs]; intros E R; [injection E as <- <- <-; auto|].
  destruct (sub_plain v4 y k b G K) as (ya & ka & r & da & E1 & G1 & N1 & KK & U & _). rewrite E1 in E. pose proof (sub_full _ _ _ _ _ _ _ _ K E1 R) as R1.
  destruct (negb (fst r =? 0)); [injection E as <- <- <-; auto|]. destruct (run_subs v4 ya ka t) as [[[y2 rs2] d2]|] eqn:E2; [|discriminate]. injection E as <- <- <-. rewrite <- U in *. eapply IH; eauto.
Qed.
Lemma find_put tb s s' i call from to : TInv tb -> find_stream (t_ht tb) call from to = Some (s, i) -> s_uid s' = s_uid s -> s_call s' = s_call s -> s_tag s' = s_tag s ->
  find_stream (put (t_ht tb) s') call from to = Some (s', i).
Proof.
  intros T F E1 E2 E3. apply SessProof.find_some in F as (l1 & l2 & E & C & Sd & N). pose proof (v_nd _ T) as D. rewrite E in *. rewrite put_split by auto.
  apply SessProof.find_some. exists l1, l2. split; [auto|]. split; [congruence|]. split; [|exact N]. unfold side_of in *. rewrite E3. exact Sd.
Qed.

Lemma ul_not_ok up o l s i : snd (ul_sess up o l s i) <> ROk.
Proof. unfold ul_sess. cbn zeta. destruct (listens o s i); [destruct l|]; discriminate. Qed.

Section chains.
  Context (c_shared : bool) (c_setup c_max c_tos : Z) (v4 : Z -> bool).
  Notation cstep := (ChainModel.step c_shared c_setup c_max c_tos v4).
  Lemma start y m : GOOD (y_tb y) ->
    (exists y1 rep, (forall subs, cstep y (chain m subs) = Some (y1, (rep, []), [])) /\ (rep = RErr \/ rep = RZero)) \/
    (exists y1 rep k, (forall subs, cstep y (chain m subs) = then_subs v4 y1 rep k subs) /\ ((exists p a, rep = RPort p a) \/ rep = ROk) /\
      GOOD (y_tb y1) /\ KOK (y_tb y1) k /\ In (k_s k) (t_ht (y_tb y1)) /\ s_call (k_s k) = m_call m /\
      s_tag (k_s k) = match find_stream (t_ht (y_tb y)) (m_call m) (m_from m) (m_to m) with Some (s, _) => s_tag s | None => m_from m end /\
      (exists side, about (y_tb y) m (s_uid (k_s k)) side /\ k_in k = remote_side m side /\
         (match m with MQuery _ _ _ _ => y1 = y | MUpdate _ _ _ u _ _ | MLookup _ _ _ u _ =>
            (exists p a, rep = RPort p a) /\ restarted (y_ext y1 (s_uid (k_s k))) /\ sx_media (xside (y_ext y1 (s_uid (k_s k))) (k_in k)) = u_media u end) /\
         find_stream (t_ht (y_tb y1)) (m_call m) (m_from m) (m_to m) = Some (k_s k, side)) /\
      (forall uid, uid <> s_uid (k_s k) -> y_ext y1 uid = y_ext y uid)).
  Proof.
    intros G. destruct m as [call from to u l refuse|call from to u l|call from to ok]; cbn [chain ChainModel.step m_call m_from m_to remote_side about].
    - destruct (find_stream (t_ht (y_tb y)) call from to) as [[s i]|] eqn:F.
      + destruct (find_side _ _ _ _ _ _ F) as (X & J). pose proof (ul_plain v4 y true u l s i G X J) as U.
        assert (XX : forall uid, uid <> s_uid s -> y_ext (fst (fst (ul_one v4 y true u l s i))) uid = y_ext y uid).
        { intros uid N. unfold ul_one. destruct (ul_sess true (u_o u) l s i) as [s1 rep]. destruct rep; cbn [fst y_ext]; auto. apply fset_other. auto. }
        assert (FF : forall p a, snd (ul_one v4 y true u l s i) = RPort p a -> restarted (y_ext (fst (fst (ul_one v4 y true u l s i))) (s_uid s)) /\ sx_media (xside (y_ext (fst (fst (ul_one v4 y true u l s i))) (s_uid s)) (1 - i)) = u_media u).
        { intros p a. unfold ul_one. destruct (ul_sess true (u_o u) l s i) as [s1 rep]. destruct rep; cbn [fst snd]; try discriminate. intros _. cbn [y_ext]. rewrite fset_same. split; [apply full_ul; auto|].
          assert (J' : 1 - i = 0 \/ 1 - i = 1) by lia. destruct (ext_ul_side v4 (y_ext y (s_uid s)) s i (st_laddr (stream s1 i)) (listens (u_o u) s i) (u_media u) (1 - i) J J') as (_ & _ & _ & ->). rewrite Z.eqb_refl. auto. }
        destruct (ul_one v4 y true u l s i) as [[y1 s1] rep]. cbn [fst snd] in XX, FF. destruct U as (U1 & U2 & U3 & U4 & U5 & U6 & U7).
        assert (C : s_call s = call) by (apply SessProof.find_some in F as (? & ? & _ & C & _); exact C).
        assert (FP : find_stream (t_ht (y_tb y1)) call from to = Some (s1, i)).
        { rewrite ul_sess_existing in U7. injection U7 as T7 _. rewrite T7. cbn [t_ht]. assert (s1 = fst (ul_sess true (u_o u) l s i)).
          { destruct (in_split _ _ X) as (l1 & l2 & E). rewrite T7 in U3. cbn [t_ht] in U3. destruct (ul_sess_same true (u_o u) l s i) as (W1 & _).
            rewrite E, put_split in U3 by (auto; rewrite <- E; apply (v_nd _ (proj1 G))). apply in_app_iff in U3. pose proof (v_nd _ (proj1 G)) as ND. rewrite E, map_app in ND. cbn [map] in ND. apply NoDup_remove_2 in ND. rewrite in_app_iff in ND.
            destruct U3 as [U3|[U3|U3]]; auto; exfalso; apply ND; [left|right]; rewrite <- U4; apply in_map; auto. }
          subst s1. eapply find_put; eauto. apply G. }
        destruct rep as [p a| | |]; [right|left|left|exfalso].
        * exists y1, (RPort p a), (mkCur s1 (1 - i)). split; [auto|]. split; [left; eauto|]. split; [exact U1|].
          split; [split; [left; exact U3|split; [cbn [k_in]; lia|cbn [k_s]; apply (v_lt _ (proj1 U1)); exact U3]]|]. cbn [k_s k_in]. split; [exact U3|]. split; [congruence|]. split; [exact U6|]. rewrite U4. split; [|exact XX].
          exists i. split; [left; exists s; auto|]. split; [auto|]. split; [|exact FP]. destruct (FF p a eq_refl). split; [eauto|auto].
        * exists y1, RZero. auto.
        * exists y1, RErr. auto.
        * apply (f_equal snd) in U7. rewrite ul_sess_existing in U7. apply (ul_not_ok true (u_o u) l s i). symmetry. exact U7.
      + destruct (ul_new (y_tb y) call from (u_o u) l refuse) as [tb' rep] eqn:N.
        assert (NK : rep <> ROk /\ rep <> RZero). { unfold ul_new in N. destruct refuse; [injection N as _ <-; split; discriminate|]. destruct l; injection N as _ <-; split; discriminate. }
        destruct rep as [p a| | |]; [right|exfalso; apply (proj2 NK); auto|left; eexists _, RErr; split; [reflexivity|auto]|exfalso; apply (proj1 NK); auto].
        destruct (new_good _ _ _ _ _ _ _ _ _ _ G F N) as (G1 & N1 & s & S1 & S2). eexists _, (RPort p a), _. split; [reflexivity|]. split; [left; eauto|]. cbn [y_tb k_s k_in y_ext s_uid s_call]. rewrite <- S2.
        assert (INs : In s (t_ht tb')) by (rewrite S1; apply in_app_iff; right; left; auto).
        split; [exact G1|]. split; [split; [left; exact INs|split; [right; reflexivity|cbn [k_s]; apply (v_lt _ (proj1 G1)); exact INs]]|]. split; [exact INs|]. split; [reflexivity|]. split; [rewrite S2; reflexivity|]. split; [|intros uid Q; apply fset_other; auto].
        exists 0. split; [right; auto|]. split; [reflexivity|]. rewrite fset_same. split.
        * split; [eauto|]. split; [|reflexivity]. intros d. unfold ext_new. cbn [x_ttl]. destruct c_shared; cbn [ttl_of]; [auto|destruct (d =? 0); auto].
        * apply SessProof.find_some. exists (t_ht (y_tb y)), []. split; [exact S1|]. split; [rewrite S2; auto|]. split; [left; rewrite S2; auto|]. intros s' j X C. apply (proj1 (SessProof.find_none _ _ _ _) F s' j X C).
    - destruct (find_stream (t_ht (y_tb y)) call from to) as [[s i]|] eqn:F; [|left; exists y, RZero; auto].
      destruct (find_side _ _ _ _ _ _ F) as (X & J). assert (J' : 1 - i = 0 \/ 1 - i = 1) by lia. pose proof (ul_plain v4 y false u l s (1 - i) G X J') as U.
      assert (XX : forall uid, uid <> s_uid s -> y_ext (fst (fst (ul_one v4 y false u l s (1 - i)))) uid = y_ext y uid).
      { intros uid N. unfold ul_one. destruct (ul_sess false (u_o u) l s (1 - i)) as [s1 rep]. destruct rep; cbn [fst y_ext]; auto. apply fset_other. auto. }
      assert (FF : forall p a, snd (ul_one v4 y false u l s (1 - i)) = RPort p a -> restarted (y_ext (fst (fst (ul_one v4 y false u l s (1 - i)))) (s_uid s)) /\ sx_media (xside (y_ext (fst (fst (ul_one v4 y false u l s (1 - i)))) (s_uid s)) i) = u_media u).
      { intros p a. unfold ul_one. destruct (ul_sess false (u_o u) l s (1 - i)) as [s1 rep]. destruct rep; cbn [fst snd]; try discriminate. intros _. cbn [y_ext]. rewrite fset_same. split; [apply full_ul; auto|].
        destruct (ext_ul_side v4 (y_ext y (s_uid s)) s (1 - i) (st_laddr (stream s1 (1 - i))) (listens (u_o u) s (1 - i)) (u_media u) i J' J) as (_ & _ & _ & ->). replace (1 - (1 - i)) with i by lia. rewrite Z.eqb_refl. auto. }
      destruct (ul_one v4 y false u l s (1 - i)) as [[y1 s1] rep]. cbn [fst snd] in XX, FF. destruct U as (U1 & U2 & U3 & U4 & U5 & U6 & U7).
      assert (C : s_call s = call) by (apply SessProof.find_some in F as (? & ? & _ & C & _); exact C).
      assert (FP : find_stream (t_ht (y_tb y1)) call from to = Some (s1, i)).
      { rewrite ul_sess_existing in U7. injection U7 as T7 _. rewrite T7. cbn [t_ht]. assert (s1 = fst (ul_sess false (u_o u) l s (1 - i))).
        { destruct (in_split _ _ X) as (l1 & l2 & E). rewrite T7 in U3. cbn [t_ht] in U3. destruct (ul_sess_same false (u_o u) l s (1 - i)) as (W1 & _).
          rewrite E, put_split in U3 by (auto; rewrite <- E; apply (v_nd _ (proj1 G))). apply in_app_iff in U3. pose proof (v_nd _ (proj1 G)) as ND. rewrite E, map_app in ND. cbn [map] in ND. apply NoDup_remove_2 in ND. rewrite in_app_iff in ND.
          destruct U3 as [U3|[U3|U3]]; auto; exfalso; apply ND; [left|right]; rewrite <- U4; apply in_map; auto. }
        subst s1. eapply find_put; eauto. apply G. }
      destruct rep as [p a| | |]; [right|left|left|exfalso].
      * exists y1, (RPort p a), (mkCur s1 i). split; [auto|]. split; [left; eauto|]. split; [exact U1|].
        split; [split; [left; exact U3|split; [cbn [k_in]; lia|cbn [k_s]; apply (v_lt _ (proj1 U1)); exact U3]]|]. cbn [k_s k_in]. split; [exact U3|]. split; [congruence|]. split; [exact U6|]. rewrite U4. split; [|exact XX].
        exists i. split; [left; exists s; auto|]. split; [auto|]. split; [|exact FP]. destruct (FF p a eq_refl). split; [eauto|auto].
      * exists y1, RZero. auto.
      * exists y1, RErr. auto.
      * apply (f_equal snd) in U7. rewrite ul_sess_existing in U7. apply (ul_not_ok false (u_o u) l s (1 - i)). symmetry. exact U7.
    - destruct (find_stream (t_ht (y_tb y)) call from to) as [[s i]|] eqn:F; [destruct ok|]; try (left; exists y, RErr; auto; fail). right.
      destruct (find_side _ _ _ _ _ _ F) as (X & J). exists y, ROk, (mkCur s (1 - i)). split; [auto|]. split; [auto|]. split; [exact G|].
      split; [split; [left; exact X|split; [cbn [k_in]; lia|cbn [k_s]; apply (v_lt _ (proj1 G)); exact X]]|]. cbn [k_s k_in]. split; [exact X|]. split; [apply SessProof.find_some in F as (? & ? & _ & C & _); exact C|]. split; [reflexivity|]. split; [|auto].
      exists i. split; [left; exists s; auto|auto].
  Qed.
End chains.
Lemma about_same tb m u1 s1 u2 s2 : about tb m u1 s1 -> about tb m u2 s2 -> u1 = u2.
Proof. intros [(s & F & ->)|(F & -> & _)] [(s' & F' & ->)|(F' & -> & _)]; rewrite F in F'; try discriminate; auto. injection F' as -> _. auto. Qed.
Lemma about_side tb m u1 s1 u2 s2 : about tb m u1 s1 -> about tb m u2 s2 -> s1 = s2.
Proof. intros [(s & F & _)|(F & _ & ->)] [(s' & F' & _)|(F' & _ & ->)]; rewrite F in F'; try discriminate; auto. injection F' as _ ->. auto. Qed.
Section chains2.
  Context (c_shared : bool) (c_setup c_max c_tos : Z) (v4 : Z -> bool).
  Notation cstep := (ChainModel.step c_shared c_setup c_max c_tos v4).
  Lemma query_no_port y call from to ok subs y' p a rs d : cstep y (CQuery call from to ok subs) <> Some (y', (RPort p a, rs), d).
  Proof.
    cbn [ChainModel.step]. destruct (find_stream (t_ht (y_tb y)) call from to) as [[s i]|]; [destruct ok|]; try discriminate. unfold then_subs. destruct (run_subs v4 y (mkCur s (1 - i)) subs) as [[[? ?] ?]|]; discriminate.
  Qed.
  Lemma step_other y m subs y' a d uid side uid' : GOOD (y_tb y) -> cstep y (chain m subs) = Some (y', a, d) -> about (y_tb y) m uid side -> uid' <> uid -> y_ext y' uid' = y_ext y uid'.
  Proof.
    intros G E AB N.
    assert (K : forall y1 k, GOOD (y_tb y1) -> KOK (y_tb y1) k -> s_uid (k_s k) = uid -> y_ext y1 uid' = y_ext y uid' -> forall rep, then_subs v4 y1 rep k subs = Some (y', a, d) -> y_ext y' uid' = y_ext y uid').
    { intros y1 k G1 K1 U X rep. unfold then_subs. destruct (run_subs v4 y1 k subs) as [[[y2 rs] d2]|] eqn:R; [|discriminate]. intros Q. injection Q as <- _ _. rewrite (subs_other _ _ _ _ _ _ _ _ G1 K1 R); [auto|congruence]. }
    destruct (start c_shared c_setup c_max c_tos v4 y m G) as [(ya & ra & S & W)|(ya & ra & k & S & W & G1 & K1 & _ & _ & _ & (sd & AB2 & _) & O)].
    - assert (E' := E). rewrite S in E'. injection E' as <- <- <-. clear S K.
      destruct m as [call from to u l refuse|call from to u l|call from to ok]; cbn [chain ChainModel.step m_call m_from m_to about] in *.
      + destruct AB as [(s & F & ->)|(F & -> & ->)]; cbn [m_call m_from m_to] in F; rewrite F in E.
        * unfold ul_one in E. destruct (ul_sess true (u_o u) l s side) as [s1 rep]. destruct rep; try (injection E as <- _; auto; fail).
          unfold then_subs in E. destruct (run_subs _ _ _ subs) as [[[? ?] ?]|] in E; [|discriminate]. injection E as _ <- _ _. destruct W; discriminate.
        * destruct (ul_new (y_tb y) call from (u_o u) l refuse) as [tb' rep]. destruct rep; try (injection E as <- _; auto; fail).
          unfold then_subs in E. destruct (run_subs _ _ _ subs) as [[[? ?] ?]|] in E; [|discriminate]. injection E as _ <- _ _. destruct W; discriminate.
      + destruct AB as [(s & F & ->)|(F & -> & ->)]; cbn [m_call m_from m_to] in F; rewrite F in E; [|injection E as <- _; auto].
        unfold ul_one in E. destruct (ul_sess false (u_o u) l s (1 - side)) as [s1 rep]. destruct rep; try (injection E as <- _; auto; fail).
        unfold then_subs in E. destruct (run_subs _ _ _ subs) as [[[? ?] ?]|] in E; [|discriminate]. injection E as _ <- _ _. destruct W; discriminate.
      + destruct AB as [(s & F & ->)|(F & -> & ->)]; cbn [m_call m_from m_to] in F; rewrite F in E; [|injection E as <- _; auto].
        destruct ok; [|injection E as <- _; auto]. unfold then_subs in E. destruct (run_subs _ _ _ subs) as [[[? ?] ?]|] in E; [|discriminate]. injection E as _ <- _ _. destruct W; discriminate.
    - rewrite S in E. rewrite (about_same _ _ _ _ _ _ AB AB2) in *. apply (K ya k G1 K1 eq_refl (O uid' N) ra E).
  Qed.
End chains2.
Lemma reach sh setup mx tos v4 cs y l ds : ChainModel.run sh setup mx tos v4 (sys0 sh setup mx tos v4) cs = Some (y, l, ds) -> EI sh setup mx tos y ds /\ GOOD (y_tb y).
Proof. intros R. exact (EI_run sh setup mx tos v4 cs (sys0 sh setup mx tos v4) [] y l ds good0 (EI0 sh setup mx tos v4) R). Qed.
