From Verif Require Import Base SessModel SessSpec.

Lemma beq_eq a b : beq a b = true <-> a = b.
Proof.
  revert b; induction a as [|x a IH]; intros [|y b]; cbn; split; intros H; try congruence; auto.
  - apply andb_true_iff in H. destruct H as [H1 H2]. apply Z.eqb_eq in H1. apply IH in H2. congruence.
  - injection H as -> ->. rewrite Z.eqb_refl. cbn. apply IH. reflexivity.
Qed.
Lemma beq_refl a : beq a a = true. Proof. apply beq_eq. reflexivity. Qed.
Lemma beq_neq a b : beq a b = false <-> a <> b.
Proof. rewrite <- beq_eq. destruct (beq a b); split; congruence. Qed.

(** * Tags *)
Lemma compare_ok t1 t0 :
  (compare_session_tags t1 t0 = 1 <-> t1 = t0) /\ (compare_session_tags t1 t0 = 2 <-> media_of t1 t0) /\
  (compare_session_tags t1 t0 = 0 \/ compare_session_tags t1 t0 = 1 \/ compare_session_tags t1 t0 = 2).
Proof.
  unfold compare_session_tags, media_of. destruct (Nat.ltb_spec (length t1) (length t0)) as [L|L].
  - split; [|split; [|auto]]; (split; [lia|]).
    + intros ->. lia.
    + intros (s & ->). rewrite app_length in L. lia.
  - destruct (beq (firstn (length t0) t1) t0) eqn:B.
    + apply beq_eq in B. assert (E : t1 = t0 ++ skipn (length t0) t1) by (rewrite <- B at 1; symmetry; apply firstn_skipn).
      destruct (Nat.eqb_spec (length t1) (length t0)) as [Q|Q].
      * assert (Z0 : t1 = t0) by (rewrite E; replace (length t0) with (length t1); rewrite skipn_all, app_nil_r; reflexivity).
        split; [tauto|]. split; [|auto]. split; [lia|]. intros (s & X). rewrite X, app_length in Q. cbn in Q. lia.
      * assert (N : t1 <> t0) by (intros ->; lia).
        destruct (Z.eqb_spec (nth (length t0) t1 0) SEMI) as [S|S].
        -- split; [split; [lia|tauto]|]. split; [|auto]. split; [intros _|auto].
           destruct (skipn (length t0) t1) as [|x l] eqn:K.
           ++ rewrite app_nil_r in E. tauto.
           ++ exists l. rewrite E in S. rewrite app_nth2, Nat.sub_diag in S by lia. cbn in S. unfold SEMI in S. subst x. exact E.
        -- split; [split; [lia|tauto]|]. split; [|auto]. split; [lia|]. intros (s & X). exfalso. apply S. rewrite X, app_nth2, Nat.sub_diag by lia. reflexivity.
    + apply beq_neq in B. split; [|split; [|auto]]; (split; [lia|]).
      * intros ->. exfalso. apply B. apply firstn_all.
      * intros (s & ->). exfalso. apply B. rewrite firstn_app, firstn_all, Nat.sub_diag. cbn. apply app_nil_r.
Qed.

Lemma strrchr_none s : strrchr s = None <-> ~ In 59 s.
Proof.
  induction s as [|c t IH]; cbn [strrchr In]; [tauto|]. destruct (strrchr t) as [r|].
  - split; [discriminate|]. intros H. exfalso. destruct IH as [_ IH]. assert (X : ~ In 59 t) by tauto. apply IH in X. discriminate.
  - destruct IH as [IH _]. specialize (IH eq_refl). unfold SEMI. destruct (Z.eqb_spec c 59); split; intros; try congruence; try tauto.
Qed.
Lemma strrchr_some s r : strrchr s = Some r <-> exists p, r = 59 :: p /\ last_part s p.
Proof.
  revert r. induction s as [|c t IH]; intros r; cbn [strrchr].
  - split; [discriminate|]. intros (p & _ & q & E & _). destruct q; discriminate.
  - destruct (strrchr t) as [r'|] eqn:E.
    + destruct (proj1 (IH r') eq_refl) as (p' & -> & q' & E' & N').
      split.
      * intros X. injection X as <-. exists p'. split; [reflexivity|]. exists (c :: q'). split; [cbn; congruence|exact N'].
      * intros (p & -> & q & Eq & N). destruct q as [|y q]; cbn in Eq.
        { injection Eq as _ Eq. exfalso. apply N. rewrite <- Eq, E'. apply in_app_iff. right. left. reflexivity. }
        { injection Eq as _ Eq. assert (X : strrchr t = Some (59 :: p)) by (rewrite E; apply (proj2 (IH (59 :: p))); exists p; split; [reflexivity|exists q; auto]). congruence. }
    + apply strrchr_none in E. unfold SEMI. destruct (Z.eqb_spec c 59) as [-> | C].
      * split.
        { intros X. injection X as <-. exists t. split; [reflexivity|]. exists []. auto. }
        { intros (p & -> & q & Eq & N). destruct q as [|y q]; cbn in Eq; [injection Eq as <-; reflexivity|].
          injection Eq as _ Eq. exfalso. apply E. rewrite Eq. apply in_app_iff. right. left. reflexivity. }
      * split; [discriminate|]. intros (p & -> & q & Eq & N). destruct q as [|y q]; cbn in Eq; [congruence|].
        injection Eq as _ Eq. exfalso. apply E. rewrite Eq. apply in_app_iff. right. left. reflexivity.
Qed.

Lemma ematch_ok from to s i : ematch from to s = Some i <-> side_of from to s i.
Proof.
  unfold ematch, side_of. destruct (beq (s_tag s) from) eqn:B.
  - apply beq_eq in B. split; [intros X; injection X as <-; auto|]. intros [[-> _]|(-> & N & _)]; [reflexivity|tauto].
  - apply beq_neq in B. destruct to as [t|].
    + destruct (compare_ok (s_tag s) t) as (C1 & C2 & C3). cbn zeta.
      destruct (Z.eqb_spec (compare_session_tags (s_tag s) t) 1) as [E1|E1].
      { split; [intros X; injection X as <-; right; split; [reflexivity|]; split; [exact B|]; exists t; split; [reflexivity|]; left; tauto|].
        intros [[_ X]|(-> & _)]; [tauto|reflexivity]. }
      destruct (Z.eqb_spec (compare_session_tags (s_tag s) t) 2) as [E2|E2].
      { assert (M : media_of (s_tag s) t) by tauto.
        destruct (strrchr (s_tag s)) as [r1|] eqn:R1.
        - apply strrchr_some in R1. destruct R1 as (p1 & -> & L1).
          destruct (strrchr from) as [r2|] eqn:R2.
          + apply strrchr_some in R2. destruct R2 as (p2 & -> & L2).
            destruct (beq (59 :: p1) (59 :: p2)) eqn:Q.
            * apply beq_eq in Q. injection Q as ->. split.
              { intros X. injection X as <-. right. split; [reflexivity|]. split; [exact B|]. exists t. split; [reflexivity|]. right. split; [exact M|]. exists p2. auto. }
              { intros [[_ X]|(-> & _)]; [tauto|reflexivity]. }
            * split; [discriminate|]. intros [[_ X]|(_ & _ & t' & Et & [X|(_ & p & X1 & X2)])]; [tauto|injection Et as <-; tauto|exfalso].
              apply beq_neq in Q. apply Q.
              assert (Y1 : strrchr (s_tag s) = Some (59 :: p)) by (apply strrchr_some; eauto).
              assert (Y2 : strrchr from = Some (59 :: p)) by (apply strrchr_some; eauto).
              assert (Y3 : strrchr (s_tag s) = Some (59 :: p1)) by (apply strrchr_some; eauto).
              assert (Y4 : strrchr from = Some (59 :: p2)) by (apply strrchr_some; eauto). congruence.
          + split; [discriminate|]. intros [[_ X]|(_ & _ & t' & Et & [X|(_ & p & X1 & X2)])]; [tauto|injection Et as <-; tauto|exfalso].
            apply strrchr_none in R2. apply R2. destruct X2 as (q & -> & _). apply in_app_iff. right. left. reflexivity.
        - exfalso. apply strrchr_none in R1. apply R1. destruct M as (q & ->). apply in_app_iff. right. left. reflexivity. }
      split; [discriminate|]. intros [[_ X]|(_ & _ & t' & Et & [X|(X & _)])]; [tauto| |]; injection Et as <-; tauto.
    + split; [discriminate|]. intros [[_ X]|(_ & _ & t' & Et & _)]; [tauto|discriminate].
Qed.

Lemma find_some ht call from to s i : find_stream ht call from to = Some (s, i) <->
  exists l1 l2, ht = l1 ++ s :: l2 /\ s_call s = call /\ side_of from to s i /\
    forall s' j, In s' l1 -> s_call s' = call -> ~ side_of from to s' j.
Proof.
  induction ht as [|x t IH]; cbn [find_stream].
  - split; [discriminate|]. intros (l1 & l2 & E & _). destruct l1; discriminate.
  - assert (Skip : (s_call x <> call \/ forall j, ~ side_of from to x j) -> (find_stream t call from to = Some (s, i) <->
       exists l1 l2, x :: t = l1 ++ s :: l2 /\ s_call s = call /\ side_of from to s i /\
       forall s' j, In s' l1 -> s_call s' = call -> ~ side_of from to s' j)).
    { intros H. rewrite IH. split.
      - intros (l1 & l2 & -> & A & B & C). exists (x :: l1), l2. split; [reflexivity|]. split; [exact A|]. split; [exact B|].
        intros s' j [<-|Hin] K; [destruct H as [H|H]; [tauto|apply H]|eauto].
      - intros (l1 & l2 & E & A & B & C). destruct l1 as [|y l1]; cbn in E; injection E as -> ->.
        + exfalso. destruct H as [H|H]; [tauto|exact (H _ B)].
        + exists l1, l2. split; [reflexivity|]. split; [exact A|]. split; [exact B|]. intros s' j Hin. apply C. right. exact Hin. }
    destruct (beq (s_call x) call) eqn:Bc.
    + apply beq_eq in Bc. destruct (ematch from to x) as [j|] eqn:M.
      * apply ematch_ok in M. split.
        { intros X. injection X as <- <-. exists [], t. split; [reflexivity|]. split; [exact Bc|]. split; [exact M|]. intros s' j' []. }
        { intros (l1 & l2 & E & A & B & C). destruct l1 as [|y l1]; cbn in E; injection E as -> ->.
          - f_equal. f_equal. apply ematch_ok in M, B. congruence.
          - exfalso. apply (C y j); [left; reflexivity|exact Bc|exact M]. }
      * apply Skip. right. intros j X. apply ematch_ok in X. congruence.
    + apply Skip. left. apply beq_neq. exact Bc.
Qed.
Lemma find_none ht call from to : find_stream ht call from to = None <->
  forall s j, In s ht -> s_call s = call -> ~ side_of from to s j.
Proof.
  induction ht as [|x t IH]; cbn [find_stream].
  - split; [intros _ s j []|reflexivity].
  - destruct (beq (s_call x) call) eqn:Bc.
    + apply beq_eq in Bc. destruct (ematch from to x) as [j|] eqn:M.
      * split; [discriminate|]. intros H. exfalso. apply ematch_ok in M. apply (H x j); [left; reflexivity|exact Bc|exact M].
      * rewrite IH. split.
        { intros H s j [<-|Hin]; [|apply H; exact Hin]. intros _ X. apply ematch_ok in X. congruence. }
        { intros H s j Hin. apply H. right. exact Hin. }
    + apply beq_neq in Bc. rewrite IH. split; [intros H s j [<-|Hin]; [tauto|apply H; exact Hin]|intros H s j Hin; apply H; right; exact Hin].
Qed.

(** * Delete *)
Lemma del_match_ok from to s idx c : del_match from (Some to) s = Some (idx, c) <->
  (c = 1 /\ addressed (s_call s) from to s idx true) \/ (c = 2 /\ addressed (s_call s) from to s idx false).
Proof.
  unfold del_match, addressed, tag_match. cbn zeta.
  destruct (compare_ok (s_tag s) from) as (A1 & A2 & A3). destruct (compare_ok (s_tag s) to) as (B1 & B2 & B3).
  destruct (Z.eqb_spec (compare_session_tags (s_tag s) from) 0) as [E|E]; cbn [negb].
  - assert (NF : forall e : bool, ~ (if e then s_tag s = from else media_of (s_tag s) from)) by (intros [|]; intros X; [apply A1 in X|apply A2 in X]; lia).
    destruct (Z.eqb_spec (compare_session_tags (s_tag s) to) 0) as [E'|E']; cbn [negb].
    + split; [discriminate|]. intros [(_ & _ & X)|(_ & _ & X)]; destruct X as [(_ & X)|(_ & _ & X)].
      * exfalso. apply (NF true X). * apply B1 in X. lia. * exfalso. apply (NF false X). * apply B2 in X. lia.
    + split.
      * intros X. injection X as <- <-. destruct B3 as [B3|[B3|B3]]; [tauto| |].
        -- left. split; [exact B3|]. split; [reflexivity|]. right. split; [reflexivity|]. split; [exact NF|tauto].
        -- right. split; [exact B3|]. split; [reflexivity|]. right. split; [reflexivity|]. split; [exact NF|tauto].
      * intros [(-> & _ & X)|(-> & _ & X)]; (destruct X as [(_ & X)|(-> & _ & X)]; [exfalso; first [exact (NF true X)|exact (NF false X)]|]).
        -- apply B1 in X. rewrite X. reflexivity.
        -- apply B2 in X. rewrite X. reflexivity.
  - assert (YF : exists e : bool, if e then s_tag s = from else media_of (s_tag s) from).
    { destruct A3 as [A3|[A3|A3]]; [tauto| |]; [exists true; tauto|exists false; tauto]. }
    split.
    + intros X. injection X as <- <-. destruct A3 as [A3|[A3|A3]]; [tauto| |].
      * left. split; [exact A3|]. split; [reflexivity|]. left. split; [reflexivity|tauto].
      * right. split; [exact A3|]. split; [reflexivity|]. left. split; [reflexivity|tauto].
    + intros [(-> & _ & X)|(-> & _ & X)]; (destruct X as [(-> & X)|(_ & X & _)]; [|exfalso; destruct YF as (e & YF); exact (X e YF)]).
      * apply A1 in X. rewrite X. reflexivity.
      * apply A2 in X. rewrite X. reflexivity.
Qed.

Lemma addressed_call call from to s i e : addressed call from to s i e -> call = s_call s.
Proof. intros [H _]. auto. Qed.
Lemma del_match_idx from to s idx c : del_match from to s = Some (idx, c) -> (idx = 0 \/ idx = 1) /\ (c = 1 \/ c = 2).
Proof.
  unfold del_match. cbn zeta. destruct (compare_ok (s_tag s) from) as (_ & _ & A3).
  destruct (Z.eqb_spec (compare_session_tags (s_tag s) from) 0); cbn [negb].
  - destruct to as [to|]; [|discriminate]. destruct (compare_ok (s_tag s) to) as (_ & _ & B3).
    destruct (Z.eqb_spec (compare_session_tags (s_tag s) to) 0); cbn [negb]; [discriminate|]. intros X. injection X as <- <-. lia.
  - intros X. injection X as <- <-. lia.
Qed.

Lemma clear_loses s weak idx : idx = 0 \/ idx = 1 -> loses weak idx s (clear_flag s weak idx).
Proof. intros H. unfold loses, clear_flag, same_stream, set_weak. destruct weak; [destruct H as [-> | ->]|]; cbn; auto 20. Qed.
Lemma held_free s : held s = true <-> ~ free s.
Proof. unfold held, free. destruct (s_strong s), (st_weak (s_st0 s)), (st_weak (s_st1 s)); cbn; split; intros; try tauto; try congruence; try (intros (? & ? & ?); congruence); exfalso; auto. Qed.
Lemma held_false s : held s = false <-> free s.
Proof. unfold held, free. destruct (s_strong s), (st_weak (s_st0 s)), (st_weak (s_st1 s)); cbn; split; intros; try tauto; try congruence; try (destruct H as (? & ? & ?); congruence). Qed.
Lemma clear_idem s weak idx : clear_flag (clear_flag s weak idx) weak idx = clear_flag s weak idx.
Proof. unfold clear_flag. destruct weak; [destruct (idx =? 0)|]; reflexivity. Qed.
Lemma clear_tag s weak idx : s_tag (clear_flag s weak idx) = s_tag s /\ s_call (clear_flag s weak idx) = s_call s /\ s_uid (clear_flag s weak idx) = s_uid s.
Proof. unfold clear_flag. destruct weak; [destruct (idx =? 0)|]; auto. Qed.
Lemma del_match_tag from to s s' : s_tag s = s_tag s' -> del_match from to s = del_match from to s'.
Proof. unfold del_match. intros ->. reflexivity. Qed.

Section Del.
  Context (call from to : list Z) (weak : bool).
  (** not changed by another pass *)
  Definition stable (s : sess) : Prop :=
    s_call s <> call \/ (s_call s = call /\ del_match from (Some to) s = None) \/
    (s_call s = call /\ exists idx c, del_match from (Some to) s = Some (idx, c) /\ clear_flag s weak idx = s /\ held s = true).
  Definition cnt (s : sess) : Z := if beq (s_call s) call then match del_match from (Some to) s with Some _ => 1 | None => 0 end else 0.

  Lemma pass_stable pre t : Forall stable pre -> del_pass (pre ++ t) call from (Some to) weak =
    let '(t', n, d) := del_pass t call from (Some to) weak in (pre ++ t', (n + fold_right (fun s a => cnt s + a) 0 pre), d).
  Proof.
    induction pre as [|s pre IH]; intros H.
    - cbn [app fold_right]. destruct (del_pass t call from (Some to) weak) as [[t' n] d]. rewrite Z.add_0_r. reflexivity.
    - inversion H; subst. cbn [app del_pass fold_right]. rewrite (IH H3).
      destruct (del_pass t call from (Some to) weak) as [[t' n] d].
      destruct H2 as [N|[(E & M)|(E & idx & c & M & C & Hd)]].
      + assert (Q : beq (s_call s) call = false) by (apply beq_neq; exact N). assert (K : cnt s = 0) by (unfold cnt; rewrite Q; reflexivity). rewrite Q, K. reflexivity.
      + assert (K : cnt s = 0) by (unfold cnt; rewrite E, beq_refl, M; reflexivity). rewrite E, beq_refl, M, K. reflexivity.
      + assert (K : cnt s = 1) by (unfold cnt; rewrite E, beq_refl, M; reflexivity). rewrite E, beq_refl, M, C, Hd, K. f_equal. f_equal. lia.
  Qed.

  Fixpoint sweep (ht : list sess) : list sess * list Z * bool :=
    match ht with
    | [] => ([], [], false)
    | s :: t =>
        if beq (s_call s) call then
          match del_match from (Some to) s with
          | None => let '(t', r, f) := sweep t in (s :: t', r, f)
          | Some (idx, cmpr) =>
              let s' := clear_flag s weak idx in
              if held s' then let '(t', r, f) := sweep t in (s' :: t', r, true)
              else if cmpr =? 2 then let '(t', r, f) := sweep t in (t', s_uid s :: r, true)
              else (t, [s_uid s], true)
          end
        else let '(t', r, f) := sweep t in (s :: t', r, f)
    end.

  Definition rm (r l : list Z) : list Z := filter (fun y => negb (existsb (Z.eqb y) r)) l.
  Lemma rm_cons x r l : rm (x :: r) l = rm r (unreg x l).
  Proof.
    unfold rm, unreg. induction l as [|y l IH]; [reflexivity|]. cbn [filter].
    change (existsb (Z.eqb y) (x :: r)) with ((y =? x) || existsb (Z.eqb y) r). destruct (y =? x) eqn:E; cbn [orb negb].
    - exact IH.
    - cbn [filter]. destruct (negb (existsb (Z.eqb y) r)); rewrite IH; reflexivity.
  Qed.
  Lemma rm_nil l : rm [] l = l.
  Proof. unfold rm. induction l as [|y l IH]; [reflexivity|]. cbn. f_equal. exact IH. Qed.

  Lemma cnt_nonneg l : 0 <= fold_right (fun s a => cnt s + a) 0 l.
  Proof. induction l as [|s l IH]; cbn [fold_right]; [lia|]. assert (0 <= cnt s); [|lia]. unfold cnt. destruct (beq _ _); [destruct (del_match _ _ _)|]; lia. Qed.

  Lemma do_delete_sweep t : forall pre fuel wrt nx nd, Forall stable pre -> (length t < fuel)%nat -> 0 <= nd ->
    (forall s, In s t -> In (s_uid s) wrt) -> NoDup (map s_uid t) ->
    do_delete fuel (mkTab (pre ++ t) wrt nx) call from (Some to) weak nd =
    let '(t', r, f) := sweep t in
    Some (mkTab (pre ++ t') (rm r wrt) nx, if ((nd =? 0) && (fold_right (fun s a => cnt s + a) 0 pre =? 0) && negb f) then -1 else 0).
  Proof.
    induction t as [|s t IH]; intros pre fuel wrt nx nd Hs Hf Hnd Hw Hu; (destruct fuel as [|fuel]; [cbn in Hf; lia|]).
    - cbn [do_delete t_ht t_wrt t_next]. rewrite pass_stable by exact Hs. cbn [del_pass sweep]. rewrite rm_nil. pose proof (cnt_nonneg pre).
      f_equal. f_equal. replace (nd + (0 + fold_right (fun s a => cnt s + a) 0 pre) =? 0) with ((nd =? 0) && (fold_right (fun s a => cnt s + a) 0 pre =? 0)) by lia. rewrite andb_true_r. reflexivity.
    - assert (Same : forall s', del_pass (s :: t) call from (Some to) weak = del_pass (s' :: t) call from (Some to) weak -> stable s' ->
         do_delete (S fuel) (mkTab (pre ++ s :: t) wrt nx) call from (Some to) weak nd = do_delete (S fuel) (mkTab ((pre ++ [s']) ++ t) wrt nx) call from (Some to) weak nd).
      { intros s' E Hst. cbn [do_delete t_ht t_wrt t_next]. rewrite <- app_assoc. cbn [app]. rewrite !pass_stable by exact Hs. rewrite E. reflexivity. }
      assert (Step : forall s', del_pass (s :: t) call from (Some to) weak = del_pass (s' :: t) call from (Some to) weak -> stable s' ->
         do_delete (S fuel) (mkTab (pre ++ s :: t) wrt nx) call from (Some to) weak nd =
         let '(t', r, f) := sweep t in
         Some (mkTab (pre ++ s' :: t') (rm r wrt) nx, if ((nd =? 0) && (fold_right (fun s a => cnt s + a) 0 pre + cnt s' =? 0) && negb f) then -1 else 0)).
      { intros s' E Hst. rewrite (Same s' E Hst). rewrite (IH (pre ++ [s']) (S fuel) wrt nx nd).
        - destruct (sweep t) as [[t' r] f]. rewrite <- app_assoc. cbn [app]. rewrite fold_right_app. cbn [fold_right].
          replace (fold_right (fun s a => cnt s + a) (cnt s' + 0) pre) with (fold_right (fun s a => cnt s + a) 0 pre + cnt s'); [reflexivity|].
          clear. induction pre as [|y l IH]; cbn [fold_right]; lia.
        - apply Forall_app. auto.
        - cbn in Hf. lia.
        - exact Hnd.
        - intros x Hx. apply Hw. right. exact Hx.
        - cbn in Hu. inversion Hu; assumption. }
      cbn [sweep]. destruct (beq (s_call s) call) eqn:Bc.
      + apply beq_eq in Bc. destruct (del_match from (Some to) s) as [[idx cmpr]|] eqn:M.
        * set (s' := clear_flag s weak idx). destruct (clear_tag s weak idx) as (T1 & T2 & T3). fold s' in T1, T2, T3.
          assert (M' : del_match from (Some to) s' = Some (idx, cmpr)) by (rewrite <- M; apply del_match_tag; exact T1).
          destruct (held s') eqn:Hh.
          { rewrite (Step s').
            - destruct (sweep t) as [[t' r] f]. f_equal. f_equal.
              assert (K : cnt s' = 1) by (unfold cnt; rewrite T2, Bc, beq_refl, M'; reflexivity). rewrite K. cbn [negb].
              pose proof (cnt_nonneg pre). replace (fold_right (fun s a => cnt s + a) 0 pre + 1 =? 0) with false by lia. rewrite !andb_false_r. cbn. reflexivity.
            - cbn [del_pass]. assert (Ci : clear_flag s' weak idx = s') by apply clear_idem. rewrite T2, Bc, beq_refl, M, M', Ci. fold s'. rewrite Hh. reflexivity.
            - right. right. split; [congruence|]. exists idx, cmpr. split; [exact M'|]. split; [apply clear_idem|exact Hh]. }
          assert (Hm : mem (s_uid s') wrt = true).
          { unfold mem. apply existsb_exists. exists (s_uid s). split; [apply Hw; left; reflexivity|]. rewrite T3. apply Z.eqb_refl. }
          cbn [do_delete t_ht t_wrt t_next]. rewrite pass_stable by exact Hs. cbn [del_pass]. rewrite Bc, beq_refl, M. fold s'. rewrite Hh, Hm, T3.
          pose proof (cnt_nonneg pre).
          destruct (Z.eqb_spec cmpr 2).
          { rewrite (IH pre fuel (unreg (s_uid s) wrt) nx).
            - destruct (sweep t) as [[t' r] f]. rewrite rm_cons. cbn [negb]. f_equal. f_equal.
              replace (_ + 1 =? 0) with false by lia. cbn [andb]. rewrite !andb_false_r. reflexivity.
            - exact Hs.
            - cbn in Hf. lia.
            - lia.
            - intros x Hx. unfold unreg. apply filter_In. split; [apply Hw; right; exact Hx|]. cbn in Hu. inversion Hu; subst.
              apply negb_true_iff. apply Z.eqb_neq. intros E. apply H2. rewrite <- E. apply in_map. exact Hx.
            - cbn in Hu. inversion Hu; assumption. }
          { rewrite rm_cons, rm_nil. cbn [negb]. f_equal. f_equal. replace (_ =? 0) with false by lia. rewrite !andb_false_r. reflexivity. }
        * rewrite (Step s); [|reflexivity|right; left; auto]. destruct (sweep t) as [[t' r] f]. f_equal. f_equal. assert (K : cnt s = 0) by (unfold cnt; rewrite Bc, beq_refl, M; reflexivity).
          rewrite K, Z.add_0_r. reflexivity.
      + pose proof Bc as Bn. apply beq_neq in Bn. rewrite (Step s); [|reflexivity|left; exact Bn]. destruct (sweep t) as [[t' r] f]. f_equal. f_equal. assert (K : cnt s = 0) by (unfold cnt; rewrite Bc; reflexivity).
        rewrite K, Z.add_0_r. reflexivity.
  Qed.

  Lemma addr_of s idx c : s_call s = call -> del_match from (Some to) s = Some (idx, c) -> exists e : bool, addressed call from to s idx e /\ c = if e then 1 else 2.
  Proof. intros E M. apply del_match_ok in M. rewrite E in M. destruct M as [[-> M]|[-> M]]; [exists true|exists false]; auto. Qed.
  Lemma not_addr s i e : addressed call from to s i e -> s_call s = call /\ exists c, del_match from (Some to) s = Some (i, c).
  Proof.
    intros A. pose proof (addressed_call _ _ _ _ _ _ A). split; [auto|]. rewrite H in A. destruct e.
    - exists 1. apply del_match_ok. auto.
    - exists 2. apply del_match_ok. auto.
  Qed.

  Lemma sweep_swept ht : let '(l, r, f) := sweep ht in swept call from to weak ht l r /\
    (f = true <-> exists s i e, In s ht /\ addressed call from to s i e).
  Proof.
    induction ht as [|s t IH]; cbn [sweep].
    - split; [constructor|]. split; [discriminate|]. intros (s & _ & _ & [] & _).
    - destruct (beq (s_call s) call) eqn:Bc.
      + apply beq_eq in Bc. destruct (del_match from (Some to) s) as [[idx c]|] eqn:M.
        * destruct (addr_of _ _ _ Bc M) as (e & A & Ec). destruct (del_match_idx _ _ _ _ _ M) as (Hi & Hc).
          assert (F : true = true <-> exists s0 i e, In s0 (s :: t) /\ addressed call from to s0 i e) by (split; [exists s, idx, e; split; [left; reflexivity|exact A]|reflexivity]).
          cbn zeta. destruct (held (clear_flag s weak idx)) eqn:Hh.
          -- destruct (sweep t) as [[t' r] f]. split; [|exact F]. econstructor; [exact A|apply clear_loses; exact Hi|apply held_free; exact Hh|apply IH].
          -- apply held_false in Hh. destruct (Z.eqb_spec c 2).
             ++ destruct e; [lia|]. destruct (sweep t) as [[t' r] f]. split; [|exact F]. econstructor; [exact A|apply clear_loses; exact Hi|exact Hh|apply IH].
             ++ destruct e; [|lia]. split; [|exact F]. econstructor; [exact A|apply clear_loses; exact Hi|exact Hh].
        * destruct (sweep t) as [[t' r] f]. destruct IH as [I1 I2].
          assert (NA : forall i e, ~ addressed call from to s i e) by (intros i e A; destruct (not_addr _ _ _ A) as (_ & c & X); congruence).
          split; [constructor; assumption|]. rewrite I2. split; intros (x & i & e & Hin & A).
          -- exists x, i, e. split; [right; exact Hin|exact A].
          -- destruct Hin as [<-|Hin]; [exfalso; exact (NA _ _ A)|]. exists x, i, e. auto.
      + apply beq_neq in Bc. destruct (sweep t) as [[t' r] f]. destruct IH as [I1 I2].
        assert (NA : forall i e, ~ addressed call from to s i e) by (intros i e A; destruct (not_addr _ _ _ A) as (X & _); congruence).
        split; [constructor; assumption|]. rewrite I2. split; intros (x & i & e & Hin & A).
        * exists x, i, e. split; [right; exact Hin|exact A].
        * destruct Hin as [<-|Hin]; [exfalso; exact (NA _ _ A)|]. exists x, i, e. auto.
  Qed.
End Del.

(** * Histories *)
Definition okst (x : strm) : Prop := st_port x <> 0 -> st_skt x = true.
Record TInv (tb : table) : Prop := {
  v_nd : NoDup (map s_uid (t_ht tb));
  v_lt : forall s, In s (t_ht tb) -> s_uid s < t_next tb;
  v_wrt : forall s, In s (t_ht tb) -> In (s_uid s) (t_wrt tb);
  v_ok : forall s, In s (t_ht tb) -> okst (s_st0 s) /\ okst (s_st1 s)
}.
Definition ev_strm (nw : bool) (x y : strm) : Prop :=
  same_stream y x \/ ((nw = true \/ st_port x = 0 \/ st_skt x = false) /\ (st_skt y = true \/ (st_port y = st_port x /\ st_skt y = st_skt x))).
Definition evolve (nw : bool) (s s' : sess) : Prop :=
  s_uid s' = s_uid s /\ s_call s' = s_call s /\ s_tag s' = s_tag s /\ ev_strm nw (s_st0 s) (s_st0 s') /\ ev_strm nw (s_st1 s) (s_st1 s').
Inductive flow (nw : bool) (nx : Z) : list sess -> list sess -> Prop :=
| fl_nil : flow nw nx [] []
| fl_new s : s_uid s = nx -> okst (s_st0 s) -> okst (s_st1 s) -> flow nw nx [] [s]
| fl_keep s s' l l' : evolve nw s s' -> flow nw nx l l' -> flow nw nx (s :: l) (s' :: l')
| fl_drop s l l' : flow nw nx l l' -> flow nw nx (s :: l) l'.

Lemma same_refl x : same_stream x x. Proof. unfold same_stream. auto. Qed.
Lemma evolve_refl nw s : evolve nw s s.
Proof. unfold evolve, ev_strm. pose proof (same_refl (s_st0 s)). pose proof (same_refl (s_st1 s)). auto 10. Qed.
Lemma flow_refl nw nx l : flow nw nx l l.
Proof. induction l; constructor; auto using evolve_refl. Qed.
Lemma flow_in nw nx l l' s' : flow nw nx l l' -> In s' l' -> s_uid s' = nx \/ exists s, In s l /\ evolve nw s s'.
Proof.
  induction 1; intros Hin.
  - destruct Hin.
  - destruct Hin as [<-|[]]; auto.
  - destruct Hin as [<-|Hin]; [right; exists s; split; [left; reflexivity|assumption]|]. destruct (IHflow Hin) as [?|(x & ? & ?)]; [auto|right; exists x; split; [right|]; assumption].
  - destruct (IHflow Hin) as [?|(x & ? & ?)]; [auto|right; exists x; split; [right|]; assumption].
Qed.
Lemma flow_ok nw nx l l' : flow nw nx l l' -> (forall s, In s l -> okst (s_st0 s) /\ okst (s_st1 s)) -> forall s, In s l' -> okst (s_st0 s) /\ okst (s_st1 s).
Proof.
  assert (E : forall x y, okst x -> ev_strm nw x y -> okst y).
  { unfold okst, ev_strm, same_stream. intros x y H [(A & B & _)|[_ [A|[A B]]]] N; try congruence; rewrite B; apply H; congruence. }
  induction 1; intros Ho x Hin.
  - destruct Hin.
  - destruct Hin as [<-|[]]; auto.
  - destruct Hin as [<-|Hin]; [|apply IHflow; auto; intros y Hy; apply Ho; right; exact Hy].
    destruct H as (_ & _ & _ & A & B). destruct (Ho s (or_introl eq_refl)) as [Q0 Q1]. split; [exact (E _ _ Q0 A)|exact (E _ _ Q1 B)].
  - apply IHflow; auto. intros y Hy. apply Ho. right. exact Hy.
Qed.
Lemma flow_nd nw nx l l' : flow nw nx l l' -> NoDup (map s_uid l) -> (forall s, In s l -> s_uid s < nx) -> NoDup (map s_uid l').
Proof.
  induction 1; intros N L; cbn [map].
  - constructor.
  - constructor; [intros []|constructor].
  - cbn in N. inversion N; subst. constructor.
    + intros Hin. apply in_map_iff in Hin. destruct Hin as (x & E & Hin). destruct H as (Hu & _).
      destruct (flow_in _ _ _ _ _ H0 Hin) as [Q|(y & Hy & (Eu & _))].
      * specialize (L s (or_introl eq_refl)). lia.
      * apply H3. rewrite <- Hu, <- E, Eu. apply in_map. exact Hy.
    + apply IHflow; [assumption|]. intros y Hy. apply L. right. exact Hy.
  - cbn in N. inversion N; subst. apply IHflow; [assumption|]. intros y Hy. apply L. right. exact Hy.
Qed.

Lemma loses_evolve nw weak i s s' : loses weak i s s' -> evolve nw s s'.
Proof. intros (A & B & C & _ & D & E & _). unfold evolve, ev_strm. auto 10. Qed.

Lemma swept_flow call from to weak nw nx l l' r : swept call from to weak l l' r -> flow nw nx l l'.
Proof.
  induction 1; try (constructor; eauto using evolve_refl, loses_evolve, flow_refl; fail).
Qed.
Lemma swept_wrt call from to weak l l' r : swept call from to weak l l' r -> NoDup (map s_uid l) -> forall s, In s l' -> In (s_uid s) (map s_uid l) /\ ~ In (s_uid s) r.
Proof.
  induction 1; intros N x Hx; cbn [map In] in *.
  - destruct Hx.
  - inversion N; subst. destruct Hx as [<-|Hx].
    + split; [auto|]. intros Hr. apply H3. clear - H0 Hr. induction H0; cbn in *; try tauto; intuition.
    + destruct (IHswept H4 _ Hx). auto.
  - inversion N; subst. destruct Hx as [<-|Hx].
    + destruct H0 as (Eu & _). rewrite Eu. split; [auto|]. intros Hr. apply H5. clear - H2 Hr. induction H2; cbn in *; try tauto; intuition.
    + destruct (IHswept H6 _ Hx). auto.
  - inversion N; subst. destruct (IHswept H6 _ Hx) as [A B]. split; [auto|]. intros [E|E]; [|tauto]. apply H5. rewrite E. exact A.
  - inversion N; subst. split; [right; apply in_map; exact Hx|]. intros [E|[]]. apply H4. rewrite E. apply in_map. exact Hx.
Qed.

Lemma flow_app nw nx l1 : forall l2 l2', flow nw nx l2 l2' -> flow nw nx (l1 ++ l2) (l1 ++ l2').
Proof. induction l1; intros; cbn; [assumption|]. constructor; auto using evolve_refl. Qed.
Lemma put_split l1 s l2 s' : NoDup (map s_uid (l1 ++ s :: l2)) -> s_uid s' = s_uid s -> put (l1 ++ s :: l2) s' = l1 ++ s' :: l2.
Proof.
  intros N E. unfold put. rewrite map_app. cbn [map]. rewrite E, Z.eqb_refl.
  rewrite map_app in N. cbn [map] in N.
  assert (A : forall l, (forall x, In x l -> s_uid x <> s_uid s) -> map (fun x => if s_uid x =? s_uid s then s' else x) l = l).
  { induction l as [|x l IH]; intros H; [reflexivity|]. cbn [map]. rewrite IH by (intros y Hy; apply H; right; exact Hy).
    destruct (Z.eqb_spec (s_uid x) (s_uid s)); [exfalso; apply (H x); [left; reflexivity|assumption]|reflexivity]. }
  pose proof (NoDup_remove_2 _ _ _ N) as Q. f_equal; [apply A|f_equal; apply A]; intros x Hx Ex; apply Q; apply in_app_iff; [left|right]; rewrite <- Ex; apply in_map; exact Hx.
Qed.

Lemma set_stream_evolve nw s i y strong complete : (i = 0 \/ i = 1) -> ev_strm nw (stream s i) y -> evolve nw s (set_stream s i y strong complete).
Proof.
  unfold evolve, set_stream, stream. intros [-> | ->] H; cbn; unfold ev_strm at 1 2; pose proof (same_refl (s_st0 s)); pose proof (same_refl (s_st1 s)); auto 10.
Qed.
Lemma set_stream_uid s i y a b : s_uid (set_stream s i y a b) = s_uid s.
Proof. unfold set_stream. destruct (i =? 0); reflexivity. Qed.

Lemma ul_existing_shape tb up o listen s i : exists y strong complete,
  let '(tb', rep) := ul_existing tb up o listen s i in
  tb' = mkTab (put (t_ht tb) (set_stream s i y strong complete)) (t_wrt tb) (t_next tb) /\ ev_strm (o_new o) (stream s i) y /\
  (negb (st_skt (stream s i)) || (st_port (stream s i) =? 0) || o_new o = false -> same_stream y (stream s i)) /\
  (rep = RErr \/ rep = RPort (st_port y) (st_laddr y)) /\
  ((st_port y = st_port (stream s i) \/ listen = Some (st_port y))) /\
  (rep = RErr -> listen = None).
Proof.
  unfold ul_existing. cbn zeta. set (x := stream s i).
  destruct (negb (st_skt x) || (st_port x =? 0) || o_new o) eqn:C.
  - assert (P : o_new o = true \/ st_port x = 0 \/ st_skt x = false) by (destruct (st_skt x), (o_new o), (Z.eqb_spec (st_port x) 0); cbn in *; auto; discriminate).
    destruct listen as [p|].
    + eexists _, _, _. split; [reflexivity|]. split.
      { right. split; [exact P|]. left. destruct (o_weak o); reflexivity. }
      split; [discriminate|]. split; [right; reflexivity|]. split; [right; destruct (o_weak o); reflexivity|discriminate].
    + eexists _, _, _. split; [reflexivity|]. split; [right; split; [exact P|right; auto]|]. split; [discriminate|]. split; [left; reflexivity|]. split; [left; reflexivity|reflexivity].
  - eexists _, _, _. split; [reflexivity|].
    assert (Sm : same_stream (if o_weak o then set_weak x true else x) x) by (destruct (o_weak o); unfold same_stream; cbn; auto).
    split; [left; exact Sm|]. split; [intros _; exact Sm|]. split; [right; reflexivity|]. split; [left; apply Sm|discriminate].
Qed.

Lemma side_range from to s i : side_of from to s i -> i = 0 \/ i = 1.
Proof. intros [[H _]|[H _]]; auto. Qed.

Lemma ul_flow_at tb up o listen s i l1 l2 nx : TInv tb -> t_ht tb = l1 ++ s :: l2 -> i = 0 \/ i = 1 ->
  flow (o_new o) nx (t_ht tb) (t_ht (fst (ul_existing tb up o listen s i))) /\ TInv (fst (ul_existing tb up o listen s i)).
Proof.
  intros H E I01.
  destruct (ul_existing_shape tb up o listen s i) as (y & st & cp & X). destruct (ul_existing tb up o listen s i) as [tb' rep]. destruct X as (-> & Ev & _).
  assert (Pe : put (t_ht tb) (set_stream s i y st cp) = l1 ++ set_stream s i y st cp :: l2).
  { rewrite E. apply put_split; [rewrite <- E; apply (v_nd _ H)|apply set_stream_uid]. }
  assert (Fl : forall nx, flow (o_new o) nx (t_ht tb) (l1 ++ set_stream s i y st cp :: l2)).
  { intros nx0. rewrite E. apply flow_app. constructor; [apply set_stream_evolve; assumption|apply flow_refl]. }
  cbn [fst t_ht]. rewrite Pe. split; [apply Fl|].
  assert (Uid : map s_uid (l1 ++ set_stream s i y st cp :: l2) = map s_uid (t_ht tb)) by (rewrite E, !map_app; cbn [map]; rewrite set_stream_uid; reflexivity).
  constructor; cbn [t_ht t_wrt t_next].
  - rewrite Uid. apply (v_nd _ H).
  - intros x Hx. apply (in_map s_uid) in Hx. rewrite Uid in Hx. apply in_map_iff in Hx. destruct Hx as (z & <- & Hz). apply (v_lt _ H). exact Hz.
  - intros x Hx. apply (in_map s_uid) in Hx. rewrite Uid in Hx. apply in_map_iff in Hx. destruct Hx as (z & <- & Hz). apply (v_wrt _ H). exact Hz.
  - eapply flow_ok; [apply (Fl 0)|apply (v_ok _ H)].
Qed.

Lemma ul_flow tb up o listen s i call from to j nx : TInv tb -> find_stream (t_ht tb) call from to = Some (s, j) -> (i = j \/ i = 1 - j) ->
  flow (o_new o) nx (t_ht tb) (t_ht (fst (ul_existing tb up o listen s i))) /\ TInv (fst (ul_existing tb up o listen s i)).
Proof.
  intros H F Hi. apply find_some in F. destruct F as (l1 & l2 & E & _ & Sd & _). apply (ul_flow_at tb up o listen s i l1 l2); auto. apply side_range in Sd; lia.
Qed.

Lemma rm_in r l u : In u l -> ~ In u r -> In u (rm r l).
Proof.
  intros A B. unfold rm. apply filter_In. split; [exact A|]. apply negb_true_iff. apply not_true_is_false. intros X.
  apply existsb_exists in X. destruct X as (v & Hv & E). apply Z.eqb_eq in E. subst v. tauto.
Qed.

Lemma do_delete_run tb call from to weak : TInv tb -> exists l r,
  do_delete (S (length (t_ht tb))) tb call from (Some to) weak 0 = Some (mkTab l (rm r (t_wrt tb)) (t_next tb), if snd (sweep call from to weak (t_ht tb)) then 0 else -1) /\
  swept call from to weak (t_ht tb) l r.
Proof.
  intros H. pose proof (do_delete_sweep call from to weak (t_ht tb) [] (S (length (t_ht tb))) (t_wrt tb) (t_next tb) 0 (Forall_nil _)) as D.
  assert (L : (length (t_ht tb) < S (length (t_ht tb)))%nat) by lia. specialize (D L (Z.le_refl 0) (v_wrt _ H) (v_nd _ H)).
  pose proof (sweep_swept call from to weak (t_ht tb)) as S. destruct (sweep call from to weak (t_ht tb)) as [[l r] f] eqn:Es. destruct S as [S F].
  exists l, r. split; [|exact S]. replace tb with (mkTab ([] ++ t_ht tb) (t_wrt tb) (t_next tb)) at 2 by (destruct tb; reflexivity).
  rewrite D. cbn. destruct f; reflexivity.
Qed.

Lemma step_ok tb c l r : TInv tb -> exists tb' rep, step tb c l r = Some (tb', rep) /\ TInv tb' /\
  flow (wants_new c) (t_next tb) (t_ht tb) (t_ht tb') /\ t_next tb <= t_next tb'.
Proof.
  intros H. destruct c as [call from to o|call from to o|call from to weak| |uid]; cbn [step wants_new].
  - destruct (find_stream (t_ht tb) call from to) as [[s i]|] eqn:F.
    + destruct (ul_flow tb true o l s i call from to i (t_next tb) H F (or_introl eq_refl)) as [A B].
      assert (N : t_next (fst (ul_existing tb true o l s i)) = t_next tb) by (destruct (ul_existing_shape tb true o l s i) as (y & st & cp & X); destruct (ul_existing tb true o l s i); destruct X as (-> & _); reflexivity).
      destruct (ul_existing tb true o l s i) as [tb' rep]. exists tb', rep. cbn [fst] in *. split; [reflexivity|]. split; [exact B|]. split; [exact A|lia].
    + unfold ul_new. destruct r; [exists tb, RErr; split; [reflexivity|]; split; [exact H|]; split; [apply flow_refl|lia]|].
      destruct l as [p|]; [|exists tb, RErr; split; [reflexivity|]; split; [exact H|]; split; [apply flow_refl|lia]].
      set (s := mkSess _ _ _ _ _ _ _).
      assert (O0 : okst (s_st0 s)) by (unfold okst; reflexivity). assert (O1 : okst (s_st1 s)) by (unfold okst; cbn; lia).
      assert (Fl : flow (o_new o) (t_next tb) (t_ht tb) (t_ht tb ++ [s])).
      { rewrite <- (app_nil_r (t_ht tb)) at 1. apply flow_app. apply fl_new; [reflexivity|assumption|assumption]. }
      eexists _, _. split; [reflexivity|]. split; [|split; [exact Fl|cbn; lia]].
      constructor; cbn [t_ht t_wrt t_next].
      * eapply flow_nd; [exact Fl|apply (v_nd _ H)|apply (v_lt _ H)].
      * intros x Hx. apply in_app_iff in Hx. destruct Hx as [Hx|[<-|[]]]; [pose proof (v_lt _ H _ Hx); lia|cbn; lia].
      * intros x Hx. apply in_app_iff in Hx. destruct Hx as [Hx|[<-|[]]]; [right; apply (v_wrt _ H); exact Hx|left; reflexivity].
      * eapply flow_ok; [exact Fl|apply (v_ok _ H)].
  - destruct (find_stream (t_ht tb) call from to) as [[s i]|] eqn:F.
    + destruct (ul_flow tb false o l s (1 - i) call from to i (t_next tb) H F (or_intror eq_refl)) as [A B].
      assert (N : t_next (fst (ul_existing tb false o l s (1 - i))) = t_next tb) by (destruct (ul_existing_shape tb false o l s (1 - i)) as (y & st & cp & X); destruct (ul_existing tb false o l s (1 - i)); destruct X as (-> & _); reflexivity).
      destruct (ul_existing tb false o l s (1 - i)) as [tb' rep]. exists tb', rep. cbn [fst] in *. split; [reflexivity|]. split; [exact B|]. split; [exact A|lia].
    + exists tb, RZero. split; [reflexivity|]. split; [exact H|]. split; [apply flow_refl|lia].
  - destruct (do_delete_run tb call from to weak H) as (l' & r' & E & S). rewrite E. eexists _, _. split; [reflexivity|].
    pose proof (swept_flow _ _ _ _ false (t_next tb) _ _ _ S) as Fl. split; [|split; [exact Fl|cbn; lia]].
    constructor; cbn [t_ht t_wrt t_next].
    + eapply flow_nd; [exact Fl|apply (v_nd _ H)|apply (v_lt _ H)].
    + intros x Hx. destruct (swept_wrt _ _ _ _ _ _ _ S (v_nd _ H) _ Hx) as [A _]. apply in_map_iff in A. destruct A as (z & <- & Hz). apply (v_lt _ H). exact Hz.
    + intros x Hx. destruct (swept_wrt _ _ _ _ _ _ _ S (v_nd _ H) _ Hx) as [A B]. apply rm_in; [|exact B]. apply in_map_iff in A. destruct A as (z & <- & Hz). apply (v_wrt _ H). exact Hz.
    + eapply flow_ok; [exact Fl|apply (v_ok _ H)].
  - eexists _, _. split; [reflexivity|]. split; [constructor; cbn; try (intros ? []); constructor|]. split; [|cbn; lia].
    cbn [t_ht]. clear H. induction (t_ht tb); constructor; assumption.
  - eexists _, _. split; [reflexivity|].
    assert (Fl : flow false (t_next tb) (t_ht tb) (filter (fun s => negb (s_uid s =? uid)) (t_ht tb))).
    { clear H. induction (t_ht tb) as [|s t IH]; cbn [filter]; [constructor|]. destruct (negb _); constructor; auto using evolve_refl. }
    split; [|split; [exact Fl|cbn; lia]]. constructor; cbn [t_ht t_wrt t_next].
    + eapply flow_nd; [exact Fl|apply (v_nd _ H)|apply (v_lt _ H)].
    + intros x Hx. apply filter_In in Hx. apply (v_lt _ H). tauto.
    + intros x Hx. apply filter_In in Hx. destruct Hx as [Hx Hn]. apply filter_In. split; [apply (v_wrt _ H); exact Hx|exact Hn].
    + eapply flow_ok; [exact Fl|apply (v_ok _ H)].
Qed.

Lemma inv_table0 : TInv table0.
Proof. constructor; cbn; try (intros ? []); constructor. Qed.

Lemma run_ok es : forall tb, TInv tb -> exists tb' tr, run tb es = Some (tb', tr) /\ TInv tb' /\ t_next tb <= t_next tb'.
Proof.
  induction es as [|[[c l] r] es IH]; intros tb H; cbn [run]; [exists tb, []; split; [reflexivity|split; [exact H|lia]]|].
  destruct (step_ok tb c l r H) as (tb1 & rep & E & H1 & _ & L1). rewrite E. destruct (IH tb1 H1) as (tb2 & tr & E2 & H2 & L2). rewrite E2.
  eexists _, _. split; [reflexivity|split; [exact H2|lia]].
Qed.
Lemma run_app es1 : forall tb es2, run tb (es1 ++ es2) =
  match run tb es1 with
  | Some (tb1, tr1) => match run tb1 es2 with Some (tb2, tr2) => Some (tb2, tr1 ++ tr2) | None => None end
  | None => None
  end.
Proof.
  induction es1 as [|[[c l] r] es1 IH]; intros tb es2; cbn [app run]; [destruct (run tb es2) as [[? ?]|]; reflexivity|].
  destruct (step tb c l r) as [[tb1 rep]|]; [|reflexivity]. rewrite IH. destruct (run tb1 es1) as [[tb2 tr]|]; [|reflexivity].
  destruct (run tb2 es2) as [[tb3 tr3]|]; reflexivity.
Qed.

(** where a session found by tags goes *)
Definition good (s : sess) (i : Z) : Prop := st_port (stream s i) <> 0.
Lemma flow_first nx l l' call from to s j : flow false nx l l' -> NoDup (map s_uid l) -> (forall x, In x l -> s_uid x < nx) ->
  find_stream l call from to = Some (s, j) -> In (s_uid s) (map s_uid l') ->
  exists s', find_stream l' call from to = Some (s', j) /\ evolve false s s'.
Proof.
  induction 1 as [|x A B C|x x' l l' Ev Fl IH|x l l' Fl IH]; intros N L F Hin.
  - discriminate.
  - discriminate.
  - pose proof Ev as (Eu & Ec & Et & _). cbn [find_stream] in *. cbn in N. inversion N; subst. rewrite Ec.
    assert (Em : ematch from to x' = ematch from to x) by (unfold ematch; rewrite Et; reflexivity). rewrite Em.
    assert (Rec : find_stream l call from to = Some (s, j) -> exists s', find_stream l' call from to = Some (s', j) /\ evolve false s s').
    { intros Q. apply IH; [assumption|intros y Hy; apply L; right; exact Hy|exact Q|]. cbn [map] in Hin. destruct Hin as [Hin|Hin]; [exfalso|exact Hin].
      apply H1. rewrite <- Eu, Hin. apply find_some in Q. destruct Q as (l1 & l2 & -> & _). apply in_map. apply in_app_iff. right. left. reflexivity. }
    destruct (beq (s_call x) call); [|auto]. destruct (ematch from to x) as [i|]; [|auto]. injection F as <- <-. exists x'. auto.
  - cbn in N. inversion N; subst. cbn [find_stream] in F.
    assert (Rec : find_stream l call from to = Some (s, j) -> exists s', find_stream l' call from to = Some (s', j) /\ evolve false s s').
    { intros Q. apply IH; [assumption|intros y Hy; apply L; right; exact Hy|exact Q|exact Hin]. }
    destruct (beq (s_call x) call); [|auto]. destruct (ematch from to x) as [i|]; [|auto]. injection F as <- <-. exfalso.
    apply in_map_iff in Hin. destruct Hin as (y & E & Hy). destruct (flow_in _ _ _ _ _ Fl Hy) as [Q|(z & Hz & (Ez & _))].
    + pose proof (L x (or_introl eq_refl)). lia.
    + apply H1. rewrite <- E, Ez. apply in_map. exact Hz.
Qed.

Lemma evolve_good s s' i : okst (stream s i) -> good s i -> evolve false s s' -> (i = 0 \/ i = 1) -> same_stream (stream s' i) (stream s i).
Proof.
  unfold good, okst, evolve, ev_strm. intros O G (_ & _ & _ & A & B) [-> | ->]; cbn [stream Z.eqb] in *.
  - destruct A as [A|[[A|[A|A]] _]]; [exact A|discriminate|congruence|]. rewrite O in A by exact G. discriminate.
  - clear A. destruct B as [A|[[A|[A|A]] _]]; [exact A|discriminate|congruence|]. rewrite O in A by exact G. discriminate.
Qed.

Lemma uid_stays es : forall tb tb' tr u, TInv tb -> run tb es = Some (tb', tr) -> In u (map s_uid (t_ht tb')) -> u < t_next tb -> In u (map s_uid (t_ht tb)).
Proof.
  induction es as [|[[c l] r] es IH]; intros tb tb' tr u H R Hin L; cbn [run] in R; [injection R as <- <-; exact Hin|].
  destruct (step_ok tb c l r H) as (tb1 & rep & E & H1 & Fl & Ln). rewrite E in R. destruct (run tb1 es) as [[tb2 tr2]|] eqn:R2; [|discriminate]. injection R as <- <-.
  assert (L1 : u < t_next tb1) by lia. pose proof (IH _ _ _ _ H1 R2 Hin L1) as Q. apply in_map_iff in Q. destruct Q as (x & E' & Hx).
  destruct (flow_in _ _ _ _ _ Fl Hx) as [Q|(y & Hy & (Ey & _))]; [lia|]. rewrite <- E', Ey. apply in_map. exact Hy.
Qed.

Lemma run_first es : forall tb tb' tr call from to s j i, TInv tb -> run tb es = Some (tb', tr) ->
  (forall c l r, In (c, l, r) es -> wants_new c = false) -> find_stream (t_ht tb) call from to = Some (s, j) -> (i = 0 \/ i = 1) -> good s i ->
  In (s_uid s) (map s_uid (t_ht tb')) -> exists s', find_stream (t_ht tb') call from to = Some (s', j) /\ same_stream (stream s' i) (stream s i).
Proof.
  induction es as [|[[c l] r] es IH]; intros tb tb' tr call from to s j i H R Wn F Hi G Hin; cbn [run] in R.
  - injection R as <- <-. exists s. split; [exact F|apply same_refl].
  - destruct (step_ok tb c l r H) as (tb1 & rep & E & H1 & Fl & Ln). rewrite E in R. destruct (run tb1 es) as [[tb2 tr2]|] eqn:R2; [|discriminate]. injection R as <- <-.
    rewrite (Wn c l r (or_introl eq_refl)) in Fl.
    assert (Hs : In s (t_ht tb)) by (apply find_some in F; destruct F as (l1 & l2 & -> & _); apply in_app_iff; right; left; reflexivity).
    pose proof (v_lt _ H _ Hs) as Lt.
    assert (Hin1 : In (s_uid s) (map s_uid (t_ht tb1))) by (eapply uid_stays; [exact H1|exact R2|exact Hin|lia]).
    destruct (flow_first _ _ _ _ _ _ _ _ Fl (v_nd _ H) (v_lt _ H) F Hin1) as (s1 & F1 & Ev).
    assert (Sm : same_stream (stream s1 i) (stream s i)).
    { apply evolve_good; [|exact G|exact Ev|exact Hi]. destruct (v_ok _ H _ Hs). destruct Hi as [-> | ->]; assumption. }
    destruct Ev as (Eu & _). destruct (IH tb1 tb2 tr2 call from to s1 j i H1 R2) as (s2 & F2 & Sm2); try assumption.
    + intros c' l' r' Hc. eapply Wn. right. exact Hc.
    + unfold good in *. destruct Sm as (-> & _). exact G.
    + rewrite Eu. exact Hin.
    + exists s2. split; [exact F2|]. unfold same_stream in *. intuition congruence.
Qed.

(** * Ports in use *)
Lemma ports_app a b : ports (a ++ b) = ports a ++ ports b.
Proof. unfold ports. rewrite flat_map_app. induction (flat_map _ a) as [|x l IH]; [reflexivity|]. cbn. destruct (negb (x =? 0)); cbn; rewrite IH; reflexivity. Qed.
Lemma ports_cons s l : ports (s :: l) = ports [s] ++ ports l.
Proof. change (s :: l) with ([s] ++ l). apply ports_app. Qed.
Lemma ports_same s s' : st_port (s_st0 s') = st_port (s_st0 s) -> st_port (s_st1 s') = st_port (s_st1 s) -> ports [s'] = ports [s].
Proof. unfold ports. cbn. intros -> ->. reflexivity. Qed.
Lemma in_ports p l : In p (ports l) <-> p <> 0 /\ exists s, In s l /\ (st_port (s_st0 s) = p \/ st_port (s_st1 s) = p).
Proof.
  unfold ports. rewrite filter_In, in_flat_map. split.
  - intros [(s & Hs & [X|[X|[]]]) N]; (split; [intros ->; cbn in N; discriminate|exists s; auto]).
  - intros [N (s & Hs & X)]. split; [exists s; cbn; tauto|]. apply negb_true_iff. apply Z.eqb_neq. exact N.
Qed.
Lemma swept_ports call from to weak l l' r : swept call from to weak l l' r ->
  (forall p, In p (ports l') -> In p (ports l)) /\ (NoDup (ports l) -> NoDup (ports l')).
Proof.
  assert (Mid : forall (a b c : list Z), NoDup (a ++ b) -> (forall p, In p c -> In p b) -> NoDup c -> NoDup (a ++ c)).
  { intros a b c N I C. induction a as [|x a IH]; [exact C|]. cbn in *. inversion N; subst. constructor; [|apply IH; assumption].
    intros X. apply H1. apply in_app_iff in X. apply in_app_iff. destruct X; auto. }
  assert (Tl : forall a b : list Z, NoDup (a ++ b) -> NoDup b) by (intros a b N; induction a as [|x a IH]; [exact N|]; cbn in N; inversion N; auto).
  induction 1.
  - split; auto.
  - destruct IHswept as [A B]. rewrite (ports_cons s l), (ports_cons s l'). split.
    + intros p X. apply in_app_iff in X. apply in_app_iff. destruct X; auto.
    + intros N. eapply Mid; [exact N|exact A|]. apply B. eapply Tl. exact N.
  - destruct IHswept as [A B]. rewrite (ports_cons s l), (ports_cons s' l'). destruct H0 as (_ & _ & _ & _ & (P0 & _) & (P1 & _) & _). rewrite (ports_same s s' P0 P1). split.
    + intros p X. apply in_app_iff in X. apply in_app_iff. destruct X; auto.
    + intros N. eapply Mid; [exact N|exact A|]. apply B. eapply Tl. exact N.
  - destruct IHswept as [A B]. rewrite (ports_cons s l). split; [intros p X; apply in_app_iff; auto|]. intros N. apply B. eapply Tl. exact N.
  - rewrite (ports_cons s l). split; [intros p X; apply in_app_iff; auto|apply Tl].
Qed.

Lemma ul_ports tb up o l s i call from to j : TInv tb -> find_stream (t_ht tb) call from to = Some (s, j) -> (i = j \/ i = 1 - j) ->
  (forall p, l = Some p -> p <> 0 /\ forall x, In x (t_ht tb) -> st_port (s_st0 x) <> p /\ st_port (s_st1 x) <> p) ->
  NoDup (ports (t_ht tb)) -> NoDup (ports (t_ht (fst (ul_existing tb up o l s i)))).
Proof.
  intros H F Hi Hl N. apply find_some in F. destruct F as (l1 & l2 & E & _ & Sd & _).
  assert (I01 : i = 0 \/ i = 1) by (apply side_range in Sd; lia).
  destruct (ul_existing_shape tb up o l s i) as (y & st & cp & X). destruct (ul_existing tb up o l s i) as [tb' rep]. destruct X as (-> & _ & _ & _ & Po & _).
  cbn [fst t_ht]. rewrite E, put_split; [|rewrite <- E; apply (v_nd _ H)|apply set_stream_uid].
  destruct Po as [Po|Po].
  - rewrite E in N. rewrite ports_app, ports_cons in N. rewrite ports_app, ports_cons.
    rewrite (ports_same s (set_stream s i y st cp)); [exact N| |]; destruct I01 as [-> | ->]; cbn in *; auto.
  - destruct (Hl _ Po) as [P0 Fr].
    assert (Np : ~ In (st_port y) (ports (t_ht tb))) by (intros Q; apply in_ports in Q; destruct Q as (_ & x & Hx & Q); destruct (Fr x Hx); tauto).
    rewrite E in N, Np. rewrite ports_app, ports_cons in N, Np. rewrite ports_app, ports_cons.
    set (A := ports l1) in *. set (C := ports l2) in *.
    assert (Q : exists b1 b2 b1', ports [s] = b1 ++ b1' ++ b2 /\ ports [set_stream s i y st cp] = b1 ++ st_port y :: b2).
    { unfold ports. destruct I01 as [-> | ->]; cbn; replace (st_port y =? 0) with false by lia; cbn [negb].
      - exists [], (filter (fun p => negb (p =? 0)) [st_port (s_st1 s)]), (filter (fun p => negb (p =? 0)) [st_port (s_st0 s)]). cbn.
        destruct (st_port (s_st0 s) =? 0); cbn; auto.
      - exists (filter (fun p => negb (p =? 0)) [st_port (s_st0 s)]), [], (filter (fun p => negb (p =? 0)) [st_port (s_st1 s)]). cbn.
        destruct (st_port (s_st0 s) =? 0); cbn; rewrite ?app_nil_r; auto. }
    destruct Q as (b1 & b2 & b1' & E1 & E2). rewrite E1 in N, Np. rewrite E2.
    assert (Sub : forall (a b c : list Z), NoDup (a ++ b ++ c) -> NoDup (a ++ c)).
    { intros a b c ND. induction b as [|x b IH]; [exact ND|]. apply IH. cbn in ND. apply NoDup_remove_1 in ND. exact ND. }
    replace (A ++ (b1 ++ st_port y :: b2) ++ C) with ((A ++ b1) ++ st_port y :: (b2 ++ C)) by (rewrite <- !app_assoc; reflexivity).
    replace (A ++ (b1 ++ b1' ++ b2) ++ C) with ((A ++ b1) ++ b1' ++ (b2 ++ C)) in N, Np by (rewrite <- !app_assoc; reflexivity).
    apply NoDup_Add with (a := st_port y) (l := (A ++ b1) ++ b2 ++ C); [apply Add_app|]. split; [eapply Sub; exact N|].
    intros Z. apply Np. apply in_app_iff in Z. apply in_app_iff. destruct Z; [auto|right; apply in_app_iff; auto].
Qed.

Lemma step_ports tb c l r tb' rep : TInv tb -> step tb c l r = Some (tb', rep) ->
  (forall p, l = Some p -> p <> 0 /\ forall x, In x (t_ht tb) -> st_port (s_st0 x) <> p /\ st_port (s_st1 x) <> p) ->
  NoDup (ports (t_ht tb)) -> NoDup (ports (t_ht tb')).
Proof.
  intros H S Hl N. destruct c as [call from to o|call from to o|call from to weak| |uid]; cbn [step] in S.
  - destruct (find_stream (t_ht tb) call from to) as [[s i]|] eqn:F.
    + assert (S' : ul_existing tb true o l s i = (tb', rep)) by congruence. replace tb' with (fst (ul_existing tb true o l s i)) by (rewrite S'; reflexivity). eapply ul_ports; eauto.
    + unfold ul_new in S. destruct r; [injection S as <- <-; exact N|]. destruct l as [p|]; [|injection S as <- <-; exact N].
      injection S as <- <-. cbn [t_ht]. rewrite ports_app. destruct (Hl p eq_refl) as [P0 Fr].
      assert (Np : ~ In p (ports (t_ht tb))) by (intros Q; apply in_ports in Q; destruct Q as (_ & x & Hx & Q); destruct (Fr x Hx); tauto).
      unfold ports at 2. cbn. replace (p =? 0) with false by lia. cbn [negb].
      apply NoDup_Add with (a := p) (l := ports (t_ht tb)); [|auto].
      replace (ports (t_ht tb)) with (ports (t_ht tb) ++ []) at 1 by apply app_nil_r. apply Add_app.
  - destruct (find_stream (t_ht tb) call from to) as [[s i]|] eqn:F.
    + assert (S' : ul_existing tb false o l s (1 - i) = (tb', rep)) by congruence. replace tb' with (fst (ul_existing tb false o l s (1 - i))) by (rewrite S'; reflexivity). eapply ul_ports; eauto.
    + injection S as <- <-. exact N.
  - destruct (do_delete_run tb call from to weak H) as (l' & r' & E & Sw). rewrite E in S. injection S as <- <-. cbn [t_ht].
    apply (swept_ports _ _ _ _ _ _ _ Sw). exact N.
  - injection S as <- <-. constructor.
  - injection S as <- <-. cbn [t_ht]. clear - N.
    assert (G : forall l, (forall p, In p (ports (filter (fun s => negb (s_uid s =? uid)) l)) -> In p (ports l)) /\ (NoDup (ports l) -> NoDup (ports (filter (fun s => negb (s_uid s =? uid)) l)))).
    { induction l as [|s l [A B]]; [split; auto|]. cbn [filter]. rewrite (ports_cons s l). destruct (negb _).
      - rewrite ports_cons. split; [intros p X; apply in_app_iff in X; apply in_app_iff; destruct X; auto|].
        induction (ports [s]) as [|x q IH]; cbn; [exact B|]. intros Q. inversion Q; subst. constructor; [|apply IH; assumption].
        intros X. apply H1. apply in_app_iff in X. apply in_app_iff. destruct X; auto.
      - split; [intros p X; apply in_app_iff; auto|]. intros Q. apply B. induction (ports [s]) as [|x q IH]; [exact Q|]. cbn in Q. inversion Q; auto. }
    apply G. exact N.
Qed.

Lemma run_ports es : sound_env es -> forall tb tr, run table0 es = Some (tb, tr) -> NoDup (ports (t_ht tb)).
Proof.
  induction es as [|[[c l] r] es IH] using rev_ind; intros Se tb tr R.
  - injection R as <- <-. constructor.
  - rewrite run_app in R. destruct (run table0 es) as [[tb1 tr1]|] eqn:R1; [|discriminate]. cbn [run] in R.
    destruct (step tb1 c l r) as [[tb2 rep]|] eqn:S; [|discriminate]. injection R as <- _.
    destruct (run_ok es table0 inv_table0) as (tb1' & tr1' & E & I1 & _). rewrite R1 in E. injection E as <- <-.
    eapply step_ports; [exact I1|exact S| |].
    + intros p ->. destruct (Se es c p r [] tb1 tr1 eq_refl R1) as [A B]. auto.
    + eapply IH; [|reflexivity]. intros es1 c' p r' es2 tb' tr' -> R'. eapply (Se es1 c' p r' (es2 ++ [(c, l, r)])); [rewrite <- app_assoc; reflexivity|exact R'].
Qed.

Lemma rm_iff r l u : In u (rm r l) <-> In u l /\ ~ In u r.
Proof.
  split; [|intros [A B]; apply rm_in; assumption]. unfold rm. intros X. apply filter_In in X. destruct X as [A B]. split; [exact A|].
  intros C. apply negb_true_iff in B. assert (existsb (Z.eqb u) r = true) by (apply existsb_exists; exists u; split; [exact C|apply Z.eqb_refl]). congruence.
Qed.
Lemma reach_inv es tb tr : run table0 es = Some (tb, tr) -> TInv tb.
Proof. intros R. destruct (run_ok es table0 inv_table0) as (tb' & tr' & E & I' & _). rewrite R in E. injection E as <- <-. exact I'. Qed.

Lemma delete_step tb call from to weak l r : TInv tb -> exists l' rem rep,
  step tb (Delete call from to weak) l r = Some (mkTab l' (rm rem (t_wrt tb)) (t_next tb), rep) /\
  swept call from to weak (t_ht tb) l' rem /\
  (rep = ROk /\ (exists s i e, In s (t_ht tb) /\ addressed call from to s i e) \/
   rep = RErr /\ forall s i e, In s (t_ht tb) -> ~ addressed call from to s i e).
Proof.
  intros H. destruct (do_delete_run tb call from to weak H) as (l' & rem & E & Sw). exists l', rem. cbn [step]. rewrite E.
  eexists. split; [reflexivity|]. split; [exact Sw|].
  pose proof (sweep_swept call from to weak (t_ht tb)) as Q. destruct (sweep call from to weak (t_ht tb)) as [[? ?] f]. destruct Q as [_ Q]. cbn [snd].
  destruct f; cbn.
  - left. split; [reflexivity|]. apply Q. reflexivity.
  - right. split; [reflexivity|]. intros s i e Hs A. assert (false = true) by (apply Q; eauto). discriminate.
Qed.

Lemma swept_other call from to weak l l' r s : swept call from to weak l l' r -> In s l -> (forall i e, ~ addressed call from to s i e) -> In s l'.
Proof.
  induction 1; intros Hin Na.
  - exact Hin.
  - destruct Hin as [<-|Hin]; [left; reflexivity|right; auto].
  - destruct Hin as [<-|Hin]; [exfalso; eapply Na; eassumption|right; auto].
  - destruct Hin as [<-|Hin]; [exfalso; eapply Na; eassumption|auto].
  - destruct Hin as [<-|Hin]; [exfalso; eapply Na; eassumption|exact Hin].
Qed.
Lemma swept_gone call from to weak l l' r s : swept call from to weak l l' r -> NoDup (map s_uid l) -> In s l -> ~ In (s_uid s) (map s_uid l') ->
  exists i e s', addressed call from to s i e /\ loses weak i s s' /\ free s'.
Proof.
  induction 1; intros N Hin G; cbn [map In] in *.
  - destruct Hin.
  - inversion N; subst. destruct Hin as [<-|Hin]; [exfalso; apply G; auto|apply IHswept; auto].
  - inversion N; subst. destruct Hin as [<-|Hin]; [exfalso; apply G; left; apply H0|apply IHswept; auto].
  - inversion N; subst. destruct Hin as [<-|Hin]; [eauto 10|apply IHswept; auto].
  - destruct Hin as [<-|Hin]; [eauto 10|]. exfalso. apply G. apply in_map. exact Hin.
Qed.
Lemma swept_all call from to weak l l' r s i e s' : swept call from to weak l l' r -> NoDup (map s_uid l) -> (forall x j, In x l -> ~ addressed call from to x j true) ->
  In s l -> addressed call from to s i e -> loses weak i s s' -> free s' -> In (s_uid s) r /\ ~ In (s_uid s) (map s_uid l').
Proof.
  intros Sw N. pose proof (swept_wrt _ _ _ _ _ _ _ Sw N) as W. intros Ne Hin A Lo Fr.
  assert (Q : In (s_uid s) r).
  { clear W. induction Sw as [|x l l' r Na Sw IH|x x' j e' l l' r A' Lo' Nf Sw IH|x x' j l l' r A' Lo' Fr' Sw IH|x x' j l A' Lo' Fr']; cbn [map In] in *.
    - exact Hin.
    - inversion N; subst. destruct Hin as [<-|Hin]; [exfalso; eapply Na; exact A|]. apply IH; auto. 
    - inversion N; subst. destruct Hin as [<-|Hin]; [|apply IH; auto]. exfalso. apply Nf.
      assert (j = i). { destruct A as (_ & [[-> A]|(-> & A & _)]), A' as (_ & [[-> B]|(-> & B & _)]); try reflexivity; exfalso; [eapply B; exact A|eapply A; exact B]. }
      subst j. unfold free in *. destruct Lo as (_ & _ & _ & _ & _ & _ & L1 & L2 & L3), Lo' as (_ & _ & _ & _ & _ & _ & M1 & M2 & M3).
      rewrite M1, M2, M3, <- L1, <- L2, <- L3. exact Fr.
    - inversion N; subst. destruct Hin as [<-|Hin]; [left; reflexivity|right; apply IH; auto].
    - exfalso. eapply Ne; [left; reflexivity|exact A']. }
  split; [exact Q|]. intros X. apply in_map_iff in X. destruct X as (y & E & Hy). destruct (W _ Hy) as [_ W2]. apply W2. rewrite E. exact Q.
Qed.

(** the command, and the stream it is about *)
Lemma repeat_ok tb c l r tb1 p a : TInv tb -> step tb c l r = Some (tb1, RPort p a) -> wants_new c = false -> p <> 0 ->
  exists uid, In uid (map s_uid (t_ht tb1)) /\
    forall es tb2 tr, run tb1 es = Some (tb2, tr) -> (forall c' l' r', In (c', l', r') es -> wants_new c' = false) -> In uid (map s_uid (t_ht tb2)) ->
      forall l' r', exists tb3, step tb2 c l' r' = Some (tb3, RPort p a).
Proof.
  intros H S Wn P0. destruct (step_ok tb c l r H) as (tb' & rep' & E & H1 & _). rewrite S in E. injection E as <- <-.
  assert (Key : forall call from to o up (f : Z -> Z), (f = (fun j => j) \/ f = (fun j => 1 - j)) -> o_new o = false ->
     (exists s j, find_stream (t_ht tb1) call from to = Some (s, j) /\ st_port (stream s (f j)) = p /\ st_laddr (stream s (f j)) = a) ->
     exists uid, In uid (map s_uid (t_ht tb1)) /\ forall es tb2 tr, run tb1 es = Some (tb2, tr) -> (forall c' l' r', In (c', l', r') es -> wants_new c' = false) -> In uid (map s_uid (t_ht tb2)) ->
      forall l', exists s j tb3, find_stream (t_ht tb2) call from to = Some (s, j) /\ ul_existing tb2 up o l' s (f j) = (tb3, RPort p a)).
  { intros call from to o up f Hf Hn (s & j & F & Ep & Ea). exists (s_uid s).
    assert (Hs : In s (t_ht tb1)) by (apply find_some in F; destruct F as (l1 & l2 & -> & _); apply in_app_iff; right; left; reflexivity).
    split; [apply in_map; exact Hs|]. intros es tb2 tr R Ws Hu l'.
    assert (I01 : f j = 0 \/ f j = 1) by (apply find_some in F; destruct F as (l1 & l2 & _ & _ & Sd & _); apply side_range in Sd; destruct Hf as [-> | ->]; lia).
    destruct (run_first es tb1 tb2 tr call from to s j (f j) H1 R Ws F I01) as (s2 & F2 & Sm); [unfold good; congruence|exact Hu|].
    exists s2, j. destruct (run_ok es tb1 H1) as (tb2' & tr' & E2 & H2 & _). rewrite R in E2. injection E2 as <- <-.
    assert (Hs2 : In s2 (t_ht tb2)) by (apply find_some in F2; destruct F2 as (l1 & l2 & -> & _); apply in_app_iff; right; left; reflexivity).
    destruct (v_ok _ H2 _ Hs2) as [Ok0 Ok1]. destruct Sm as (Sp & Ss & Sl).
    assert (Ok : st_skt (stream s2 (f j)) = true).
    { destruct I01 as [Q|Q]; rewrite Q in *; [apply Ok0|apply Ok1]; change (s_st0 s2) with (stream s2 0); change (s_st1 s2) with (stream s2 1); congruence. }
    unfold ul_existing. cbn zeta. rewrite Ok, Hn. replace (st_port (stream s2 (f j)) =? 0) with false by lia. cbn [negb orb].
    eexists. split; [exact F2|]. f_equal. destruct (o_weak o); cbn; congruence. }
  assert (Found : forall call from to o up s j i, o_new o = false -> find_stream (t_ht tb) call from to = Some (s, j) -> (i = j \/ i = 1 - j) -> ul_existing tb up o l s i = (tb1, RPort p a) ->
    exists s', find_stream (t_ht tb1) call from to = Some (s', j) /\ st_port (stream s' i) = p /\ st_laddr (stream s' i) = a).
  { intros call from to o up s j i Hn F Hi U. pose proof F as F'. apply find_some in F'. destruct F' as (l1 & l2 & E & Ec & Sd & Nf).
    assert (I01 : i = 0 \/ i = 1) by (apply side_range in Sd; lia).
    destruct (ul_existing_shape tb up o l s i) as (y & st & cp & X). rewrite U in X. destruct X as (Et & _ & _ & Rp & _).
    destruct Rp as [Rp|Rp]; [discriminate|]. injection Rp as -> ->. exists (set_stream s i y st cp).
    split; [|destruct I01 as [-> | ->]; cbn; auto]. rewrite Et. cbn [t_ht]. rewrite E, put_split; [|rewrite <- E; apply (v_nd _ H)|apply set_stream_uid].
    apply find_some. exists l1, l2. split; [reflexivity|]. split; [rewrite <- Ec; unfold set_stream; destruct (i =? 0); reflexivity|]. split; [|exact Nf].
    unfold side_of in *. replace (s_tag (set_stream s i y st cp)) with (s_tag s) by (unfold set_stream; destruct (i =? 0); reflexivity). exact Sd. }
  destruct c as [call from to o|call from to o|call from to weak| |uid]; cbn [step wants_new] in S, Wn.
  - destruct (Key call from to o true (fun j => j)) as (uid & Hu & K); [auto|exact Wn| |].
    + destruct (find_stream (t_ht tb) call from to) as [[s j]|] eqn:F.
      * assert (U : ul_existing tb true o l s j = (tb1, RPort p a)) by congruence.
        destruct (Found _ _ _ _ _ _ _ _ Wn F (or_introl eq_refl) U) as (s' & Q). exists s', j. exact Q.
      * unfold ul_new in S. destruct r; [discriminate|]. destruct l as [q|]; [|discriminate]. injection S as <- <- <-.
        cbn [t_ht]. set (s := mkSess _ _ _ _ _ _ _). exists s, 0. split; [|split; reflexivity]. apply find_some. exists (t_ht tb), []. split; [reflexivity|].
        split; [reflexivity|]. split; [left; auto|]. intros s' k. apply find_none. exact F.
    + exists uid. split; [exact Hu|]. intros es tb2 tr R Ws Hi l' r'. destruct (K es tb2 tr R Ws Hi l') as (s & j & tb3 & F2 & U). exists tb3. cbn [step]. rewrite F2, U. reflexivity.
  - destruct (find_stream (t_ht tb) call from to) as [[s j]|] eqn:F; [|discriminate].
    assert (U : ul_existing tb false o l s (1 - j) = (tb1, RPort p a)) by congruence.
    destruct (Key call from to o false (fun j => 1 - j)) as (uid & Hu & K); [auto|exact Wn| |].
    + destruct (Found _ _ _ _ _ _ _ _ Wn F (or_intror eq_refl) U) as (s' & Q). exists s', j. exact Q.
    + exists uid. split; [exact Hu|]. intros es tb2 tr R Ws Hi l' r'. destruct (K es tb2 tr R Ws Hi l') as (s2 & j2 & tb3 & F2 & U2). exists tb3. cbn [step]. rewrite F2, U2. reflexivity.
  - destruct (do_delete _ _ _ _ _ _ _) as [[? q]|]; [|discriminate]. destruct (q =? -1); discriminate.
  - discriminate.
  - discriminate.
Qed.

Lemma existing_ok tb up o l s i call from to j : TInv tb -> find_stream (t_ht tb) call from to = Some (s, j) -> (i = j \/ i = 1 - j) ->
  o_new o = false -> st_port (stream s i) <> 0 ->
  exists l1 l2 s', t_ht tb = l1 ++ s :: l2 /\
    ul_existing tb up o l s i = (mkTab (l1 ++ s' :: l2) (t_wrt tb) (t_next tb), RPort (st_port (stream s i)) (st_laddr (stream s i))) /\
    s_uid s' = s_uid s /\ s_call s' = s_call s /\ s_tag s' = s_tag s /\ same_stream (s_st0 s') (s_st0 s) /\ same_stream (s_st1 s') (s_st1 s).
Proof.
  intros H F Hi Hn P. apply find_some in F. destruct F as (l1 & l2 & E & _ & Sd & _).
  assert (I01 : i = 0 \/ i = 1) by (apply side_range in Sd; lia).
  assert (Hs : In s (t_ht tb)) by (rewrite E; apply in_app_iff; right; left; reflexivity).
  destruct (v_ok _ H _ Hs) as [Ok0 Ok1].
  assert (Ok : st_skt (stream s i) = true) by (destruct I01 as [-> | ->]; [apply Ok0|apply Ok1]; exact P).
  unfold ul_existing. cbn zeta. rewrite Ok, Hn. replace (st_port (stream s i) =? 0) with false by lia. cbn [negb orb].
  set (x := if o_weak o then set_weak (stream s i) true else stream s i).
  assert (Sx : same_stream x (stream s i)) by (unfold x; destruct (o_weak o); unfold same_stream; cbn; auto).
  exists l1, l2. eexists. split; [exact E|]. split.
  - rewrite E, put_split; [|rewrite <- E; apply (v_nd _ H)|apply set_stream_uid]. destruct Sx as (-> & _ & ->). reflexivity.
  - pose proof (same_refl (s_st0 s)). pose proof (same_refl (s_st1 s)). destruct I01 as [-> | ->]; cbn; auto 10.
Qed.
