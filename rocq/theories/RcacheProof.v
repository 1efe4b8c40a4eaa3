From Coq Require Import Permutation.
From Verif Require Import Base HashModel HashSpec HashProof RcacheModel RcacheSpec.

Lemma keq_ok a b : keq a b = true <-> a = b.
Proof.
  revert b; induction a as [|x a IH]; intros [|y b]; cbn; split; intros H; try congruence; auto.
  - apply andb_true_iff in H. destruct H as [H1 H2]. apply Z.eqb_eq in H1. apply IH in H2. congruence.
  - injection H as -> ->. rewrite Z.eqb_refl. cbn. apply IH. reflexivity.
Qed.

Section P.
  Context (hash : list Z -> Z).
  Notation ent := (Z * list Z * Z)%type.
  Notation R := (R keq hash).

  (** the abstract cache: cookie, entry *)
  Definition view (ents : list rentry) (al : list ent) : list (list Z * option rentry) :=
    map (fun e => (m_key e, nth_error ents (Z.to_nat (m_val e)))) al.

  Record Inv (dbg : bool) (s : rcache) (al : list ent) : Prop := {
    i_R : R (rc_ht s) al;
    i_nd : ht_nodups (rc_ht s) = true;
    i_ab : ht_abrt (rc_ht s) = dbg;
    i_id : forall e, In e al -> m_id e < Z.of_nat (length (rc_ents s)) /\ m_val e = m_id e /\ 0 <= m_id e;
    i_pend : forall c t, rc_pend s = Some (c, t) -> of_key keq c al = []
  }.

  Lemma inv0 dbg : Inv dbg (rc_ctor dbg) [].
  Proof. split; cbn; try reflexivity; try discriminate; [apply R_ctor; apply keq_ok|intros e []]. Qed.

  Definition has (s : rcache) (al : list ent) (c : list Z) (en : rentry) : Prop :=
    exists id, In (id, c, id) al /\ nth_error (rc_ents s) (Z.to_nat id) = Some en.

  Lemma nodup_key dbg s al c i j : Inv dbg s al -> In (i, c, i) al -> In (j, c, j) al -> i = j.
  Proof.
    intros H A B. destruct (i_R _ _ _ H) as [Hr _]. pose proof (r_nodup _ _ _ _ _ Hr (i_nd _ _ _ H) c) as L.
    assert (A' : In (i, c, i) (of_key keq c al)) by (apply filter_In; split; [exact A|apply keq_ok; reflexivity]).
    assert (B' : In (j, c, j) (of_key keq c al)) by (apply filter_In; split; [exact B|apply keq_ok; reflexivity]).
    destruct (of_key keq c al) as [|x [|y l]]; cbn in *; [tauto| |lia].
    destruct A' as [->|[]]. destruct B' as [E|[]]. congruence.
  Qed.

  Lemma lookup_some dbg s al c en : Inv dbg s al -> (rc_lookup hash s c = Some en <-> has s al c en).
  Proof.
    intros H. unfold rc_lookup, ht_find.
    destruct (walk_al keq true hash keq_ok _ _ c (i_R _ _ _ H)) as [W _].
    destruct (walk keq true (bucket (rc_ht s) (hash c)) c (hash c)) as [e|] eqn:E; cbn [option_map] in W.
    - symmetry in W. assert (Hin : In (al_of e) (of_key keq c al)) by (destruct (of_key keq c al); [discriminate|]; cbn in W; injection W as ->; left; reflexivity).
      apply filter_In in Hin. destruct Hin as [Hin Hk]. apply keq_ok in Hk. cbn in Hk.
      destruct (i_id _ _ _ H _ Hin) as (_ & B & _). cbn in B.
      assert (Hin' : In (e_id e, c, e_id e) al) by (unfold al_of in Hin; rewrite Hk, B in Hin; exact Hin).
      split.
      + intros X. exists (e_id e). rewrite <- B at 3. auto.
      + intros (id & X & Y). rewrite B. rewrite (nodup_key _ _ _ _ _ _ H Hin' X). exact Y.
    - split; [discriminate|]. intros (id & X & Y). exfalso.
      assert (A' : In (id, c, id) (of_key keq c al)) by (apply filter_In; split; [exact X|apply keq_ok; reflexivity]).
      destruct (of_key keq c al); [destruct A'|discriminate W].
  Qed.

  Lemma lookup_none dbg s al c : Inv dbg s al -> rc_lookup hash s c = None -> of_key keq c al = [].
  Proof.
    intros H L. destruct (of_key keq c al) as [|e l] eqn:E; [reflexivity|exfalso].
    assert (Hin : In e (of_key keq c al)) by (rewrite E; left; reflexivity).
    apply filter_In in Hin. destruct Hin as [Hin Hk]. apply keq_ok in Hk.
    destruct (i_id _ _ _ H _ Hin) as (A & B & C). destruct e as [[id k] v]. cbn in *. subst k v.
    destruct (nth_error (rc_ents s) (Z.to_nat id)) as [en|] eqn:En; [|apply nth_error_None in En; lia].
    assert (X : rc_lookup hash s c = Some en) by (apply (lookup_some _ _ _ _ _ H); exists id; auto). congruence.
  Qed.

  Lemma visit_nobrk (g : Z -> bool) (ord : list ent) : forall seen,
    fst (visit (fun _ v => (g v, false)) ord seen) = map m_id (filter (fun e => g (m_val e)) ord).
  Proof.
    induction ord as [|e t IH]; intros seen; [reflexivity|]. cbn [visit filter].
    destruct (visit (fun _ v => (g v, false)) t (m_val e :: seen)) as [d s'] eqn:E.
    specialize (IH (m_val e :: seen)). rewrite E in IH. cbn [fst] in IH.
    destruct (g (m_val e)); cbn [fst map app]; rewrite IH; reflexivity.
  Qed.

  Lemma step_inv dbg s al e : Inv dbg s al -> exists al', Inv dbg (fst (step hash s e)) al' /\ snd (step hash s e) <> Abort /\
    match e with
    | Recv c t => al' = al /\ (rc_pend s = None -> forall en, has s al c en -> snd (step hash s e) = Resend (re_reply en) /\ rc_pend (fst (step hash s e)) = None)
                  /\ (snd (step hash s e) = Execute -> rc_pend (fst (step hash s e)) = Some (c, t) /\ rc_pend s = None)
                  /\ (snd (step hash s e) <> Execute -> rc_pend (fst (step hash s e)) = rc_pend s)
                  /\ (forall r, snd (step hash s e) = Resend r -> exists en, has s al c en /\ re_reply en = r)
    | Finish r alloc mem => match rc_pend s with
        | None => al' = al /\ fst (step hash s e) = s /\ snd (step hash s e) = NotIdle
        | Some (c, t) => snd (step hash s e) = Sent r /\ rc_pend (fst (step hash s e)) = None /\
           if alloc then (forall c' en, has (fst (step hash s e)) al' c' en <-> has s al c' en \/ (c' = c /\ en = mkRe r (t + MIN_TTL)))
           else (forall c' en, has (fst (step hash s e)) al' c' en <-> has s al c' en)
        end
    | NoReply => al' = al /\ (forall c' en, has (fst (step hash s e)) al' c' en <-> has s al c' en)
                 /\ rc_pend (fst (step hash s e)) = None /\ (snd (step hash s e) = NotIdle \/ snd (step hash s e) = Quiet)
    | Tick t => snd (step hash s e) = Quiet /\ rc_pend (fst (step hash s e)) = rc_pend s /\
                (forall c' en, has (fst (step hash s e)) al' c' en <-> has s al c' en /\ t <= re_etime en)
    end.
  Proof.
    intros H. destruct e as [c t|r alloc mem| |t]; cbn [step].
    - exists al. destruct (rc_pend s) as [p|] eqn:P; cbn [fst snd].
      + split; [exact H|]. split; [discriminate|]. split; [reflexivity|].
        split; [intros X; congruence|]. split; [intros X; congruence|]. split; [auto|]. intros r X; congruence.
      + destruct (rc_lookup hash s c) as [en|] eqn:L; cbn [fst snd].
        * split; [exact H|]. split; [discriminate|]. split; [reflexivity|].
          split. { intros _ en' Hen. apply (lookup_some _ _ _ _ _ H) in Hen. split; [congruence|exact P]. }
          split; [discriminate|]. split; [auto|]. intros r X. injection X as <-. exists en. split; [|reflexivity]. apply (lookup_some _ _ _ _ _ H). exact L.
        * split.
          { destruct H as [A B C D F]. constructor; cbn; auto. intros c' t' X. injection X as <- <-. eapply (lookup_none dbg s); [constructor; eassumption|exact L]. }
          split; [discriminate|]. split; [reflexivity|].
          split. { intros _ en Hen. apply (lookup_some _ _ _ _ _ H) in Hen. congruence. }
          split; [auto|]. split; [congruence|]. discriminate.
    - destruct (rc_pend s) as [[c t]|] eqn:P; [|exists al; cbn; split; [exact H|split; [discriminate|auto]]].
      unfold rc_insert. destruct alloc; cbn [negb rc_ents rc_ht rc_pend].
      + set (n := Z.of_nat (length (rc_ents s))).
        assert (F : ~ In n (map m_id al)).
        { intros X. apply in_map_iff in X. destruct X as (e & E & Hin). destruct (i_id _ _ _ H _ Hin). lia. }
        pose proof (ht_insert_ok keq true hash keq_ok (rc_ht s) al (mkEnt n c (hash c) n) mem (i_R _ _ _ H) eq_refl F) as HI.
        cbn [e_key] in HI. rewrite (i_pend _ _ _ H _ _ P) in HI. cbn [length Nat.eqb negb] in HI. rewrite andb_false_r in HI.
        destruct HI as (t' & E & R' & N' & A'). unfold ht_append. rewrite E. cbn [fst snd rc_pend rc_ents].
        exists (al ++ [(n, c, n)]). split.
        { constructor; cbn [rc_ht rc_ents rc_pend]; [exact R'|rewrite N'; apply (i_nd _ _ _ H)|rewrite A'; apply (i_ab _ _ _ H)| |discriminate].
          intros e He. rewrite app_length. cbn [length]. apply in_app_iff in He. destruct He as [He|[<-|[]]].
          - destruct (i_id _ _ _ H _ He) as (X & Y & Z). split; [lia|auto].
          - cbn. lia. }
        split; [discriminate|]. split; [reflexivity|]. split; [reflexivity|].
        intros c' en. unfold has. cbn [rc_ents]. split.
        * intros (id & X & Y). apply in_app_iff in X. destruct X as [X|[X|[]]].
          { left. exists id. split; [exact X|]. destruct (i_id _ _ _ H _ X) as (A1 & _ & A2). cbn in A1, A2. rewrite nth_error_app1 in Y by lia. exact Y. }
          { right. injection X as <- <- . subst n. rewrite nth_error_app2, Nat2Z.id in Y by lia. rewrite Nat.sub_diag in Y. cbn in Y. injection Y as <-. auto. }
        * intros [(id & X & Y)|[-> ->]].
          { exists id. split; [apply in_app_iff; auto|]. destruct (i_id _ _ _ H _ X) as (A1 & _ & A2). cbn in A1, A2. rewrite nth_error_app1 by lia. exact Y. }
          { exists n. split; [apply in_app_iff; cbn; auto|]. subst n. rewrite Nat2Z.id, nth_error_app2 by lia. rewrite Nat.sub_diag. reflexivity. }
      + exists al. cbn [fst snd rc_pend]. split; [|split; [discriminate|split; [reflexivity|split; [reflexivity|reflexivity]]]].
        destruct H. constructor; cbn; auto. discriminate.
    - exists al. destruct (rc_pend s) as [p|] eqn:P; cbn [fst snd rc_pend].
      + split; [destruct H; constructor; cbn; auto; discriminate|]. split; [discriminate|]. split; [reflexivity|]. split; [reflexivity|]. auto.
      + split; [exact H|]. split; [discriminate|]. split; [reflexivity|]. split; [reflexivity|]. auto.
    - unfold rc_cleanup.
      destruct (foreach_ok keq hash keq_ok (rc_ht s) al (rc_ematch s t) (i_R _ _ _ H)) as (t' & ord & dels & seen & E & Po & _ & V & R' & N' & A').
      rewrite E. cbn [fst snd rc_pend].
      assert (Vd : dels = map m_id (filter (fun e => match nth_error (rc_ents s) (Z.to_nat (m_val e)) with Some e => re_etime e <? t | None => false end) ord)).
      { change dels with (fst (dels, seen)). rewrite <- V. unfold rc_ematch. apply (visit_nobrk (fun v => match nth_error (rc_ents s) (Z.to_nat v) with Some e => re_etime e <? t | None => false end)). }
      assert (W : forall id c, In (id, c, id) (without dels al) <-> In (id, c, id) al /\ match nth_error (rc_ents s) (Z.to_nat id) with Some e => t <= re_etime e | None => True end).
      { intros id c. unfold without. rewrite filter_In. cbn [m_id fst].
        split; intros [X Y]; (split; [exact X|]).
        - destruct (nth_error (rc_ents s) (Z.to_nat id)) as [en|] eqn:En; [|exact Logic.I].
          destruct (Z.le_gt_cases t (re_etime en)) as [Q|Q]; [exact Q|exfalso].
          apply negb_true_iff in Y. enough (Hx : existsb (Z.eqb id) dels = true) by congruence.
          apply existsb_exists. exists id. split; [|apply Z.eqb_refl]. rewrite Vd. apply in_map_iff. exists (id, c, id). split; [reflexivity|].
          apply filter_In. split; [apply (Permutation_in _ (Permutation_sym Po)); exact X|]. cbn [m_val snd]. rewrite En. lia.
        - apply negb_true_iff. apply not_true_is_false. intros Hx. apply existsb_exists in Hx. destruct Hx as (id' & Hin & He).
          apply Z.eqb_eq in He. subst id'. rewrite Vd in Hin. apply in_map_iff in Hin. destruct Hin as (e & E1 & E2).
          apply filter_In in E2. destruct E2 as [E2 E3]. apply (Permutation_in _ Po) in E2.
          destruct (i_id _ _ _ H _ E2) as (_ & B & _). rewrite B, E1 in E3.
          destruct (nth_error (rc_ents s) (Z.to_nat id)); [lia|discriminate]. }
      exists (without dels al). split.
      { constructor; cbn [rc_ht rc_ents rc_pend]; [exact R'|rewrite N'; apply (i_nd _ _ _ H)|rewrite A'; apply (i_ab _ _ _ H)| |].
        - intros e He. apply without_incl in He. apply (i_id _ _ _ H). exact He.
        - intros c x Px. pose proof (i_pend _ _ _ H _ _ Px) as K. destruct (of_key keq c (without dels al)) as [|e l] eqn:Q; [reflexivity|exfalso].
          assert (Hin : In e (of_key keq c (without dels al))) by (rewrite Q; left; reflexivity).
          apply filter_In in Hin. destruct Hin as [Hin Hk]. apply without_incl in Hin.
          assert (Hin' : In e (of_key keq c al)) by (apply filter_In; auto). rewrite K in Hin'. destruct Hin'. }
      split; [discriminate|]. split; [reflexivity|]. split; [reflexivity|].
      intros c' en. unfold has. cbn [rc_ents]. split.
      + intros (id & X & Y). apply W in X. rewrite Y in X. destruct X. split; [exists id; auto|assumption].
      + intros ((id & X & Y) & Q). exists id. split; [|exact Y]. apply W. rewrite Y. auto.
  Qed.

  Lemma run_app es1 : forall s es2, run hash s (es1 ++ es2) =
    let (s1, t1) := run hash s es1 in let (s2, t2) := run hash s1 es2 in (s2, t1 ++ t2).
  Proof.
    induction es1 as [|e t IH]; intros s es2; cbn [app run]; [destruct (run hash s es2); reflexivity|].
    destruct (step hash s e) as [s1 o]. destruct o; rewrite IH; destruct (run hash _ t) as [s2 t2]; try destruct (run hash s2 es2); reflexivity.
  Qed.

  (** a run of the trace itself: only possible events *)
  Inductive steps : rcache -> trace -> rcache -> Prop :=
  | st_nil s : steps s [] s
  | st_cons s e s1 o tr s2 : step hash s e = (s1, o) -> o <> NotIdle -> steps s1 tr s2 -> steps s ((e, o) :: tr) s2.

  Lemma steps_cons s e o tr s2 : steps s ((e, o) :: tr) s2 -> exists s1, step hash s e = (s1, o) /\ o <> NotIdle /\ steps s1 tr s2.
  Proof. intros H. inversion H; subst. eauto. Qed.
  Lemma steps_nil s s2 : steps s [] s2 -> s2 = s.
  Proof. intros H. inversion H; subst. reflexivity. Qed.
  Lemma steps_one s e o s2 : steps s [(e, o)] s2 -> step hash s e = (s2, o) /\ o <> NotIdle.
  Proof. intros H. apply steps_cons in H. destruct H as (s1 & A & B & C). apply steps_nil in C. subst. auto. Qed.

  Lemma run_steps es : forall s, steps s (snd (run hash s es)) (fst (run hash s es)).
  Proof.
    induction es as [|e t IH]; intros s; cbn [run]; [constructor|].
    destruct (step hash s e) as [s1 o] eqn:E.
    assert (D : o = NotIdle \/ o <> NotIdle) by (destruct o; auto; right; discriminate).
    destruct D as [-> | D]; [apply IH|].
    specialize (IH s1). destruct (run hash s1 t) as [s2 tr]. cbn [fst snd] in IH.
    destruct o; try congruence; cbn [fst snd]; econstructor; eauto.
  Qed.

  Lemma steps_app tr1 : forall s tr2 s2, steps s (tr1 ++ tr2) s2 <-> exists s1, steps s tr1 s1 /\ steps s1 tr2 s2.
  Proof.
    induction tr1 as [|[e o] t IH]; intros s tr2 s2; cbn [app]; split.
    - intros H. exists s. split; [constructor|exact H].
    - intros (s1 & A & B). inversion A; subst. exact B.
    - intros H. apply steps_cons in H. destruct H as (s1 & HS & HN & HT). apply IH in HT. destruct HT as (x & A & B). exists x. split; [econstructor; eassumption|exact B].
    - intros (s1 & A & B). inversion A; subst. econstructor; [eassumption|assumption|]. apply IH. eauto.
  Qed.

  Lemma steps_inv dbg tr : forall s al s2, Inv dbg s al -> steps s tr s2 -> exists al2, Inv dbg s2 al2 /\ forall e, ~ In (e, Abort) tr.
  Proof.
    induction tr as [|[e o] t IH]; intros s al s2 H St.
    - apply steps_nil in St; subst. exists al. split; [exact H|]. intros e [].
    - apply steps_cons in St; destruct St as (s1 & HS & HN & HT).
      destruct (step_inv dbg s al e H) as (al1 & I1 & N & _). rewrite HS in I1, N. cbn [fst snd] in *.
      destruct (IH _ _ _ I1 HT) as (al2 & I2 & N2). exists al2. split; [exact I2|]. intros e' [X|X]; [congruence|eapply N2; eassumption].
  Qed.

  Lemma has_keep dbg c en t0 tr : re_etime en = t0 + MIN_TTL -> forall s al s2, Inv dbg s al -> has s al c en -> steps s tr s2 ->
    kept tr t0 -> not_executed tr c /\ exists al2, Inv dbg s2 al2 /\ has s2 al2 c en.
  Proof.
    intros Et. induction tr as [|[e o] t IH]; intros s al s2 H Hs St K.
    - apply steps_nil in St; subst. split; [intros x []|]. eauto.
    - apply steps_cons in St; destruct St as (s1 & HS & HN & HT).
      destruct (step_inv dbg s al e H) as (al1 & I1 & N & M). rewrite HS in *. cbn [fst snd] in *.
      assert (K' : kept t t0) by (intros x o' Hx; apply (K x o'); right; exact Hx).
      assert (Q : has s1 al1 c en /\ (forall t', (e, o) <> (Recv c t', Execute))).
      { destruct e as [c1 t1|r alloc mem| |t1].
        - destruct M as (-> & M1 & M2 & M3 & M4). split.
          + assert (E : rc_ents s1 = rc_ents s).
            { cbn [step] in HS. destruct (rc_pend s); [congruence|]. destruct (rc_lookup hash s c1); injection HS as <- <-; reflexivity. }
            unfold has. rewrite E. exact Hs.
          + intros t' X. injection X as -> -> ->. destruct (M2 eq_refl) as [_ P]. destruct (M1 P _ Hs). discriminate.
        - split; [|discriminate]. destruct (rc_pend s) as [[c2 t2]|].
          + destruct M as (_ & _ & M). destruct alloc; apply M; auto.
          + destruct M as (-> & -> & _). exact Hs.
        - split; [|discriminate]. apply M. exact Hs.
        - split; [|discriminate]. apply M. split; [exact Hs|]. pose proof (K t1 o (or_introl eq_refl)). unfold KEEP, MIN_TTL in *. lia. }
      destruct Q as [Q1 Q2]. destruct (IH _ _ _ I1 Q1 HT K') as [A B]. split; [|exact B].
      intros t' [X|X]; [exact (Q2 _ X)|exact (A _ X)].
  Qed.

  Lemma ticks_pend dbg ticks : forall s al s2, Inv dbg s al -> steps s (map (fun x => (Tick x, Quiet)) ticks) s2 ->
    rc_pend s2 = rc_pend s /\ exists al2, Inv dbg s2 al2.
  Proof.
    induction ticks as [|x l IH]; intros s al s2 H St; cbn [map] in St; [apply steps_nil in St; subst; eauto|apply steps_cons in St; destruct St as (s1 & HS & HN & HT)].
    destruct (step_inv dbg s al (Tick x) H) as (al1 & I1 & _ & M). rewrite HS in *. cbn [fst snd] in *.
    destruct (IH _ _ _ I1 HT) as [A B]. destruct M as (_ & M & _). split; [congruence|exact B].
  Qed.

  Lemma answered_has dbg s al s2 tr c t r : Inv dbg s al -> steps s tr s2 -> answered tr c t r ->
    exists al2, Inv dbg s2 al2 /\ has s2 al2 c (mkRe r (t + MIN_TTL)).
  Proof.
    intros H St (ticks & mem & ->). apply steps_cons in St; destruct St as (s1 & HS & HN & HT).
    destruct (step_inv dbg s al (Recv c t) H) as (al1 & I1 & _ & M). rewrite HS in *. cbn [fst snd] in *.
    destruct M as (_ & _ & M & _). destruct (M eq_refl) as [P _].
    apply steps_app in HT. destruct HT as (s3 & A & B). destruct (ticks_pend _ _ _ _ _ I1 A) as [P2 (al2 & I2)].
    apply steps_one in B. destruct B as [B _].
    destruct (step_inv dbg s3 al2 (Finish r true mem) I2) as (al3 & I3 & _ & M3). rewrite B in *. cbn [fst snd] in *.
    rewrite P2, P in M3. exists al3. split; [exact I3|]. apply M3. right. auto.
  Qed.

  (** no entry, and none being made *)
  Definition absent (s : rcache) (al : list ent) (c : list Z) : Prop :=
    (forall en, ~ has s al c en) /\ forall t, rc_pend s <> Some (c, t).
  Lemma absent_keep dbg c tr : forall s al s2, Inv dbg s al -> absent s al c -> steps s tr s2 -> not_executed tr c ->
    exists al2, Inv dbg s2 al2 /\ absent s2 al2 c.
  Proof.
    induction tr as [|[e o] t IH]; intros s al s2 H [Ha Hp] St K; [apply steps_nil in St; subst; exists al; split; [exact H|split; assumption]|apply steps_cons in St; destruct St as (s1 & HS & HN & HT)].
    destruct (step_inv dbg s al e H) as (al1 & I1 & N & M). rewrite HS in *. cbn [fst snd] in *.
    assert (K' : not_executed t c) by (intros x Hx; apply (K x); right; exact Hx).
    apply (IH s1 al1 s2 I1); [|exact HT|exact K'].
    destruct e as [c1 t1|r alloc mem| |t1].
    - destruct M as (-> & M1 & M2 & M3 & M4).
      assert (E : rc_ents s1 = rc_ents s).
      { cbn [step] in HS. destruct (rc_pend s); [congruence|]. destruct (rc_lookup hash s c1); injection HS as <- <-; reflexivity. }
      split; [intros en; unfold has; rewrite E; apply Ha|]. intros t' X.
      assert (D : o = Execute \/ o <> Execute) by (destruct o; auto; right; discriminate). destruct D as [-> | D].
      + destruct (M2 eq_refl) as [P _]. rewrite P in X. injection X as -> ->. apply (K t'). left. reflexivity.
      + rewrite (M3 D) in X. apply (Hp _ X).
    - destruct (rc_pend s) as [[c2 t2]|] eqn:P.
      + destruct M as (_ & P1 & M). split; [|intros t'; rewrite P1; discriminate]. intros en X.
        destruct alloc; apply M in X; [|exact (Ha _ X)]. destruct X as [X|[-> _]]; [exact (Ha _ X)|]. apply (Hp t2). reflexivity.
      + destruct M as (-> & -> & _). split; [exact Ha|]. intros t'. rewrite P. discriminate.
    - destruct M as (_ & M & P & _). split; [|intros t'; rewrite P; discriminate]. intros en X. apply M in X. exact (Ha _ X).
    - destruct M as (_ & P & M). split; [|intros t'; rewrite P; apply Hp]. intros en X. apply M in X. exact (Ha _ (proj1 X)).
  Qed.

  (** an entry that is not replaced expires *)
  Lemma has_expire dbg c en t0 tr x o : re_etime en = t0 + MIN_TTL -> In (Tick x, o) tr -> t0 + KEEP < x -> forall s al s2, Inv dbg s al -> has s al c en ->
    (forall t, rc_pend s <> Some (c, t)) -> steps s tr s2 -> not_executed tr c -> exists al2, Inv dbg s2 al2 /\ absent s2 al2 c.
  Proof.
    intros Et Hin Hx. induction tr as [|[e oo] t IH]; intros s al s2 H Hs Hp St K; [destruct Hin|]. apply steps_cons in St; destruct St as (s1 & HS & HN & HT).
    destruct (step_inv dbg s al e H) as (al1 & I1 & N & M). rewrite HS in *. cbn [fst snd] in *.
    assert (K' : not_executed t c) by (intros y Hy; apply (K y); right; exact Hy).
    assert (Pn : forall t', rc_pend s1 <> Some (c, t')).
    { intros t' X. destruct e as [c1 t1|r alloc mem| |t1].
      - destruct M as (-> & M1 & M2 & M3 & M4).
        assert (D : oo = Execute \/ oo <> Execute) by (destruct oo; auto; right; discriminate). destruct D as [-> | D].
        + destruct (M2 eq_refl) as [P _]. rewrite P in X. injection X as -> ->. apply (K t'). left. reflexivity.
        + rewrite (M3 D) in X. apply (Hp _ X).
      - destruct (rc_pend s) as [[c2 t2]|] eqn:P; [destruct M as (_ & P1 & _); congruence|]. destruct M as (_ & -> & _). congruence.
      - destruct M as (_ & _ & P & _). congruence.
      - destruct M as (_ & P & _). rewrite P in X. exact (Hp _ X). }
    assert (C : (has s1 al1 c en /\ In (Tick x, o) t) \/ absent s1 al1 c).
    { assert (Hu : forall en', has s al c en' -> en' = en).
      { intros en' X. apply (lookup_some _ _ _ _ _ H) in X, Hs. congruence. }
      destruct e as [c1 t1|r alloc mem| |t1].
      - destruct M as (-> & M1 & M2 & M3 & M4). left. destruct Hin as [Hin|Hin]; [discriminate|]. split; [|exact Hin].
        assert (E : rc_ents s1 = rc_ents s).
        { cbn [step] in HS. destruct (rc_pend s); [congruence|]. destruct (rc_lookup hash s c1); injection HS as <- <-; reflexivity. }
        unfold has. rewrite E. exact Hs.
      - left. destruct Hin as [Hin|Hin]; [discriminate|]. split; [|exact Hin]. destruct (rc_pend s) as [[c2 t2]|].
        + destruct M as (_ & _ & M). destruct alloc; apply M; auto.
        + destruct M as (-> & -> & _). exact Hs.
      - left. destruct Hin as [Hin|Hin]; [discriminate|]. split; [|exact Hin]. apply M. exact Hs.
      - destruct M as (_ & P & M). destruct (Z.le_gt_cases t1 (re_etime en)) as [Q|Q].
        + left. split; [apply M; auto|]. destruct Hin as [Hin|Hin]; [|exact Hin]. injection Hin as -> ->. unfold KEEP, MIN_TTL in *. lia.
        + right. split; [|exact Pn]. intros en' X. apply M in X. destruct X as [X Y]. apply Hu in X. subst en'. lia. }
    destruct C as [[C1 C2]|C].
    - eapply IH; eassumption.
    - eapply absent_keep; eassumption.
  Qed.

  (** every cached reply comes from an execution that has not expired *)
  Definition genuine (tr : trace) (c : list Z) (en : rentry) : Prop :=
    exists tr1 ex tr2 t, tr = tr1 ++ ex ++ tr2 /\ answered ex c t (re_reply en) /\ re_etime en = t + MIN_TTL /\ kept tr2 t /\ not_executed tr2 c.
  Lemma genuine_snoc tr c en e o : genuine tr c en -> (forall x, e = Tick x -> x <= re_etime en) -> (forall t, (e, o) <> (Recv c t, Execute)) ->
    genuine (tr ++ [(e, o)]) c en.
  Proof.
    intros (tr1 & ex & tr2 & t & -> & A & B & C & D) H1 H2. exists tr1, ex, (tr2 ++ [(e, o)]), t.
    split; [rewrite <- !app_assoc; reflexivity|]. split; [exact A|]. split; [exact B|]. split.
    - intros x o' X. apply in_app_iff in X. destruct X as [X|[X|[]]]; [apply (C _ _ X)|]. injection X as -> ->. specialize (H1 x eq_refl). unfold KEEP, MIN_TTL in *. lia.
    - intros t' X. apply in_app_iff in X. destruct X as [X|[X|[]]]; [apply (D _ X)|]. exact (H2 _ X).
  Qed.

  Lemma genuine_ok dbg tr : forall s, steps (rc_ctor dbg) tr s -> exists al, Inv dbg s al /\
    (forall c en, has s al c en -> genuine tr c en) /\
    (forall c t, rc_pend s = Some (c, t) -> exists tr1 ticks, tr = tr1 ++ (Recv c t, Execute) :: map (fun x => (Tick x, Quiet)) ticks).
  Proof.
    induction tr as [|[e o] tr IH] using rev_ind; intros s St.
    - apply steps_nil in St; subst. exists []. split; [apply inv0|]. split; [intros c en (id & [] & _)|discriminate].
    - apply steps_app in St. destruct St as (s0 & A & B). apply steps_one in B. destruct B as [HS HN].
      destruct (IH s0 A) as (al & I0 & G & P). destruct (step_inv dbg s0 al e I0) as (al1 & I1 & N & M). rewrite HS in *. cbn [fst snd] in *.
      exists al1. split; [exact I1|]. destruct e as [c1 t1|r alloc mem| |t1].
      + destruct M as (-> & M1 & M2 & M3 & M4).
        assert (E : rc_ents s = rc_ents s0).
        { cbn [step] in HS. destruct (rc_pend s0); [congruence|]. destruct (rc_lookup hash s0 c1); injection HS as <- <-; reflexivity. }
        split.
        * intros c en X. assert (X' : has s0 al c en) by (unfold has in *; rewrite E in X; exact X).
          apply genuine_snoc; [apply G; exact X'|discriminate|]. intros t' Y. injection Y as -> -> ->. destruct (M2 eq_refl) as [_ Y].
          destruct (M1 Y _ X'). discriminate.
        * intros c t X. assert (D : o = Execute \/ o <> Execute) by (destruct o; auto; right; discriminate). destruct D as [-> | D].
          -- destruct (M2 eq_refl) as [Y _]. rewrite Y in X. injection X as -> ->. exists tr, []. reflexivity.
          -- cbn [step] in HS. destruct (rc_pend s0) eqn:Q; [congruence|]. rewrite (M3 D) in X. congruence.
      + destruct (rc_pend s0) as [[c2 t2]|] eqn:Q; [|destruct M as (_ & _ & ->); congruence]. destruct M as (-> & M1 & M).
        split; [|intros c t X; congruence]. intros c en X.
        assert (Old : has s0 al c en -> genuine (tr ++ [(Finish r alloc mem, Sent r)]) c en) by (intros Y; apply genuine_snoc; [apply G; exact Y|discriminate|discriminate]).
        destruct alloc; apply M in X; [|exact (Old X)]. destruct X as [X|[-> ->]]; [exact (Old X)|].
        destruct (P _ _ eq_refl) as (tr1 & ticks & ->). exists tr1, (((Recv c2 t2, Execute) :: map (fun x => (Tick x, Quiet)) ticks) ++ [(Finish r true mem, Sent r)]), [], t2.
        split; [rewrite app_nil_r, <- app_assoc; reflexivity|]. split; [exists ticks, mem; reflexivity|]. split; [reflexivity|]. split; [intros x o' []|intros t' []].
      + destruct M as (-> & M & M1 & M2). split; [|intros c t X; congruence]. intros c en X. apply M in X. apply genuine_snoc; [apply G; exact X|discriminate|discriminate].
      + destruct M as (-> & M1 & M). split.
        * intros c en X. apply M in X. destruct X as [X Y]. apply genuine_snoc; [apply G; exact X| |discriminate]. intros x Z. injection Z as <-. exact Y.
        * intros c t X. rewrite M1 in X. destruct (P _ _ X) as (tr1 & ticks & ->). exists tr1, (ticks ++ [t1]). rewrite map_app, <- app_assoc. reflexivity.
  Qed.
End P.
