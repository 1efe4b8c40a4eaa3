From Verif Require Import Base NotfModel NotfSpec.

Definition ctgt (s : st) : nat := snd (fst (cur s)).
Definition cnum (s : st) : nat := fst (fst (cur s)).
Definition cbuf (s : st) : list Z := snd (cur s).
Definition cx (s : st) : target := tg s (ctgt s).

Section Run.
Context (kinds : nat -> bool * bool * nat).
Definition kfd (t : nat) : bool := fst (fst (kinds t)).
Definition kf (t : nat) : nat := snd (kinds t).

(** Invariant of the state. *)
Record Inv (s : st) : Prop := mkInv {
  i_kind : forall t, is_fd (tg s t) = kfd t;
  i_fd : forall t, kfd t = true -> fd (tg s t) = Some (kf t);
  i_conn : forall t, connected (tg s t) = true -> fd (tg s t) <> None;
  i_pc : match at_ s with
         | Send _ => connected (cx s) = true
         | Bind _ | Connect _ => connected (cx s) = false /\ is_fd (cx s) = false /\ fd (cx s) <> None
         | Socket _ => connected (cx s) = false /\ is_fd (cx s) = false /\ fd (cx s) = None
         | Recheck _ => is_fd (cx s) = false /\ (connected (cx s) = true \/ (connected (cx s) = false /\ fd (cx s) = None))
         | _ => True
         end }.

(** The steps, one by one. *)
Inductive stepR (s : st) (a : answer) : st -> list event -> Prop :=
| r_none : stepR s a s []
| r_end q : at_ s = Idle -> queue s = Term :: q -> stepR s a (mkSt q (cur s) Ended (tg s) (nsched s) (dead s)) [EEnd]
| r_take n t b q : at_ s = Idle -> queue s = Note n t b :: q -> stepR s a (mkSt q (n, t, b) (Check 3) (tg s) (nsched s) (dead s)) []
| r_up r : at_ s = Check r -> connected (cx s) = true -> stepR s a (goto s (Send r)) []
| r_abort r : at_ s = Check r -> connected (cx s) = false -> is_fd (cx s) = true -> stepR s a (goto s Aborted) [EAbort]
| r_nofd r : at_ s = Check r -> connected (cx s) = false -> is_fd (cx s) = false -> fd (cx s) = None -> stepR s a (goto s (Socket r)) []
| r_close r f : at_ s = Check r -> connected (cx s) = false -> is_fd (cx s) = false -> fd (cx s) = Some f ->
    stepR s a (goto (set_tg s (ctgt s) (with_fd (cx s) None)) (Socket r)) [EClose f]
| r_sockfail r : at_ s = Socket r -> a = ASocket None -> stepR s a (goto (set_tg s (ctgt s) (with_fd (cx s) None)) (Recheck r)) [ESocket None]
| r_sock r f : at_ s = Socket r -> a = ASocket (Some f) ->
    stepR s a (goto (set_tg s (ctgt s) (with_fd (cx s) (Some f))) (if has_local (cx s) then Bind r else Connect r)) [ESocket (Some f)]
| r_bind r f : at_ s = Bind r -> fd (cx s) = Some f -> stepR s a (goto s (Connect r)) [EBind f true]
| r_bindfail r f : at_ s = Bind r -> a = ABind false -> fd (cx s) = Some f ->
    stepR s a (goto (set_tg s (ctgt s) (with_fd (cx s) None)) (Recheck r)) [EBind f false; EClose f]
| r_conn r f : at_ s = Connect r -> fd (cx s) = Some f ->
    stepR s a (goto (set_tg s (ctgt s) (with_conn (cx s) true)) (Recheck r)) [EConnect f (ctgt s) true]
| r_connfail r f : at_ s = Connect r -> a = AConnect false -> fd (cx s) = Some f ->
    stepR s a (goto (set_tg s (ctgt s) (with_fd (cx s) None)) (Recheck r)) [EConnect f (ctgt s) false; EClose f]
| r_reup r : at_ s = Recheck r -> connected (cx s) = true -> stepR s a (goto s (Send r)) []
| r_giveup r : at_ s = Recheck r -> connected (cx s) = false -> stepR s a (goto s Idle) [EGiveUp (cnum s) (ctgt s)]
| r_intr r f : at_ s = Send r -> a = ASend Intr -> fd (cx s) = Some f -> stepR s a s [EIntr f (ctgt s)]
| r_took r f k : at_ s = Send r -> a = ASend (Took k) -> fd (cx s) = Some f -> stepR s a (goto s Idle) [ESend f (ctgt s) (Some (firstn k (cbuf s))); EDone (cnum s) (ctgt s)]
| r_last f : at_ s = Send 0 -> a = ASend Fail -> fd (cx s) = Some f ->
    stepR s a (goto (set_tg s (ctgt s) (with_conn (cx s) false)) Idle) [ESend f (ctgt s) None; EGiveUp (cnum s) (ctgt s)]
| r_retry r f : at_ s = Send (S r) -> a = ASend Fail -> fd (cx s) = Some f ->
    stepR s a (goto (set_tg s (ctgt s) (with_conn (cx s) false)) (Check r)) [ESend f (ctgt s) None].

Lemma step_stepR s a : Inv s -> stepR s a (fst (step s a)) (snd (step s a)).
Proof.
  intros I. pose proof (i_pc s I) as P. pose proof (i_conn s I (ctgt s)) as K. fold (cx s) in K.
  unfold step, sent. destruct (cur s) as [[n t] buf] eqn:Ec.
  assert (Et : ctgt s = t) by (unfold ctgt; rewrite Ec; reflexivity). assert (En : cnum s = n) by (unfold cnum; rewrite Ec; reflexivity).
  assert (Eb : cbuf s = buf) by (unfold cbuf; rewrite Ec; reflexivity).
  change (tg s t) with (tg s t). assert (Ex : tg s t = cx s) by (unfold cx; rewrite Et; reflexivity). rewrite Ex, <- Et, <- En, <- Eb. clear Ex.
  destruct (at_ s) eqn:Ea; destruct a as [o|o|o|o|]; cbn [fst snd]; try apply r_none.
  - destruct (queue s) as [|[n' t' b'|] q] eqn:Eq; cbn [fst snd]; [apply r_none|apply r_take; assumption|]. match goal with |- stepR s _ (mkSt q ?c _ _ _ _) _ => replace c with (cur s) by (rewrite Ec; congruence) end. apply r_end; assumption.
  - destruct (connected (cx s)) eqn:Eco; cbn [fst snd]; [apply r_up; assumption|]. destruct (is_fd (cx s)) eqn:Ei; cbn [fst snd]; [eapply r_abort; eassumption|].
    destruct (fd (cx s)) eqn:Ef; cbn [fst snd]; [apply r_close; assumption|apply r_nofd; assumption].
  - destruct o; cbn [fst snd]; [eapply r_sock; auto|apply r_sockfail; auto].
  - destruct (fd (cx s)) eqn:Ef; [|tauto]. destruct o; cbn [fst snd]; [eapply r_bind; eassumption|apply r_bindfail; auto].
  - destruct (fd (cx s)) eqn:Ef; [|tauto]. destruct o; cbn [fst snd]; [eapply r_conn; eassumption|apply r_connfail; auto].
  - destruct (connected (cx s)) eqn:Eco; cbn [fst snd]; [apply r_reup; assumption|]. apply (r_giveup s _ retries); assumption.
  - destruct (fd (cx s)) eqn:Ef; [|tauto]. destruct o; cbn [fst snd].
    + eapply r_intr; eauto.
    + destruct retries; cbn [fst snd]; [apply r_last; auto|apply r_retry; auto].
    + eapply r_took; eauto.
Qed.

Lemma tg_set s t x u : tg (set_tg s t x) u = if (u =? t)%nat then x else tg s u.
Proof. reflexivity. Qed.
Lemma cx_goto s p : cx (goto s p) = cx s.
Proof. reflexivity. Qed.
Lemma cx_set s x p : cx (goto (set_tg s (ctgt s) x) p) = x.
Proof. unfold cx, ctgt. cbn. rewrite Nat.eqb_refl. reflexivity. Qed.

Lemma Inv_set s x p : Inv s -> is_fd x = is_fd (cx s) -> (is_fd x = true -> fd x = fd (cx s)) -> (connected x = true -> fd x <> None) ->
  match p with
  | Send _ => connected x = true
  | Bind _ | Connect _ => connected x = false /\ is_fd x = false /\ fd x <> None
  | Socket _ => connected x = false /\ is_fd x = false /\ fd x = None
  | Recheck _ => is_fd x = false /\ (connected x = true \/ (connected x = false /\ fd x = None))
  | _ => True
  end -> Inv (goto (set_tg s (ctgt s) x) p).
Proof.
  intros [A B C D] E F G H. constructor; cbn [at_ goto tg set_tg].
  - intros u. cbn. destruct (Nat.eqb_spec u (ctgt s)) as [->|]; [rewrite E; apply A|apply A].
  - intros u Hu. cbn. destruct (Nat.eqb_spec u (ctgt s)) as [->|]; [rewrite F; [apply B, Hu|rewrite E; unfold cx; rewrite A; exact Hu]|apply B, Hu].
  - intros u Hu. cbn in *. destruct (u =? ctgt s)%nat; [apply G, Hu|apply C, Hu].
  - change (at_ (goto (set_tg s (ctgt s) x) p)) with p. rewrite !cx_set. exact H.
Qed.
Lemma Inv_goto s p : Inv s ->
  match p with
  | Send _ => connected (cx s) = true
  | Bind _ | Connect _ => connected (cx s) = false /\ is_fd (cx s) = false /\ fd (cx s) <> None
  | Socket _ => connected (cx s) = false /\ is_fd (cx s) = false /\ fd (cx s) = None
  | Recheck _ => is_fd (cx s) = false /\ (connected (cx s) = true \/ (connected (cx s) = false /\ fd (cx s) = None))
  | _ => True
  end -> Inv (goto s p).
Proof. intros [A B C D] H. constructor; assumption. Qed.

Lemma stepR_Inv s a s' ev : Inv s -> stepR s a s' ev -> Inv s'.
Proof.
  intros I R. pose proof (i_pc s I) as P. pose proof I as [A B C _].
  destruct R; try exact I; try match goal with H : at_ s = _ |- _ => rewrite H in P end.
  - constructor; cbn; auto.
  - constructor; cbn; auto.
  - apply Inv_goto; assumption.
  - apply Inv_goto; auto.
  - apply Inv_goto; auto.
  - apply Inv_set; cbn; auto; congruence.
  - apply Inv_set; cbn; auto; try tauto; try (intros; destruct P as (P1 & P2 & P3); congruence).
  - apply Inv_set; cbn; try tauto; try (intros; destruct P as (P1 & P2 & P3); congruence).
    destruct P as (P1 & P2 & P3). destruct (has_local (cx s)); repeat split; auto; discriminate.
  - apply Inv_goto; auto.
  - destruct P as (P1 & P2 & P3). apply Inv_set; cbn; auto; congruence.
  - destruct P as (P1 & P2 & P3). apply Inv_set; cbn; auto; congruence.
  - destruct P as (P1 & P2 & P3). apply Inv_set; cbn; auto; congruence.
  - apply Inv_goto; assumption.
  - apply Inv_goto; auto.
  - apply Inv_goto; auto.
  - apply Inv_set; cbn; auto; congruence.
  - apply Inv_set; cbn; auto; congruence.
Qed.

Lemma exec_Inv s o : Inv s -> Inv (fst (exec s o)).
Proof.
  intros I. destruct o as [t tag mem| |a]; cbn [exec].
  - destruct (dead s); [exact I|]. unfold sched. destruct mem; cbn; [|exact I]. destruct I as [A B C D]. constructor; cbn; auto.
  - destruct (dead s); [exact I|]. destruct I as [A B C D]. constructor; cbn; auto.
  - eapply stepR_Inv; [exact I|]. apply step_stepR, I.
Qed.
Lemma init_Inv : Inv (init kinds).
Proof.
  constructor; cbn; unfold kfd, kf; try (intros t; destruct (kinds t) as [[a b] c]; cbn; auto; try discriminate).
  - intros ->. reflexivity.
  - intros ->. discriminate.
  - exact Logic.I.
Qed.

(** ** Order *)

Definition notes (q : list item) : list (nat * nat * list Z) := flat_map (fun i => match i with Note n t b => [(n, t, b)] | Term => [] end) q.
Definition busy (s : st) : list (nat * nat * list Z) := match at_ s with Idle | Ended => [] | _ => [cur s] end.
Definition lined (a : nat * nat * list Z) : nat * nat * list Z := let '(n, t, tag) := a in (n, t, tag ++ [10]).
Definition key (a : nat * nat * list Z) : nat * nat := fst a.
Definition fkey (a : nat * nat * bool) : nat * nat := fst a.

(** Where Term may be. *)
Definition terms (s : st) : Prop :=
  if dead s then (exists q, queue s = q ++ [Term] /\ ~ In Term q /\ at_ s <> Ended) \/ (queue s = [] /\ at_ s = Ended)
  else ~ In Term (queue s) /\ at_ s <> Ended.

Lemma notes_app a b : notes (a ++ b) = notes a ++ notes b.
Proof. apply flat_map_app. Qed.
Lemma acc_app a b : accepted (a ++ b) = accepted a ++ accepted b.
Proof. apply flat_map_app. Qed.
Lemma fates_app a b : fates (a ++ b) = fates a ++ fates b.
Proof. apply flat_map_app. Qed.

(** One operation: what is pending before, and accepted now, either gets its fate now or is pending afterwards. *)
Definition pending (s : st) : list (nat * nat * list Z) := busy s ++ notes (queue s).
Lemma terms_same s s' : terms s -> queue s' = queue s -> dead s' = dead s -> at_ s <> Ended -> at_ s' <> Ended -> terms s'.
Proof.
  unfold terms. intros T -> -> A B. destruct (dead s); [|tauto]. destruct T as [(q & T1 & T2 & T3)|(T1 & T2)]; [left; eauto|tauto].
Qed.
Lemma stepR_order s a s' ev : Inv s -> terms s -> stepR s a s' ev ->
  accepted ev = [] /\ nsched s' = nsched s /\ dead s' = dead s /\ terms s' /\
  ((fates ev = [] /\ pending s = pending s') \/
   (exists b, fates ev = [(cnum s, ctgt s, b)] /\ pending s = cur s :: pending s')).
Proof.
  intros I T R. unfold pending, busy.
  destruct R; cbn [accepted fates flat_map app nsched dead goto set_tg at_ queue cur];
    try match goal with H : at_ s = _ |- _ => rewrite H in * end;
    (split; [reflexivity|]); (split; [reflexivity|]); (split; [reflexivity|]);
    try (split; [eapply terms_same; [exact T|reflexivity|reflexivity|congruence|cbn; try destruct (has_local _); discriminate]|]);
    try (left; split; reflexivity); try (right; eexists; split; [reflexivity|]; reflexivity).
  - split; [exact T|]. left. split; reflexivity.
  - unfold terms in *. cbn [dead queue at_]. destruct (dead s).
    + destruct T as [(q' & T1 & T2 & T3)|(T1 & T2)]; [|congruence]. split.
      * right. split; [|reflexivity]. rewrite T1 in H0. destruct q' as [|i q']; cbn [app] in H0; [congruence|]. injection H0 as -> _. elim T2. left. reflexivity.
      * left. split; [reflexivity|]. rewrite H0. reflexivity.
    + destruct T as (T1 & T2). elim T1. rewrite H0. left. reflexivity.
  - split; [|left; split; [reflexivity|rewrite H0; reflexivity]]. unfold terms in *. cbn [dead queue at_]. destruct (dead s).
    + destruct T as [(q' & T1 & T2 & T3)|(T1 & T2)]; [|congruence]. rewrite T1 in H0. destruct q' as [|i q']; cbn [app] in H0; [discriminate|]. injection H0 as -> Hq.
      left. exists q'. split; [auto|]. split; [intros X; apply T2; right; exact X|discriminate].
    + destruct T as (T1 & T2). split; [|discriminate]. intros X. apply T1. rewrite H0. right. exact X.
  - left. split; [reflexivity|]. destruct (has_local _); reflexivity.
  - split; [exact T|]. left. split; reflexivity.
Qed.

(** Everything accepted so far has its fate or is pending, in order. *)
Lemma run_order os : forall s, Inv s -> terms s ->
  let ev := snd (run s os) in let s' := fst (run s os) in
  Inv s' /\ terms s' /\
  (exists done, pending s ++ map lined (accepted ev) = done ++ pending s' /\ map key done = map fkey (fates ev)) /\
  map (fun a => fst (fst a)) (accepted ev) = seq (nsched s) (nsched s' - nsched s) /\ (nsched s <= nsched s')%nat /\
  (In EEnd ev -> at_ s' = Ended).
Proof.
  induction os as [|o os IH]; intros s I T; cbn [run].
  { cbn. split; [exact I|]. split; [exact T|]. split; [exists []; cbn; rewrite app_nil_r; auto|]. rewrite Nat.sub_diag. split; [reflexivity|]. split; [lia|intros []]. }
  destruct (exec s o) as [s1 e1] eqn:E1. destruct (run s1 os) as [s2 e2] eqn:E2. cbn [fst snd].
  pose proof (exec_Inv s o I) as I1. rewrite E1 in I1. cbn in I1.
  assert (X : terms s1 /\ (exists done, pending s ++ map lined (accepted e1) = done ++ pending s1 /\ map key done = map fkey (fates e1)) /\
    map (fun a => fst (fst a)) (accepted e1) = seq (nsched s) (nsched s1 - nsched s) /\ (nsched s <= nsched s1)%nat /\
    (In EEnd e1 -> at_ s1 = Ended) /\ (at_ s = Ended -> at_ s1 = Ended)).
  { destruct o as [t tag mem| |a]; cbn [exec] in E1.
    - destruct (dead s) eqn:Ed.
      { injection E1 as <- <-. cbn. rewrite Nat.sub_diag. split; [exact T|]. split; [exists []; rewrite app_nil_r; auto|]. repeat split; auto. intros []. }
      unfold sched in E1. destruct mem; cbn [negb] in E1; injection E1 as <- <-.
      + cbn [accepted flat_map app map fates nsched]. split.
        { unfold terms in *. cbn. rewrite Ed in *. destruct T as (T1 & T2). split; [|exact T2]. intros X. apply in_app_or in X. destruct X as [X|[X|[]]]; [auto|discriminate]. }
        split. { exists []. unfold pending, busy. cbn [app at_ queue cur map]. rewrite notes_app, app_assoc. auto. }
        replace (S (nsched s) - nsched s)%nat with 1%nat by lia. split; [reflexivity|]. split; [lia|]. split; [intros [X|[]]; discriminate|auto].
      + cbn. rewrite Nat.sub_diag. split; [exact T|]. split; [exists []; rewrite app_nil_r; auto|]. repeat split; auto. intros [X|[]]; discriminate.
    - destruct (dead s) eqn:Ed.
      { injection E1 as <- <-. cbn. rewrite Nat.sub_diag. split; [exact T|]. split; [exists []; rewrite app_nil_r; auto|]. repeat split; auto. intros []. }
      injection E1 as <- <-. cbn [accepted flat_map app map fates nsched]. rewrite Nat.sub_diag. split.
      { unfold terms in *. cbn. rewrite Ed in *. destruct T as (T1 & T2). left. exists (queue s). auto. }
      split. { exists []. unfold pending, busy. cbn [app at_ queue cur map]. rewrite notes_app. cbn. rewrite !app_nil_r. auto. }
      repeat split; auto. intros [].
    - pose proof (step_stepR s a I) as R. rewrite E1 in R. cbn in R.
      destruct (stepR_order s a s1 e1 I T R) as (A1 & A2 & A3 & A4 & A5). rewrite A1, A2, Nat.sub_diag. cbn [map]. rewrite app_nil_r.
      split; [exact A4|]. split.
      { destruct A5 as [(B1 & B2)|(b & B1 & B2)]; rewrite B1, B2; [exists []; auto|exists [cur s]; split; [reflexivity|cbn; unfold key, fkey, cnum, ctgt; cbn; destruct (cur s) as [[? ?] ?]; reflexivity]]. }
      split; [reflexivity|]. split; [lia|]. split.
      + intros HE. destruct R; cbn in HE; try (destruct HE as [HE|HE]; try discriminate); try (destruct HE as [HE|HE]; try discriminate); try destruct HE; reflexivity.
      + intros HE. destruct R; congruence. }
  destruct X as (T1 & (d1 & D1 & D2) & N1 & N2 & E3 & E4).
  specialize (IH s1 I1 T1). rewrite E2 in IH. cbn [fst snd] in IH. destruct IH as (I2 & T2 & (d2 & D3 & D4) & N3 & N4 & E5).
  split; [exact I2|]. split; [exact T2|]. split.
  { exists (d1 ++ d2). rewrite acc_app, fates_app, !map_app, D2, D4. split; [|reflexivity]. rewrite app_assoc, D1, <- !app_assoc, D3. reflexivity. }
  split. { rewrite acc_app, map_app, N1, N3. replace (nsched s2 - nsched s)%nat with ((nsched s1 - nsched s) + (nsched s2 - nsched s1))%nat by lia.
    rewrite seq_app. do 2 f_equal. lia. }
  split; [lia|]. intros HE. apply in_app_or in HE. destruct HE as [HE|HE]; [|auto].
  pose proof (E3 HE) as Q. clear - Q E2 I1. revert s1 s2 e2 Q E2 I1. induction os as [|o os IH]; intros s1 s2 e2 Q E2 I1; cbn [run] in E2; [injection E2 as <- <-; exact Q|].
  destruct (exec s1 o) as [s3 e3] eqn:E3. destruct (run s3 os) as [s4 e4] eqn:E4. injection E2 as <- <-.
  pose proof (exec_Inv s1 o I1) as I3. rewrite E3 in I3. apply (IH s3 s4 e4); [|exact E4|exact I3].
  destruct o as [t tag mem| |a]; cbn [exec] in E3.
  - unfold sched in E3. destruct (dead s1), mem; cbn in E3; injection E3 as <- <-; exact Q.
  - destruct (dead s1); injection E3 as <- <-; exact Q.
  - pose proof (step_stepR s1 a I1) as R. rewrite E3 in R. cbn in R. destruct R; congruence.
Qed.

Lemma init_terms : terms (init kinds).
Proof. unfold terms. cbn. split; [tauto|discriminate]. Qed.

Lemma lined_key l : map key (map lined l) = map key l.
Proof. rewrite map_map. apply map_ext. intros [[n t] b]. reflexivity. Qed.

(** Numbered in order; fates follow the order of scheduling; once the thread has ended, all have one. *)
Lemma order_thm os : let ev := snd (run (init kinds) os) in
  map (fun a => fst (fst a)) (accepted ev) = seq 0 (length (accepted ev)) /\
  (exists later, map fst (accepted ev) = map fst (fates ev) ++ later) /\
  (In EEnd ev -> map fst (accepted ev) = map fst (fates ev)).
Proof.
  cbv zeta. destruct (run_order os (init kinds) init_Inv init_terms) as (I2 & T2 & (d & D1 & D2) & N1 & N2 & E1).
  set (ev := snd (run (init kinds) os)) in *. set (s' := fst (run (init kinds) os)) in *.
  cbn [pending busy init at_ queue notes flat_map app nsched] in D1, N1.
  split. { rewrite N1 at 1. f_equal. rewrite <- (map_length (fun a => fst (fst a)) (accepted ev)), N1, seq_length. reflexivity. }
  assert (K : map fst (accepted ev) = map fst (fates ev) ++ map key (pending s')).
  { change (map fst (accepted ev)) with (map key (accepted ev)). rewrite <- lined_key. change (pending (init kinds)) with (@nil (nat * nat * list Z)) in D1. cbn [app] in D1. rewrite D1, map_app, D2. reflexivity. }
  split; [eexists; exact K|]. intros HE. rewrite K. specialize (E1 HE).
  enough (P : pending s' = []) by (rewrite P, app_nil_r; reflexivity).
  unfold pending, busy. rewrite E1. unfold terms in T2. destruct (dead s'); [|tauto]. destruct T2 as [(q & _ & _ & Q)|(Q & _)]; [tauto|]. rewrite Q. reflexivity.
Qed.

(** ** Bytes *)

Fixpoint lines2 (l : list (nat * nat * list Z)) (fs : list (nat * nat * bool)) (t : nat) : list Z :=
  match l, fs with
  | (_, u, b) :: l, (_, _, ok) :: fs => (if (u =? t)%nat && ok then b else []) ++ lines2 l fs t
  | _, _ => []
  end.
Lemma lines2_lined acc : forall fs t, lines2 (map lined acc) fs t = lines_to acc fs t.
Proof.
  induction acc as [|[[n u] tag] acc IH]; intros [|[[m v] ok] fs] t; try reflexivity.
  cbn [map lined lines2 lines_to]. rewrite IH. reflexivity.
Qed.
Lemma bytes_app a b t : bytes_to (a ++ b) t = bytes_to a t ++ bytes_to b t.
Proof. apply flat_map_app. Qed.

Definition fits (os : list op) (s : st) : Prop :=
  forall k, In (Step (ASend (Took k))) os ->
    (forall a, In a (pending s) -> (length (snd a) <= k)%nat) /\ (forall t tag mem, In (Sched t tag mem) os -> (length tag < k)%nat).

Lemma stepR_bytes s a s' ev t : stepR s a s' ev -> (forall k, a = ASend (Took k) -> busy s <> [] -> (length (cbuf s) <= k)%nat) ->
  (fates ev = [] -> bytes_to ev t = []) /\
  (forall n u b, fates ev = [(n, u, b)] -> n = cnum s /\ u = ctgt s /\ bytes_to ev t = if (ctgt s =? t)%nat && b then cbuf s else []).
Proof.
  intros R F. unfold busy in F.
  destruct R; cbn [fates bytes_to flat_map app]; (split; [first [reflexivity|discriminate]|]); intros n' u' b'; try discriminate; intros E; injection E as <- <- <-;
    (split; [reflexivity|]); (split; [reflexivity|]); try (rewrite andb_false_r; reflexivity).
  rewrite andb_true_r, firstn_all2, app_nil_r; [reflexivity|]. apply F; [assumption|]. rewrite H. discriminate.
Qed.

Lemma run_bytes os t : forall s, Inv s -> terms s -> fits os s ->
  let ev := snd (run s os) in bytes_to ev t = lines2 (pending s ++ map lined (accepted ev)) (fates ev) t.
Proof.
  induction os as [|o os IH]; intros s I T F; cbn [run].
  { cbn. destruct (pending s ++ []) as [|[[? ?] ?] ?]; reflexivity. }
  destruct (exec s o) as [s1 e1] eqn:E1. pose proof (exec_Inv s o I) as I1. rewrite E1 in I1. cbn in I1.
  destruct (run_order [o] s I T) as (_ & T1 & _). cbn [run] in T1. rewrite E1 in T1. cbn [fst] in T1.
  specialize (IH s1 I1 T1). destruct (run s1 os) as [s2 e2] eqn:E2. cbn [fst snd] in *.
  rewrite bytes_app, acc_app, fates_app, map_app.
  assert (Ft : forall k, In (Step (ASend (Took k))) os -> forall t tag mem, In (Sched t tag mem) os -> (length tag < k)%nat).
  { intros k Hk u tag mem Hs. destruct (F k) as (_ & F2); [right; exact Hk|]. eapply F2. right. exact Hs. }
  destruct o as [u tag mem| |a]; cbn [exec] in E1.
  - destruct (dead s) eqn:Ed; [injection E1 as <- <-|unfold sched in E1; destruct mem; cbn [negb] in E1; injection E1 as <- <-].
    + cbn [accepted fates bytes_to flat_map app map]. apply IH. intros k Hk. split; [|eapply Ft; exact Hk]. apply (F k). right. exact Hk.
    + cbn [accepted fates bytes_to flat_map app map]. unfold pending in *. unfold busy in *. cbn [at_ cur queue] in *. rewrite notes_app in IH. cbn [notes flat_map app] in IH.
      rewrite <- !app_assoc in IH. cbn [app] in IH. change (flat_map (fun i : item => match i with Note n t b => [(n, t, b)] | Term => [] end) (queue s)) with (notes (queue s)) in IH.
      rewrite <- app_assoc. cbn [app]. apply IH.
      intros k Hk. destruct (F k) as (F1 & F2); [right; exact Hk|]. split; [|eapply Ft; exact Hk].
      intros a Ha. unfold pending, busy in Ha. cbn [at_ cur queue] in Ha. rewrite notes_app, app_assoc in Ha. apply in_app_or in Ha. destruct Ha as [Ha|Ha]; [apply F1, Ha|].
      cbn in Ha. destruct Ha as [<-|[]]. cbn [snd]. rewrite app_length. cbn. specialize (F2 u tag true (or_introl eq_refl)). lia.
    + cbn [accepted fates bytes_to flat_map app map]. apply IH. intros k Hk. split; [|eapply Ft; exact Hk]. apply (F k). right. exact Hk.
  - destruct (dead s) eqn:Ed; injection E1 as <- <-; cbn [accepted fates bytes_to flat_map app map].
    + apply IH. intros k Hk. split; [|eapply Ft; exact Hk]. apply (F k). right. exact Hk.
    + assert (P : pending (mkSt (queue s ++ [Term]) (cur s) (at_ s) (tg s) (nsched s) true) = pending s).
      { unfold pending, busy. cbn [at_ cur queue]. rewrite notes_app. cbn. rewrite app_nil_r. reflexivity. }
      rewrite P in IH. apply IH. intros k Hk. rewrite P. split; [|eapply Ft; exact Hk]. apply (F k). right. exact Hk.
  - pose proof (step_stepR s a I) as R. rewrite E1 in R. cbn in R.
    destruct (stepR_order s a s1 e1 I T R) as (A1 & A2 & A3 & A4 & A5). rewrite A1. cbn [map app].
    assert (F' : forall k, a = ASend (Took k) -> busy s <> [] -> (length (cbuf s) <= k)%nat).
    { intros k -> Hb. destruct (F k) as (F1 & _); [left; reflexivity|]. unfold cbuf. apply F1. unfold pending, busy in *. destruct (at_ s); try tauto; left; reflexivity. }
    destruct (stepR_bytes s a s1 e1 t R F') as (B1 & B2).
    assert (Fn : fits os s1).
    { intros k Hk. split; [|eapply Ft; exact Hk]. intros x Hx. apply (F k); [right; exact Hk|]. destruct A5 as [(_ & ->)|(b & _ & ->)]; [exact Hx|right; exact Hx]. }
    specialize (IH Fn). destruct A5 as [(C1 & C2)|(b & C1 & C2)].
    + rewrite B1, C1, C2 by exact C1. exact IH.
    + destruct (B2 _ _ _ C1) as (_ & _ & ->). rewrite C1, C2. cbn [app lines2]. rewrite IH.
      unfold ctgt, cbuf. destruct (cur s) as [[n u] bf]. reflexivity.
Qed.
Lemma bytes_thm os t : takes_all os -> let ev := snd (run (init kinds) os) in bytes_to ev t = lines_to (accepted ev) (fates ev) t.
Proof.
  intros F. cbv zeta. rewrite run_bytes; [cbn [pending busy init at_ queue notes flat_map app]; apply lines2_lined|apply init_Inv|apply init_terms|].
  intros k Hk. split; [cbn; tauto|]. intros u tag mem Hs. eapply F; eassumption.
Qed.

(** ** Descriptors *)

Definition keep (f : nat) : Prop := exists t, kfd t = true /\ kf t = f.
Record D (s : st) (d : fds) : Prop := mkD {
  d_open : forall t f, fd (tg s t) = Some f -> isopen d f;
  d_peer : forall t f, connected (tg s t) = true -> fd (tg s t) = Some f -> peer d f t;
  d_own : forall t f, kfd t = false -> fd (tg s t) = Some f -> ~ keep f;
  d_keep : forall f, keep f -> isopen d f;
  d_one : forall t u f, kfd t = false -> kfd u = false -> fd (tg s t) = Some f -> fd (tg s u) = Some f -> t = u }.

Lemma D_tg s s' d : tg s' = tg s -> D s d -> D s' d.
Proof. intros E [A B C F G]. constructor; rewrite ?E; assumption. Qed.

Lemma D_close s d f x p : Inv s -> D s d -> is_fd (cx s) = false -> fd (cx s) = Some f -> x = with_fd (cx s) None -> connected (cx s) = false ->
  D (goto (set_tg s (ctgt s) x) p) (mkFds (fun g => g <> f /\ isopen d g) (fun g t => g <> f /\ peer d g t)).
Proof.
  intros I [A B C F G] Ki Kf -> Kc. assert (Kk : kfd (ctgt s) = false) by (rewrite <- (i_kind s I); exact Ki).
  assert (Other : forall t g, t <> ctgt s -> fd (tg s t) = Some g -> g <> f).
  { intros t g Ht Hg ->. destruct (kfd t) eqn:Ekt.
    - rewrite (i_fd s I t Ekt) in Hg. injection Hg as Hg. apply (C (ctgt s) f Kk Kf). exists t. auto.
    - apply Ht. eapply G; eauto. }
  constructor; cbn [isopen peer].
  - intros t g Hg. cbn in Hg. destruct (Nat.eqb_spec t (ctgt s)) as [|N]; [discriminate|]. split; [eapply Other; eauto|eapply A; eauto].
  - intros t g Hc Hg. cbn in Hc, Hg. destruct (Nat.eqb_spec t (ctgt s)) as [|N]; [discriminate|]. split; [eapply Other; eauto|eapply B; eauto].
  - intros t g Ht Hg. cbn in Hg. destruct (Nat.eqb_spec t (ctgt s)) as [|N]; [discriminate|]. eapply C; eauto.
  - intros g Hg. split; [|apply F, Hg]. intros ->. eapply C; eauto.
  - intros t u g Ht Hu Hg Hg'. cbn in Hg, Hg'. destruct (Nat.eqb_spec t (ctgt s)); [discriminate|]. destruct (Nat.eqb_spec u (ctgt s)); [discriminate|]. eapply G; eauto.
Qed.

Lemma D_none s d p : Inv s -> D s d -> fd (cx s) = None -> D (goto (set_tg s (ctgt s) (with_fd (cx s) None)) p) d.
Proof.
  intros I [A B C F G] Kf.
  assert (E : forall t, fd (tg (goto (set_tg s (ctgt s) (with_fd (cx s) None)) p) t) = fd (tg s t)).
  { intros t. cbn. destruct (Nat.eqb_spec t (ctgt s)) as [->|]; [symmetry; exact Kf|reflexivity]. }
  assert (E2 : forall t, connected (tg (goto (set_tg s (ctgt s) (with_fd (cx s) None)) p) t) = connected (tg s t)).
  { intros t. cbn. destruct (Nat.eqb_spec t (ctgt s)) as [->|]; reflexivity. }
  constructor; intros *; rewrite ?E, ?E2; auto; try apply A; try apply B; try apply C; try apply G.
Qed.

Lemma D_sock s d f p : Inv s -> D s d -> is_fd (cx s) = false -> connected (cx s) = false -> fd (cx s) = None -> ~ isopen d f ->
  D (goto (set_tg s (ctgt s) (with_fd (cx s) (Some f))) p) (mkFds (fun g => g = f \/ isopen d g) (fun g t => g <> f /\ peer d g t)).
Proof.
  intros I [A B C F G] Ki Kc Kf New. constructor; cbn [isopen peer].
  - intros t g Hg. cbn in Hg. destruct (Nat.eqb_spec t (ctgt s)) as [|N]; [left; cbn in Hg; congruence|right; eapply A; eauto].
  - intros t g Hc Hg. cbn in Hc, Hg. destruct (Nat.eqb_spec t (ctgt s)) as [|N]; [cbn in Hc; congruence|]. split; [|eapply B; eauto]. intros ->. apply New. eapply A; eauto.
  - intros t g Ht Hg. cbn in Hg. destruct (Nat.eqb_spec t (ctgt s)) as [|N]; [|eapply C; eauto]. cbn in Hg. injection Hg as <-. intros Hk. apply New, F, Hk.
  - intros g Hg. right. apply F, Hg.
  - intros t u g Ht Hu Hg Hg'. cbn in Hg, Hg'. destruct (Nat.eqb_spec t (ctgt s)) as [->|]; destruct (Nat.eqb_spec u (ctgt s)) as [->|]; cbn in Hg, Hg'; auto.
    + injection Hg as <-. elim New. eapply A; eauto.
    + injection Hg' as <-. elim New. eapply A; eauto.
    + eapply G; eauto.
Qed.

Lemma D_conn s d f p : Inv s -> D s d -> fd (cx s) = Some f ->
  D (goto (set_tg s (ctgt s) (with_conn (cx s) true)) p) (mkFds (isopen d) (fun g u => peer d g u \/ (g = f /\ u = ctgt s /\ true = true))).
Proof.
  intros I [A B C F G] Kf.
  assert (E : forall t, fd (tg (goto (set_tg s (ctgt s) (with_conn (cx s) true)) p) t) = fd (tg s t)).
  { intros t. cbn. destruct (Nat.eqb_spec t (ctgt s)) as [->|]; reflexivity. }
  constructor; cbn [isopen peer].
  - intros t g. rewrite E. apply A.
  - intros t g Hc Hg. rewrite E in Hg. cbn in Hc. destruct (Nat.eqb_spec t (ctgt s)) as [->|]; [right; unfold cx in Kf; repeat split; congruence|left; apply B; auto].
  - intros t g. rewrite E. apply C.
  - exact F.
  - intros t u g. rewrite !E. apply G.
Qed.
Lemma D_unconn s d p f : Inv s -> D s d ->
  D (goto (set_tg s (ctgt s) (with_conn (cx s) false)) p) (mkFds (isopen d) (fun g u => ~ (g = f /\ u = ctgt s) /\ peer d g u)).
Proof.
  intros I [A B C F G].
  assert (E : forall t, fd (tg (goto (set_tg s (ctgt s) (with_conn (cx s) false)) p) t) = fd (tg s t)).
  { intros t. cbn. destruct (Nat.eqb_spec t (ctgt s)) as [->|]; reflexivity. }
  constructor; cbn [isopen peer].
  - intros t g. rewrite E. apply A.
  - intros t g Hc Hg. rewrite E in Hg. cbn in Hc. destruct (Nat.eqb_spec t (ctgt s)) as [->|]; [discriminate|split; [tauto|apply B; auto]].
  - intros t g. rewrite E. apply C.
  - exact F.
  - intros t u g. rewrite !E. apply G.
Qed.
Lemma D_connfail s d t f : D s d -> D s (mkFds (isopen d) (fun g u => peer d g u \/ (g = f /\ u = t /\ false = true))).
Proof. intros [A B C F G]. constructor; cbn; auto. Qed.

Lemma run_used os : forall s d, Inv s -> D s d -> well_used keep d (snd (run s os)).
Proof.
  induction os as [|o os IH]; intros s d I Ds; cbn [run]; [exact Logic.I|].
  destruct (exec s o) as [s1 e1] eqn:E1. pose proof (exec_Inv s o I) as I1. rewrite E1 in I1. cbn in I1.
  specialize (IH s1). destruct (run s1 os) as [s2 e2] eqn:E2. cbn [fst snd] in *.
  destruct o as [t tag mem| |a]; cbn [exec] in E1.
  - destruct (dead s); [injection E1 as <- <-; apply IH; auto|]. unfold sched in E1. destruct mem; injection E1 as <- <-; cbn; apply IH; auto. eapply D_tg; [|exact Ds]. reflexivity.
  - destruct (dead s); injection E1 as <- <-; cbn; apply IH; auto. eapply D_tg; [|exact Ds]. reflexivity.
  - pose proof (step_stepR s a I) as R. rewrite E1 in R. cbn in R. pose proof (i_pc s I) as P. pose proof Ds as [A B C F G].
    assert (Own : forall f, is_fd (cx s) = false -> fd (cx s) = Some f -> ~ keep f).
    { intros f K1 K2. apply (C (ctgt s)); [|exact K2]. rewrite <- (i_kind s I). exact K1. }
    destruct R; try match goal with H : at_ s = _ |- _ => rewrite H in P end; cbn [app well_used].
    + apply IH; auto.
    + apply IH; auto. eapply D_tg; [|exact Ds]; reflexivity.
    + apply IH; auto. eapply D_tg; [|exact Ds]; reflexivity.
    + apply IH; auto. eapply D_tg; [|exact Ds]; reflexivity.
    + apply IH; auto. eapply D_tg; [|exact Ds]; reflexivity.
    + apply IH; auto. eapply D_tg; [|exact Ds]; reflexivity.
    + split; [eapply A; eauto|]. split; [auto|]. apply IH; auto. eapply D_close; eauto.
    + apply IH; auto. apply D_none; tauto.
    + intros New. apply IH; auto. apply D_sock; tauto.
    + split; [eapply A; eauto|]. apply IH; auto. eapply D_tg; [|exact Ds]; reflexivity.
    + split; [eapply A; eauto|]. split; [eapply A; eauto|]. split; [apply Own; tauto|]. apply IH; auto. eapply D_close; eauto; tauto.
    + split; [eapply A; eauto|]. apply IH; auto. apply D_conn; auto.
    + split; [eapply A; eauto|]. split; [eapply A; eauto|]. split; [apply Own; tauto|]. apply IH; auto.
      eapply (D_close s (mkFds (isopen d) (fun g u => peer d g u \/ (g = f /\ u = ctgt s /\ false = true)))); eauto; try tauto. apply D_connfail, Ds.
    + apply IH; auto. eapply D_tg; [|exact Ds]; reflexivity.
    + apply IH; auto. eapply D_tg; [|exact Ds]; reflexivity.
    + split; [eapply A; eauto|]. split; [apply B; auto|]. apply IH; auto.
    + split; [eapply A; eauto|]. split; [apply B; auto|]. apply IH; auto. eapply D_tg; [|exact Ds]; reflexivity.
    + split; [eapply A; eauto|]. split; [apply B; auto|]. apply IH; auto. apply D_unconn; auto.
    + split; [eapply A; eauto|]. split; [apply B; auto|]. apply IH; auto. apply D_unconn; auto.
Qed.
Lemma used_thm os :
  well_used (fun f => exists t b, kinds t = (true, b, f)) (mkFds (fun f => exists t b, kinds t = (true, b, f)) (fun f t => exists b, kinds t = (true, b, f)))
    (snd (run (init kinds) os)).
Proof.
  assert (K : forall f, (exists t b, kinds t = (true, b, f)) <-> keep f).
  { intros f. unfold keep, kfd, kf. split.
    - intros (t & b & E). exists t. rewrite E. auto.
    - intros (t & E1 & E2). exists t. destruct (kinds t) as [[x b] g]. cbn in *. exists b. congruence. }
  assert (M : forall ev d, well_used keep d ev -> well_used (fun f => exists t b, kinds t = (true, b, f)) d ev).
  { induction ev as [|e ev IH]; intros d; [auto|]. destruct e as [| |[f|]| | | | |? ? [?|]| | | |]; cbn [well_used]; intros H; try (apply IH; tauto);
      try (repeat split; try apply IH; try rewrite K; tauto). intros N. apply IH, H, N. }
  apply M, run_used; [apply init_Inv|]. constructor; cbn [isopen peer].
  - intros t f. cbn. destruct (kinds t) as [[x b] g] eqn:E. cbn. destruct x; [|discriminate]. intros X. injection X as <-. eauto.
  - intros t f. cbn. destruct (kinds t) as [[x b] g] eqn:E. cbn. intros ->. intros X. injection X as <-. eauto.
  - intros t f. unfold kfd. cbn. destruct (kinds t) as [[x b] g] eqn:E. cbn. intros ->. discriminate.
  - intros f. apply K.
  - intros t u f. unfold kfd. cbn. destruct (kinds t) as [[x b] g] eqn:E. cbn. intros ->. discriminate.
Qed.

(** ** Descriptors left open *)

Definition made (s : st) (t : nat) : Z := if kfd t then 0 else match fd (tg s t) with Some _ => 1 | None => 0 end.
Definition known (T : list nat) (s : st) : Prop := forall a, In a (pending s) -> In (snd (fst a)) T.
Lemma lo_app a b : left_open (a ++ b) = left_open a + left_open b.
Proof. apply zsum_app. Qed.

Lemma zsum_change (f g : nat -> Z) T u : NoDup T -> In u T -> (forall t, t <> u -> f t = g t) -> zsum g T = zsum f T - f u + g u.
Proof.
  induction 1 as [|x T N ND IH]; [intros []|]. intros [->|H] E; cbn [zsum].
  - enough (zsum g T = zsum f T) by lia. clear - N E. induction T as [|y T IH]; [reflexivity|]. cbn [zsum]. rewrite IH by (intros X; apply N; right; exact X).
    rewrite (E y); [reflexivity|]. intros ->. apply N. left. reflexivity.
  - rewrite (IH H E), (E x); [lia|]. intros ->. tauto.
Qed.
Lemma made_change T s x p : NoDup T -> In (ctgt s) T -> is_fd (cx s) = false -> Inv s ->
  zsum (made (goto (set_tg s (ctgt s) x) p)) T =
  zsum (made s) T - match fd (cx s) with Some _ => 1 | None => 0 end + match fd x with Some _ => 1 | None => 0 end.
Proof.
  intros ND HI Ki I. assert (Kk : kfd (ctgt s) = false) by (rewrite <- (i_kind s I); exact Ki).
  rewrite (zsum_change (made s) _ T (ctgt s) ND HI).
  - unfold made at 2 3. rewrite Kk. unfold cx at 1. cbn. rewrite Nat.eqb_refl. reflexivity.
  - intros t N. unfold made. cbn. destruct (Nat.eqb_spec t (ctgt s)); [tauto|reflexivity].
Qed.
Lemma made_same T s s' : (forall t, fd (tg s' t) = fd (tg s t)) -> zsum (made s') T = zsum (made s) T.
Proof. intros E. induction T as [|x T IH]; [reflexivity|]. cbn [zsum]. rewrite IH. unfold made at 1 3. rewrite E. reflexivity. Qed.

Lemma run_left os T : NoDup T -> (forall t tag mem, In (Sched t tag mem) os -> In t T) -> forall s, Inv s -> terms s -> known T s ->
  left_open (snd (run s os)) = zsum (made (fst (run s os))) T - zsum (made s) T.
Proof.
  intros ND. induction os as [|o os IH]; intros HS s I Ts K; cbn [run]; [cbn; lia|].
  destruct (exec s o) as [s1 e1] eqn:E1. pose proof (exec_Inv s o I) as I1. rewrite E1 in I1. cbn in I1.
  destruct (run_order [o] s I Ts) as (_ & T1 & _). cbn [run] in T1. rewrite E1 in T1. cbn [fst] in T1.
  specialize (IH (fun t tag mem H => HS t tag mem (or_intror H)) s1 I1 T1). destruct (run s1 os) as [s2 e2] eqn:E2. cbn [fst snd] in *.
  rewrite lo_app. enough (X : known T s1 /\ left_open e1 = zsum (made s1) T - zsum (made s) T) by (destruct X as (X1 & X2); specialize (IH X1); lia). clear IH E2.
  destruct o as [t tag mem| |a]; cbn [exec] in E1.
  - destruct (dead s); [injection E1 as <- <-; split; [exact K|cbn; lia]|]. unfold sched in E1. destruct mem; injection E1 as <- <-; (split; [|cbn; unfold made; cbn; lia]).
    + intros a Ha. unfold pending, busy in Ha. cbn [at_ cur queue] in Ha. rewrite notes_app, app_assoc in Ha. apply in_app_or in Ha. destruct Ha as [Ha|[<-|[]]]; [apply K, Ha|].
      cbn. eapply HS. left. reflexivity.
    + exact K.
  - destruct (dead s); injection E1 as <- <-; (split; [|cbn; unfold made; cbn; lia]); [exact K|].
    intros a Ha. unfold pending, busy in Ha. cbn [at_ cur queue] in Ha. rewrite notes_app, app_assoc in Ha. apply in_app_or in Ha. destruct Ha as [Ha|[]]. apply K, Ha.
  - pose proof (step_stepR s a I) as R. rewrite E1 in R. cbn in R. destruct (stepR_order s a s1 e1 I Ts R) as (_ & _ & _ & _ & A5).
    split. { intros x Hx. apply K. destruct A5 as [(_ & ->)|(b & _ & ->)]; [exact Hx|right; exact Hx]. }
    pose proof (i_pc s I) as P.
    assert (HT : busy s <> [] -> In (ctgt s) T).
    { intros Hb. unfold ctgt. apply K. unfold pending, busy in *. destruct (at_ s); try tauto; left; reflexivity. }
    unfold busy in HT.
    assert (Un : forall p, zsum (made (goto (set_tg s (ctgt s) (with_conn (cx s) false)) p)) T = zsum (made s) T).
    { intros p. apply made_same. intros t. cbn. destruct (Nat.eqb_spec t (ctgt s)) as [->|]; reflexivity. }
    assert (Un' : forall p, zsum (made (goto (set_tg s (ctgt s) (with_conn (cx s) true)) p)) T = zsum (made s) T).
    { intros p. apply made_same. intros t. cbn. destruct (Nat.eqb_spec t (ctgt s)) as [->|]; reflexivity. }
    destruct R; try match goal with H : at_ s = _ |- _ => rewrite H in P, HT end; unfold left_open; cbn [zsum]; rewrite ?Un, ?Un';
      try (rewrite (made_same T _ _ (fun t => eq_refl)); lia); try lia.
    + change (zsum (made {| queue := q; cur := cur s; at_ := Ended; tg := tg s; nsched := nsched s; dead := dead s |}) T) with (zsum (made s) T). lia.
    + change (zsum (made {| queue := q; cur := (n, t, b); at_ := Check 3; tg := tg s; nsched := nsched s; dead := dead s |}) T) with (zsum (made s) T). lia.
    + change (zsum (made (goto s (Send r))) T) with (zsum (made s) T). lia.
    + change (zsum (made (goto s Aborted)) T) with (zsum (made s) T). lia.
    + change (zsum (made (goto s (Socket r))) T) with (zsum (made s) T). lia.
    + rewrite made_change; auto. 2: apply HT; discriminate. rewrite H2. cbn. lia.
    + destruct P as (P1 & P2 & P3). rewrite made_change; auto. 2: apply HT; discriminate. rewrite P3. cbn. lia.
    + destruct P as (P1 & P2 & P3). rewrite made_change; auto. 2: apply HT; discriminate. rewrite P3. cbn. lia.
    + change (zsum (made (goto s (Connect r))) T) with (zsum (made s) T). lia.
    + destruct P as (P1 & P2 & P3). rewrite made_change; auto. 2: apply HT; discriminate. rewrite H1. cbn. lia.
    + destruct P as (P1 & P2 & P3). rewrite made_change; auto. 2: apply HT; discriminate. rewrite H1. cbn. lia.
    + change (zsum (made (goto s (Send r))) T) with (zsum (made s) T). lia.
    + change (zsum (made (goto s Idle)) T) with (zsum (made s) T). lia.
    + change (zsum (made (goto s Idle)) T) with (zsum (made s) T). lia.
Qed.
Lemma made_bound s T : 0 <= zsum (made s) T <= Z.of_nat (length T).
Proof. induction T as [|x T IH]; cbn [zsum length]; [lia|]. assert (0 <= made s x <= 1) by (unfold made; destruct (kfd x); [lia|]; destruct (fd (tg s x)); lia). lia. Qed.
Lemma left_thm os T : NoDup T -> (forall t tag mem, In (Sched t tag mem) os -> In t T) ->
  0 <= left_open (snd (run (init kinds) os)) <= Z.of_nat (length T).
Proof.
  intros ND HS. rewrite (run_left os T ND HS); [|apply init_Inv|apply init_terms|cbn; intros a []].
  pose proof (made_bound (fst (run (init kinds) os)) T). enough (zsum (made (init kinds)) T = 0) by lia.
  clear. induction T as [|x T IH]; [reflexivity|]. cbn [zsum]. rewrite IH. unfold made, kfd. cbn. destruct (kinds x) as [[[] b] f]; reflexivity.
Qed.

(** ** Attempts *)

Definition tries (s : st) (sends : nat) (noconn : bool) : Prop :=
  match at_ s with
  | Idle => sends = O
  | Check r | Socket r | Bind r | Connect r | Send r => (r + sends = 3)%nat
  | Recheck r => (r + sends = 3)%nat /\ (connected (cx s) = false -> noconn = true)
  | Ended | Aborted => True
  end.
Lemma run_patient os : forall s k b, Inv s -> tries s k b -> patient k b (snd (run s os)).
Proof.
  induction os as [|o os IH]; intros s k b I T; cbn [run]; [exact Logic.I|].
  destruct (exec s o) as [s1 e1] eqn:E1. pose proof (exec_Inv s o I) as I1. rewrite E1 in I1. cbn in I1.
  specialize (IH s1). destruct (run s1 os) as [s2 e2] eqn:E2. cbn [fst snd] in *.
  destruct o as [t tag mem| |a]; cbn [exec] in E1.
  - destruct (dead s); [injection E1 as <- <-; apply IH; auto|]. unfold sched in E1. destruct mem; injection E1 as <- <-; cbn; apply IH; auto.
  - destruct (dead s); injection E1 as <- <-; cbn; apply IH; auto.
  - pose proof (step_stepR s a I) as R. rewrite E1 in R. cbn in R. pose proof (i_pc s I) as P. unfold tries in T.
    destruct R; try match goal with H : at_ s = _ |- _ => rewrite H in P, T end; cbn [app patient];
      try (apply IH; [assumption|]; unfold tries; cbn [at_ goto set_tg]; rewrite ?cx_set, ?cx_goto; cbn; auto; try lia; try tauto; fail).
    + split; [lia|]. apply IH; [assumption|]. unfold tries. cbn [at_ goto set_tg]. auto.
    + split; [lia|]. apply IH; [assumption|]. unfold tries. cbn [at_ goto set_tg]. destruct (has_local (cx s)); exact T.
    + destruct T as (T1 & T2). split; [left; auto|]. apply IH; [assumption|]. reflexivity.
    + apply IH; [assumption|]. unfold tries. rewrite H. exact T.
    + split; [lia|]. split; [exact Logic.I|]. split; [lia|]. apply IH; [assumption|]. reflexivity.
    + split; [lia|]. split; [right; lia|]. apply IH; [assumption|]. reflexivity.
    + split; [lia|]. apply IH; [assumption|]. unfold tries. cbn [at_ goto set_tg]. lia.
Qed.
Lemma patient_thm os : patient 0 false (snd (run (init kinds) os)).
Proof. apply run_patient; [apply init_Inv|reflexivity]. Qed.

(** ** Assertions *)

Lemma run_abort os : forall s, Inv s -> In EAbort (snd (run s os)) ->
  (exists t, kfd t = true /\ connected (tg s t) = false) \/ (exists t, kfd t = true /\ In (ESend (kf t) t None) (snd (run s os))).
Proof.
  induction os as [|o os IH]; intros s I; cbn [run]; [intros []|].
  destruct (exec s o) as [s1 e1] eqn:E1. pose proof (exec_Inv s o I) as I1. rewrite E1 in I1. cbn in I1.
  specialize (IH s1 I1). destruct (run s1 os) as [s2 e2] eqn:E2. cbn [fst snd] in *. intros HA.
  assert (X : (In EAbort e1 -> exists t, kfd t = true /\ connected (tg s t) = false) /\
    (forall t, kfd t = true -> connected (tg s1 t) = false -> connected (tg s t) = false \/ In (ESend (kf t) t None) e1)).
  { destruct o as [t tag mem| |a]; cbn [exec] in E1.
    - destruct (dead s); [injection E1 as <- <-; split; [intros []|auto]|]. unfold sched in E1. destruct mem; injection E1 as <- <-; (split; [intros [H|[]]; discriminate|auto]).
    - destruct (dead s); injection E1 as <- <-; (split; [intros []|auto]).
    - pose proof (step_stepR s a I) as R. rewrite E1 in R. cbn in R. pose proof (i_pc s I) as P.
      assert (Kx : forall t, kfd t = true -> t = ctgt s -> is_fd (cx s) = true) by (intros t Kt ->; unfold cx; rewrite (i_kind s I); exact Kt).
      destruct R; try match goal with H : at_ s = _ |- _ => rewrite H in P end;
        (split; [intros HI; cbn in HI; try (destruct HI as [HI|HI]; try discriminate); try (destruct HI as [HI|HI]; try discriminate); try destruct HI|]); auto.
      + exists (ctgt s). split; [rewrite <- (i_kind s I)|]; assumption.
      + intros u Ku Hc. cbn in Hc. destruct (Nat.eqb_spec u (ctgt s)) as [E|]; [left; subst u; exact Hc|left; exact Hc].
      + intros u Ku Hc. cbn in Hc. destruct (Nat.eqb_spec u (ctgt s)) as [E|]; [left; subst u; exact Hc|left; exact Hc].
      + intros u Ku Hc. cbn in Hc. destruct (Nat.eqb_spec u (ctgt s)) as [E|]; [left; subst u; exact Hc|left; exact Hc].
      + intros u Ku Hc. cbn in Hc. destruct (Nat.eqb_spec u (ctgt s)) as [E|]; [left; subst u; exact Hc|left; exact Hc].
      + intros u Ku Hc. cbn in Hc. destruct (Nat.eqb_spec u (ctgt s)) as [E|]; [discriminate|left; exact Hc].
      + intros u Ku Hc. cbn in Hc. destruct (Nat.eqb_spec u (ctgt s)) as [E|]; [left; subst u; exact Hc|left; exact Hc].
      + intros u Ku Hc. cbn in Hc. destruct (Nat.eqb_spec u (ctgt s)) as [E|]; [right|left; exact Hc]. subst u. pose proof (i_fd s I _ Ku) as Hf. unfold cx in *. left. congruence.
      + intros u Ku Hc. cbn in Hc. destruct (Nat.eqb_spec u (ctgt s)) as [E|]; [right|left; exact Hc]. subst u. pose proof (i_fd s I _ Ku) as Hf. unfold cx in *. left. congruence. }
  destruct X as (X1 & X2). apply in_app_or in HA. destruct HA as [HA|HA]; [left; auto|].
  destruct (IH HA) as [(t & Kt & Ct)|(t & Kt & Ht)].
  - destruct (X2 t Kt Ct) as [Y|Y]; [left; eauto|right; exists t; split; [exact Kt|apply in_or_app; auto]].
  - right. exists t. split; [exact Kt|apply in_or_app; auto].
Qed.
Lemma abort_thm os : In EAbort (snd (run (init kinds) os)) ->
  exists t b f, kinds t = (true, b, f) /\ In (ESend f t None) (snd (run (init kinds) os)).
Proof.
  intros H. destruct (run_abort os (init kinds) init_Inv H) as [(t & K & C)|(t & K & S')].
  - cbn in C. unfold kfd in K. destruct (kinds t) as [[x b] f]. cbn in *. congruence.
  - exists t. unfold kfd, kf in *. destruct (kinds t) as [[x b] f]. cbn in *. subst x. eauto.
Qed.

(** ** Health *)

Definition well (s : st) : Prop :=
  (forall t, kfd t = true -> connected (tg s t) = true) /\ match at_ s with Recheck _ => connected (cx s) = true | Aborted => False | _ => True end.
Lemma run_well os : forall s, Inv s -> well s -> Forall healthy os ->
  ~ In EAbort (snd (run s os)) /\ forall n t, ~ In (EGiveUp n t) (snd (run s os)).
Proof.
  induction os as [|o os IH]; intros s I W H; cbn [run]; [split; auto|].
  destruct (exec s o) as [s1 e1] eqn:E1. pose proof (exec_Inv s o I) as I1. rewrite E1 in I1. cbn in I1.
  specialize (IH s1 I1). destruct (run s1 os) as [s2 e2] eqn:E2. cbn [fst snd] in *.
  inversion H as [|? ? Ho Hos]; subst. 
  assert (X : well s1 /\ ~ In EAbort e1 /\ forall n t, ~ In (EGiveUp n t) e1).
  { destruct W as (W1 & W2). destruct o as [t tag mem| |a]; cbn [exec] in E1.
    - destruct (dead s); [injection E1 as <- <-; split; [split; assumption|]; split; [intros []|intros n u []]|].
      unfold sched in E1. destruct mem; injection E1 as <- <-; (split; [split; assumption|]); (split; [intros [Y|[]]; discriminate|intros n u [Y|[]]; discriminate]).
    - destruct (dead s); injection E1 as <- <-; (split; [split; assumption|]); (split; [intros []|intros n u []]).
    - pose proof (step_stepR s a I) as R. rewrite E1 in R. cbn in R. pose proof (i_pc s I) as P. cbn in Ho.
      assert (Kx : forall t, kfd t = true -> t = ctgt s -> is_fd (cx s) = true) by (intros t Kt ->; unfold cx; rewrite (i_kind s I); exact Kt).
      assert (Wn : forall e, (forall n t, ~ In (EGiveUp n t) [e]) <-> (forall n t, e <> EGiveUp n t)).
      { intros e. cbn. split; [intros Q n t ->; apply (Q n t); auto|intros Q n t [->|[]]; apply (Q n t); auto]. }
      destruct R; try match goal with Ha : at_ s = _ |- _ => rewrite Ha in P, W2 end; try (exfalso; subst a; exact Ho);
        (split; [|split; [intros HI; cbn in HI; try (destruct HI as [HI|HI]; try discriminate); try (destruct HI as [HI|HI]; try discriminate); try destruct HI|
                          intros n' t' HI; cbn in HI; try (destruct HI as [HI|HI]; try discriminate); try (destruct HI as [HI|HI]; try discriminate); try destruct HI]]); 
        try (split; [exact W1|exact Logic.I]; fail).
      + split; [exact W1|]. exact W2.
      + exfalso. pose proof (i_kind s I (ctgt s)) as Y. unfold cx in *. rewrite H2 in Y. rewrite W1 in H1 by auto. discriminate.
      + exfalso. pose proof (i_kind s I (ctgt s)) as Y. unfold cx in *. rewrite H2 in Y. rewrite W1 in H1 by auto. discriminate.
      + split; [|exact Logic.I]. intros u Ku. cbn. destruct (Nat.eqb_spec u (ctgt s)) as [E|]; [rewrite (Kx u Ku E) in *; discriminate|apply W1, Ku].
      + split; [|cbn; destruct (has_local _); exact Logic.I]. intros u Ku. cbn. destruct (Nat.eqb_spec u (ctgt s)) as [E|]; [pose proof (Kx u Ku E); destruct P as (P1 & P2 & P3); congruence|apply W1, Ku].
      + split; [|cbn [at_ goto]; rewrite cx_set; reflexivity]. intros u Ku. cbn. destruct (Nat.eqb_spec u (ctgt s)) as [E|]; [reflexivity|apply W1, Ku].
      + congruence.
      + split; [exact W1|]. rewrite H0. exact Logic.I. }
  destruct X as (X1 & X2 & X3). destruct (IH X1 Hos) as (Y1 & Y2). split; [intros Q|intros n t Q]; apply in_app_or in Q; destruct Q as [Q|Q]; auto; [eapply X3|eapply Y2]; eauto.
Qed.
Lemma healthy_thm os : Forall healthy os -> ~ In EAbort (snd (run (init kinds) os)) /\ forall n t, ~ In (EGiveUp n t) (snd (run (init kinds) os)).
Proof.
  intros H. apply run_well; [apply init_Inv| |exact H]. split; [|exact Logic.I]. intros t. cbn. unfold kfd. destruct (kinds t) as [[x b] f]. cbn. auto.
Qed.

(** ** Progress *)

Definition left_ (s : st) : nat :=
  (25 * length (queue s) +
  match at_ s with
  | Idle | Ended | Aborted => 0
  | Check r => 6 * r + 6 | Socket r => 6 * r + 5 | Bind r => 6 * r + 4 | Connect r => 6 * r + 3 | Recheck r => 6 * r + 2 | Send r => 6 * r + 1
  end)%nat.
Lemma step_less s a : Inv s -> answers s a -> (left_ (fst (step s a)) < left_ s)%nat.
Proof.
  intros I A. unfold step, sent, answers, left_ in *. destruct (cur s) as [[n t] b] eqn:Ec. pose proof (i_pc s I) as P.
  unfold cx, ctgt in P. rewrite Ec in P. cbn in P.
  destruct (at_ s) eqn:Ea, a as [f|ok|ok|res|]; try contradiction; cbn -[Nat.mul Nat.add].
  - destruct (queue s) as [|[n' t' b'|] q]; [tauto| |]; cbn -[Nat.mul Nat.add]; lia.
  - destruct (connected (tg s t)); cbn -[Nat.mul Nat.add]; [lia|]. destruct (is_fd (tg s t)); cbn -[Nat.mul Nat.add]; [lia|]. destruct (fd (tg s t)); cbn -[Nat.mul Nat.add]; lia.
  - destruct f; cbn -[Nat.mul Nat.add]; [destruct (has_local (tg s t)); lia|lia].
  - destruct (fd (tg s t)); [|tauto]. destruct ok; cbn -[Nat.mul Nat.add]; lia.
  - destruct (fd (tg s t)); [|tauto]. destruct ok; cbn -[Nat.mul Nat.add]; lia.
  - destruct (connected (tg s t)); cbn -[Nat.mul Nat.add]; lia.
  - pose proof (i_conn s I t P) as F. destruct (fd (tg s t)); [|tauto]. destruct res; [tauto| |cbn -[Nat.mul Nat.add]; lia].
    destruct retries; cbn -[Nat.mul Nat.add]; lia.
Qed.
Lemma going_less l : forall s, Inv s -> going s l -> (length l <= left_ s)%nat.
Proof.
  induction l as [|a l IH]; intros s I G; cbn [length]; [lia|]. cbn [going] in G. destruct G as (G1 & G2).
  pose proof (step_less s a I G1). pose proof (IH (fst (step s a)) (exec_Inv s (Step a) I) G2). lia.
Qed.
Definition few (s : st) : Prop := match at_ s with Check r | Socket r | Bind r | Connect r | Recheck r | Send r => (r <= 3)%nat | _ => True end.
Lemma run_few os : forall s, Inv s -> few s -> few (fst (run s os)).
Proof.
  induction os as [|o os IH]; intros s I F; cbn [run]; [exact F|].
  destruct (exec s o) as [s1 e1] eqn:E1. pose proof (exec_Inv s o I) as I1. rewrite E1 in I1. cbn in I1.
  specialize (IH s1 I1). destruct (run s1 os) as [s2 e2] eqn:E2. cbn [fst] in *. apply IH. clear IH E2.
  destruct o as [t tag mem| |a]; cbn [exec] in E1.
  - destruct (dead s); [injection E1 as <- <-; exact F|]. unfold sched in E1. destruct mem; injection E1 as <- <-; exact F.
  - destruct (dead s); injection E1 as <- <-; exact F.
  - pose proof (step_stepR s a I) as R. rewrite E1 in R. cbn in R. unfold few in *.
    destruct R; try match goal with H : at_ s = _ |- _ => rewrite H in * end; cbn; try destruct (has_local _); auto; try lia.
Qed.
Lemma run_app os1 : forall s os2, run s (os1 ++ os2) = (fst (run (fst (run s os1)) os2), snd (run s os1) ++ snd (run (fst (run s os1)) os2)).
Proof.
  induction os1 as [|o os1 IH]; intros s os2; cbn [run app]; [cbn [fst snd app]; destruct (run s os2); reflexivity|].
  destruct (exec s o) as [s1 e1]. rewrite IH. destruct (run s1 os1) as [s2 e2]. cbn [fst snd]. rewrite app_assoc. reflexivity.
Qed.
Lemma going_thm os l : let s := fst (run (init kinds) os) in going s l ->
  (length l <= 25 * length (queue s) + 24)%nat /\
  let s' := fst (run s (map Step l)) in let ev := snd (run (init kinds) (os ++ map Step l)) in
  ((forall a, ~ answers s' a) -> map fst (accepted ev) = map fst (fates ev) \/ In EAbort ev).
Proof.
  cbv zeta. intros G. destruct (run_order os (init kinds) init_Inv init_terms) as (I1 & T1 & _).
  split.
  { pose proof (going_less l _ I1 G) as L. pose proof (run_few os (init kinds) init_Inv Logic.I) as F. unfold few, left_ in *. destruct (at_ (fst (run (init kinds) os))); lia. }
  intros Stop. set (s := fst (run (init kinds) os)) in *.
  pose proof (run_order (os ++ map Step l) (init kinds) init_Inv init_terms) as X. cbv zeta in X. destruct X as (I2 & T2 & (d & D1 & D2) & _ & _ & _).
  set (ev := snd (run (init kinds) (os ++ map Step l))) in *. rewrite run_app in I2, T2, D1. cbn [fst] in I2, T2, D1. fold s in I2, T2, D1.
  set (s' := fst (run s (map Step l))) in *. change (pending (init kinds)) with (@nil (nat * nat * list Z)) in D1. cbn [app] in D1.
  assert (K : map fst (accepted ev) = map fst (fates ev) ++ map key (pending s')).
  { change (map fst (accepted ev)) with (map key (accepted ev)). rewrite <- lined_key, D1, map_app, D2. reflexivity. }
  assert (AB : at_ s' = Aborted -> In EAbort ev).
  { intros HA. subst ev. clear - HA. assert (E : s' = fst (run (init kinds) (os ++ map Step l))) by (rewrite run_app; reflexivity).
    rewrite E in HA. clear E s' s. revert HA. generalize (os ++ map Step l). intros o.
    assert (Gn : forall o s, Inv s -> at_ (fst (run s o)) = Aborted -> at_ s = Aborted \/ In EAbort (snd (run s o))).
    { clear. induction o as [|o os IH]; intros s I; cbn [run]; [auto|].
      destruct (exec s o) as [s1 e1] eqn:E1. pose proof (exec_Inv s o I) as I1. rewrite E1 in I1. cbn in I1.
      specialize (IH s1 I1). destruct (run s1 os) as [s2 e2] eqn:E2. cbn [fst snd] in *. intros HA. destruct (IH HA) as [Y|Y]; [|right; apply in_or_app; auto].
      enough (Z : at_ s = Aborted \/ In EAbort e1) by (destruct Z; [auto|right; apply in_or_app; auto]).
      destruct o as [t tag mem| |a]; cbn [exec] in E1.
      - destruct (dead s); [injection E1 as <- <-; auto|]. unfold sched in E1. destruct mem; injection E1 as <- <-; auto.
      - destruct (dead s); injection E1 as <- <-; auto.
      - pose proof (step_stepR s a I) as R. rewrite E1 in R. cbn in R. destruct R; cbn in Y; try discriminate; auto. 
        + right. left. reflexivity.
        + destruct (has_local _); discriminate. }
    intros HA. destruct (Gn o (init kinds) init_Inv HA) as [Y|Y]; [discriminate|exact Y]. }
  destruct (at_ s') eqn:Ea.
  - left. rewrite K. assert (Q : queue s' = []). { destruct (queue s') eqn:Eq; [reflexivity|]. elim (Stop ANone). unfold answers. rewrite Ea, Eq. discriminate. }
    unfold pending, busy. rewrite Ea, Q. cbn. apply app_nil_r.
  - elim (Stop ANone). unfold answers. rewrite Ea. exact Logic.I.
  - elim (Stop (ASocket None)). unfold answers. rewrite Ea. exact Logic.I.
  - elim (Stop (ABind true)). unfold answers. rewrite Ea. exact Logic.I.
  - elim (Stop (AConnect true)). unfold answers. rewrite Ea. exact Logic.I.
  - elim (Stop ANone). unfold answers. rewrite Ea. exact Logic.I.
  - elim (Stop (ASend Fail)). unfold answers. rewrite Ea. discriminate.
  - left. rewrite K. unfold pending, busy. rewrite Ea. unfold terms in T2. rewrite Ea in T2. destruct (dead s'); [|tauto].
    destruct T2 as [(q & _ & _ & Q)|(Q & _)]; [tauto|]. rewrite Q. cbn. apply app_nil_r.
  - right. apply AB. reflexivity.
Qed.
End Run.
