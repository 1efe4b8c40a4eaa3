From Verif Require Import Base CtlpollModel CtlpollSpec.
Local Opaque MAXC.

Lemma memmove_mid {A} (a : list A) x m b : memmove (a ++ x :: m ++ b) (length a) (length m) = Some (a ++ m ++ skipn (length m) (x :: m ++ b)).
Proof.
  unfold memmove. rewrite app_length. cbn [length]. rewrite app_length. replace (_ <=? _)%nat with true by lia. f_equal. f_equal; [|f_equal].
  - rewrite firstn_app, Nat.sub_diag, firstn_all. cbn. apply app_nil_r.
  - rewrite skipn_app, (skipn_all2 a) by lia. replace (length a + 1 - length a)%nat with 1%nat by lia. cbn [app skipn].
    rewrite firstn_app, Nat.sub_diag, firstn_all. cbn. apply app_nil_r.
  - rewrite skipn_app, (skipn_all2 a) by lia. replace (length a + length m - length a)%nat with (length m) by lia. reflexivity.
Qed.

Definition fev (ev : nat -> bool * bool) (c : cconn) : pfd := mkPfd (cc_id c) (fst (ev (cc_id c))) (snd (ev (cc_id c))).
Definition clo ev rv c := closed (ev (cc_id c)) (rv (cc_id c)) c.

Lemma round_ok ev rv suf : forall fuel w A pre junk rjunk tr u, (length suf < fuel)%nat -> length A = length pre -> u = S (length pre + length suf) ->
  exists A' junk' rjunk', let cs := pre ++ filter (fun c => negb (clo ev rv c)) suf in
    round fuel rv (S (length pre)) (mkPset (w :: A ++ map (fev ev) suf ++ junk) (None :: map Some pre ++ map Some suf ++ rjunk) u) tr
    = Some (mkPset (w :: A' ++ junk') (None :: map Some cs ++ rjunk') (S (length cs)), tr ++ concat (map (fun c => acts (ev (cc_id c)) (rv (cc_id c)) c) suf)) /\
    length A' = length cs /\ (map pf_id A = map cc_id pre -> map pf_id A' = map cc_id cs) /\
    length (map Some cs ++ rjunk') = length (map Some pre ++ map Some suf ++ rjunk).
Proof.
  induction suf as [|c suf IH]; intros fuel w A pre junk rjunk tr u F LA U; (destruct fuel as [|fuel]; [cbn [length] in F; lia|]).
  - cbn [filter map concat app length] in *. rewrite !app_nil_r, Nat.add_0_r in *. exists A, junk, rjunk. cbn zeta. cbn [round used]. replace (S (length pre) <? u)%nat with false by lia. rewrite U. auto.
  - cbn zeta. cbn [round used]. replace (S (length pre) <? u)%nat with true by (cbn [length] in U; lia).
    cbn [pfds nth_error Nat.eqb]. rewrite nth_error_app2 by lia. rewrite LA, Nat.sub_diag. cbn [map app nth_error].
    cbn [rccs nth_error]. rewrite nth_error_app2 by (rewrite map_length; lia). rewrite map_length, Nat.sub_diag. cbn [nth_error].
    cbn [fev pf_in pf_err]. set (e := ev (cc_id c)) in *. set (r := rv (cc_id c)) in *.
    assert (H1 : snd e && (acceptable (cc_type c) || (match cc_type c with STDIO => true | _ => false end && negb (fst e))) = hung e c).
    { unfold hung. destruct (cc_type c), (snd e), (fst e); reflexivity. }
    (* what closing does *)
    assert (CL : forall tr0, exists A' junk' rjunk', let cs := pre ++ filter (fun c => negb (clo ev rv c)) suf in
       (let tr1 := if match cc_type c with STDIO => true | _ => false end && cc_eoc c then tr0 ++ [Shutdown] else tr0 in
        if (0 <? u - 1)%nat && (S (length pre) <? u - 1)%nat then
          match memmove (w :: A ++ fev ev c :: map (fev ev) suf ++ junk) (S (length pre)) (u - 1 - S (length pre)),
                memmove (None :: map Some pre ++ Some c :: map Some suf ++ rjunk) (S (length pre)) (u - 1 - S (length pre)) with
          | Some a, Some b => round fuel rv (S (length pre)) (mkPset a b (u - 1)) (tr1 ++ [Closed (cc_id c)])
          | _, _ => None end
        else round fuel rv (S (S (length pre))) (mkPset (w :: A ++ fev ev c :: map (fev ev) suf ++ junk) (None :: map Some pre ++ Some c :: map Some suf ++ rjunk) (u - 1)) (tr1 ++ [Closed (cc_id c)]))
       = Some (mkPset (w :: A' ++ junk') (None :: map Some cs ++ rjunk') (S (length cs)), ((tr0 ++ ((if shutdown c then [Shutdown] else []) ++ [Closed (cc_id c)])) ++ concat (map (fun c => acts (ev (cc_id c)) (rv (cc_id c)) c) suf))) /\
       length A' = length cs /\ (map pf_id A = map cc_id pre -> map pf_id A' = map cc_id cs) /\
       length (map Some cs ++ rjunk') = length (map Some pre ++ map Some (c :: suf) ++ rjunk)).
    { intros tr0. cbn zeta. set (tr1 := if _ && cc_eoc c then _ else _). assert (T : tr1 ++ [Closed (cc_id c)] = tr0 ++ ((if shutdown c then [Shutdown] else []) ++ [Closed (cc_id c)])).
      { unfold tr1, shutdown. destruct (cc_type c), (cc_eoc c); cbn [andb]; rewrite <- ?app_assoc; reflexivity. }
      rewrite T. cbn [length] in U. destruct suf as [|c2 suf'].
      - cbn [length] in *. replace (S (length pre) <? u - 1)%nat with false by lia. rewrite andb_false_r. destruct fuel as [|fuel]; [lia|]. cbn [round used].
        replace (S (S (length pre)) <? u - 1)%nat with false by lia. exists A, (fev ev c :: junk), (Some c :: rjunk). cbn [map app filter concat]. rewrite !app_nil_r.
        replace (u - 1)%nat with (S (length pre)) by lia. auto.
      - set (suf := c2 :: suf') in *. assert (Hs : (0 < length suf)%nat) by (unfold suf; cbn [length]; lia). replace ((0 <? u - 1)%nat && (S (length pre) <? u - 1)%nat) with true by lia.
        replace (u - 1 - S (length pre))%nat with (length suf) by lia.
        pose proof (memmove_mid (w :: A) (fev ev c) (map (fev ev) suf) junk) as M1. rewrite map_length in M1. cbn [app length] in M1. rewrite LA in M1. rewrite M1.
        pose proof (memmove_mid (None :: map Some pre) (Some c) (map Some suf) rjunk) as M2. rewrite map_length in M2. cbn [app length] in M2. rewrite map_length in M2. rewrite M2.
        destruct (IH fuel w A pre (skipn (length suf) (fev ev c :: map (fev ev) suf ++ junk)) (skipn (length suf) (Some c :: map Some suf ++ rjunk)) (tr0 ++ (if shutdown c then [Shutdown] else []) ++ [Closed (cc_id c)]) (u - 1)%nat) as (A' & j' & r' & E & L1 & L2 & L3); [cbn [length] in F; lia|exact LA|lia|].
        exists A', j', r'. cbn zeta in E. rewrite E. split; [reflexivity|]. split; [exact L1|]. split; [exact L2|]. rewrite L3.
        rewrite !app_length, skipn_length. cbn [map length]. rewrite !app_length, !map_length. lia. }
    assert (KE : forall tr0, exists A' junk' rjunk', let cs := pre ++ c :: filter (fun c => negb (clo ev rv c)) suf in
       round fuel rv (S (S (length pre))) (mkPset (w :: A ++ fev ev c :: map (fev ev) suf ++ junk) (None :: map Some pre ++ Some c :: map Some suf ++ rjunk) u) tr0
       = Some (mkPset (w :: A' ++ junk') (None :: map Some cs ++ rjunk') (S (length cs)), tr0 ++ concat (map (fun c => acts (ev (cc_id c)) (rv (cc_id c)) c) suf)) /\
       length A' = length cs /\ (map pf_id A = map cc_id pre -> map pf_id A' = map cc_id cs) /\
       length (map Some cs ++ rjunk') = length (map Some pre ++ map Some (c :: suf) ++ rjunk)).
    { intros tr0. destruct (IH fuel w (A ++ [fev ev c]) (pre ++ [c]) junk rjunk tr0 u) as (A' & j' & r' & E & L1 & L2 & L3).
      - cbn [length] in F; lia.
      - rewrite !app_length. cbn [length]. lia.
      - rewrite app_length. cbn [length] in *. lia.
      - cbn zeta in E. rewrite app_length in E. cbn [length] in E. rewrite Nat.add_1_r, map_app, <- !app_assoc in E. cbn [map app] in E.
        rewrite <- !app_assoc in *. cbn [app] in *. exists A', j', r'. split; [exact E|]. split; [exact L1|]. split.
        + intros X. apply L2. rewrite !map_app, X. reflexivity.
        + rewrite L3, map_app, <- app_assoc. reflexivity. }
    rewrite H1. cbn [filter]. replace (clo ev rv c) with (closed e r c) by reflexivity. cbn [map concat]. fold e r. replace (acts e r c) with ((if served e c then [Served (cc_id c)] else []) ++ (if closed e r c then (if shutdown c then [Shutdown] else []) ++ [Closed (cc_id c)] else [])) by reflexivity.
    replace (closed e r c) with (hung e c || (served e c && negb (isdg (cc_type c)) && ((r =? -1) || negb (isstream (cc_type c))))) by reflexivity.
    replace (served e c) with (fst e && negb (hung e c)) by reflexivity.
    destruct (hung e c) eqn:Hh; cbn [orb negb andb].
    + destruct (CL tr) as (A' & j' & r' & E & R). rewrite andb_false_r. cbn [app]. exists A', j', r'. split; [|exact R]. rewrite app_assoc. exact E.
    + rewrite andb_true_r. destruct (fst e) eqn:Hi; cbn [negb andb app].
      * destruct (negb (isdg (cc_type c)) && ((r =? -1) || negb (isstream (cc_type c)))) eqn:Hc; cbn [negb app].
        -- destruct (CL (tr ++ [Served (cc_id c)])) as (A' & j' & r' & E & R). exists A', j', r'. split; [|exact R].
           rewrite <- !app_assoc in E. rewrite <- !app_assoc. cbn [app] in *. exact E.
        -- destruct (KE (tr ++ [Served (cc_id c)])) as (A' & j' & r' & E & R). exists A', j', r'. split; [|exact R]. rewrite <- app_assoc in E. exact E.
      * destruct (KE tr) as (A' & j' & r' & E & R). exists A', j', r'. split; [|exact R]. exact E.
Qed.

Lemma round_table p cs ev rv : table p cs -> exists p' wk, step p (Round ev rv) = Some (p', wk ++ concat (map (fun c => acts (ev (cc_id c)) (rv (cc_id c)) c) cs)) /\
  (wk = [] \/ wk = [Wake]) /\ table p' (filter (fun c => negb (clo ev rv c)) cs).
Proof.
  intros [w rest rrest P U L I R LR]. cbn [step]. unfold poll. set (f := fun f => mkPfd _ _ _). rewrite P, U, R. cbn [map].
  assert (E : map f rest = map (fev ev) cs ++ map f (skipn (length cs) rest)).
  { rewrite <- (firstn_skipn (length cs) rest) at 1. rewrite map_app. f_equal. clear - I. revert I. generalize (firstn (length cs) rest). intros l. revert l. induction cs as [|c cs IH]; intros [|x l] H; cbn in *; try discriminate; [reflexivity|]. injection H as H1 H2.
    f_equal; [unfold f, fev; rewrite H1; reflexivity|apply IH; exact H2]. }
  rewrite E. remember (S (length cs)) as fl eqn:Hfl. cbn [round used pfds nth_error Nat.eqb]. replace (0 <? fl)%nat with true by lia.
  set (tr := if pf_in (f w) then _ else _).
  destruct (round_ok ev rv cs (S (length cs)) (f w) [] [] (map f (skipn (length cs) rest)) rrest tr (S (length cs))) as (A' & j' & r' & E2 & L1 & L2 & L3); [lia|reflexivity|reflexivity|]. rewrite <- Hfl in E2.
  cbn [app map length] in *. cbn zeta in E2. rewrite E2. eexists. exists tr. split; [reflexivity|]. split; [subst tr; cbn [app]; destruct (pf_in (f w)); [right|left]; reflexivity|].
  eapply mk_table; cbn [pfds rccs used]; try reflexivity.
  - rewrite app_length. lia.
  - rewrite <- L1, firstn_app, Nat.sub_diag, firstn_all. cbn [firstn]. rewrite app_nil_r. apply L2. reflexivity.
  - cbn [length]. rewrite L3. rewrite R in LR. cbn [length] in LR. exact LR.
Qed.

Lemma upd_mid {A} (a : list A) x y b : upd (a ++ x :: b) (length a) y = a ++ y :: b.
Proof. induction a as [|h a IH]; [reflexivity|]. cbn [app length upd]. f_equal. exact IH. Qed.

Lemma accept_table p cs c : table p cs -> 
  (Z.of_nat (length cs) < 99 /\ exists p', step p (Accept c) = Some (p', []) /\ table p' (cs ++ [c])) \/
  (99 <= Z.of_nat (length cs) /\ step p (Accept c) = Some (p, [Closed (cc_id c)])).
Proof.
  intros [w rest rrest P U L I R LR]. assert (M : Z.of_nat MAXC = 100) by reflexivity. cbn [step]. unfold accept. rewrite U.
  destruct (Nat.leb_spec MAXC (S (length cs))); [right; split; [lia|reflexivity]|left]. split; [lia|].
  unfold set, realloc. rewrite P, R in *. cbn [length]. rewrite app_length, repeat_length, firstn_length. cbn [length].
  replace (_ <? _)%nat with true by lia. rewrite app_length, map_length. cbn [length] in LR. rewrite app_length, map_length in LR.
  replace (S (length cs) <? S (length cs + length rrest))%nat with true by lia.
  eexists. split; [reflexivity|]. destruct rrest as [|r0 rrest]; [cbn [length] in LR; lia|].
  assert (E1 : exists x, firstn (S (length cs) + 1) (w :: rest) ++ repeat {| pf_id := 0; pf_in := false; pf_err := false |} (S (length cs) + 1 - S (length rest)) = (w :: firstn (length cs) rest) ++ [x]).
  { replace (S (length cs) + 1)%nat with (S (S (length cs))) by lia. rewrite firstn_cons, Nat.sub_succ.
    destruct (Nat.le_gt_cases (S (length cs)) (length rest)) as [H1|H1].
    - replace (S (length cs) - length rest)%nat with 0%nat by lia. cbn [repeat]. rewrite app_nil_r.
      destruct (skipn (length cs) rest) as [|x t] eqn:E.
      + assert (X := f_equal (@length _) E). rewrite skipn_length in X. cbn in X. lia.
      + exists x. cbn [app]. f_equal. rewrite <- (firstn_skipn (length cs) rest) at 1. rewrite E.
        rewrite firstn_app, firstn_length, Nat.min_l by lia. replace (S (length cs) - length cs)%nat with 1%nat by lia. f_equal.
        apply firstn_all2. rewrite firstn_length. lia.
    - assert (length cs = length rest) by lia. eexists. replace (S (length cs) - length rest)%nat with 1%nat by lia. cbn [repeat app]. f_equal. f_equal.
      rewrite !firstn_all2 by lia. reflexivity. }
  destruct E1 as (x & E1). rewrite E1.
  assert (L1 : S (length cs) = length (w :: firstn (length cs) rest)) by (cbn [length]; rewrite firstn_length; lia).
  assert (X1 : upd ((w :: firstn (length cs) rest) ++ [x]) (S (length cs)) (mkPfd (cc_id c) false false) = (w :: firstn (length cs) rest) ++ [mkPfd (cc_id c) false false]).
  { rewrite L1. apply upd_mid. }
  assert (X2 : upd (None :: map Some cs ++ r0 :: rrest) (S (length cs)) (Some c) = None :: map Some (cs ++ [c]) ++ rrest).
  { cbn [upd]. rewrite <- (map_length Some cs) at 1. rewrite upd_mid, map_app, <- app_assoc. reflexivity. }
  rewrite X1, X2. eapply mk_table; cbn [pfds rccs used]; try reflexivity.
  - cbn [length]. rewrite app_length. cbn [length]. lia.
  - rewrite !app_length, firstn_length. cbn [length]. lia.
  - rewrite app_length. cbn [length]. replace (length cs + 1)%nat with (length (firstn (length cs) rest ++ [mkPfd (cc_id c) false false])) by (rewrite app_length, firstn_length; cbn [length]; lia).
    rewrite firstn_all, !map_app, I. reflexivity.
  - cbn [length]. rewrite app_length, map_length, app_length. cbn [length] in *. lia.
Qed.

Lemma upd_split {A} (l : list A) i y : (i < length l)%nat -> exists x t, skipn i l = x :: t /\ upd l i y = firstn i l ++ y :: t.
Proof.
  intros H. destruct (skipn i l) as [|x t] eqn:E; [assert (X := f_equal (@length _) E); rewrite skipn_length in X; cbn in X; lia|]. exists x, t. split; [reflexivity|].
  assert (Li : length (firstn i l) = i) by (rewrite firstn_length; lia). transitivity (upd (firstn i l ++ x :: t) (length (firstn i l)) y); [rewrite Li, <- E, firstn_skipn; reflexivity|apply upd_mid].
Qed.

Lemma init_fill_ok cs : forall p i, length (pfds p) = (i + length cs)%nat -> (i + length cs <= length (rccs p))%nat ->
  init_fill p i cs = Some (mkPset (firstn i (pfds p) ++ map (fun c => mkPfd (cc_id c) false false) cs)
                                  (firstn i (rccs p) ++ map Some cs ++ skipn (i + length cs) (rccs p)) (used p)).
Proof.
  induction cs as [|c cs IH]; intros p i L1 L2; cbn [init_fill length] in *.
  - rewrite Nat.add_0_r in *. cbn [map]. rewrite app_nil_r, <- L1, firstn_all. cbn [app]. rewrite L1, firstn_skipn. destruct p; reflexivity.
  - unfold set. replace (i <? length (pfds p))%nat with true by lia. replace (i <? length (rccs p))%nat with true by lia.
    rewrite IH; cbn [pfds rccs used]; rewrite ?upd_length; [|lia|lia]. f_equal. f_equal.
    + destruct (upd_split (pfds p) i (mkPfd (cc_id c) false false)) as (x & t & E & EU); [lia|].
      assert (Li : length (firstn i (pfds p)) = i) by (rewrite firstn_length; lia). rewrite EU, firstn_app, Li. replace (S i - i)%nat with 1%nat by lia. rewrite firstn_all2 by (rewrite Li; lia). rewrite <- app_assoc. reflexivity.
    + destruct (upd_split (rccs p) i (Some c)) as (x & t & E & EU); [lia|].
      assert (Li : length (firstn i (rccs p)) = i) by (rewrite firstn_length; lia).
      rewrite EU. rewrite firstn_app, Li. replace (S i - i)%nat with 1%nat by lia. rewrite firstn_all2 by (rewrite Li; lia). rewrite <- app_assoc. cbn [map app firstn]. f_equal. f_equal. f_equal.
      rewrite skipn_app, Li, skipn_all2 by (rewrite Li; lia). cbn [app]. replace (S i + length cs - i)%nat with (S (length cs)) by lia. cbn [skipn].
      replace (i + S (length cs))%nat with (i + 1 + length cs)%nat by lia. rewrite <- !skipn_skipn'. rewrite E. reflexivity.
Qed.

Lemma init_table cs : Z.of_nat (length cs) <= 100 -> exists p, init_pollset cs = Some p /\ table p cs.
Proof.
  intros H. assert (M : Z.of_nat MAXC = 100) by reflexivity. unfold init_pollset. rewrite init_fill_ok; cbn [pfds rccs used]; rewrite ?repeat_length; [|lia|lia].
  eexists. split; [reflexivity|]. replace (MAXC + 1)%nat with (S MAXC) by lia. cbn [repeat firstn app].
  eapply mk_table; cbn [pfds rccs used]; try reflexivity.
  - rewrite map_length. lia.
  - rewrite <- (map_length (fun c => mkPfd (cc_id c) false false) cs) at 1. rewrite firstn_all, map_map. apply map_ext. reflexivity.
  - cbn [length]. rewrite app_length, map_length, skipn_length. cbn [length]. rewrite repeat_length. lia.
Qed.

Lemma init_oob cs : 100 < Z.of_nat (length cs) -> init_pollset cs = None.
Proof.
  intros H. assert (M : Z.of_nat MAXC = 100) by reflexivity.
  assert (G : forall cs p i, (length (rccs p) < i + length cs)%nat -> (i <= length (rccs p))%nat -> init_fill p i cs = None).
  { clear. induction cs as [|c cs IH]; intros p i L1 L2; cbn [init_fill length] in *; [lia|]. unfold set.
    destruct (i <? length (pfds p))%nat; [|reflexivity]. destruct (Nat.ltb_spec i (length (rccs p))); [|reflexivity]. apply IH; cbn [rccs]; rewrite upd_length; lia. }
  apply G; cbn [rccs]; rewrite repeat_length; lia.
Qed.

Lemma closes_app id a b : closes id (a ++ b) = (closes id a + closes id b)%nat.
Proof. unfold closes. rewrite filter_app, app_length. reflexivity. Qed.
Lemma closes_acts id e r c : closes id (acts e r c) = if closed e r c && (cc_id c =? id)%nat then 1%nat else 0%nat.
Proof. unfold acts. rewrite closes_app. destruct (served e c), (closed e r c), (shutdown c); cbn; destruct (cc_id c =? id)%nat; reflexivity. Qed.
Lemma closes_concat id ev rv cs : (closes id (concat (map (fun c => acts (ev (cc_id c)) (rv (cc_id c)) c) cs)) + present id (filter (fun c => negb (clo ev rv c)) cs) = present id cs)%nat.
Proof.
  unfold present. induction cs as [|c cs IH]; [reflexivity|]. cbn [map concat filter]. rewrite closes_app, closes_acts. unfold clo at 1.
  destruct (closed _ _ c); cbn [negb andb]; [|cbn [filter]]; destruct (cc_id c =? id)%nat; cbn [length]; lia.
Qed.

Lemma run_table es : forall p cs, table p cs -> exists p' tr cs', run p es = Some (p', tr) /\ table p' cs' /\
  forall id, (closes id tr + present id cs' = present id cs + comes id es)%nat.
Proof.
  induction es as [|e es IH]; intros p cs T; cbn [run].
  - exists p, [], cs. split; [reflexivity|]. split; [exact T|]. intros id. cbn. lia.
  - assert (S : exists p1 a cs1, step p e = Some (p1, a) /\ table p1 cs1 /\ forall id, (closes id a + present id cs1 = present id cs + comes id [e])%nat).
    { destruct e as [c|ev rv].
      - destruct (accept_table p cs c T) as [[_ (p' & E & T')]|[_ E]]; rewrite E.
        + exists p', [], (cs ++ [c]). split; [reflexivity|]. split; [exact T'|]. intros id. unfold present, comes. rewrite filter_app, app_length. cbn. destruct (cc_id c =? id)%nat; cbn; lia.
        + exists p, [Closed (cc_id c)], cs. split; [reflexivity|]. split; [exact T|]. intros id. unfold comes. cbn. destruct (cc_id c =? id)%nat; cbn; lia.
      - destruct (round_table p cs ev rv T) as (p' & wk & E & W & T'). rewrite E. eexists _, _, _. split; [reflexivity|]. split; [exact T'|]. intros id.
        rewrite closes_app. pose proof (closes_concat id ev rv cs). destruct W as [-> | ->]; cbn; lia. }
    destruct S as (p1 & a & cs1 & E & T1 & C1). rewrite E. destruct (IH _ _ T1) as (p2 & b & cs2 & E2 & T2 & C2). rewrite E2.
    exists p2, (a ++ b), cs2. split; [reflexivity|]. split; [exact T2|]. intros id. rewrite closes_app. specialize (C1 id). specialize (C2 id).
    unfold comes in *. cbn [filter] in *. destruct e as [c|]; [destruct (cc_id c =? id)%nat|]; cbn [length] in *; lia.
Qed.
