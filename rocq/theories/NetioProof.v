(** Proofs about the sender thread. *)
From Verif Require Import Base NetioModel NetioSpec.

Lemma run_app a : forall s b, run s (a ++ b) = let '(s1, t1) := run s a in let '(s2, t2) := run s1 b in (s2, t1 ++ t2).
Proof.
  induction a as [|o a IH]; intros s b; cbn [run app]; [destruct (run s b); reflexivity|].
  destruct (step s o) as [s1 e]. rewrite IH. destruct (run s1 a) as [s2 t1]. destruct (run s2 b) as [s3 t2]. rewrite app_assoc. reflexivity.
Qed.
Lemma work_app a b : work (a ++ b) = work a ++ work b.
Proof. apply filter_app. Qed.

Fixpoint stopped (os : list op) : bool := match os with [] => false | Shutdown :: _ => true | _ :: t => stopped t end.
Lemma requests_snoc os o : requests (os ++ [o]) = requests os ++ (if stopped os then [] else request o).
Proof.
  induction os as [|x os IH]; [destruct o; cbn [requests stopped app]; rewrite ?app_nil_r; reflexivity|].
  destruct x; cbn [requests stopped app]; rewrite ?IH, ?app_nil_r, <- ?app_assoc; reflexivity.
Qed.
Lemma stopped_snoc os o : stopped (os ++ [o]) = stopped os || match o with Shutdown => true | _ => false end.
Proof. induction os as [|x os IH]; [destruct o; reflexivity|]. destruct x; cbn [stopped app]; rewrite ?IH; reflexivity. Qed.

(** Items in front of the stop signal *)
Fixpoint upto (l : list wi) : list item := match l with [] => [] | Sgnl :: _ => [] | Pkt i :: t => i :: upto t end.
Fixpoint sg (l : list wi) : bool := match l with [] => false | Sgnl :: _ => true | Pkt _ :: t => sg t end.
Lemma upto_app a b : upto (a ++ b) = upto a ++ if sg a then [] else upto b.
Proof. induction a as [|[i|] a IH]; cbn [upto sg app]; [reflexivity|rewrite IH; reflexivity|reflexivity]. Qed.
Lemma sg_app a b : sg (a ++ b) = sg a || sg b.
Proof. induction a as [|[i|] a IH]; cbn [sg app]; [reflexivity|exact IH|reflexivity]. Qed.

Definition wok (w : wi) : Prop := match w with Pkt i => 1 <= i_nsend i | Sgnl => True end.
Definition pend (s : st) : list wi := match at_ s with Asking => q s | Batch l => l ++ q s | Sending _ _ _ l => l ++ q s | Gone => [] end.

Definition cur_ok (p : pc) (cur : list item) (part : list event) : Prop :=
  match p with
  | Sending i nc nr _ => exists l, cur = [i] /\ part = calls i l /\ under_way (i_nsend i) l /\ nc = i_nsend i - count good l /\ nr = count transient l /\ 1 <= i_nsend i
  | _ => cur = [] /\ part = []
  end.
Definition inv (os : list op) (s : st) (tr : list event) : Prop :=
  exists done cur ws part,
    requests os = done ++ cur ++ upto (pend s) /\ Forall2 served done ws /\ work tr = concat ws ++ part /\
    cur_ok (at_ s) cur part /\ Forall wok (pend s) /\
    stopped os = match at_ s with Gone => true | _ => sg (pend s) end.

Lemma count_snoc f l r : count f (l ++ [r]) = count f l + if f r then 1 else 0.
Proof. unfold count. rewrite zsum_app. cbn [zsum]. lia. Qed.
Lemma count_nonneg f l : 0 <= count f l.
Proof. apply zsum_nonneg. intros r. destruct (f r); lia. Qed.
Lemma calls_snoc i l r : calls i (l ++ [r]) = calls i l ++ [ECall (i_sock i) (i_msg i) (i_to i) r].
Proof. unfold calls. apply map_app. Qed.
Lemma works_calls i l : work (calls i l) = calls i l.
Proof. induction l as [|r l IH]; [reflexivity|]. cbn. f_equal. exact IH. Qed.
Lemma under_snoc n l r : under_way n l -> good r = true \/ transient r = true -> count good (l ++ [r]) < n -> count transient (l ++ [r]) <= 3 -> under_way n (l ++ [r]).
Proof. intros (F & _ & _) R A B. split; [apply Forall_app; split; [exact F|constructor; [exact R|constructor]]|]. split; assumption. Qed.

Lemma finish os s s' tr i l nc nr r rest :
  inv os s tr -> at_ s = Sending i nc nr rest ->
  (forall l, under_way (i_nsend i) l -> nc = i_nsend i - count good l -> nr = count transient l -> finished (i_nsend i) (l ++ [r])) ->
  q s' = q s -> at_ s' = Batch rest -> l = [ECall (i_sock i) (i_msg i) (i_to i) r; EFree i] ->
  exists done cur ws part,
    requests os = done ++ cur ++ upto (pend s') /\ Forall2 served done ws /\ work (tr ++ l) = concat ws ++ part /\
    cur_ok (at_ s') cur part /\ Forall wok (pend s') /\ stopped os = sg (pend s').
Proof.
  intros (done & cur & ws & part & R & F & W & C & K & S) A FN Q' A' ->. rewrite A in *. cbn [cur_ok] in C.
  destruct C as (l0 & -> & -> & U & NC & NR & _). specialize (FN l0 U NC NR).
  assert (P : pend s' = pend s) by (unfold pend; rewrite A, A', Q'; reflexivity). rewrite P, A'.
  exists (done ++ [i]), [], (ws ++ [calls i (l0 ++ [r]) ++ [EFree i]]), []. split; [rewrite R, <- !app_assoc; reflexivity|]. split.
  { apply Forall2_app; [exact F|]. repeat constructor. exists (l0 ++ [r]). split; [exact FN|reflexivity]. }
  split. { rewrite work_app, W, calls_snoc, concat_app. cbn [concat work filter works]. rewrite !app_nil_r, <- !app_assoc. reflexivity. }
  split; [split; reflexivity|]. split; [exact K|exact S].
Qed.

Lemma go_on os s s' tr i nc nr nc' nr' r rest l :
  inv os s tr -> at_ s = Sending i nc nr rest -> at_ s' = Sending i nc' nr' rest -> q s' = q s ->
  good r = true \/ transient r = true -> nc' = nc - (if good r then 1 else 0) -> nr' = nr + (if transient r then 1 else 0) ->
  0 < nc' -> nr' <= 3 -> l = [ECall (i_sock i) (i_msg i) (i_to i) r] ->
  exists done cur ws part,
    requests os = done ++ cur ++ upto (pend s') /\ Forall2 served done ws /\ work (tr ++ l) = concat ws ++ part /\
    cur_ok (at_ s') cur part /\ Forall wok (pend s') /\ stopped os = sg (pend s').
Proof.
  intros (done & cur & ws & part & R & F & W & C & K & S) A A' Q' G N1 N2 P1 P2 ->. rewrite A in *. cbn [cur_ok] in C.
  destruct C as (l0 & -> & -> & U & NC & NR & I1).
  assert (P : pend s' = pend s) by (unfold pend; rewrite A, A', Q'; reflexivity). rewrite P, A'.
  exists done, [i], ws, (calls i (l0 ++ [r])). split; [exact R|]. split; [exact F|].
  split. { rewrite work_app, W, calls_snoc. cbn [work filter works]. rewrite <- !app_assoc. reflexivity. }
  split; [|split; [exact K|exact S]]. cbn [cur_ok]. exists (l0 ++ [r]). split; [reflexivity|]. split; [reflexivity|].
  pose proof (count_snoc good l0 r) as G1. pose proof (count_snoc transient l0 r) as T1.
  split; [apply under_snoc; [exact U|exact G|lia|lia]|]. repeat split; lia.
Qed.

Lemma inv_step os s tr o s' e : inv os s tr -> step s o = (s', e) -> inv (os ++ [o]) s' (tr ++ e).
Proof.
  intros I0 E.
  assert (PUT : forall i, s' = mkSt (q s ++ [Pkt i]) (at_ s) -> e = [EAccept i] -> request o = [i] -> o <> Shutdown -> 1 <= i_nsend i -> inv (os ++ [o]) s' (tr ++ e)).
  { destruct I0 as (done & cur & ws & part & R & F & W & C & K & S). intros i -> -> RQ ND I1. unfold inv. rewrite requests_snoc, stopped_snoc, RQ, work_app. cbn [work filter works at_]. rewrite app_nil_r.
    replace (match o with Shutdown => true | _ => false end) with false by (destruct o; congruence). rewrite orb_false_r.
    destruct (at_ s) as [|b|j nc nr b|] eqn:A; unfold pend in *; cbn [at_ q]; rewrite A in *; exists done, cur, ws, part;
    (split; [rewrite R, S, ?upto_app, ?sg_app|split; [exact F|split; [exact W|split; [exact C|split; [rewrite ?Forall_app in *; try constructor; intuition (repeat constructor; auto)|]]]]]).
    - destruct (sg (q s)); rewrite <- !app_assoc; reflexivity.
    - rewrite S, sg_app. cbn. rewrite orb_false_r. reflexivity.
    - destruct (sg b), (sg (q s)); cbn [orb upto]; rewrite <- ?app_assoc, ?app_nil_r; reflexivity.
    - rewrite S, !sg_app. cbn. rewrite orb_false_r. reflexivity.
    - destruct (sg b), (sg (q s)); cbn [orb upto]; rewrite <- ?app_assoc, ?app_nil_r; reflexivity.
    - rewrite S, !sg_app. cbn. rewrite orb_false_r. reflexivity.
    - cbn. rewrite <- !app_assoc. reflexivity.
    - exact S. }
  assert (NOP : s' = s -> request o = [] -> o <> Shutdown -> work e = [] -> inv (os ++ [o]) s' (tr ++ e)).
  { destruct I0 as (done & cur & ws & part & R & F & W & C & K & S). intros -> RQ ND WE. unfold inv. rewrite requests_snoc, stopped_snoc, RQ, work_app, WE, app_nil_r.
    replace (match o with Shutdown => true | _ => false end) with false by (destruct o; congruence). rewrite orb_false_r.
    exists done, cur, ws, part. split; [rewrite R; destruct (stopped os); rewrite app_nil_r; reflexivity|]. auto. }
  destruct o as [sock msg to mem|dm sock msg to mem| |n r]; cbn [step] in E.
  - unfold sendto in E. destruct mem; injection E as <- <-.
    + apply (PUT (mkItem 1 sock msg to)); [reflexivity|reflexivity|reflexivity|discriminate|cbn; lia].
    + apply NOP; try reflexivity. discriminate.
  - unfold send_pkt in E. destruct mem; injection E as <- <-.
    + assert (N : (if dm && (Z.of_nat (length msg) <? LBR_THRS) then 2 else 1) = copies dm msg) by (unfold copies, LBR_THRS; destruct dm, (Z.of_nat (length msg) <? 128); reflexivity).
      apply (PUT (mkItem (copies dm msg) sock msg to)); [rewrite N; reflexivity|rewrite N; reflexivity|reflexivity|discriminate|].
      cbn [i_nsend]. rewrite <- N. destruct (dm && (Z.of_nat (length msg) <? LBR_THRS)); lia.
    + apply NOP; try reflexivity. discriminate.
  - injection E as <- <-. destruct I0 as (done & cur & ws & part & R & F & W & C & K & S). unfold inv.
    rewrite requests_snoc, stopped_snoc, work_app. cbn [work filter works at_]. rewrite app_nil_r, orb_true_r. cbn [request].
    replace (if stopped os then [] else []) with (@nil item) by (destruct (stopped os); reflexivity). rewrite app_nil_r.
    destruct (at_ s) as [|b|j nc nr b|] eqn:A; unfold pend in *; cbn [at_ q]; rewrite A in *; exists done, cur, ws, part;
      (split; [rewrite R, ?upto_app, ?sg_app|split; [exact F|split; [exact W|split; [exact C|split; [rewrite ?Forall_app in *; try constructor; intuition (repeat constructor; auto)|]]]]]).
    + destruct (sg (q s)); rewrite app_nil_r; reflexivity.
    + rewrite sg_app, orb_true_r. reflexivity.
    + destruct (sg b), (sg (q s)); cbn [upto]; rewrite ?app_nil_r; reflexivity.
    + rewrite !sg_app, !orb_true_r. reflexivity.
    + destruct (sg b), (sg (q s)); cbn [upto]; rewrite ?app_nil_r; reflexivity.
    + rewrite !sg_app, !orb_true_r. reflexivity.
    + reflexivity.
    + reflexivity.
  - assert (RQ : requests (os ++ [Thread n r]) = requests os) by (rewrite requests_snoc; cbn [request]; destruct (stopped os); apply app_nil_r).
    assert (SQ : stopped (os ++ [Thread n r]) = stopped os) by (rewrite stopped_snoc; apply orb_false_r).
    unfold thread in E. destruct (at_ s) as [|[|[i|] b]|i nc nr b|] eqn:A.
    + set (k := Nat.min n (Nat.min BATCH (length (q s)))) in E. destruct (0 <? k)%nat eqn:N; injection E as <- <-; [|apply NOP; try reflexivity; discriminate].
      destruct I0 as (done & cur & ws & part & R & F & W & C & K & S). unfold inv. rewrite RQ, SQ, work_app. cbn [work filter]. rewrite app_nil_r. rewrite A in *. exists done, cur, ws, part.
      assert (P : pend (mkSt (skipn k (q s)) (Batch (firstn k (q s)))) = pend s) by (unfold pend; cbn [at_ q]; rewrite A; apply firstn_skipn). rewrite P. cbn [at_]. auto 6.
    + injection E as <- <-. destruct I0 as (done & cur & ws & part & R & F & W & C & K & S). unfold inv. rewrite RQ, SQ, work_app. cbn [work filter]. rewrite app_nil_r. rewrite A in *. exists done, cur, ws, part.
      assert (P : pend (mkSt (q s) Asking) = pend s) by (unfold pend; cbn [at_ q]; rewrite A; reflexivity). rewrite P. cbn [at_]. auto 6.
    + injection E as <- <-. destruct I0 as (done & cur & ws & part & R & F & W & C & K & S). unfold inv. rewrite RQ, SQ, work_app. cbn [work filter works]. rewrite app_nil_r. unfold pend in *. cbn [at_ q]. rewrite A in *.
      destruct C as [-> ->]. cbn [upto sg app] in R, S, K |- *. pose proof (Forall_inv K) as I1. cbn [wok] in I1. exists done, [i], ws, [].
      split; [exact R|]. split; [exact F|]. split; [exact W|]. split; [|split; [exact (Forall_inv_tail K)|exact S]]. exists []. cbn. unfold under_way, count. cbn. repeat split; try lia. constructor.
    + injection E as <- <-. destruct I0 as (done & cur & ws & part & R & F & W & C & K & S). unfold inv. rewrite RQ, SQ, work_app. cbn [work filter works]. rewrite app_nil_r. unfold pend in *. cbn [at_ q]. rewrite A in *.
      cbn [upto sg app] in R, S |- *. exists done, cur, ws, part. split; [exact R|]. split; [exact F|]. split; [exact W|]. split; [exact C|]. split; [constructor|exact S].
    + assert (X : inv (os ++ [Thread n r]) s' (tr ++ e) <-> exists done cur ws part,
        requests os = done ++ cur ++ upto (pend s') /\ Forall2 served done ws /\ work (tr ++ e) = concat ws ++ part /\
        cur_ok (at_ s') cur part /\ Forall wok (pend s') /\ stopped os = match at_ s' with Gone => true | _ => sg (pend s') end) by (unfold inv; rewrite RQ, SQ; tauto).
      apply X. clear X.
      assert (K0 : nr <= 3 /\ 0 < nc).
      { destruct I0 as (done & cur & ws & part & _ & _ & _ & C & _). rewrite A in C. cbn [cur_ok] in C. destruct C as (l0 & _ & _ & (U1 & U2 & U3) & NC & NR & _). lia. }
      destruct r as [k| | |].
      * destruct (Z.ltb_spec 0 (nc - 1)) as [L|L]; injection E as <- <-; cbn [at_].
        { eapply go_on with (r := Ok k); [exact I0|exact A|reflexivity|reflexivity|left; reflexivity|cbn; lia|cbn; lia|lia|cbn; lia|reflexivity]. }
        { eapply finish; [exact I0|exact A| |reflexivity|reflexivity|reflexivity]. intros l U N1 N2. exists l, (Ok k). split; [reflexivity|]. split; [exact U|]. left. split; [reflexivity|]. rewrite count_snoc. destruct U as (_ & U & _). cbn. lia. }
      * unfold MAX_RETRY in E. destruct (Z.ltb_spec nr 3) as [L|L]; [destruct (Z.ltb_spec 0 nc) as [L'|L']; [|lia]|]; injection E as <- <-; cbn [at_].
        { eapply go_on with (r := Eperm); [exact I0|exact A|reflexivity|reflexivity|right; reflexivity|cbn; lia|cbn; lia|lia|cbn; lia|reflexivity]. }
        { eapply finish; [exact I0|exact A| |reflexivity|reflexivity|reflexivity]. intros l U N1 N2. exists l, Eperm. split; [reflexivity|]. split; [exact U|]. right. right. split; [reflexivity|]. rewrite count_snoc. destruct U as (_ & _ & U). cbn. lia. }
      * unfold MAX_RETRY in E. destruct (Z.ltb_spec nr 3) as [L|L]; [destruct (Z.ltb_spec 0 nc) as [L'|L']; [|lia]|]; injection E as <- <-; cbn [at_].
        { eapply go_on with (r := Enobufs); [exact I0|exact A|reflexivity|reflexivity|right; reflexivity|cbn; lia|cbn; lia|lia|cbn; lia|reflexivity]. }
        { eapply finish; [exact I0|exact A| |reflexivity|reflexivity|reflexivity]. intros l U N1 N2. exists l, Enobufs. split; [reflexivity|]. split; [exact U|]. right. right. split; [reflexivity|]. rewrite count_snoc. destruct U as (_ & _ & U). cbn. lia. }
      * injection E as <- <-; cbn [at_]. eapply finish; [exact I0|exact A| |reflexivity|reflexivity|reflexivity]. intros l U N1 N2. exists l, Efail. split; [reflexivity|]. split; [exact U|]. right. left. split; reflexivity.
    + injection E as <- <-. apply NOP; try reflexivity. discriminate.
Qed.

Lemma inv0 : inv [] start [].
Proof. exists [], [], [], []. cbn. repeat split; constructor. Qed.
Lemma inv_run os s tr : run start os = (s, tr) -> inv os s tr.
Proof.
  revert s tr. induction os as [|o os IH] using rev_ind; intros s tr E; [injection E as <- <-; exact inv0|].
  rewrite run_app in E. destruct (run start os) as [s1 t1]. cbn [run] in E. destruct (step s1 o) as [s2 e] eqn:ST. injection E as <- <-. rewrite app_nil_r.
  apply (inv_step os s1 t1 o s2 e (IH _ _ eq_refl) ST).
Qed.

(** How often *)
Lemma finished_bounds n l : finished n l -> count good l <= n /\ count transient l <= 4 /\ Z.of_nat (length l) <= n + 3.
Proof.
  intros (l' & r & -> & (F & G & T) & C).
  assert (L : forall x, Forall (fun r => good r = true \/ transient r = true) x -> Z.of_nat (length x) = count good x + count transient x).
  { clear. induction x as [|a x IH]; intros F; [reflexivity|]. pose proof (Forall_inv F) as Fa. pose proof (IH (Forall_inv_tail F)) as E. unfold count in *. cbn [length zsum]. rewrite Nat2Z.inj_succ, E. destruct a; cbn [good transient] in *; lia. }
  rewrite app_length, !count_snoc in *. specialize (L _ F). cbn [length]. destruct r; cbn in *; lia.
Qed.

(** Work left *)
Definition effort (w : wi) : nat := match w with Pkt i => (Z.to_nat (i_nsend i) + 6)%nat | Sgnl => 2%nat end.
Definition left_ (s : st) : nat :=
  match at_ s with
  | Gone => 0%nat
  | Asking => (list_sum (map effort (q s)) + 2 * length (q s))%nat
  | Batch l => S (list_sum (map effort (l ++ q s)) + 2 * length (q s))
  | Sending _ nc nr l => S (Z.to_nat nc + Z.to_nat (4 - nr) + list_sum (map effort (l ++ q s)) + 2 * length (q s))
  end.
Definition quiet (s : st) : bool := match at_ s with Asking => match q s with [] => true | _ => false end | Gone => true | _ => false end.
Lemma left_step os s tr n r : inv os s tr -> quiet s = false -> (0 < n)%nat -> (left_ (fst (step s (Thread n r))) < left_ s)%nat.
Proof.
  intros (done & cur & ws & part & _ & _ & _ & C & K & _) Q N0. unfold quiet in Q.
  assert (SP : forall (f : wi -> nat) l m, list_sum (map f (firstn m l ++ skipn m l)) = list_sum (map f l)) by (intros; rewrite firstn_skipn; reflexivity).
  cbn [step]. unfold thread, left_. destruct (at_ s) as [|[|[i|] b]|i nc nr b|] eqn:A; cbn [fst at_ q].
  - set (k := Nat.min n (Nat.min BATCH (length (q s)))). assert (B : BATCH = 128%nat) by reflexivity.
    assert (0 < k <= length (q s))%nat by (destruct (q s); [discriminate|]; cbn [length] in k |- *; lia).
    destruct (Nat.ltb_spec 0 k); [|lia]. cbn [fst at_ q]. rewrite SP, skipn_length. lia.
  - cbn [app]. lia.
  - cbn [app map]. change (list_sum (effort (Pkt i) :: map effort (b ++ q s))) with (effort (Pkt i) + list_sum (map effort (b ++ q s)))%nat. cbn [effort]. lia.
  - lia.
  - cbn [cur_ok] in C. destruct C as (l0 & _ & _ & (U1 & U2 & U3) & NC & NR & _). unfold MAX_RETRY. pose proof (count_nonneg transient l0).
    destruct r; cbn [fst at_ q]; [destruct (Z.ltb_spec 0 (nc - 1))|destruct (Z.ltb_spec nr 3); [destruct (Z.ltb_spec 0 nc)|]|destruct (Z.ltb_spec nr 3); [destruct (Z.ltb_spec 0 nc)|]|]; cbn [fst at_ q]; lia.
  - discriminate.
Qed.
Lemma quiet_step s n r : quiet s = true -> step s (Thread n r) = (s, []).
Proof.
  unfold quiet. cbn [step]. unfold thread. destruct (at_ s); try discriminate; [|reflexivity]. destruct (q s) eqn:Q; [|discriminate]. intros _.
  cbn [length]. rewrite (Nat.min_r BATCH 0) by lia. rewrite (Nat.min_r n 0) by lia. reflexivity.
Qed.
Lemma settles k : forall os s tr l, inv os s tr -> (left_ s <= k)%nat -> (k <= length l)%nat -> Forall (fun p => (0 < fst p)%nat) l ->
  quiet (fst (run s (map (fun p => Thread (fst p) (snd p)) l))) = true.
Proof.
  induction k as [|k IH]; intros os s tr l I0 L1 L2 F.
  - assert (Q : quiet s = true).
    { destruct (quiet s) eqn:Q; [reflexivity|]. pose proof (left_step os s tr 1 Efail I0 Q ltac:(lia)). lia. }
    clear - Q. revert Q. induction l as [|p l IH]; intros Q; [exact Q|]. cbn [map run]. rewrite (quiet_step _ _ _ Q). specialize (IH Q). destruct (run s _). exact IH.
  - destruct (quiet s) eqn:Q.
    + clear - Q. revert Q. induction l as [|p l IH]; intros Q; [exact Q|]. cbn [map run]. rewrite (quiet_step _ _ _ Q). specialize (IH Q). destruct (run s _). exact IH.
    + destruct l as [|p l]; [cbn in L2; lia|]. cbn [map run]. pose proof (left_step os s tr (fst p) (snd p) I0 Q (Forall_inv F)) as LS.
      destruct (step s (Thread (fst p) (snd p))) as [s1 e] eqn:ST. cbn [fst] in LS. pose proof (inv_step _ _ _ _ _ _ I0 ST) as I1.
      specialize (IH _ _ _ l I1 ltac:(lia) ltac:(cbn in L2; lia) (Forall_inv_tail F)). destruct (run s1 _). exact IH.
Qed.
