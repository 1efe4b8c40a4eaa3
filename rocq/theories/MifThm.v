(** C65: modules and the accounting they are given. *)
From Verif Require Import Base MifModel MifSpec MifProof MifProof2 MifProof3.
Open Scope nat_scope.

(** A concrete history: two modules of one kind and a third that takes no accounting, a session told to
    both, an RTCP packet, and a shutdown *)
Definition zd : mdesc := MD 7 true true true false true (Some true) (Some true) true true.
Definition ze : mdesc := MD 9 false false false true true (Some true) None true true.
Definition zup : list op := [OLoad zd; OLoad ze; OLoad zd; OStart; OSess 5; OSess 6; ORtcp 0 5 77 true].
Definition zend : list op := zup ++ [OEnd 5; OAcct 5 true; OAcct 5 true; OWork 0; OAcct 5 true; OAcct 5 true; OStop; OEnd 6; OAcct 6 true; OAcct 6 true; OAcct 6 false; OAcct 6 true].
Definition zdown : list op := zend ++ [OMain; OWork 0; OWork 0; OWork 0; OMain; OWork 2; OWork 0; OMain; OMain; OWork 1; OMain; OMain; OWork 2; OMain; OMain].

(** ** Numbers *)

Theorem mif_numbers ops :
  existsb is_load_fail ops = false ->
  let w := fst (run winit ops) in
  (forall i, i < w_n w -> m_idx (w_mod w i) = i /\ m_inst (w_mod w i) = S (length (earlier w i))) /\
  (forall i j, i < w_n w -> j < w_n w -> d_id (m_d (w_mod w i)) = d_id (m_d (w_mod w j)) ->
    m_inst (w_mod w i) = m_inst (w_mod w j) -> i = j).
Proof.
  intros NF w. pose proof (all_run ops NF) as A. fold w in A. split.
  - intros i L. split; [apply (b_idx _ (a_base _ _ A) i L) | apply (a_num _ _ A i L)].
  - intros i j Li Lj. apply numbers_distinct; auto. apply (a_num _ _ A).
Qed.
Print Assumptions mif_numbers.

Theorem mif_lookup ops id inst i :
  existsb is_load_fail ops = false ->
  let w := fst (run winit ops) in
  lookup w id inst = Some i <->
  i < w_n w /\ d_id (m_d (w_mod w i)) = id /\ m_inst (w_mod w i) = inst /\ d_ul (m_d (w_mod w i)) = true.
Proof.
  intros NF w. pose proof (all_run ops NF) as A. fold w in A.
  pose proof (lookup_from_spec (w_mod w) id inst (w_n w) 0) as X. unfold lookup. split.
  - intros E. rewrite E in X. cbn [Nat.add] in X. tauto.
  - intros (L & D & E & U). destruct (lookup_from (w_mod w) (w_n w) 0 id inst) as [j|].
    + destruct X as (X1 & X2 & X3 & _). f_equal. apply (numbers_distinct w j i (a_num _ _ A)); [lia | exact L | congruence | congruence].
    + destruct (X i ltac:(lia) D E) as (j & L' & D' & E' & U').
      assert (j = i) by (apply (numbers_distinct w j i (a_num _ _ A)); [lia | exact L | congruence | congruence]). subst j. congruence.
Qed.
Print Assumptions mif_lookup.

Example mif_numbers_ex : existsb is_load_fail zup = false /\ w_n (fst (run winit zup)) = 3
  /\ map (fun i => m_inst (w_mod (fst (run winit zup)) i)) [0; 1; 2] = [1; 1; 2]
  /\ lookup (fst (run winit zup)) 7 2 = Some 2 /\ lookup (fst (run winit zup)) 7 3 = None.
Proof. repeat split; reflexivity. Qed.

(** ** Every session is told once to each module that asked for it *)

Theorem mif_offered_once ops a i :
  existsb is_load_fail ops = false ->
  let w := fst (run winit ops) in
  (w_sess w a = SGone -> offers i a (snd (run winit ops)) = if (i <? w_n w) && has_acct (m_d (w_mod w i)) then 1 else 0) /\
  ((w_sess w a = SNone \/ exists h, w_sess w a = SUp h) -> offers i a (snd (run winit ops)) = 0) /\
  offers i a (snd (run winit ops)) <= 1.
Proof.
  intros NF w. pose proof (all_run ops NF) as A. fold w in A. pose proof (t_offers _ _ (a_traced _ _ A) i a) as X.
  split; [|split].
  - intros E. now rewrite E in X.
  - intros [E|[h E]]; now rewrite E in X.
  - rewrite X. destruct (w_sess w a); try lia.
    + destruct ((i <? k) && (i <? w_n w) && has_acct (m_d (w_mod w i))); lia.
    + destruct ((i <? w_n w) && has_acct (m_d (w_mod w i))); lia.
Qed.
Print Assumptions mif_offered_once.

(** An offer is lost only when there is no memory or when 128 items are waiting *)
Theorem mif_lost_only_when_full w o w' rs :
  step w o = (w', rs) ->
  (forall i b p, In (RAcct i b p) rs ->
    exists mem, o = OAcct b mem /\
    p = if mem then if length (m_q (w_mod w i)) <? 128 then Taken else Full else NoMem) /\
  (forall i r p, In (RRtcp i r p) rs ->
    exists a mem, o = ORtcp i a r mem /\
    p = if mem then if length (m_q (w_mod w i)) <? 128 then Taken else Full else NoMem).
Proof.
  intros H. apply step_tr in H. change 128 with maxlen.
  assert (LT : forall n, n < maxlen -> (n <? maxlen) = true) by (intros; now apply Nat.ltb_lt).
  assert (GE : forall n, maxlen <= n -> (n <? maxlen) = false) by (intros; now apply Nat.ltb_ge).
  destruct H; split; intros ? ? ? I; cbn in I; try tauto; destruct I as [I|[]]; try discriminate; injection I as <- <- <-.
  - exists mem. split; [reflexivity|]. now rewrite H.
  - exists mem. split; [reflexivity|]. now rewrite H, GE.
  - exists mem. split; [reflexivity|]. now rewrite H, LT.
  - exists a, mem. split; [reflexivity|]. now rewrite H.
  - exists a, mem. split; [reflexivity|]. now rewrite H, GE.
  - exists a, mem. split; [reflexivity|]. now rewrite H, LT.
Qed.
Print Assumptions mif_lost_only_when_full.

(** What was taken is handed over in order, each item once *)
Theorem mif_delivered ops i :
  existsb is_load_fail ops = false ->
  let w := fst (run winit ops) in
  i < w_n w ->
  handed (m_log (w_mod w i)) ++ waiting (m_q (w_mod w i)) = taken i (snd (run winit ops)).
Proof. intros NF w L. apply (t_in _ _ (a_traced _ _ (all_run ops NF))), L. Qed.
Print Assumptions mif_delivered.

Example mif_delivered_ex : existsb is_load_fail zend = false
  /\ w_sess (fst (run winit zend)) 5 = SGone /\ w_sess (fst (run winit zend)) 6 = SGone
  /\ handed (m_log (w_mod (fst (run winit zend)) 0)) = [IRtcp 77]
  /\ taken 0 (snd (run winit zend)) = [IRtcp 77; IAcct 5; IAcct 6]
  /\ taken 2 (snd (run winit zend)) = [IAcct 5].
Proof. vm_compute. repeat split; reflexivity. Qed.

(** ** The accounting records are freed once, and not before they have been handed over *)

Theorem mif_freed_once ops :
  existsb is_load_fail ops = false ->
  let w := fst (run winit ops) in
  w_bad w = false /\ NoDup (w_freed w) /\
  (forall a, In a (w_freed w) <->
    In a (w_used w) /\ w_sess w a = SGone /\ (forall i, i < w_n w -> ~ In (IAcct a) (m_q (w_mod w i)))).
Proof.
  intros NF w. pose proof (all_run ops NF) as A. fold w in A. destruct A as [B K [R1 R2 R3 R4 R5] _ _ _].
  split; [exact R5|]. split; [exact R2|]. intros a. rewrite R3, R1. split.
  - intros (U & E). split; [exact U|]. split.
    + apply (b_used _ B) in U. destruct (w_sess w a); cbn [live] in E; try lia; congruence.
    + intros i L I. pose proof (qt_has w _ i L I). lia.
  - intros (U & S & Q). split; [exact U|]. rewrite S. cbn [live Nat.add]. apply total_zero. intros i L.
    apply count_occ_not_In. now apply Q.
Qed.
Print Assumptions mif_freed_once.

Theorem mif_rtcp_freed_once ops r :
  existsb is_load_fail ops = false ->
  let w := fst (run winit ops) in
  count_occ Nat.eq_dec (w_rmade w) r =
  count_occ Nat.eq_dec (w_rfreed w) r + total (fun i => count_occ item_dec (m_q (w_mod w i)) (IRtcp r)) (w_n w).
Proof. intros NF w. apply (r_rtcp _ (a_refs _ _ (all_run ops NF))). Qed.
Print Assumptions mif_rtcp_freed_once.

Example mif_freed_once_ex : w_freed (fst (run winit (zend ++ [OWork 2; OWork 0]))) = [5]
  /\ In 6 (w_used (fst (run winit zend))) /\ w_rmade (fst (run winit zend)) = [77] /\ w_rfreed (fst (run winit zend)) = [77].
Proof. vm_compute. repeat split; auto. Qed.

(** ** The life of a module *)

Theorem mif_module_life ops i :
  existsb is_load_fail ops = false ->
  let w := fst (run winit ops) in
  i < w_n w ->
  exists pre mid post, m_log (w_mod w i) = pre ++ mid ++ post
    /\ (pre = [] \/ pre = calls (m_d (w_mod w i)))
    /\ (forall e, In e mid -> delivery e) /\ (mid <> [] -> pre = calls (m_d (w_mod w i)))
    /\ (post = [] \/ post = [EvDtor])
    /\ (w_phase w <> PFail -> (post = [EvDtor] <->
         m_gone (w_mod w i) = true /\ d_dtor (m_d (w_mod w i)) = true /\ In EvCtor pre)).
Proof.
  intros NF w L. pose proof (all_run ops NF) as A. fold w in A.
  destruct (a_logs _ _ A i L) as (pre & mid & post & X1 & X2 & X3 & X4 & X5 & X6 & X7 & X8).
  exists pre, mid, post. split; [exact X1|]. split; [exact X2|]. split; [exact X3|]. split.
  { intros M. apply X4. intros T. apply M, X5, T. }
  split; [exact X7|]. intros P. rewrite (X8 P), <- X6.
  destruct (m_gone (w_mod w i)), (d_dtor (m_d (w_mod w i))), (m_made (w_mod w i)); cbn; intuition congruence.
Qed.
Print Assumptions mif_module_life.

(** ** Shutdown *)

(** It does not begin before every session some module is to hear of has been told and is gone *)
Theorem mif_shutdown_waits ops i a :
  existsb is_load_fail ops = false ->
  let w := fst (run winit ops) in
  (w_phase w = PDone \/ exists k wt, w_phase w = PKap k wt) ->
  i < w_n w -> has_acct (m_d (w_mod w i)) = true -> In a (w_used w) -> w_sess w a = SGone.
Proof.
  intros NF w P L H U. pose proof (all_run ops NF) as A. fold w in A. pose proof (a_base _ _ A) as B.
  assert (C : w_cf w = 0). { pose proof (b_phase _ B) as X. destruct P as [P|(k & wt & P)]; now rewrite P in X. }
  pose proof (b_cf _ B) as X. rewrite C in X. pose proof (sumf_pos (fun a => holds (w_sess w a)) _ _ U) as Y. cbv beta in Y.
  pose proof (b_hold _ B a) as Z. rewrite (any_acct_true _ _ i L H) in Z. apply (b_used _ B) in U.
  destruct (w_sess w a) as [|h|h k|]; try congruence; subst h; cbn [holds] in Y; lia.
Qed.
Print Assumptions mif_shutdown_waits.

(** When it is over, everything taken has been handed over, no thread runs, and the destructor has been
    run, last, on each module that was constructed *)
Theorem mif_shutdown_complete ops i :
  existsb is_load_fail ops = false ->
  let w := fst (run winit ops) in
  w_phase w = PDone -> i < w_n w ->
  handed (m_log (w_mod w i)) = taken i (snd (run winit ops)) /\ m_q (w_mod w i) = [] /\ m_thr (w_mod w i) <> TRun /\
  (d_dtor (m_d (w_mod w i)) = true -> In EvCtor (m_log (w_mod w i)) -> exists l, m_log (w_mod w i) = l ++ [EvDtor] /\ ~ In EvDtor l) /\
  (forall a, In a (w_used w) -> w_sess w a = SGone -> In a (w_freed w)).
Proof.
  intros NF w P L. pose proof (all_run ops NF) as A. fold w in A. pose proof (b_mods _ (a_base _ _ A)) as X. unfold mods_ok in X. rewrite P in X.
  destruct (X i L) as (X1 & X2 & X3). split; [|split; [exact X3|split; [exact X2|split]]].
  - pose proof (t_in _ _ (a_traced _ _ A) i L) as T. rewrite X3 in T. cbn in T. now rewrite app_nil_r in T.
  - intros D C. destruct (a_logs _ _ A i L) as (pre & mid & post & Y1 & Y2 & Y3 & Y4 & Y5 & Y6 & Y7 & Y8). specialize (Y8 ltac:(congruence)).
    assert (NP : ~ In EvDtor pre /\ ~ In EvDtor mid).
    { split; [|intros I; apply (Y3 _ I)]. destruct Y2 as [->| ->]; [intros []|]. unfold calls. destruct (d_ctor (m_d (w_mod w i))), (d_config (m_d (w_mod w i))); cbn; intuition congruence. }
    assert (IP : In EvCtor pre).
    { rewrite Y1 in C. rewrite !in_app_iff in C. destruct C as [C|[C|C]]; [exact C | destruct (Y3 _ C) | destruct Y7 as [->| ->]; [destruct C | destruct C as [C|[]]; discriminate]]. }
    apply Y6 in IP. rewrite X1, D, IP in Y8. cbn in Y8. exists (pre ++ mid). rewrite Y1, Y8, app_assoc. split; [reflexivity|].
    rewrite in_app_iff. tauto.
  - intros a U S. apply (mif_freed_once ops NF). fold w. split; [exact U|]. split; [exact S|]. intros j Lj I. destruct (X j Lj) as (_ & _ & E). rewrite E in I. destruct I.
Qed.
Print Assumptions mif_shutdown_complete.

(** And it is over after finitely many steps: while it is not, some thread can go on, and each step of main
    or of a module's thread that does anything leaves less to do *)
Theorem mif_shutdown_ends ops k wt :
  existsb is_load_fail ops = false ->
  let w := fst (run winit ops) in
  w_phase w = PKap k wt ->
  (exists o, shutdown_op o = true /\ todo (fst (step w o)) < todo w) /\
  (forall o, shutdown_op o = true -> fst (step w o) = w \/ todo (fst (step w o)) < todo w).
Proof.
  intros NF w P. pose proof (all_run ops NF) as A. fold w in A. pose proof (a_base _ _ A) as B.
  assert (X : forall o, shutdown_op o = true -> fst (step w o) = w \/ todo (fst (step w o)) < todo w).
  { intros o O. destruct (step w o) as [w' r] eqn:E. apply step_tr in E. cbn [fst]. eapply todo_step; eauto. }
  split; [|exact X]. destruct (todo_moves w k wt B P) as (o & O & M). exists o. split; [exact O|]. destruct (X o O); [congruence|assumption].
Qed.
Print Assumptions mif_shutdown_ends.

Example mif_shutdown_ex : existsb is_load_fail zdown = false /\ w_phase (fst (run winit zdown)) = PDone
  /\ w_phase (fst (run winit zend)) = PKap 0 false
  /\ m_log (w_mod (fst (run winit zdown)) 0) = [EvCtor; EvConf; EvRtcp 77; EvSess 5; EvSess 6; EvDtor]
  /\ m_log (w_mod (fst (run winit zdown)) 1) = [EvCtor; EvDtor]
  /\ m_log (w_mod (fst (run winit zdown)) 2) = [EvCtor; EvConf; EvSess 5; EvDtor]
  /\ w_freed (fst (run winit zdown)) = [5; 6].
Proof. vm_compute. repeat split; reflexivity. Qed.

(** ** A module that cannot be loaded *)

(** The hypothesis that no load fails cannot be dropped: the error path uses the object it has freed *)
Theorem mif_failed_load_refuted :
  ~ (forall ops, w_bad (fst (run winit ops)) = false).
Proof. intros H. specialize (H [OLoad zd; OLoadFail]). discriminate. Qed.
Print Assumptions mif_failed_load_refuted.
