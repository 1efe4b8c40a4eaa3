(** Proofs: the steps, one by one, and what holds of the modules and sessions in every state. *)
From Verif Require Import Base MifModel MifSpec.
Open Scope nat_scope.

Lemma fupd_same {A} (f : nat -> A) i x : fupd f i x i = x.
Proof. unfold fupd. now rewrite Nat.eqb_refl. Qed.
Lemma fupd_other {A} (f : nat -> A) i j x : j <> i -> fupd f i x j = f j.
Proof. intros H. unfold fupd. destruct (Nat.eqb_spec j i); congruence. Qed.

(** The enabled steps *)
Inductive tr1 (w : mw) : op -> mw -> list res -> Prop :=
| t_same o : tr1 w o w []
| t_load d : w_phase w = PLoad -> tr1 w (OLoad d) (load w d) []
| t_lfail : w_phase w = PLoad -> tr1 w OLoadFail (load_failed w) []
| t_start : w_phase w = PLoad -> tr1 w OStart (start w) []
| t_sess a : w_phase w = PRun -> w_main w = true -> ~ In a (w_used w) -> tr1 w (OSess a) (sess_new w a) []
| t_end a h : w_phase w <> PFail -> w_sess w a = SUp h -> tr1 w (OEnd a) (with_sess w a (SEnd h 0)) []
| t_skip a mem k : w_phase w <> PFail -> w_sess w a = SEnd true k -> k < w_n w -> has_acct (m_d (w_mod w k)) = false ->
    tr1 w (OAcct a mem) (with_sess w a (SEnd true (S k))) []
| t_nomem a mem k : mem = false -> w_phase w <> PFail -> w_sess w a = SEnd true k -> k < w_n w -> has_acct (m_d (w_mod w k)) = true ->
    tr1 w (OAcct a mem) (with_sess w a (SEnd true (S k))) [RAcct k a NoMem]
| t_full a mem k : mem = true -> w_phase w <> PFail -> w_sess w a = SEnd true k -> k < w_n w -> has_acct (m_d (w_mod w k)) = true ->
    maxlen <= length (m_q (w_mod w k)) ->
    tr1 w (OAcct a mem) (decref (incref (with_sess w a (SEnd true (S k))) a) a) [RAcct k a Full]
| t_taken a mem k : mem = true -> w_phase w <> PFail -> w_sess w a = SEnd true k -> k < w_n w -> has_acct (m_d (w_mod w k)) = true ->
    length (m_q (w_mod w k)) < maxlen ->
    tr1 w (OAcct a mem) (with_mod (incref (with_sess w a (SEnd true (S k))) a) k
                     (with_q (w_mod w k) (m_q (w_mod w k) ++ [IAcct a]))) [RAcct k a Taken]
| t_last a mem k : w_phase w <> PFail -> w_sess w a = SEnd true k -> w_n w <= k ->
    tr1 w (OAcct a mem) (decref (release (with_sess w a SGone)) a) []
| t_last0 a mem k : w_phase w <> PFail -> w_sess w a = SEnd false k ->
    tr1 w (OAcct a mem) (decref (with_sess w a SGone) a) []
| t_rnomem i a r mem h : mem = false -> w_phase w = PRun -> i < w_n w -> has_rtcp (m_d (w_mod w i)) = true -> w_sess w a = SUp h ->
    tr1 w (ORtcp i a r mem) (with_rtcp w (r :: w_rmade w) (r :: w_rfreed w)) [RRtcp i r NoMem]
| t_rfull i a r mem h : mem = true -> w_phase w = PRun -> i < w_n w -> has_rtcp (m_d (w_mod w i)) = true -> w_sess w a = SUp h ->
    maxlen <= length (m_q (w_mod w i)) ->
    tr1 w (ORtcp i a r mem) (with_rtcp w (r :: w_rmade w) (r :: w_rfreed w)) [RRtcp i r Full]
| t_rtaken i a r mem h : mem = true -> w_phase w = PRun -> i < w_n w -> has_rtcp (m_d (w_mod w i)) = true -> w_sess w a = SUp h ->
    length (m_q (w_mod w i)) < maxlen ->
    tr1 w (ORtcp i a r mem) (with_rtcp (with_mod w i (with_q (w_mod w i) (m_q (w_mod w i) ++ [IRtcp r]))) (r :: w_rmade w) (w_rfreed w))
        [RRtcp i r Taken]
| t_wterm i q : w_phase w <> PFail -> i < w_n w -> m_thr (w_mod w i) = TRun -> m_q (w_mod w i) = ITerm :: q ->
    tr1 w (OWork i) (with_mod w i (after_item (w_mod w i) TEnd q [])) []
| t_wacct i a q : w_phase w <> PFail -> i < w_n w -> m_thr (w_mod w i) = TRun -> m_q (w_mod w i) = IAcct a :: q ->
    tr1 w (OWork i) (decref (with_mod (with_refs w (w_refs w) (w_freed w) (w_bad w || (w_refs w a =? 0))) i
                   (after_item (w_mod w i) TRun q (if d_send (m_d (w_mod w i)) then [EvSess a] else []))) a) []
| t_wrtcp i r q : w_phase w <> PFail -> i < w_n w -> m_thr (w_mod w i) = TRun -> m_q (w_mod w i) = IRtcp r :: q ->
    tr1 w (OWork i) (with_rtcp (with_mod w i (after_item (w_mod w i) TRun q (if d_rcvd (m_d (w_mod w i)) then [EvRtcp r] else [])))
                     (w_rmade w) (r :: w_rfreed w)) []
| t_stop : w_phase w = PLoad \/ w_phase w = PRun -> w_main w = true -> tr1 w OStop (stop w) []
| t_kput k : w_phase w = PKap k false -> k < w_n w -> m_thr (w_mod w k) = TRun -> length (m_q (w_mod w k)) < maxlen ->
    tr1 w OMain (with_phase (with_mod w k (with_q (w_mod w k) (m_q (w_mod w k) ++ [ITerm]))) (PKap k true)) []
| t_kfin k wt : w_phase w = PKap k wt -> k < w_n w -> m_thr (w_mod w k) <> TRun ->
    tr1 w OMain (with_phase (with_mod w k (finish (w_mod w k))) (PKap (S k) false)) []
| t_kdone k wt : w_phase w = PKap k wt -> w_n w <= k -> tr1 w OMain (with_phase w PDone) [].

Lemma existsb_eqb_false a l : existsb (Nat.eqb a) l = false -> ~ In a l.
Proof.
  intros H I. assert (E : existsb (Nat.eqb a) l = true).
  { apply existsb_exists. exists a. split; [exact I | apply Nat.eqb_refl]. }
  congruence.
Qed.

Lemma acct_tr w a mem w' r : w_phase w <> PFail -> sess_step w a mem = (w', r) -> tr1 w (OAcct a mem) w' r.
Proof.
  intros P H. unfold sess_step in H. destruct (w_sess w a) as [|h|h k|] eqn:E; try (injection H as <- <-; apply t_same).
  destruct h; [|injection H as <- <-; now apply t_last0 with k].
  destruct (Nat.ltb_spec k (w_n w)) as [L|L]; [|injection H as <- <-; now apply t_last with k].
  destruct (has_acct (m_d (w_mod w k))) eqn:HA; [|injection H as <- <-; now apply t_skip].
  unfold do_acct, put_item in H. destruct mem; cbn [negb] in H.
  - cbn [w_mod with_sess] in H. destruct (Nat.leb_spec maxlen (length (m_q (w_mod w k)))); injection H as <- <-.
    + now apply t_full.
    + now apply t_taken.
  - injection H as <- <-. now apply t_nomem.
Qed.

Lemma rtcp_tr w i a r mem w' rs : w_phase w = PRun ->
  (if w_reg w && (i <? w_n w) && has_rtcp (m_d (w_mod w i)) && (match w_sess w a with SUp _ => true | _ => false end)
   then do_rtcp w i r mem else (w, [])) = (w', rs) -> tr1 w (ORtcp i a r mem) w' rs.
Proof.
  intros P H. destruct (w_reg w); cbn [andb] in H; [|injection H as <- <-; apply t_same].
  destruct (Nat.ltb_spec i (w_n w)) as [L|L]; cbn [andb] in H; [|injection H as <- <-; apply t_same].
  destruct (has_rtcp (m_d (w_mod w i))) eqn:HR; cbn [andb] in H; [|injection H as <- <-; apply t_same].
  destruct (w_sess w a) as [|h|h k|] eqn:E; try (injection H as <- <-; apply t_same).
  unfold do_rtcp, put_item in H. destruct mem; cbn [negb] in H.
  - destruct (Nat.leb_spec maxlen (length (m_q (w_mod w i)))); injection H as <- <-.
    + now apply t_rfull with h.
    + now apply t_rtaken with h.
  - injection H as <- <-. now apply t_rnomem with h.
Qed.

Lemma work_tr w i : w_phase w <> PFail -> tr1 w (OWork i) (if i <? w_n w then work w i else w) [].
Proof.
  intros P. destruct (Nat.ltb_spec i (w_n w)) as [L|L]; [|apply t_same]. unfold work.
  destruct (m_thr (w_mod w i)) eqn:T; try apply t_same.
  destruct (m_q (w_mod w i)) as [|[a|r|] q] eqn:Q; try apply t_same.
  - now apply t_wacct.
  - now apply t_wrtcp.
  - now apply t_wterm.
Qed.

Lemma kaput_tr w k wt : w_phase w = PKap k wt -> tr1 w OMain (kaput w k wt) [].
Proof.
  intros P. unfold kaput. destruct (Nat.ltb_spec k (w_n w)) as [L|L]; [|now apply t_kdone with k wt].
  destruct (m_thr (w_mod w k)) eqn:T.
  - apply t_kfin with wt; congruence.
  - destruct wt; [apply t_same|]. unfold put_item.
    destruct (Nat.leb_spec maxlen (length (m_q (w_mod w k)))); [apply t_same|]. now apply t_kput.
  - apply t_kfin with wt; congruence.
Qed.

Lemma step_tr w o w' r : step w o = (w', r) -> tr1 w o w' r.
Proof.
  intros H. destruct o; unfold step in H.
  - destruct (w_phase w) eqn:P; injection H as <- <-; try apply t_same. destruct (w_main w); [now apply t_load | apply t_same].
  - destruct (w_phase w) eqn:P; injection H as <- <-; try apply t_same. now apply t_lfail.
  - destruct (w_phase w) eqn:P; injection H as <- <-; try apply t_same. now apply t_start.
  - destruct (w_phase w) eqn:P; injection H as <- <-; try apply t_same.
    destruct (w_main w) eqn:M; cbn [andb]; [|apply t_same].
    destruct (existsb (Nat.eqb a) (w_used w)) eqn:E; cbn [negb]; [apply t_same|].
    apply t_sess; try assumption. now apply existsb_eqb_false.
  - destruct (w_phase w) eqn:P; try (injection H as <- <-; apply t_same);
      destruct (w_sess w a) eqn:E; injection H as <- <-; try apply t_same; apply t_end; congruence.
  - destruct (w_phase w) eqn:P; try (injection H as <- <-; apply t_same); apply acct_tr; congruence.
  - destruct (w_phase w) eqn:P; try (injection H as <- <-; apply t_same). now apply rtcp_tr.
  - destruct (w_phase w) eqn:P; injection H as <- <-; try apply t_same; apply work_tr; congruence.
  - destruct (w_phase w) eqn:P; injection H as <- <-; try apply t_same; destruct (w_main w) eqn:M;
      try apply t_same; apply t_stop; auto.
  - destruct (w_phase w) eqn:P; injection H as <- <-; try apply t_same. now apply kaput_tr.
Qed.

(** An invariant of states and traces that every enabled step keeps holds after every run *)
Lemma run_inv (I : mw -> list res -> Prop) :
  (forall w tr o w' r, I w tr -> tr1 w o w' r -> I w' (tr ++ r)) ->
  forall ops w tr, I w tr -> I (fst (run w ops)) (tr ++ snd (run w ops)).
Proof.
  intros H. induction ops as [|o ops IH]; intros w tr HI; cbn [run].
  - cbn [fst snd]. now rewrite app_nil_r.
  - destruct (step w o) as [w1 r1] eqn:E. apply step_tr in E. specialize (H _ _ _ _ _ HI E).
    specialize (IH _ _ H). destruct (run w1 ops) as [w2 r2]. cbn [fst snd] in *. now rewrite app_assoc.
Qed.

Lemma run_inv_ok (I : mw -> list res -> Prop) :
  (forall w tr o w' r, is_load_fail o = false -> I w tr -> tr1 w o w' r -> I w' (tr ++ r)) ->
  forall ops, existsb is_load_fail ops = false -> forall w tr, I w tr -> I (fst (run w ops)) (tr ++ snd (run w ops)).
Proof.
  intros H. induction ops as [|o ops IH]; intros NF w tr HI; cbn [run].
  - cbn [fst snd]. now rewrite app_nil_r.
  - cbn [existsb] in NF. apply orb_false_elim in NF. destruct NF as [NF1 NF2].
    destruct (step w o) as [w1 r1] eqn:E. apply step_tr in E. specialize (H _ _ _ _ _ NF1 HI E).
    specialize (IH NF2 _ _ H). destruct (run w1 ops) as [w2 r2]. cbn [fst snd] in *. now rewrite app_assoc.
Qed.

(** Fields after a reference is taken or dropped *)
Lemma decref_same w a : w_n (decref w a) = w_n w /\ w_mod (decref w a) = w_mod w /\ w_phase (decref w a) = w_phase w
  /\ w_cf (decref w a) = w_cf w /\ w_main (decref w a) = w_main w /\ w_used (decref w a) = w_used w
  /\ w_sess (decref w a) = w_sess w /\ w_reg (decref w a) = w_reg w /\ w_rmade (decref w a) = w_rmade w
  /\ w_rfreed (decref w a) = w_rfreed w.
Proof. unfold decref. destruct (w_refs w a); repeat split. Qed.

Ltac dsame w a :=
  let E := fresh in pose proof (decref_same w a) as E;
  destruct E as (?Dn & ?Dm & ?Dp & ?Dc & ?Dmain & ?Du & ?Ds & ?Dr & ?Drm & ?Drf).

(** ** The modules and sessions *)

Definition idle (m : mst) : Prop :=
  m_gone m = false /\ ((m_thr m = TNone /\ m_q m = []) \/ (m_thr m = TRun /\ ~ In ITerm (m_q m))).
Definition ending (m : mst) : Prop :=
  m_gone m = false /\ ((m_thr m = TRun /\ exists l, m_q m = l ++ [ITerm] /\ ~ In ITerm l) \/ (m_thr m = TEnd /\ m_q m = [])).
Definition ended (m : mst) : Prop := m_gone m = true /\ m_thr m <> TRun /\ m_q m = [].

Definition mods_ok (w : mw) : Prop :=
  match w_phase w with
  | PLoad => forall i, i < w_n w -> m_gone (w_mod w i) = false /\ m_thr (w_mod w i) = TNone /\ m_q (w_mod w i) = [] /\ m_made (w_mod w i) = false /\ m_log (w_mod w i) = []
  | PRun => forall i, i < w_n w -> idle (w_mod w i) /\ (has_thread (m_d (w_mod w i)) = true -> m_thr (w_mod w i) = TRun)
  | PFail => forall i, i < w_n w -> m_q (w_mod w i) = [] /\ m_gone (w_mod w i) = false
  | PKap k wt => k <= w_n w /\ (wt = true -> k < w_n w) /\ forall i, i < w_n w ->
      if i <? k then ended (w_mod w i) else if (i =? k) && wt then ending (w_mod w i) else idle (w_mod w i)
  | PDone => forall i, i < w_n w -> ended (w_mod w i)
  end.

Definition holds (s : sess) : nat := match s with SUp true | SEnd true _ => 1 | _ => 0 end.

Fixpoint sumf (f : nat -> nat) (l : list nat) : nat := match l with [] => 0 | x :: l => f x + sumf f l end.

Lemma sumf_ext f g l : (forall x, In x l -> f x = g x) -> sumf f l = sumf g l.
Proof.
  induction l as [|x l IH]; intros H; [reflexivity|]. cbn. rewrite (H x), IH; [reflexivity| |now left].
  intros; apply H; now right.
Qed.
Lemma sumf_upd f g l x : NoDup l -> In x l -> (forall y, y <> x -> f y = g y) -> sumf f l + g x = sumf g l + f x.
Proof.
  induction l as [|y l IH]; intros N I E; [destruct I|]. inversion N as [|? ? N1 N2]; subst. cbn.
  destruct I as [->|I].
  - rewrite (sumf_ext f g l); [lia|]. intros z Z. apply E. intros ->. tauto.
  - assert (y <> x) by (intros ->; tauto). rewrite (E y) by assumption. specialize (IH N2 I E). lia.
Qed.
Lemma sumf_pos f l x : In x l -> f x <= sumf f l.
Proof. induction l as [|y l IH]; intros []; cbn; [subst|specialize (IH H)]; lia. Qed.

Record base (w : mw) : Prop := Base {
  b_mods : mods_ok w;
  b_nodup : NoDup (w_used w);
  b_used : forall a, In a (w_used w) <-> w_sess w a <> SNone;
  b_hold : forall a, match w_sess w a with SUp h | SEnd h _ => h = any_acct (w_mod w) (w_n w) | _ => True end;
  b_k : forall a k, w_sess w a = SEnd true k -> k <= w_n w;
  b_cf : w_cf w = (if w_main w then 1 else 0) + sumf (fun a => holds (w_sess w a)) (w_used w);
  b_phase : match w_phase w with
            | PLoad => w_used w = [] /\ w_main w = true
            | PRun => 0 < w_cf w | PFail => w_used w = [] | PKap _ _ | PDone => w_cf w = 0 end;
  b_idx : forall i, i < w_n w -> m_idx (w_mod w i) = i }.

Lemma any_acct_ext f g n : (forall i, i < n -> m_d (f i) = m_d (g i)) -> any_acct f n = any_acct g n.
Proof.
  induction n as [|n IH]; intros H; [reflexivity|]. cbn. rewrite (H n) by lia. rewrite IH; [reflexivity|].
  intros; apply H; lia.
Qed.
Lemma any_acct_true f n i : i < n -> has_acct (m_d (f i)) = true -> any_acct f n = true.
Proof.
  induction n as [|n IH]; intros L H; [lia|]. cbn. destruct (Nat.eq_dec i n) as [->|]; [now rewrite H|].
  rewrite IH by (assumption || lia). apply orb_true_r.
Qed.

Lemma holder_runs w a k : base w -> w_phase w <> PFail -> w_sess w a = SEnd true k -> w_phase w = PRun.
Proof.
  intros B P S. assert (U : In a (w_used w)) by (apply (b_used _ B); congruence).
  pose proof (sumf_pos (fun a => holds (w_sess w a)) _ _ U) as L. cbn beta in L. rewrite S in L. cbn [holds] in L.
  pose proof (b_cf _ B). pose proof (b_phase _ B) as PH. destruct (w_phase w); try lia; try congruence.
  destruct PH as [PH _]. rewrite PH in U. destruct U.
Qed.

Lemma add_log_fields m t b l : m_d (add_log m t b l) = m_d m /\ m_inst (add_log m t b l) = m_inst m /\ m_idx (add_log m t b l) = m_idx m
  /\ m_q (add_log m t b l) = m_q m /\ m_thr (add_log m t b l) = t /\ m_gone (add_log m t b l) = m_gone m.
Proof. now unfold add_log. Qed.

(** What one construction and start does *)
Lemma cs_spec m m' ok : construct_start m = (m', ok) -> m_thr m = TNone ->
  m_d m' = m_d m /\ m_inst m' = m_inst m /\ m_idx m' = m_idx m /\ m_q m' = m_q m /\ m_gone m' = m_gone m
  /\ (ok = true -> m_thr m' = if has_thread (m_d m) then TRun else TNone)
  /\ (ok = false -> m_thr m' = TNone).
Proof.
  unfold construct_start. intros H T.
  destruct (d_ctor (m_d m)) as [[|]|]; cbv iota zeta in H; [| injection H as <- <-; repeat split; congruence |];
    destruct (d_config (m_d m)) as [[|]|]; cbv iota zeta in H;
    try (injection H as <- <-; cbn; repeat split; congruence);
    destruct (has_thread (m_d m)); try destruct (d_go (m_d m)); injection H as <- <-; cbn; repeat split; congruence.
Qed.

Lemma startall_spec fuel : forall f k f' ok, startall f fuel k = (f', ok) ->
  (forall i, k <= i < k + fuel -> m_thr (f i) = TNone) ->
  (forall i, m_d (f' i) = m_d (f i) /\ m_inst (f' i) = m_inst (f i) /\ m_idx (f' i) = m_idx (f i) /\ m_q (f' i) = m_q (f i) /\ m_gone (f' i) = m_gone (f i))
  /\ (forall i, i < k \/ k + fuel <= i -> f' i = f i)
  /\ (ok = true -> forall i, k <= i < k + fuel -> m_thr (f' i) = if has_thread (m_d (f i)) then TRun else TNone)
  /\ (forall i, k <= i < k + fuel -> exists b, f' i = fst (construct_start (f i)) /\ snd (construct_start (f i)) = b \/ f' i = f i).
Proof.
  induction fuel as [|fuel IH]; intros f k f' ok H T; cbn in H.
  - injection H as <- <-. split; [intros; repeat split|]. split; [reflexivity|]. split; intros; lia.
  - destruct (construct_start (f k)) as [m okm] eqn:C.
    destruct (cs_spec _ _ _ C (T k ltac:(lia))) as (C1 & C2 & C3 & C4 & C5 & C6 & C7).
    destruct okm.
    + apply IH in H.
      2:{ intros i Hi. rewrite fupd_other by lia. apply T. lia. }
      destruct H as (H1 & H2 & H3 & H4). split; [|split; [|split]].
      * intros i. destruct (H1 i) as (A1 & A2 & A3 & A4 & A5). destruct (Nat.eq_dec i k) as [->|D].
        -- rewrite fupd_same in *. repeat split; congruence.
        -- rewrite fupd_other in * by assumption. repeat split; congruence.
      * intros i D. rewrite H2 by lia. apply fupd_other. lia.
      * intros Ok i Hi. destruct (Nat.eq_dec i k) as [->|D].
        -- rewrite H2 by lia. rewrite fupd_same. now apply C6.
        -- rewrite H3 by (assumption || lia). now rewrite fupd_other by assumption.
      * intros i Hi. destruct (Nat.eq_dec i k) as [->|D].
        -- exists true. left. rewrite H2 by lia. rewrite fupd_same, C. split; reflexivity.
        -- destruct (H4 i ltac:(lia)) as [b H4']. rewrite fupd_other in H4' by assumption. now exists b.
    + injection H as <- <-. split; [|split; [|split]].
      * intros i. destruct (Nat.eq_dec i k) as [->|D]; [rewrite fupd_same | rewrite fupd_other by assumption]; repeat split; congruence.
      * intros i D. apply fupd_other. lia.
      * congruence.
      * intros i Hi. destruct (Nat.eq_dec i k) as [->|D].
        -- exists false. left. rewrite fupd_same, C. split; reflexivity.
        -- exists true. right. now apply fupd_other.
Qed.

Lemma base_init : base winit.
Proof. constructor; cbn; try tauto; try (intros; lia); try constructor; try tauto; try congruence. Qed.

(** Steps that change only one module *)
Definition mod_kind (w : mw) (i : nat) (m : mst) : Prop :=
  m_d m = m_d (w_mod w i) /\ m_idx m = m_idx (w_mod w i) /\
  match w_phase w with
  | PRun => idle m /\ m_thr m = m_thr (w_mod w i)
  | PKap k wt => if i <? k then ended m else if (i =? k) && wt then ending m else idle m
  | _ => False
  end.
Lemma mods_ok_ext w w' : w_n w' = w_n w -> w_phase w' = w_phase w -> (forall i, i < w_n w -> w_mod w' i = w_mod w i) -> mods_ok w -> mods_ok w'.
Proof.
  unfold mods_ok. intros N P M. rewrite N, P. destruct (w_phase w).
  all: try (intros H i L; rewrite M by exact L; exact (H i L)).
  intros (H1 & H2 & H). split; [exact H1|]. split; [exact H2|]. intros i L. rewrite M by exact L. exact (H i L).
Qed.
Lemma base_one w w' i m : base w -> i < w_n w -> mod_kind w i m ->
  w_n w' = w_n w -> w_mod w' = fupd (w_mod w) i m -> w_phase w' = w_phase w -> w_cf w' = w_cf w -> w_main w' = w_main w ->
  w_used w' = w_used w -> w_sess w' = w_sess w -> base w'.
Proof.
  intros B L (K1 & K2 & K3) N M P C MA U S. destruct B as [B1 B2 B3 B4 B5 B6 B7 B8].
  constructor; rewrite ?N, ?P, ?C, ?MA, ?U, ?S; auto.
  - unfold mods_ok in *. rewrite N, P, M. destruct (w_phase w); try tauto.
    + intros j Lj. destruct (Nat.eq_dec j i) as [->|D]; [rewrite fupd_same | rewrite fupd_other by assumption; auto].
      destruct K3 as [K3 K4]. split; [exact K3|]. rewrite K1, K4. apply B1, L.
    + destruct B1 as (X1 & X2 & X3). split; [exact X1|]. split; [exact X2|]. intros j Lj.
      destruct (Nat.eq_dec j i) as [->|D]; [rewrite fupd_same; exact K3 | rewrite fupd_other by assumption; now apply X3].
  - intros a. rewrite (any_acct_ext (w_mod w') (w_mod w)); [apply B4|]. intros j Lj. rewrite M.
    destruct (Nat.eq_dec j i) as [->|D]; [rewrite fupd_same; exact K1 | now rewrite fupd_other].
  - intros j Lj. rewrite M. destruct (Nat.eq_dec j i) as [->|D]; [rewrite fupd_same, K2; auto | rewrite fupd_other; auto].
Qed.

(** Steps of a session *)
Lemma base_sess w w' a s : base w -> In a (w_used w) -> s <> SNone -> s <> SGone -> holds s = holds (w_sess w a) ->
  match s with SUp h | SEnd h _ => h = any_acct (w_mod w) (w_n w) | _ => True end ->
  (forall k, s = SEnd true k -> k <= w_n w) ->
  w_n w' = w_n w -> w_mod w' = w_mod w -> w_phase w' = w_phase w -> w_cf w' = w_cf w -> w_main w' = w_main w ->
  w_used w' = w_used w -> w_sess w' = fupd (w_sess w) a s -> base w'.
Proof.
  intros B I NS NG HH HA HK N M P C MA U S. destruct B as [B1 B2 B3 B4 B5 B6 B7 B8].
  constructor; rewrite ?N, ?M, ?P, ?C, ?MA, ?U, ?S; auto.
  - apply (mods_ok_ext w); auto. intros; now rewrite M.
  - intros b. destruct (Nat.eq_dec b a) as [->|D]; [rewrite fupd_same; tauto | rewrite fupd_other by assumption; apply B3].
  - intros b. destruct (Nat.eq_dec b a) as [->|D]; [rewrite fupd_same; exact HA | rewrite fupd_other by assumption; apply B4].
  - intros b k. destruct (Nat.eq_dec b a) as [->|D]; [rewrite fupd_same; apply HK | rewrite fupd_other by assumption; apply B5].
  - rewrite B6. f_equal. apply sumf_ext. intros b _.
    destruct (Nat.eq_dec b a) as [->|D]; [rewrite fupd_same; congruence | now rewrite fupd_other].
Qed.

Lemma base_step w o w' r : base w -> tr1 w o w' r -> base w'.
Proof.
  intros B H.
  assert (RP : forall a k, w_phase w <> PFail -> w_sess w a = SEnd true k -> w_phase w = PRun) by (intros; eapply holder_runs; eauto).
  assert (US : forall a, w_sess w a <> SNone -> In a (w_used w)) by (intros; now apply (b_used _ B)).
  destruct H.
  - exact B.
  - (* load *) destruct B as [B1 B2 B3 B4 B5 B6 B7 B8]. rewrite H in *. destruct B7 as [B7 B7'].
    assert (NS : forall a, w_sess w a = SNone).
    { intros a. destruct (w_sess w a) eqn:E; [reflexivity|..]; exfalso; assert (I : In a (w_used w)) by (apply B3; congruence); rewrite B7 in I; destruct I. }
    constructor; cbn [load w_n w_mod w_phase w_cf w_main w_used w_sess]; rewrite ?H; auto.
    + unfold mods_ok in *. cbn [load w_n w_mod w_phase]. rewrite H in *. intros i L.
      destruct (Nat.eq_dec i (w_n w)) as [->|D]; [rewrite fupd_same; cbn; auto | rewrite fupd_other by assumption; apply B1; lia].
    + intros a. now rewrite NS.
    + intros a k E. rewrite NS in E. discriminate.
    + intros i L. destruct (Nat.eq_dec i (w_n w)) as [->|D]; [now rewrite fupd_same | rewrite fupd_other by assumption; apply B8; lia].
  - (* load failed *) destruct B as [B1 B2 B3 B4 B5 B6 B7 B8]. rewrite H in *.
    constructor; cbn [load_failed with_phase with_refs w_n w_mod w_phase w_cf w_main w_used w_sess]; auto; [|tauto].
    unfold mods_ok in *. cbn [load_failed with_phase with_refs w_n w_mod w_phase]. rewrite H in B1. intros i L. now destruct (B1 i L) as (? & ? & ? & ?).
  - (* start *) destruct B as [B1 B2 B3 B4 B5 B6 B7 B8]. rewrite H in *. unfold mods_ok in B1. rewrite H in B1. unfold start.
    destruct (startall (w_mod w) (w_n w) 0) as [f ok] eqn:E. apply startall_spec in E; [|intros i Hi; apply B1; lia].
    destruct E as (E1 & E2 & E3 & _). destruct B7 as [B7 B7']. constructor; cbn [w_n w_mod w_phase w_cf w_main w_used w_sess]; auto.
    + unfold mods_ok. cbn [w_n w_mod w_phase]. destruct ok; intros i L; destruct (E1 i) as (X1 & X2 & X3 & X4 & X5); destruct (B1 i L) as (Y1 & Y2 & Y3 & _).
      * rewrite X1. specialize (E3 eq_refl i ltac:(lia)). unfold idle. rewrite E3, X4, X5, Y1, Y3. destruct (has_thread (m_d (w_mod w i))); cbn [In]; intuition congruence.
      * rewrite X4, X5. auto.
    + intros a. rewrite (any_acct_ext f (w_mod w)); [apply B4|]. intros i _. apply E1.
    + destruct ok; [|exact B7]. rewrite B6, B7'. lia.
    + intros i L. rewrite (proj1 (proj2 (proj2 (E1 i)))). auto.
  - (* new session *) destruct B as [B1 B2 B3 B4 B5 B6 B7 B8].
    assert (NS : w_sess w a = SNone). { destruct (w_sess w a) eqn:E; [reflexivity|..]; exfalso; apply H1, B3; congruence. }
    constructor; cbn [sess_new w_n w_mod w_phase w_cf w_main w_used w_sess]; auto.
    + now constructor.
    + intros b. destruct (Nat.eq_dec b a) as [->|D]; [rewrite fupd_same | rewrite fupd_other by assumption]; cbn [In].
      * split; [discriminate | tauto].
      * rewrite <- B3. intuition congruence.
    + intros b. destruct (Nat.eq_dec b a) as [->|D]; [now rewrite fupd_same | rewrite fupd_other by assumption; apply B4].
    + intros b k. destruct (Nat.eq_dec b a) as [->|D]; [rewrite fupd_same; discriminate | rewrite fupd_other by assumption; apply B5].
    + rewrite B6. cbn [sumf]. rewrite fupd_same.
      rewrite (sumf_ext (fun x => holds (fupd (w_sess w) a (SUp (any_acct (w_mod w) (w_n w))) x)) (fun x => holds (w_sess w x))).
      * destruct (any_acct (w_mod w) (w_n w)); cbn [holds]; lia.
      * intros x I. rewrite fupd_other; [reflexivity|]. intros ->. tauto.
    + rewrite H in *. lia.
  - eapply base_sess with (a := a) (s := SEnd h 0); try exact B; try reflexivity; try discriminate; try (apply US; congruence).
    + rewrite H0. now destruct h.
    + pose proof (b_hold _ B a) as X. now rewrite H0 in X.
    + intros k [= ->]. lia.
  - eapply base_sess with (a := a) (s := SEnd true (S k)); try exact B; try reflexivity; try discriminate; try (apply US; congruence).
    + now rewrite H0.
    + pose proof (b_hold _ B a) as X. now rewrite H0 in X.
    + intros k' [= <-]. lia.
  - eapply base_sess with (a := a) (s := SEnd true (S k)); try exact B; try reflexivity; try discriminate; try (apply US; congruence).
    + now rewrite H1.
    + pose proof (b_hold _ B a) as X. now rewrite H1 in X.
    + intros k' [= <-]. lia.
  - dsame (incref (with_sess w a (SEnd true (S k))) a) a.
    eapply base_sess with (a := a) (s := SEnd true (S k)); try exact B; rewrite ?Dn, ?Dm, ?Dp, ?Dc, ?Dmain, ?Du, ?Ds; try reflexivity; try discriminate; try (apply US; congruence).
    + now rewrite H1.
    + pose proof (b_hold _ B a) as X. now rewrite H1 in X.
    + intros k' [= <-]. lia.
  - assert (B' : base (incref (with_sess w a (SEnd true (S k))) a)).
    { eapply base_sess with (a := a) (s := SEnd true (S k)); try exact B; try reflexivity; try discriminate; try (apply US; congruence).
      + now rewrite H1.
      + pose proof (b_hold _ B a) as X. now rewrite H1 in X.
      + intros k' [= <-]. lia. }
    pose proof (RP _ _ H0 H1) as PR.
    eapply base_one with (i := k) (m := with_q (w_mod w k) (m_q (w_mod w k) ++ [IAcct a])); try exact B'; try reflexivity; [exact H2|].
    split; [reflexivity|]. split; [reflexivity|]. cbn [incref with_refs with_sess w_phase w_mod]. rewrite PR.
    pose proof (b_mods _ B) as X. unfold mods_ok in X. rewrite PR in X. destruct (X k H2) as [X1 X2].
    assert (T : m_thr (w_mod w k) = TRun) by (apply X2; unfold has_thread; unfold has_acct in H3; now destruct (d_aapi (m_d (w_mod w k)))).
    split; [|reflexivity]. unfold idle in *. cbn [with_q m_gone m_thr m_q]. split; [tauto|]. right. split; [exact T|]. rewrite in_app_iff. cbn [In]. intuition congruence.
  - (* last *) dsame (release (with_sess w a SGone)) a. pose proof (RP _ _ H H0) as PR. destruct B as [B1 B2 B3 B4 B5 B6 B7 B8].
    assert (IA : In a (w_used w)) by (apply US; congruence).
    assert (SM : sumf (fun b => holds (fupd (w_sess w) a SGone b)) (w_used w) + 1 = sumf (fun b => holds (w_sess w b)) (w_used w)).
    { pose proof (sumf_upd (fun b => holds (fupd (w_sess w) a SGone b)) (fun b => holds (w_sess w b)) (w_used w) a B2 IA) as X.
      cbv beta in X. rewrite fupd_same, H0 in X. cbn [holds] in X. rewrite <- (Nat.add_0_r (sumf (fun b => holds (w_sess w b)) (w_used w))).
      apply X. intros y D. now rewrite fupd_other. }
    constructor; rewrite ?Dn, ?Dm, ?Dp, ?Dc, ?Dmain, ?Du, ?Ds; cbn [release with_sess w_n w_mod w_phase w_cf w_main w_used w_sess]; auto.
    + unfold mods_ok in *. rewrite Dn, Dm, Dp. cbn [release with_sess w_n w_mod w_phase w_cf]. rewrite PR in *.
      destruct (w_cf w - 1 =? 0); [|exact B1]. split; [lia|]. split; [discriminate|]. intros i L. cbn [Nat.ltb Nat.leb].
      rewrite andb_false_r. now apply B1.
    + intros b. destruct (Nat.eq_dec b a) as [->|D]; [rewrite fupd_same; split; [discriminate|tauto] | rewrite fupd_other by assumption; apply B3].
    + intros b. destruct (Nat.eq_dec b a) as [->|D]; [now rewrite fupd_same | rewrite fupd_other by assumption; apply B4].
    + intros b k'. destruct (Nat.eq_dec b a) as [->|D]; [rewrite fupd_same; discriminate | rewrite fupd_other by assumption; apply B5].
    + lia.
    + rewrite PR in *. destruct (Nat.eqb_spec (w_cf w - 1) 0); lia.
  - (* last, not told *) dsame (with_sess w a SGone) a. destruct B as [B1 B2 B3 B4 B5 B6 B7 B8].
    constructor; rewrite ?Dn, ?Dm, ?Dp, ?Dc, ?Dmain, ?Du, ?Ds; cbn [with_sess w_n w_mod w_phase w_cf w_main w_used w_sess]; auto.
    + apply (mods_ok_ext w); auto. intros; now rewrite Dm.
    + intros b. destruct (Nat.eq_dec b a) as [->|D]; [rewrite fupd_same; split; [discriminate|intros _; apply US; congruence] | rewrite fupd_other by assumption; apply B3].
    + intros b. destruct (Nat.eq_dec b a) as [->|D]; [now rewrite fupd_same | rewrite fupd_other by assumption; apply B4].
    + intros b k'. destruct (Nat.eq_dec b a) as [->|D]; [rewrite fupd_same; discriminate | rewrite fupd_other by assumption; apply B5].
    + rewrite B6. f_equal. apply sumf_ext. intros b _. destruct (Nat.eq_dec b a) as [->|D]; [rewrite fupd_same, H0; reflexivity | now rewrite fupd_other].
  - destruct B; constructor; auto.
  - destruct B; constructor; auto.
  - eapply base_one with (i := i) (m := with_q (w_mod w i) (m_q (w_mod w i) ++ [IRtcp r])); try exact B; try reflexivity; [exact H1|].
    split; [reflexivity|]. split; [reflexivity|]. rewrite H0.
    pose proof (b_mods _ B) as X. unfold mods_ok in X. rewrite H0 in X. destruct (X i H1) as [X1 X2].
    assert (T : m_thr (w_mod w i) = TRun) by (apply X2; unfold has_thread; unfold has_rtcp in H2; now destruct (d_aapi (m_d (w_mod w i)))).
    split; [|reflexivity]. unfold idle in *. cbn [with_q m_gone m_thr m_q]. split; [tauto|]. right. split; [exact T|]. rewrite in_app_iff. cbn [In]. intuition congruence.
  - (* SIGTERM taken *) pose proof (b_mods _ B) as X. unfold mods_ok in X.
    eapply base_one with (i := i) (m := after_item (w_mod w i) TEnd q []); try exact B; try reflexivity; [exact H0|].
    split; [reflexivity|]. split; [reflexivity|]. destruct (w_phase w) as [| | |k wt|]; try congruence.
    + destruct (X i H0) as (_ & X1 & _). congruence.
    + destruct (X i H0) as [[_ [[X1 X2]|[X1 X2]]] _]; [congruence|]. exfalso. apply X2. rewrite H2. now left.
    + destruct X as (_ & _ & X). specialize (X i H0). destruct (i <? k); [exfalso; destruct X as (_ & X & _); congruence|].
      destruct ((i =? k) && wt).
      * destruct X as [X0 [[X1 (l & X2 & X3)]|[X1 X2]]]; [|congruence]. unfold ending, after_item. cbn [m_gone m_thr m_q]. split; [exact X0|]. right. split; [reflexivity|].
        rewrite H2 in X2. destruct l as [|y l]; cbn in X2; [congruence|]. exfalso. injection X2 as <- _. apply X3. now left.
      * destruct X as [_ [[X1 X2]|[X1 X2]]]; [congruence|]. exfalso. apply X2. rewrite H2. now left.
    + destruct (X i H0) as (_ & X1 & _). congruence.
  - dsame (with_mod (with_refs w (w_refs w) (w_freed w) (w_bad w || (w_refs w a =? 0))) i (after_item (w_mod w i) TRun q (if d_send (m_d (w_mod w i)) then [EvSess a] else []))) a.
    pose proof (b_mods _ B) as X. unfold mods_ok in X.
    eapply base_one with (i := i) (m := after_item (w_mod w i) TRun q (if d_send (m_d (w_mod w i)) then [EvSess a] else [])); try exact B; rewrite ?Dn, ?Dm, ?Dp, ?Dc, ?Dmain, ?Du, ?Ds; try reflexivity; [exact H0|].
    split; [reflexivity|]. split; [reflexivity|]. destruct (w_phase w) as [| | |k wt|]; try congruence.
    + destruct (X i H0) as (_ & X1 & _). congruence.
    + destruct (X i H0) as [[X0 [[X1 X2]|[X1 X2]]] _]; [congruence|]. split; [|now cbn]. unfold idle, after_item. cbn [m_gone m_thr m_q]. split; [exact X0|]. right.
      split; [reflexivity|]. intros I. apply X2. rewrite H2. now right.
    + destruct X as (_ & _ & X). specialize (X i H0). destruct (i <? k); [exfalso; destruct X as (_ & X & _); congruence|].
      destruct ((i =? k) && wt).
      * destruct X as [X0 [[X1 (l & X2 & X3)]|[X1 X2]]]; [|congruence]. unfold ending, after_item. cbn [m_gone m_thr m_q]. split; [exact X0|]. left. split; [reflexivity|].
        rewrite H2 in X2. destruct l as [|y l]; cbn in X2; [congruence|]. injection X2 as <- ->. exists l. split; [reflexivity|]. intros I. apply X3. now right.
      * destruct X as [X0 [[X1 X2]|[X1 X2]]]; [congruence|]. unfold idle, after_item. cbn [m_gone m_thr m_q]. split; [exact X0|]. right. split; [reflexivity|]. intros I. apply X2. rewrite H2. now right.
    + destruct (X i H0) as (_ & X1 & _). congruence.
  - pose proof (b_mods _ B) as X. unfold mods_ok in X.
    eapply base_one with (i := i) (m := after_item (w_mod w i) TRun q (if d_rcvd (m_d (w_mod w i)) then [EvRtcp r] else [])); try exact B; try reflexivity; [exact H0|].
    split; [reflexivity|]. split; [reflexivity|]. destruct (w_phase w) as [| | |k wt|]; try congruence.
    + destruct (X i H0) as (_ & X1 & _). congruence.
    + destruct (X i H0) as [[X0 [[X1 X2]|[X1 X2]]] _]; [congruence|]. split; [|now cbn]. unfold idle, after_item. cbn [m_gone m_thr m_q]. split; [exact X0|]. right.
      split; [reflexivity|]. intros I. apply X2. rewrite H2. now right.
    + destruct X as (_ & _ & X). specialize (X i H0). destruct (i <? k); [exfalso; destruct X as (_ & X & _); congruence|].
      destruct ((i =? k) && wt).
      * destruct X as [X0 [[X1 (l & X2 & X3)]|[X1 X2]]]; [|congruence]. unfold ending, after_item. cbn [m_gone m_thr m_q]. split; [exact X0|]. left. split; [reflexivity|].
        rewrite H2 in X2. destruct l as [|y l]; cbn in X2; [congruence|]. injection X2 as <- ->. exists l. split; [reflexivity|]. intros I. apply X3. now right.
      * destruct X as [X0 [[X1 X2]|[X1 X2]]]; [congruence|]. unfold idle, after_item. cbn [m_gone m_thr m_q]. split; [exact X0|]. right. split; [reflexivity|]. intros I. apply X2. rewrite H2. now right.
    + destruct (X i H0) as (_ & X1 & _). congruence.
  - (* stop *) destruct B as [B1 B2 B3 B4 B5 B6 B7 B8].
    constructor; cbn [stop release w_n w_mod w_phase w_cf w_main w_used w_sess]; auto.
    + unfold mods_ok in *. cbn [stop release w_n w_mod w_phase w_cf].
      destruct (Nat.eqb_spec (w_cf w - 1) 0) as [E|E].
      * split; [lia|]. split; [discriminate|]. intros i L. cbn [Nat.ltb Nat.leb]. rewrite andb_false_r.
        destruct H as [H|H]; rewrite H in B1; destruct (B1 i L); [|assumption]. unfold idle. split; [assumption|]. left; tauto.
      * destruct H as [H|H]; rewrite H in *; [|exact B1]. destruct B7 as [B7 B7']. rewrite B7, B7' in B6. cbn in B6. lia.
    + rewrite B6, H0. lia.
    + rewrite B6, H0 in *. cbn [Nat.add] in *. destruct (Nat.eqb_spec (S (sumf (fun a => holds (w_sess w a)) (w_used w)) - 1) 0) as [E|E]; [lia|].
      destruct H as [H|H]; rewrite H in *; [|lia]. destruct B7 as [B7 _]. rewrite B7 in E. now cbn in E.
  - (* SIGTERM put *) destruct B as [B1 B2 B3 B4 B5 B6 B7 B8].
    constructor; cbn [with_phase with_mod w_n w_mod w_phase w_cf w_main w_used w_sess]; auto.
    + unfold mods_ok in *. cbn [with_phase with_mod w_n w_mod w_phase]. rewrite H in B1. destruct B1 as (X1 & X2 & X3).
      split; [exact X1|]. split; [auto|]. intros i L. specialize (X3 i L). rewrite andb_true_r. rewrite andb_false_r in X3.
      destruct (Nat.eq_dec i k) as [->|D].
      * rewrite fupd_same. rewrite Nat.ltb_irrefl in *. rewrite Nat.eqb_refl. destruct X3 as [X0 [[X3 X4]|[X3 X4]]]; [congruence|].
        unfold ending, with_q. cbn [m_gone m_thr m_q]. split; [exact X0|]. left. split; [exact X3|]. eauto.
      * rewrite fupd_other by assumption. apply Nat.eqb_neq in D. now rewrite D.
    + intros a. rewrite (any_acct_ext (fupd (w_mod w) k (with_q (w_mod w k) (m_q (w_mod w k) ++ [ITerm]))) (w_mod w)); [apply B4|].
      intros i _. destruct (Nat.eq_dec i k) as [->|D]; [now rewrite fupd_same | now rewrite fupd_other].
    + now rewrite H in B7.
    + intros i L. destruct (Nat.eq_dec i k) as [->|D]; [rewrite fupd_same; cbn; auto | rewrite fupd_other; auto].
  - (* module finished *) destruct B as [B1 B2 B3 B4 B5 B6 B7 B8].
    constructor; cbn [with_phase with_mod w_n w_mod w_phase w_cf w_main w_used w_sess]; auto.
    + unfold mods_ok in *. cbn [with_phase with_mod w_n w_mod w_phase]. rewrite H in B1. destruct B1 as (X1 & X2 & X3).
      split; [lia|]. split; [discriminate|]. intros i L. specialize (X3 i L). rewrite andb_false_r.
      destruct (Nat.eq_dec i k) as [->|D].
      * rewrite fupd_same. replace (k <? S k) with true by (symmetry; apply Nat.ltb_lt; lia).
        unfold ended, finish. cbn [m_gone m_thr m_q]. auto.
      * rewrite fupd_other by assumption. apply Nat.eqb_neq in D. rewrite D in X3. cbn [andb] in X3. apply Nat.eqb_neq in D.
        destruct (Nat.ltb_spec i k), (Nat.ltb_spec i (S k)); try lia; assumption.
    + intros a. rewrite (any_acct_ext (fupd (w_mod w) k (finish (w_mod w k))) (w_mod w)); [apply B4|].
      intros i _. destruct (Nat.eq_dec i k) as [->|D]; [now rewrite fupd_same | now rewrite fupd_other].
    + now rewrite H in B7.
    + intros i L. destruct (Nat.eq_dec i k) as [->|D]; [rewrite fupd_same; cbn; auto | rewrite fupd_other; auto].
  - destruct B as [B1 B2 B3 B4 B5 B6 B7 B8]. constructor; cbn [with_phase w_n w_mod w_phase w_cf w_main w_used w_sess]; auto.
    + unfold mods_ok in *. cbn [with_phase w_n w_mod w_phase]. rewrite H in B1. destruct B1 as (X1 & X2 & X3). intros i L.
      specialize (X3 i L). destruct (Nat.ltb_spec i k); [exact X3 | lia].
    + now rewrite H in B7.
Qed.

Lemma base_run ops : base (fst (run winit ops)).
Proof.
  refine (run_inv (fun w _ => base w) _ ops winit [] base_init). intros w tr o w' r B H. exact (base_step w o w' r B H).
Qed.
