From Verif Require Import Base AddrModel LatchModel RelayModel RelaySpec.

Local Arguments sid_eq_dec : simpl never.
Lemma sid_eqb_refl x : sid_eqb x x = true.
Proof. unfold sid_eqb. rewrite Nat.eqb_refl, !Bool.eqb_reflx. reflexivity. Qed.
Lemma sid_eqb_eq x y : sid_eqb x y = true <-> x = y.
Proof.
  split; [|intros ->; apply sid_eqb_refl]. unfold sid_eqb. intros H. apply andb_true_iff in H as [H H3]. apply andb_true_iff in H as [H1 H2].
  apply Nat.eqb_eq in H1. apply eqb_prop in H2, H3. destruct x, y; cbn in *; congruence.
Qed.
Lemma sset_same {A} (f : smap A) x v : sset f x v x = v.
Proof. unfold sset. rewrite sid_eqb_refl. reflexivity. Qed.
Lemma sset_other {A} (f : smap A) x y v : y <> x -> sset f x v y = f y.
Proof. intros N. unfold sset. destruct (sid_eqb y x) eqn:E; auto. apply sid_eqb_eq in E. congruence. Qed.
Lemma sset_eq {A} (f : smap A) x y v : sset f x v y = if sid_eq_dec y x then v else f y.
Proof. destruct (sid_eq_dec y x) as [->|N]; [apply sset_same|apply sset_other; auto]. Qed.
Lemma peer_peer x : peer (peer x) = x.
Proof. destruct x as [c r b]. unfold peer; cbn. rewrite negb_involutive. reflexivity. Qed.
Lemma sender_peer x : sender_of x = peer x. Proof. reflexivity. Qed.
Lemma eqb_refl' b : Bool.eqb b b = true. Proof. destruct b; reflexivity. Qed.

(** Addresses are never forgotten *)
Definition has (l : stream) : bool := match l_rem l with Some _ => true | None => false end.
Lemma fill0_has l p : has (fill_addr0 l p) = true. Proof. reflexivity. Qed.
Lemma guess_has l p : has l = true -> has (guess_addr l p) = true.
Proof.
  unfold guess_addr, has. intros H. destruct (l_rem l) as [a|] eqn:E; [|discriminate].
  destruct (match ishostseq a (p_from p) with Some b => b | None => false end); [rewrite E; reflexivity|].
  destruct (getport (p_from p)); [|rewrite E; reflexivity]. destruct (_ =? _); [rewrite E; reflexivity|].
  destruct (setport _ _); cbn; [reflexivity|rewrite E; reflexivity].
Qed.
Lemma latch_has l n p : has l = true -> has (latch l n p) = true.
Proof.
  unfold latch. intros H. destruct (l_mode l); try reflexivity; (destruct (_ && _); [exact H|]);
    destruct (match l_pipe l with PIPE_RTP => _ | PIPE_RTCP => _ end) as [[? ?] ?]; exact H.
Qed.
Lemma sync_has l n p : has (latch_sync l n p) = has l.
Proof.
  unfold latch_sync. destruct (l_pipe l); auto. destruct (l_ssrc l); auto. destruct (_ <? _); auto. destruct (p_rtp p) as [[? ?]|]; auto.
  destruct (negb _); auto.
Qed.
Lemma override_has l n p l' : override l n p = Some l' -> has l' = has l.
Proof.
  unfold override. destruct (l_pipe l); [|discriminate]. destruct (l_ssrc l); [|discriminate]. destruct (l_mode l); try discriminate;
  (destruct (p_rtp p) as [[? ?]|]; [|discriminate]); (destruct (_ && _); [discriminate|]); intros E; injection E as <-; reflexivity.
Qed.
Lemma rx_has l c e p l' c' v : rx l c e p = (l', c', v) -> has l = true -> has l' = true.
Proof.
  unfold rx. intros H Hl. assert (Hh := Hl). unfold has in Hl. destruct (l_rem l) as [a|] eqn:E; [|discriminate].
  destruct (l_mode l); cbn in H;
  repeat match type of H with
         | context [if ?b then _ else _] => destruct b
         | context [match override ?x ?y ?z with _ => _ end] => let Eo := fresh "Eo" in destruct (override x y z) eqn:Eo
         | context [match ishostseq ?x ?y with _ => _ end] => destruct (ishostseq x y) as [[|]|]
         end;
  injection H as <- <- <-; rewrite ?sync_has; auto using fill0_has, latch_has.
Qed.
Lemma rx_c l c e p l' c' v : rx l c e p = (l', c', v) ->
  match c, c' with Some r, Some r' => has r = true -> has r' = true | None, None => True | _, _ => False end.
Proof.
  unfold rx. intros H.
  destruct (l_mode l); cbn in H; try (destruct (l_rem l) as [a|]);
  repeat match type of H with
         | context [if ?b then _ else _] => destruct b
         | context [match override ?x ?y ?z with _ => _ end] => let Eo := fresh "Eo" in destruct (override x y z) eqn:Eo
         | context [match ishostseq ?x ?y with _ => _ end] => destruct (ishostseq x y) as [[|]|]
         end;
  injection H as <- <- <-; destruct c; auto using guess_has.
Qed.
Lemma analyze_has l chg p : has l = true -> has (analyze l chg p) = true.
Proof. unfold analyze. intros H. destruct (p_rtp p); auto. destruct (l_mode l); auto; destruct chg; auto using latch_has. Qed.
Lemma prefill_has l a n : has l = true -> has (prefill l a n) = true.
Proof.
  unfold prefill, has. intros H. destruct (l_rem l) as [r|] eqn:E; [|discriminate]. destruct (l_untrusted l); cbn; [reflexivity|].
  destruct (match isaddrseq r a with Some b => b | None => false end); reflexivity.
Qed.

(** The effect of every step on the parts that are not about addresses: [same] says that only [str] and [snd_] may differ *)
Record inv (s : st) : Prop := {
  i_snd : forall x, snd_ s x = skt s x && has (str s x);
  i_wrk : forall b, match wrk s b with Idle => True | Rx x _ => s_rtcp x = b | Hold x _ _ => s_rtcp x = b
                    | Ready x _ _ => s_rtcp x = b /\ snd_ s (peer x) = true end }.

Lemma start_inv : inv start.
Proof. constructor; cbn; auto. Qed.

Lemma update_snd s x y : snd_ (update_sendable s x) y = if sid_eq_dec y x then skt s x && has (str s x) else snd_ s y.
Proof. unfold update_sendable; cbn. rewrite sset_eq. reflexivity. Qed.
Lemma update_rest s x : str (update_sendable s x) = str s /\ skt (update_sendable s x) = skt s /\ inq (update_sendable s x) = inq s /\
  plr (update_sendable s x) = plr s /\ npin (update_sendable s x) = npin s /\ first (update_sendable s x) = first s /\
  reld (update_sendable s x) = reld s /\ drop (update_sendable s x) = drop s /\ ignr (update_sendable s x) = ignr s /\
  g_rcvd (update_sendable s x) = g_rcvd s /\ g_reld (update_sendable s x) = g_reld s /\ g_disc (update_sendable s x) = g_disc s /\
  live (update_sendable s x) = live s /\ cmpl (update_sendable s x) = cmpl s /\ wrk (update_sendable s x) = wrk s.
Proof. repeat split. Qed.

Local Arguments u64 : simpl never.
Local Arguments update_sendable : simpl never.
Local Arguments rx : simpl never.
Local Arguments analyze : simpl never.
Local Arguments prefill : simpl never.

(** Sendability only grows *)
Definition mono (s s' : st) : Prop := forall x, snd_ s x = true -> snd_ s' x = true.

Lemma exact_mono s s' : (forall x, snd_ s x = skt s x && has (str s x)) -> (forall x, snd_ s' x = skt s' x && has (str s' x)) ->
  (forall x, skt s x = true -> skt s' x = true) -> (forall x, has (str s x) = true -> has (str s' x) = true) -> mono s s'.
Proof. intros E E' K H x. rewrite E, E'. intros T. apply andb_true_iff in T as [T1 T2]. rewrite K, H; auto. Qed.

(** One stream, and perhaps another, change and their flags are computed again *)
Lemma touch_exact (s : st) (x : sid) (l : stream) : (forall y, snd_ s y = skt s y && has (str s y)) ->
  forall y, snd_ (update_sendable (set_str s (sset (str s) x l)) x) y =
    skt (update_sendable (set_str s (sset (str s) x l)) x) y && has (str (update_sendable (set_str s (sset (str s) x l)) x) y).
Proof.
  intros H y. rewrite update_snd. destruct (update_rest (set_str s (sset (str s) x l)) x) as (-> & -> & _). cbn [str skt set_str snd_].
  destruct (sid_eq_dec y x) as [->|N]; [reflexivity|]. rewrite H, sset_other; auto.
Qed.
Lemma keep_exact (s : st) (x : sid) (l : stream) : (forall y, snd_ s y = skt s y && has (str s y)) -> has l = has (str s x) ->
  forall y, snd_ s y = skt s y && has (sset (str s) x l y).
Proof. intros H E y. rewrite H, sset_eq. destruct (sid_eq_dec y x) as [->|]; congruence. Qed.

Lemma next_wrk s b x nd : s_rtcp x = b -> match wrk (next s b x nd) b with Idle => True | Rx x _ => s_rtcp x = b | Hold x _ _ => s_rtcp x = b
                    | Ready x _ _ => s_rtcp x = b /\ snd_ s (peer x) = true end.
Proof. intros E. unfold next, set_wrk. cbn. rewrite eqb_refl'. destruct (nd >? 0); auto. Qed.

(** [other_wrk]: the threads other than [b] are where they were *)
Lemma inv_wrk s s' b : inv s -> mono s s' -> (forall x, snd_ s' x = skt s' x && has (str s' x)) ->
  (forall b', b' <> b -> wrk s' b' = wrk s b') ->
  match wrk s' b with Idle => True | Rx x _ => s_rtcp x = b | Hold x _ _ => s_rtcp x = b
                    | Ready x _ _ => s_rtcp x = b /\ snd_ s' (peer x) = true end -> inv s'.
Proof.
  intros [E W] M X O H. constructor; auto. intros b'. destruct (Bool.bool_dec b' b) as [->|N]; auto. rewrite O by auto. specialize (W b').
  destruct (wrk s b'); auto. destruct W; split; auto.
Qed.
Lemma set_wrk_other s b p b' : b' <> b -> wrk (set_wrk s b p) b' = wrk s b'.
Proof. intros N. cbn. destruct b', b; auto; congruence. Qed.
Lemma set_wrk_same s b p : wrk (set_wrk s b p) b = p.
Proof. cbn. rewrite eqb_refl'. reflexivity. Qed.

(** What [receive] does with the addresses *)
Definition after_rx (s : st) (x : sid) (l : stream) (c : option stream) : st :=
  let s := set_str s (sset (str s) x l) in
  let s := match c with Some r => set_str s (sset (str s) (rtcp_of x) r) | None => s end in
  let s := update_sendable s x in
  match c with Some _ => update_sendable s (rtcp_of x) | None => s end.
Lemma after_rx_rest s x l c : skt (after_rx s x l c) = skt s /\ inq (after_rx s x l c) = inq s /\
  plr (after_rx s x l c) = plr s /\ npin (after_rx s x l c) = npin s /\ first (after_rx s x l c) = first s /\
  reld (after_rx s x l c) = reld s /\ drop (after_rx s x l c) = drop s /\ ignr (after_rx s x l c) = ignr s /\
  g_rcvd (after_rx s x l c) = g_rcvd s /\ g_reld (after_rx s x l c) = g_reld s /\ g_disc (after_rx s x l c) = g_disc s /\
  live (after_rx s x l c) = live s /\ cmpl (after_rx s x l c) = cmpl s /\ wrk (after_rx s x l c) = wrk s.
Proof. unfold after_rx. destruct c; repeat split. Qed.
Lemma after_rx_exact s x l c : (forall y, snd_ s y = skt s y && has (str s y)) ->
  forall y, snd_ (after_rx s x l c) y = skt (after_rx s x l c) y && has (str (after_rx s x l c) y).
Proof.
  intros H y. unfold after_rx. destruct c as [r|]; [|apply touch_exact; auto].
  rewrite update_snd. destruct (update_rest (update_sendable (set_str (set_str s (sset (str s) x l)) (sset (str (set_str s (sset (str s) x l))) (rtcp_of x) r)) x) (rtcp_of x)) as (-> & -> & _).
  rewrite update_snd. destruct (update_rest (set_str (set_str s (sset (str s) x l)) (sset (str (set_str s (sset (str s) x l))) (rtcp_of x) r)) x) as (-> & -> & _).
  cbn [str skt set_str snd_].
  destruct (sid_eq_dec y (rtcp_of x)) as [->|N]; [reflexivity|]. destruct (sid_eq_dec y x) as [->|N']; [reflexivity|].
  rewrite H, !sset_other; auto.
Qed.
Lemma after_rx_has s x l c : (has (str s x) = true -> has l = true) ->
  match c with Some r => has (str s (rtcp_of x)) = true -> has r = true | None => True end ->
  forall y, has (str s y) = true -> has (str (after_rx s x l c) y) = true.
Proof.
  intros H C y Hy. unfold after_rx. destruct c as [r|]; unfold update_sendable; cbn [str set_snd set_str]; rewrite !sset_eq.
  - destruct (sid_eq_dec y (rtcp_of x)) as [->|N]; auto. destruct (sid_eq_dec y x) as [->|N']; auto.
  - destruct (sid_eq_dec y x) as [->|N']; auto.
Qed.

Definition with_queue (s : st) (x : sid) (q : list pkt) : st :=
  let s := set_inq s (sset (inq s) x q) in set_g s (g_rcvd s + 1) (g_reld s) (g_disc s).
Lemma receive_eq s b x nd e : receive s b x nd e =
  match inq s x with
  | [] => (set_wrk s b Idle, [])
  | k :: q =>
      let s1 := with_queue s x q in
      let '(l, c', v) := rx (str s x) (if s_rtcp x then None else Some (str s (rtcp_of x))) e (k_h k) in
      let s2 := after_rx s1 x l c' in
      match v with
      | Discard => (next (set_g (set_cnt s2 (reld s2) (drop s2) (padd (ignr s2) x)) (g_rcvd s2) (g_reld s2) (g_disc s2 + 1)) b x (nd + 1), [EIgnore x k])
      | Accept => (set_wrk s2 b (Hold x nd k), [])
      end
  end.
Proof.
  unfold receive, after_rx, with_queue. destruct (inq s x) as [|k q]; [reflexivity|]. cbn [str set_g set_inq].
  destruct (rx _ _ _ _) as [[l c'] v]. destruct c'; reflexivity.
Qed.

(** The invariant *)
Lemma mono_eq s s' : snd_ s' = snd_ s -> mono s s'. Proof. intros E x H. rewrite E. exact H. Qed.
Lemma inv_same s s' b : inv s -> str s' = str s -> skt s' = skt s -> snd_ s' = snd_ s -> (forall b', b' <> b -> wrk s' b' = wrk s b') ->
  match wrk s' b with Idle => True | Rx x _ => s_rtcp x = b | Hold x _ _ => s_rtcp x = b
                    | Ready x _ _ => s_rtcp x = b /\ snd_ s' (peer x) = true end -> inv s'.
Proof.
  intros I A B C D E. apply (inv_wrk s _ b); auto using mono_eq. intros x. rewrite A, B, C. apply I.
Qed.

Lemma receive_inv s b x nd e s' ev : inv s -> s_rtcp x = b -> receive s b x nd e = (s', ev) -> inv s'.
Proof.
  intros I E. rewrite receive_eq. destruct (inq s x) as [|k q].
  { intros H; injection H as <- <-. apply (inv_same s _ b); auto using set_wrk_other. rewrite set_wrk_same. exact Logic.I. }
  destruct (rx _ _ _ _) as [[l c'] v] eqn:R. cbv zeta.
  assert (X : forall y, snd_ (after_rx (with_queue s x q) x l c') y = skt (after_rx (with_queue s x q) x l c') y && has (str (after_rx (with_queue s x q) x l c') y)).
  { apply after_rx_exact. apply I. }
  assert (M : mono s (after_rx (with_queue s x q) x l c')).
  { apply exact_mono; auto. { apply I. } { destruct (after_rx_rest (with_queue s x q) x l c') as (-> & _). auto. }
    change (str s) with (str (with_queue s x q)). apply after_rx_has.
    - cbn. eapply rx_has; eauto.
    - apply rx_c in R. destruct (s_rtcp x), c'; auto; try contradiction. }
  set (s2 := after_rx (with_queue s x q) x l c') in *.
  assert (W2 : wrk s2 = wrk s). { unfold s2. destruct (after_rx_rest (with_queue s x q) x l c') as (_&_&_&_&_&_&_&_&_&_&_&_&_&->). reflexivity. }
  destruct v; intros H; injection H as <- <-.
  - apply (inv_wrk s _ b); auto. { intros b' N. rewrite set_wrk_other, W2; auto. } rewrite set_wrk_same. exact E.
  - apply (inv_wrk s _ b); auto. { intros b' N. unfold next. rewrite set_wrk_other by auto. cbn. rewrite W2; auto. }
    unfold next. rewrite set_wrk_same. destruct (_ >? 0); auto.
Qed.

Lemma dropped_inv s b x nd k w s' ev : inv s -> s_rtcp x = b -> dropped s b x nd k w = (s', ev) -> inv s'.
Proof.
  intros I E H. injection H as <- <-. apply (inv_same s _ b); auto.
  { intros b' N. unfold next. rewrite set_wrk_other by auto. reflexivity. } unfold next. rewrite set_wrk_same. destruct (_ >? 0); auto.
Qed.
Lemma next_inv s b x nd : inv s -> s_rtcp x = b -> inv (next s b x nd).
Proof.
  intros I E. apply (inv_same s _ b); auto.
  { intros b' N. unfold next. rewrite set_wrk_other by auto. reflexivity. } unfold next. rewrite set_wrk_same. destruct (_ >? 0); auto.
Qed.
Lemma touch_inv s x l : inv s -> (has (str s x) = true -> has l = true) -> inv (update_sendable (set_str s (sset (str s) x l)) x).
Proof.
  intros I H. assert (X := touch_exact s x l (i_snd _ I)). apply (inv_wrk s _ false); auto.
  - apply exact_mono; auto; [apply I|]. intros y Hy. unfold update_sendable; cbn. rewrite sset_eq. destruct (sid_eq_dec y x) as [->|]; auto.
  - assert (W := i_wrk _ I false). unfold update_sendable at 1; cbn [wrk set_snd set_str]. destruct (wrk s false) as [| | |y nd k]; auto. destruct W as [W1 W2]; split; auto.
    rewrite X. assert (T := i_snd _ I (peer y)). rewrite W2 in T. symmetry in T. apply andb_true_iff in T as [T1 T2].
    unfold update_sendable; cbn. rewrite T1, sset_eq. destruct (sid_eq_dec (peer y) x) as [<-|]; auto.
Qed.
Lemma plain_inv s s' : inv s -> str s' = str s -> skt s' = skt s -> snd_ s' = snd_ s -> wrk s' = wrk s -> inv s'.
Proof. intros [E W] A B C D. constructor; [intros x; rewrite A, B, C; auto|intros b; rewrite D; specialize (W b); destruct (wrk s b); rewrite ?C; auto]. Qed.

Definition analysed_state (s : st) (x : sid) (k : pkt) (chg : bool) : st :=
  let s := reg_pktin s x k in
  if s_rtcp x then s else update_sendable (set_str s (sset (str s) x (analyze (str s x) chg (k_h k)))) x.
Lemma analysed_rest s x k chg : skt (analysed_state s x k chg) = skt s /\ inq (analysed_state s x k chg) = inq s /\
  plr (analysed_state s x k chg) = plr s /\ npin (analysed_state s x k chg) = sset (npin s) x (u64 (npin s x + 1)) /\
  reld (analysed_state s x k chg) = reld s /\ drop (analysed_state s x k chg) = drop s /\ ignr (analysed_state s x k chg) = ignr s /\
  g_rcvd (analysed_state s x k chg) = g_rcvd s /\ g_reld (analysed_state s x k chg) = g_reld s /\ g_disc (analysed_state s x k chg) = g_disc s /\
  live (analysed_state s x k chg) = live s /\ cmpl (analysed_state s x k chg) = cmpl s /\ wrk (analysed_state s x k chg) = wrk s /\
  first (analysed_state s x k chg) = (if first s x =? 0 then sset (first s) x (p_time (k_h k)) else first s).
Proof. unfold analysed_state, reg_pktin, update_sendable. destruct (s_rtcp x); repeat split. Qed.
Lemma analysed_inv s x k chg : inv s -> inv (analysed_state s x k chg).
Proof.
  intros I. assert (I' : inv (reg_pktin s x k)) by (apply (plain_inv s); auto). unfold analysed_state. destruct (s_rtcp x); auto.
  apply touch_inv; auto. apply analyze_has.
Qed.
Lemma analysed_mono s x k chg : inv s -> mono s (analysed_state s x k chg).
Proof.
  intros I. apply exact_mono; [apply I|apply analysed_inv; auto| |].
  - destruct (analysed_rest s x k chg) as (-> & _). auto.
  - intros y H. unfold analysed_state, reg_pktin, update_sendable. destruct (s_rtcp x); cbn; auto. rewrite sset_eq. destruct (sid_eq_dec y x) as [->|]; auto using analyze_has.
Qed.
Lemma handle_eq s b x nd k chg early late : handle s b x nd k chg early late =
  match early with
  | TAKE => (next s b x nd, [ETake x k Early])
  | DROP => dropped s b x nd k Early
  | NOP =>
      let s := analysed_state s x k chg in
      if plr s (peer x) then dropped s b x nd k Playing
      else match late with
           | TAKE => (next s b x nd, [ETake x k Late])
           | DROP => dropped s b x nd k Late
           | NOP => if snd_ s (peer x) then (set_wrk s b (Ready x nd k), [ETtl x])
                    else let '(s, e) := dropped s b x nd k NoAddr in (s, ETtl x :: e)
           end
  end.
Proof. unfold handle, analysed_state. destruct (s_rtcp x); reflexivity. Qed.

Lemma handle_inv s b x nd k chg early late s' ev : inv s -> s_rtcp x = b -> handle s b x nd k chg early late = (s', ev) -> inv s'.
Proof.
  intros I E. rewrite handle_eq. destruct early.
  - cbv zeta. assert (I' := analysed_inv s x k chg I). destruct (plr _ _); [eauto using dropped_inv|]. destruct late.
    + destruct (snd_ _ _) eqn:Sn.
      * intros H; injection H as <- <-. apply (inv_same (analysed_state s x k chg) _ b); auto using set_wrk_other.
        rewrite set_wrk_same. split; auto.
      * destruct (dropped _ _ _ _ _ _) as [s1 e1] eqn:D. intros H; injection H as <- <-. eapply dropped_inv; eauto.
    + intros H; injection H as <- <-. apply next_inv; auto.
    + eauto using dropped_inv.
  - intros H; injection H as <- <-. apply next_inv; auto.
  - eauto using dropped_inv.
Qed.
Lemma transmit_eq s b x nd k : inv s -> snd_ s (peer x) = true -> exists a, skt s (peer x) = true /\ l_rem (str s (peer x)) = Some a /\
  transmit s b x nd k = (next (set_g (set_cnt s (padd (reld s) x) (drop s) (ignr s)) (g_rcvd s) (g_reld s + 1) (g_disc s)) b x nd, [ESend (peer x) a k]).
Proof.
  intros I H. rewrite (i_snd _ I) in H. apply andb_true_iff in H as [H1 H2]. unfold has in H2. destruct (l_rem (str s (peer x))) as [a|] eqn:R; [|discriminate].
  exists a. repeat split; auto. unfold transmit. change (sender_of x) with (peer x). rewrite H1, R. reflexivity.
Qed.
Lemma transmit_inv s b x nd k s' ev : inv s -> s_rtcp x = b -> snd_ s (peer x) = true -> transmit s b x nd k = (s', ev) -> inv s'.
Proof.
  intros I E Sn. destruct (transmit_eq s b x nd k I Sn) as (a & _ & _ & ->). intros H; injection H as <- <-. apply next_inv; auto. apply (plain_inv s); auto.
Qed.

Lemma step_inv s o s' ev : inv s -> step s o = (s', ev) -> inv s'.
Proof.
  intros I H. destruct o as [x k|x|b e chg early late|x|x a n|x|x m|x on|x on|c|c]; cbn [step] in H.
  - destruct (_ && _); injection H as <- <-; auto. apply (plain_inv s); auto.
  - destruct (wrk s (s_rtcp x)); [|injection H as <- <-; auto..]. destruct (negb _); [injection H as <- <-; auto|]. destruct (cmpl _ _); injection H as <- <-.
    + apply (inv_same s _ (s_rtcp x)); auto using set_wrk_other. rewrite set_wrk_same; auto.
    + apply (plain_inv s); auto.
  - assert (W := i_wrk _ I b). destruct (wrk s b) as [|x nd|x nd k|x nd k]; [injection H as <- <-; auto|..].
    + eapply receive_inv; eauto.
    + eapply handle_inv; eauto.
    + destruct W. eapply transmit_inv; eauto.
  - destruct (live _ _); injection H as <- <-; auto.
    assert (X : forall y, snd_ (update_sendable (set_skt s (sset (skt s) x true)) x) y =
      skt (update_sendable (set_skt s (sset (skt s) x true)) x) y && has (str (update_sendable (set_skt s (sset (skt s) x true)) x) y)).
    { intros y. rewrite update_snd. unfold update_sendable; cbn. rewrite !sset_eq. destruct (sid_eq_dec y x) as [->|].
      - destruct (sid_eq_dec x x); [reflexivity|congruence].
      - apply I. }
    assert (M : mono s (update_sendable (set_skt s (sset (skt s) x true)) x)).
    { apply exact_mono; auto; [apply I|]. intros y Hy. unfold update_sendable; cbn. rewrite sset_eq. destruct (sid_eq_dec y x); auto. }
    apply (inv_wrk s _ false); auto. assert (W := i_wrk _ I false). unfold update_sendable at 1; cbn [wrk set_snd set_skt].
    destruct (wrk s false); auto. destruct W; split; auto.
  - injection H as <- <-. apply touch_inv; auto. apply prefill_has.
  - injection H as <- <-. constructor; [intros y; cbn; apply keep_exact; auto; apply I|]. exact (i_wrk _ I).
  - injection H as <- <-. constructor; [intros y; cbn; apply keep_exact; auto; apply I|]. exact (i_wrk _ I).
  - injection H as <- <-. constructor; [intros y; cbn; apply keep_exact; auto; apply I|]. exact (i_wrk _ I).
  - injection H as <- <-. apply (plain_inv s); auto.
  - injection H as <- <-. apply (plain_inv s); auto.
  - destruct (_ || _); injection H as <- <-; auto. apply (plain_inv s); auto.
Qed.

Lemma run_cons s o os : run s (o :: os) = (let '(s1, e1) := step s o in let '(s2, e2) := run s1 os in (s2, e1 ++ e2)).
Proof. reflexivity. Qed.
Lemma run_app os1 : forall s os2, run s (os1 ++ os2) = (let '(s1, e1) := run s os1 in let '(s2, e2) := run s1 os2 in (s2, e1 ++ e2)).
Proof.
  induction os1 as [|o os1 IH]; intros s os2; [cbn; destruct (run s os2); reflexivity|]. cbn [app]. rewrite !run_cons.
  destruct (step s o) as [s1 e1]. rewrite IH. destruct (run s1 os1) as [s2 e2]. destruct (run s2 os2) as [s3 e3]. rewrite app_assoc. reflexivity.
Qed.
Lemma run_inv os : forall s s' tr, inv s -> run s os = (s', tr) -> inv s'.
Proof.
  induction os as [|o os IH]; intros s s' tr I H; [injection H as <- <-; auto|]. rewrite run_cons in H. destruct (step s o) as [s1 e1] eqn:S1.
  destruct (run s1 os) as [s2 e2] eqn:R. injection H as <- <-. apply (IH s1 _ e2); auto. eapply step_inv; eauto.
Qed.

(** The packets of a stream: those it has before and the new ones, and what becomes of them *)
Definition pending (s : st) (x : sid) : list pkt := in_hand s x ++ inq s x.
Lemma fates_app a b x : fates (a ++ b) x = fates a x ++ fates b x.
Proof. unfold fates, on. rewrite !flat_map_app. reflexivity. Qed.
Lemma arrived_app a b x : arrived (a ++ b) x = arrived a x ++ arrived b x.
Proof. unfold arrived. rewrite flat_map_app. reflexivity. Qed.
Lemma fates_nil x : fates [] x = []. Proof. reflexivity. Qed.
Lemma on_all {A} (x y : sid) (g : pkt -> A) ks : on x (map (fun k => (y, g k)) ks) = if sid_eq_dec y x then map g ks else [].
Proof.
  induction ks as [|k ks IH]; cbn; [destruct (sid_eq_dec y x); reflexivity|]. unfold on in IH. rewrite IH. destruct (sid_eq_dec y x); reflexivity.
Qed.
Definition consistent (s : st) (ev : list event) (s' : st) : Prop := forall x,
  pending s x ++ arrived ev x = map fst (fates ev x) ++ pending s' x.

Lemma hand_next s b x nd y : s_rtcp x = b -> in_hand (next s b x nd) y = if Bool.eqb (s_rtcp y) b then [] else in_hand s y.
Proof. intros E. unfold in_hand, next; cbn. destruct (Bool.eqb (s_rtcp y) b); [destruct (nd >? 0); reflexivity|reflexivity]. Qed.
Lemma hand_wrk s b p y : in_hand (set_wrk s b p) y = if Bool.eqb (s_rtcp y) b then
  match p with Hold z _ k | Ready z _ k => if sid_eq_dec z y then [k] else [] | _ => [] end else in_hand s y.
Proof. unfold in_hand; cbn. destruct (Bool.eqb (s_rtcp y) b); reflexivity. Qed.

Lemma rcons s b x nd e s' ev : inv s -> wrk s b = Rx x nd -> receive s b x nd e = (s', ev) -> consistent s ev s'.
Proof.
  intros I W. assert (E := i_wrk _ I b). rewrite W in E. rewrite receive_eq. destruct (inq s x) as [|k q] eqn:Q.
  { intros H; injection H as <- <-. intros y. unfold pending. rewrite hand_wrk. cbn. rewrite app_nil_r. f_equal. unfold in_hand.
    destruct (Bool.eqb (s_rtcp y) b) eqn:B; auto. apply eqb_prop in B. rewrite B, W. reflexivity. }
  destruct (rx _ _ _ _) as [[l c'] v] eqn:R. cbv zeta.
  assert (Q2 : inq (after_rx (with_queue s x q) x l c') = sset (inq s) x q) by (destruct (after_rx_rest (with_queue s x q) x l c') as (_&->&_); reflexivity).
  assert (W2 : wrk (after_rx (with_queue s x q) x l c') = wrk s) by (destruct (after_rx_rest (with_queue s x q) x l c') as (_&_&_&_&_&_&_&_&_&_&_&_&_&->); reflexivity).
  set (s2 := after_rx (with_queue s x q) x l c') in *.
  assert (H2 : forall y, in_hand s2 y = in_hand s y) by (intros y; unfold in_hand; rewrite W2; reflexivity).
  assert (Hn : forall y, s_rtcp y = b -> in_hand s y = []) by (intros y Ey; unfold in_hand; rewrite Ey, W; reflexivity).
  destruct v; intros H; injection H as <- <-; intros y; unfold pending.
  - rewrite hand_wrk. cbn [inq set_wrk arrived flat_map fates on fates_of map app]. rewrite app_nil_r, Q2, sset_eq, H2. cbn.
    destruct (Bool.eqb (s_rtcp y) b) eqn:B.
    + apply eqb_prop in B. rewrite (Hn y B). destruct (sid_eq_dec y x) as [->|N]; [destruct (sid_eq_dec x x)|destruct (sid_eq_dec x y)]; cbn; congruence.
    + destruct (sid_eq_dec y x) as [->|]; auto. rewrite E, eqb_refl' in B. discriminate.
  - rewrite hand_next by auto. cbn [inq set_wrk next set_g set_cnt]. cbn. rewrite app_nil_r, Q2, sset_eq.
    change (in_hand (set_g (set_cnt s2 (reld s2) (drop s2) (padd (ignr s2) x)) (g_rcvd s2) (g_reld s2) (g_disc s2 + 1)) y) with (in_hand s2 y). rewrite H2.
    destruct (Bool.eqb (s_rtcp y) b) eqn:B.
    + apply eqb_prop in B. rewrite (Hn y B). destruct (sid_eq_dec y x) as [->|N]; [destruct (sid_eq_dec x x)|destruct (sid_eq_dec x y)]; cbn; congruence.
    + destruct (sid_eq_dec x y) as [<-|]. { rewrite E, eqb_refl' in B. discriminate. } destruct (sid_eq_dec y x); [congruence|]. reflexivity.
Qed.

(** A packet in hand gets its fate *)
Lemma fcons s b x nd nd' k f s1 ev : s_rtcp x = b -> (wrk s b = Hold x nd k \/ wrk s b = Ready x nd k) ->
  inq s1 = inq s -> wrk s1 = wrk s -> (forall y, arrived ev y = []) -> flat_map fates_of ev = [(x, (k, f))] ->
  consistent s ev (next s1 b x nd').
Proof.
  intros E W Q1 W1 A F y. rewrite A, app_nil_r. unfold pending. rewrite hand_next by auto. unfold fates. rewrite F. cbn. rewrite Q1, app_nil_r.
  unfold in_hand. rewrite W1. destruct (Bool.eqb (s_rtcp y) b) eqn:B.
  - apply eqb_prop in B. rewrite B. destruct W as [-> | ->]; destruct (sid_eq_dec x y); reflexivity.
  - destruct (sid_eq_dec x y) as [<-|]; [|reflexivity]. rewrite E, eqb_refl' in B. discriminate.
Qed.
Lemma hcons s b x nd k chg early late s' ev : inv s -> wrk s b = Hold x nd k -> handle s b x nd k chg early late = (s', ev) -> consistent s ev s'.
Proof.
  intros I W. assert (E := i_wrk _ I b). rewrite W in E. rewrite handle_eq.
  assert (Q2 : inq (analysed_state s x k chg) = inq s) by (destruct (analysed_rest s x k chg) as (_&->&_); reflexivity).
  assert (W2 : wrk (analysed_state s x k chg) = wrk s) by (destruct (analysed_rest s x k chg) as (_&_&_&_&_&_&_&_&_&_&_&_&->&_); reflexivity).
  destruct early; cbv zeta.
  - destruct (plr _ _). { intros H; injection H as <- <-. eapply (fcons s b x nd nd k (Dropped Playing)); eauto. }
    destruct late.
    + destruct (snd_ _ _).
      * intros H; injection H as <- <-. intros y. cbn. rewrite app_nil_r. unfold pending. rewrite hand_wrk. cbn. rewrite Q2. f_equal. unfold in_hand. rewrite W2.
        destruct (Bool.eqb (s_rtcp y) b) eqn:B; auto. apply eqb_prop in B. rewrite B, W. reflexivity.
      * intros H; injection H as <- <-. eapply (fcons s b x nd nd k (Dropped NoAddr)); eauto.
    + intros H; injection H as <- <-. eapply (fcons s b x nd nd k (Taken Late)); eauto.
    + intros H; injection H as <- <-. eapply (fcons s b x nd nd k (Dropped Late)); eauto.
  - intros H; injection H as <- <-. eapply (fcons s b x nd nd k (Taken Early)); eauto.
  - intros H; injection H as <- <-. eapply (fcons s b x nd nd k (Dropped Early)); eauto.
Qed.
Lemma tcons s b x nd k s' ev : inv s -> wrk s b = Ready x nd k -> transmit s b x nd k = (s', ev) -> consistent s ev s'.
Proof.
  intros I W. assert (E := i_wrk _ I b). rewrite W in E. destruct E as [E Sn]. destruct (transmit_eq s b x nd k I Sn) as (a & _ & _ & ->).
  intros H; injection H as <- <-. eapply (fcons s b x nd nd k (Relayed a)); eauto. cbn. rewrite peer_peer. reflexivity.
Qed.
Lemma consistent_refl s s' : (forall x, in_hand s' x = in_hand s x) -> inq s' = inq s -> consistent s [] s'.
Proof. intros A B x. cbn. rewrite app_nil_r. unfold pending. rewrite A, B. reflexivity. Qed.

Lemma ends_no_fate s c b x : fates (pipe_end s c b) x = [] /\ arrived (pipe_end s c b) x = [].
Proof.
  unfold pipe_end. destruct (negb (cmpl s c)), b; try (split; reflexivity);
  destruct ((_ =? 0) && (_ =? 0)); try (split; reflexivity); destruct ((_ =? 0) || (_ =? 0)); split; reflexivity.
Qed.
Lemma lost_fates s c x : map fst (fates (map (fun y => ELost y (inq s y)) (streams_of c)) x) = if Nat.eqb (s_call x) c then inq s x else [].
Proof.
  unfold fates, streams_of. cbn [map flat_map fates_of]. rewrite app_nil_r. unfold on. rewrite !flat_map_app. 
  change (flat_map (fun p : sid * (pkt * fate) => if sid_eq_dec (fst p) x then [snd p] else [])) with (@on (pkt * fate) x). rewrite !on_all.
  destruct x as [c' r d]. cbn [s_call]. destruct (Nat.eqb c' c) eqn:C.
  - apply Nat.eqb_eq in C. subst c'. destruct r, d;
    repeat match goal with |- context [sid_eq_dec ?u ?v] => destruct (sid_eq_dec u v); try discriminate; try congruence end;
    cbn; rewrite ?app_nil_r, !map_map; cbn; apply map_id.
  - apply Nat.eqb_neq in C.
    repeat match goal with |- context [sid_eq_dec ?u ?v] => destruct (sid_eq_dec u v); try discriminate; try congruence end. reflexivity.
Qed.
Lemma lost_arrived s c x : arrived (map (fun y => ELost y (inq s y)) (streams_of c)) x = [].
Proof. reflexivity. Qed.

Lemma step_consistent s o s' ev : inv s -> step s o = (s', ev) -> consistent s ev s'.
Proof.
  intros I H. destruct o as [x k|x|b e chg early late|x|x a n|x|x m|x on|x on|c|c]; cbn [step] in H.
  - destruct (_ && _); injection H as <- <-; [|apply consistent_refl; auto]. intros y. unfold pending. cbn.
    change (in_hand (set_inq s (sset (inq s) x (inq s x ++ [k]))) y) with (in_hand s y). rewrite sset_eq.
    destruct (sid_eq_dec x y) as [<-|N]; [destruct (sid_eq_dec x x)|destruct (sid_eq_dec y x)]; try congruence; rewrite ?app_nil_r, <- ?app_assoc; reflexivity.
  - destruct (wrk s (s_rtcp x)) eqn:W; [|injection H as <- <-; apply consistent_refl; auto..].
    destruct (negb _); [injection H as <- <-; apply consistent_refl; auto|]. destruct (cmpl _ _); injection H as <- <-.
    + intros y. cbn. rewrite app_nil_r. unfold pending. rewrite hand_wrk. f_equal. unfold in_hand.
      destruct (Bool.eqb (s_rtcp y) (s_rtcp x)) eqn:B; auto. apply eqb_prop in B. rewrite B, W. reflexivity.
    + intros y. unfold pending, fates. cbn [flat_map fates_of app arrived]. rewrite !app_nil_r. cbn [inq set_inq set_g].
      rewrite (on_all y x (fun k => (k, Flushed))), sset_eq. unfold in_hand; cbn.
      destruct (sid_eq_dec y x) as [->|N]; [destruct (sid_eq_dec x x); [|congruence]|destruct (sid_eq_dec x y); [congruence|]].
      * rewrite W. cbn. rewrite app_nil_r, map_map. cbn. symmetry. apply map_id.
      * reflexivity.
  - destruct (wrk s b) as [|x nd|x nd k|x nd k] eqn:W; [injection H as <- <-; apply consistent_refl; auto|..].
    + eapply rcons; eauto.
    + eapply hcons; eauto.
    + eapply tcons; eauto.
  - destruct (live _ _); injection H as <- <-; apply consistent_refl; auto.
  - injection H as <- <-; apply consistent_refl; auto.
  - injection H as <- <-; apply consistent_refl; auto.
  - injection H as <- <-; apply consistent_refl; auto.
  - injection H as <- <-; apply consistent_refl; auto.
  - injection H as <- <-; apply consistent_refl; auto.
  - injection H as <- <-; apply consistent_refl; auto.
  - destruct (_ || _) eqn:B; apply pair_equal_spec in H as [<- <-]; [apply consistent_refl; auto|]. intros x. apply orb_false_iff in B as [B _].
    rewrite !fates_app, !arrived_app, !map_app, lost_fates, lost_arrived.
    destruct (ends_no_fate s c false x) as [-> ->]. destruct (ends_no_fate s c true x) as [-> ->]. cbn. rewrite app_nil_r. unfold pending. cbn.
    assert (Hh : Nat.eqb (s_call x) c = true -> in_hand s x = []).
    { intros Ec. unfold in_hand. unfold busy in B. apply orb_false_iff in B as [B0 B1].
      assert (Bx : match wrk s (s_rtcp x) with Idle => false | Rx y _ | Hold y _ _ | Ready y _ _ => Nat.eqb (s_call y) c end = false) by (destruct (s_rtcp x); auto).
      destruct (wrk s (s_rtcp x)) as [|y nd|y nd k|y nd k]; auto; destruct (sid_eq_dec y x) as [->|]; auto; congruence. }
    change (in_hand _ x) with (in_hand s x) at 2. destruct (Nat.eqb (s_call x) c); [rewrite Hh, app_nil_r; auto|reflexivity].
Qed.
Lemma run_consistent os : forall s s' tr, inv s -> run s os = (s', tr) -> consistent s tr s'.
Proof.
  induction os as [|o os IH]; intros s s' tr I H; [injection H as <- <-; apply consistent_refl; auto|]. rewrite run_cons in H. destruct (step s o) as [s1 e1] eqn:S1.
  destruct (run s1 os) as [s2 e2] eqn:R. injection H as <- <-. intros x. assert (A := step_consistent _ _ _ _ I S1 x).
  assert (B := IH s1 s2 e2 (step_inv _ _ _ _ I S1) R x). rewrite arrived_app, fates_app, map_app, app_assoc, A, <- app_assoc, B, app_assoc. reflexivity.
Qed.
Lemma fate_lemma os s tr x : run start os = (s, tr) -> arrived tr x = map fst (fates tr x) ++ in_hand s x ++ inq s x.
Proof. intros H. exact (run_consistent os start s tr start_inv H x). Qed.

(** The counters *)
Definition cnts (s : st) := (reld s, drop s, ignr s, npin s, g_rcvd s, g_reld s, g_disc s).
Definition setw (s : st) (b : bool) (p : wpc) : bool -> wpc := fun b' => if Bool.eqb b' b then p else wrk s b'.
Definition after (x : sid) (nd : Z) : wpc := if nd >? 0 then Rx x (nd - 1) else Idle.
Definition silent (e : event) : bool :=
  match e with
  | EArrive _ _ | ETurn _ | ENoMedia _ _ | EOneWay _ _ | EReport _ _ _ _ _ _ _ | ETimes _ _ _ | ELost _ _ => true
  | _ => false
  end.
Inductive shape (s : st) (o : op) : list event -> st -> Prop :=
| Quiet ev s' : cnts s' = cnts s -> (wrk s' = wrk s \/ exists x, o = Turn x /\ wrk s' = setw s (s_rtcp x) (Rx x (DRAIN - 1)) /\ wrk s (s_rtcp x) = Idle) ->
    forallb silent ev = true -> shape s o ev s'
| Flush x s' : wrk s' = wrk s ->
    cnts s' = (reld s, drop s, ignr s, npin s, u64 (g_rcvd s), u64 (g_reld s), u64 (g_disc s + Z.of_nat (length (inq s x)))) ->
    cmpl s (s_call x) = false -> o = Turn x -> shape s o [ETurn x; EDrain x (inq s x)] s'
| Dry b x nd s' : wrk s b = Rx x nd -> wrk s' = setw s b Idle -> cnts s' = cnts s -> inq s x = [] -> shape s o [] s'
| Ign b x nd k q e l c s' : wrk s b = Rx x nd -> s_rtcp x = b -> wrk s' = setw s b (after x (nd + 1)) -> inq s x = k :: q ->
    rx (str s x) (if s_rtcp x then None else Some (str s (rtcp_of x))) e (k_h k) = (l, c, Discard) ->
    cnts s' = (reld s, drop s, padd (ignr s) x, npin s, u64 (u64 (g_rcvd s + 1)), u64 (u64 (g_reld s)), u64 (u64 (g_disc s) + 1)) ->
    shape s o [EIgnore x k] s'
| Acc b x nd k s' : wrk s b = Rx x nd -> s_rtcp x = b -> wrk s' = setw s b (Hold x nd k) ->
    cnts s' = (reld s, drop s, ignr s, npin s, u64 (g_rcvd s + 1), u64 (g_reld s), u64 (g_disc s)) -> shape s o [] s'
| Drp b x nd k w s' : wrk s b = Hold x nd k -> s_rtcp x = b -> wrk s' = setw s b (after x nd) ->
    cnts s' = (reld s, padd (drop s) x, ignr s, (if match w with Early => true | _ => false end then npin s else sset (npin s) x (u64 (npin s x + 1))),
               u64 (g_rcvd s), u64 (g_reld s), u64 (g_disc s + 1)) ->
    match w with Playing => plr s (peer x) = true | NoAddr => known_address s (peer x) = None | _ => True end ->
    shape s o (match w with NoAddr => [ETtl x] | _ => [] end ++ [EDrop x k w]) s'
| Tak b x nd k w s' : wrk s b = Hold x nd k -> s_rtcp x = b -> wrk s' = setw s b (after x nd) -> (w = Early \/ w = Late) ->
    cnts s' = (reld s, drop s, ignr s, (if match w with Early => true | _ => false end then npin s else sset (npin s) x (u64 (npin s x + 1))),
               g_rcvd s, g_reld s, g_disc s) ->
    shape s o [ETake x k w] s'
| Rdy b x nd k s' : wrk s b = Hold x nd k -> s_rtcp x = b -> wrk s' = setw s b (Ready x nd k) ->
    cnts s' = (reld s, drop s, ignr s, sset (npin s) x (u64 (npin s x + 1)), g_rcvd s, g_reld s, g_disc s) ->
    shape s o [ETtl x] s'
| Snt b x nd k a s' : wrk s b = Ready x nd k -> s_rtcp x = b -> wrk s' = setw s b (after x nd) -> known_address s (peer x) = Some a ->
    cnts s' = (padd (reld s) x, drop s, ignr s, npin s, u64 (g_rcvd s), u64 (g_reld s + 1), u64 (g_disc s)) ->
    shape s o [ESend (peer x) a k] s'.

Lemma analyze_other s x k chg y : y <> x -> str (analysed_state s x k chg) y = str s y.
Proof. intros N. unfold analysed_state, reg_pktin, update_sendable. destruct (s_rtcp x); cbn; auto. rewrite sset_other; auto. Qed.
Lemma peer_ne x : peer x <> x.
Proof. destruct x as [c r b]. unfold peer. cbn. intros E. injection E. destruct b; discriminate. Qed.
Lemma peer_call x : s_call (peer x) = s_call x /\ s_rtcp (peer x) = s_rtcp x. Proof. split; reflexivity. Qed.
Lemma unsendable s x k chg : inv s -> snd_ (analysed_state s x k chg) (peer x) = false -> known_address s (peer x) = None.
Proof.
  intros I H. rewrite (i_snd _ (analysed_inv s x k chg I)) in H. destruct (analysed_rest s x k chg) as (K & _). rewrite K, analyze_other in H by apply peer_ne.
  unfold known_address. destruct (skt s (peer x)); auto. cbn in H. unfold has in H. destruct (l_rem _); [discriminate|reflexivity].
Qed.
Lemma forallb_ends s c b : forallb silent (pipe_end s c b) = true.
Proof.
  unfold pipe_end. destruct (negb (cmpl s c)), b; try reflexivity;
  destruct ((_ =? 0) && (_ =? 0)); try reflexivity; destruct ((_ =? 0) || (_ =? 0)); reflexivity.
Qed.

Lemma step_shape s o s' ev : inv s -> step s o = (s', ev) -> shape s o ev s'.
Proof.
  intros I H. destruct o as [x k|x|b e chg early late|x|x a n|x|x m|x on|x on|c|c]; cbn [step] in H.
  - destruct (_ && _); apply pair_equal_spec in H as [<- <-]; apply Quiet; auto.
  - destruct (wrk s (s_rtcp x)) eqn:W; [|apply pair_equal_spec in H as [<- <-]; apply Quiet; auto..].
    destruct (negb _); [apply pair_equal_spec in H as [<- <-]; apply Quiet; auto|].
    destruct (cmpl s (s_call x)) eqn:C; apply pair_equal_spec in H as [<- <-]; [apply Quiet; auto|apply Flush; auto].
    right. exists x. repeat split; auto.
  - assert (Wb := i_wrk _ I b). destruct (wrk s b) as [|x nd|x nd k|x nd k] eqn:W; [apply pair_equal_spec in H as [<- <-]; apply Quiet; auto|..].
    + rewrite receive_eq in H. destruct (inq s x) as [|k q] eqn:Q. { apply pair_equal_spec in H as [<- <-]. eapply Dry; eauto. }
      destruct (rx _ _ _ _) as [[l c'] v] eqn:R. cbv zeta in H.
      destruct (after_rx_rest (with_queue s x q) x l c') as (_&_&_&N1&_&N2&N3&N4&N5&N6&N7&_&_&N8).
      destruct v; apply pair_equal_spec in H as [<- <-].
      * eapply (Acc s _ b x nd k); eauto. { unfold set_wrk; cbn [wrk]. rewrite N8. reflexivity. } unfold cnts. cbn. rewrite N1, N2, N3, N4, N5, N6, N7. reflexivity.
      * eapply (Ign s _ b x nd k q e); eauto. { unfold next, set_wrk; cbn [wrk set_g set_cnt]. rewrite N8. reflexivity. }
        unfold cnts. cbn. rewrite N1, N2, N3, N4, N5, N6, N7. reflexivity.
    + rewrite handle_eq in H. cbv zeta in H. 
      destruct (analysed_rest s x k chg) as (_&_&P&N1&N2&N3&N4&N5&N6&N7&_&_&N8&_).
      destruct early.
      * destruct (plr _ _) eqn:Pl. { apply pair_equal_spec in H as [<- <-]. eapply (Drp s _ b x nd k Playing); eauto.
          { unfold next, set_wrk; cbn [wrk set_g set_cnt]. rewrite N8. reflexivity. } { unfold cnts. cbn. rewrite N1, N2, N3, N4, N5, N6, N7. reflexivity. }
          rewrite <- P. exact Pl. }
        destruct late.
        -- destruct (snd_ _ _) eqn:Sn; apply pair_equal_spec in H as [<- <-].
           ++ eapply (Rdy s _ b x nd k); eauto. { unfold set_wrk; cbn [wrk set_g set_cnt]. rewrite N8. reflexivity. } unfold cnts. cbn. rewrite N1, N2, N3, N4, N5, N6, N7. reflexivity.
           ++ eapply (Drp s _ b x nd k NoAddr); eauto.
              { unfold next, set_wrk; cbn [wrk set_g set_cnt]. rewrite N8. reflexivity. } { unfold cnts. cbn. rewrite N1, N2, N3, N4, N5, N6, N7. reflexivity. }
              eapply unsendable; eauto.
        -- apply pair_equal_spec in H as [<- <-]. eapply (Tak s _ b x nd k Late); eauto.
          { unfold next, set_wrk; cbn [wrk set_g set_cnt]. rewrite N8. reflexivity. } { unfold cnts. cbn. rewrite N1, N2, N3, N4, N5, N6, N7. reflexivity. }
        -- apply pair_equal_spec in H as [<- <-]. eapply (Drp s _ b x nd k Late); eauto.
          { unfold next, set_wrk; cbn [wrk set_g set_cnt]. rewrite N8. reflexivity. } { unfold cnts. cbn. rewrite N1, N2, N3, N4, N5, N6, N7. reflexivity. }
      * apply pair_equal_spec in H as [<- <-]. eapply (Tak s _ b x nd k Early); eauto; reflexivity.
      * apply pair_equal_spec in H as [<- <-]. eapply (Drp s _ b x nd k Early); eauto; reflexivity.
    + destruct Wb as [Wb Sn]. destruct (transmit_eq s b x nd k I Sn) as (a & K & R & T). rewrite T in H. apply pair_equal_spec in H as [<- <-].
      eapply (Snt s _ b x nd k a); eauto; try reflexivity. unfold known_address. rewrite K. exact R.
  - destruct (live _ _); apply pair_equal_spec in H as [<- <-]; apply Quiet; auto.
  - apply pair_equal_spec in H as [<- <-]; apply Quiet; auto.
  - apply pair_equal_spec in H as [<- <-]; apply Quiet; auto.
  - apply pair_equal_spec in H as [<- <-]; apply Quiet; auto.
  - apply pair_equal_spec in H as [<- <-]; apply Quiet; auto.
  - apply pair_equal_spec in H as [<- <-]; apply Quiet; auto.
  - apply pair_equal_spec in H as [<- <-]; apply Quiet; auto.
  - destruct (_ || _) eqn:B; apply pair_equal_spec in H as [<- <-]; apply Quiet; auto. rewrite !forallb_app, !forallb_ends. reflexivity.
Qed.

(** A counter that follows a quantity *)
Local Opaque M64.
Definition follows (f : st -> Z) (d : list event -> Z) (pot : st -> Z) : Prop := forall s o s' ev, inv s -> step s o = (s', ev) ->
  let D := d ev + pot s' - pot s in (f s' = f s /\ D = 0) \/ f s' = u64 (f s + D).
Lemma u64_M x : u64 x = x mod M64. Proof. reflexivity. Qed.
Lemma follows_run f d pot : follows f d pot -> d [] = 0 -> (forall a b, d (a ++ b) = d a + d b) ->
  forall os s s' tr n, inv s -> run s os = (s', tr) -> f s = n mod M64 -> f s' = (n + d tr + pot s' - pot s) mod M64.
Proof.
  intros F D0 Da. induction os as [|o os IH]; intros s s' tr n I H E. { injection H as <- <-. rewrite D0, E. f_equal. lia. }
  rewrite run_cons in H. destruct (step s o) as [s1 e1] eqn:S1. destruct (run s1 os) as [s2 e2] eqn:R. injection H as <- <-.
  assert (Q := F _ _ _ _ I S1). cbv zeta in Q.
  rewrite (IH s1 s2 e2 (n + d e1 + pot s1 - pot s) (step_inv _ _ _ _ I S1) R).
  - rewrite Da. f_equal. lia.
  - destruct Q as [[Q Z0]|Q].
    + rewrite Q, E. f_equal. lia.
    + rewrite Q, u64_M, E, Zplus_mod_idemp_l. f_equal. lia.
Qed.

Lemma count_app {A} (f : A -> bool) a b : count f (a ++ b) = count f a + count f b.
Proof. unfold count. rewrite filter_app, app_length. lia. Qed.
Lemma pipe_count_app f a b c r : count f (pipe_fates (a ++ b) c r) = count f (pipe_fates a c r) + count f (pipe_fates b c r).
Proof. unfold pipe_fates. rewrite !fates_app, !count_app. lia. Qed.
Lemma all_count_app f a b : count f (all_fates (a ++ b)) = count f (all_fates a) + count f (all_fates b).
Proof. unfold all_fates. rewrite flat_map_app, map_app, count_app. reflexivity. Qed.

(** Fates other than [Lost] *)
Definition notlost (f : pkt * fate -> bool) : Prop := forall k, f (k, Lost) = false.
Lemma filter_none {A} (f : A -> bool) l : (forall a, In a l -> f a = false) -> filter f l = [].
Proof. induction l as [|a l IH]; intros H; auto. cbn. rewrite (H a) by (left; auto). apply IH. intros; apply H; right; auto. Qed.
Lemma silent_all f ev : notlost f -> forallb silent ev = true -> count f (all_fates ev) = 0.
Proof.
  intros N. induction ev as [|e ev IH]; intros H; [reflexivity|]. cbn in H. apply andb_true_iff in H as [H1 H2]. change (e :: ev) with ([e] ++ ev).
  rewrite all_count_app, IH by auto. destruct e; try discriminate; try reflexivity. unfold all_fates. cbn [flat_map fates_of]. rewrite app_nil_r, map_map. cbn.
  unfold count. rewrite filter_none; [reflexivity|]. intros a Ha. apply in_map_iff in Ha as (k & <- & _). apply N.
Qed.
Lemma silent_fates f ev x : notlost f -> forallb silent ev = true -> count f (fates ev x) = 0.
Proof.
  intros N. induction ev as [|e ev IH]; intros H; [reflexivity|]. cbn in H. apply andb_true_iff in H as [H1 H2]. change (e :: ev) with ([e] ++ ev).
  rewrite fates_app, count_app, IH by auto. destruct e; try discriminate; try reflexivity. unfold fates. cbn [flat_map fates_of]. rewrite app_nil_r.
  rewrite (on_all x _ (fun k => (k, Lost))). destruct (sid_eq_dec _ _); [|reflexivity].
  unfold count. rewrite filter_none; [reflexivity|]. intros a Ha. apply in_map_iff in Ha as (k & <- & _). apply N.
Qed.
Definition here (x : sid) (c : nat) (b : bool) : bool := Nat.eqb c (s_call x) && Bool.eqb b (s_rtcp x).
Lemma padd_eq f x c b : padd f x c b = if here x c b then u64 (f c b + 1) else f c b.
Proof. reflexivity. Qed.
Lemma one_fate ev x p y : flat_map fates_of ev = [(x, p)] -> fates ev y = if sid_eq_dec x y then [p] else [].
Proof. intros F. unfold fates. rewrite F. cbn. rewrite app_nil_r. reflexivity. Qed.
Lemma pipe_one g ev x p c b : flat_map fates_of ev = [(x, p)] -> count g (pipe_fates ev c b) = if here x c b then (if g p then 1 else 0) else 0.
Proof.
  intros F. unfold pipe_fates. rewrite !(one_fate _ _ _ _ F). destruct x as [c' r d]. unfold here; cbn.
  destruct (Nat.eqb c c') eqn:C; cbn.
  - apply Nat.eqb_eq in C. subst c'. destruct b, r, d;
    repeat match goal with |- context [sid_eq_dec ?u ?v] => destruct (sid_eq_dec u v); try discriminate; try congruence end;
    unfold count; cbn; destruct (g p); reflexivity.
  - apply Nat.eqb_neq in C.
    repeat match goal with |- context [sid_eq_dec ?u ?v] => destruct (sid_eq_dec u v); try discriminate; try congruence end; reflexivity.
Qed.
Lemma all_one g ev x p : flat_map fates_of ev = [(x, p)] -> count g (all_fates ev) = if g p then 1 else 0.
Proof. intros F. unfold all_fates. rewrite F. cbn. unfold count. cbn. destruct (g p); reflexivity. Qed.
Lemma drain_pipe g x ks c b : (forall k, g (k, Flushed) = false) -> count g (pipe_fates [ETurn x; EDrain x ks] c b) = 0.
Proof.
  intros G. unfold pipe_fates, fates. cbn [flat_map fates_of app]. rewrite app_nil_r, !(on_all _ _ (fun k => (k, Flushed))).
  assert (Z0 : count g (map (fun k => (k, Flushed)) ks) = 0).
  { unfold count. rewrite filter_none; [reflexivity|]. intros p Hp. apply in_map_iff in Hp as (k & <- & _). apply G. }
  rewrite count_app. destruct (sid_eq_dec _ _), (sid_eq_dec _ _); rewrite ?Z0; reflexivity.
Qed.
Lemma drain_one g x ks y : (forall k, g (k, Flushed) = false) -> count g (fates [ETurn x; EDrain x ks] y) = 0.
Proof.
  intros G. unfold fates. cbn [flat_map fates_of app]. rewrite app_nil_r, !(on_all _ _ (fun k => (k, Flushed))).
  destruct (sid_eq_dec _ _); [|reflexivity].
  unfold count. rewrite filter_none; [reflexivity|]. intros p Hp. apply in_map_iff in Hp as (k & <- & _). apply G.
Qed.
Lemma drain_all g x ks : count g (all_fates [ETurn x; EDrain x ks]) = count g (map (fun k => (k, Flushed)) ks).
Proof. unfold all_fates. cbn [flat_map fates_of app]. rewrite app_nil_r, map_map. reflexivity. Qed.

Ltac fate1 := match goal with |- context [count ?g (pipe_fates ?ev ?c ?b)] => 
    first [erewrite (pipe_one g ev _ _ c b) by (cbn; rewrite ?peer_peer; reflexivity)
          |rewrite drain_pipe by reflexivity
          |change (count g (pipe_fates [] c b)) with 0] end.
Ltac shapes H := destruct (step_shape _ _ _ _ ltac:(eassumption) H)
  as [ev2 s2 Ec Ew Es|x s2 Ew Ec Cm Eo|bb x nd s2 Wb Ew Ec Eq|bb x nd k q e l c' s2 Wb Eb Ew Eq Er Ec|bb x nd k s2 Wb Eb Ew Ec|bb x nd k w s2 Wb Eb Ew Ec Ey
     |bb x nd k w s2 Wb Eb Ew Wy Ec|bb x nd k s2 Wb Eb Ew Ec|bb x nd k a s2 Wb Eb Ew Ka Ec];
  unfold cnts in Ec; injection Ec as E1 E2 E3 E4 E5 E6 E7.

Lemma reld_follows c b : follows (fun s => reld s c b) (fun ev => count relayed (pipe_fates ev c b)) (fun _ => 0).
Proof.
  intros s o s1 ev1 I H. cbv zeta. shapes H; rewrite E1.
  - left. split; auto. unfold pipe_fates. rewrite count_app, !silent_fates; auto; intros ?; reflexivity.
  - fate1. left; split; auto.
  - left; split; auto.
  - fate1. cbn. left. destruct (here _ _ _); auto.
  - left; split; auto.
  - destruct w; cbn [app]; fate1; cbn; left; destruct (here _ _ _); auto.
  - fate1. cbn. left. destruct (here _ _ _); auto.
  - left; split; auto.
  - fate1. cbn. rewrite padd_eq. destruct (here _ _ _); auto.
Qed.
Lemma drop_follows c b : follows (fun s => drop s c b) (fun ev => count isdropped (pipe_fates ev c b)) (fun _ => 0).
Proof.
  intros s o s1 ev1 I H. cbv zeta. shapes H; rewrite E2.
  - left. split; auto. unfold pipe_fates. rewrite count_app, !silent_fates; auto; intros ?; reflexivity.
  - fate1. left; split; auto.
  - left; split; auto.
  - fate1. cbn. left. destruct (here _ _ _); auto.
  - left; split; auto.
  - rewrite padd_eq. destruct w; cbn [app]; fate1; cbn; (destruct (here _ _ _); auto; right; f_equal; lia).
  - fate1. cbn. left. destruct (here _ _ _); auto.
  - left; split; auto.
  - fate1. cbn. left. destruct (here _ _ _); auto.
Qed.
Lemma ignr_follows c b : follows (fun s => ignr s c b) (fun ev => count isignored (pipe_fates ev c b)) (fun _ => 0).
Proof.
  intros s o s1 ev1 I H. cbv zeta. shapes H; rewrite E3.
  - left. split; auto. unfold pipe_fates. rewrite count_app, !silent_fates; auto; intros ?; reflexivity.
  - fate1. left; split; auto.
  - left; split; auto.
  - fate1. cbn. rewrite padd_eq. destruct (here _ _ _); auto.
  - left; split; auto.
  - destruct w; cbn [app]; fate1; cbn; left; destruct (here _ _ _); auto.
  - fate1. cbn. left. destruct (here _ _ _); auto.
  - left; split; auto.
  - fate1. cbn. left. destruct (here _ _ _); auto.
Qed.

Ltac alls := match goal with |- context [count ?g (all_fates ?ev)] => 
    first [erewrite (all_one g ev) by (cbn; rewrite ?peer_peer; reflexivity)
          |rewrite drain_all
          |change (count g (all_fates [])) with 0] end.
Lemma count_const {A B} (g : B -> bool) (h : A -> B) v l : (forall a, g (h a) = v) -> count g (map h l) = if v then Z.of_nat (length l) else 0.
Proof.
  intros E. unfold count. induction l as [|a l IH]; [destruct v; reflexivity|]. cbn [map filter]. rewrite E. destruct v; cbn [length]; lia.
Qed.
Lemma greld_follows : follows g_reld (fun ev => count relayed (all_fates ev)) (fun _ => 0).
Proof.
  intros s o s1 ev1 I H. cbv zeta. shapes H; rewrite E6.
  - left. split; auto. rewrite silent_all; auto; intros ?; reflexivity.
  - alls. rewrite (count_const relayed _ false) by reflexivity. right. f_equal; lia.
  - left; split; auto.
  - alls. cbn. right. unfold u64. rewrite Zmod_mod. f_equal; lia.
  - right. unfold all_fates. cbn. f_equal; lia.
  - destruct w; cbn [app]; alls; cbn; right; f_equal; lia.
  - alls. cbn. left; auto.
  - left; split; auto.
  - alls. cbn. right. f_equal; lia.
Qed.
Lemma gdisc_follows : follows g_disc (fun ev => count discarded (all_fates ev)) (fun _ => 0).
Proof.
  intros s o s1 ev1 I H. cbv zeta. shapes H; rewrite E7.
  - left. split; auto. rewrite silent_all; auto; intros ?; reflexivity.
  - alls. rewrite (count_const discarded _ true) by reflexivity. right. f_equal; lia.
  - left; split; auto.
  - alls. cbn. right. unfold u64. rewrite Zplus_mod_idemp_l. f_equal; lia.
  - right. unfold all_fates. cbn. f_equal; lia.
  - destruct w; cbn [app]; alls; cbn; right; f_equal; lia.
  - alls. cbn. left; auto.
  - left; split; auto.
  - alls. cbn. right. f_equal; lia.
Qed.
Lemma hand_after x nd : match after x nd with Hold _ _ _ | Ready _ _ _ => 1 | _ => 0 end = 0.
Proof. unfold after. destruct (_ >? 0); reflexivity. Qed.
Lemma all_setw s s' b p : wrk s' = setw s b p ->
  all_in_hand s' = all_in_hand s - match wrk s b with Hold _ _ _ | Ready _ _ _ => 1 | _ => 0 end + match p with Hold _ _ _ | Ready _ _ _ => 1 | _ => 0 end.
Proof. intros E. unfold all_in_hand. rewrite E. unfold setw. destruct b; cbn; lia. Qed.
Lemma grcvd_follows : follows g_rcvd (fun ev => count readf (all_fates ev)) all_in_hand.
Proof.
  intros s o s1 ev1 I H. cbv zeta. shapes H; rewrite E5.
  - left. split; auto. rewrite silent_all; auto; [|intros ?; reflexivity]. destruct Ew as [Ew|(x & _ & Ew & Ei)].
    + unfold all_in_hand. rewrite Ew. lia.
    + rewrite (all_setw _ _ _ _ Ew), Ei. lia.
  - alls. rewrite (count_const readf _ false) by reflexivity. right. f_equal. unfold all_in_hand. rewrite Ew. lia.
  - left; split; auto. rewrite (all_setw _ _ _ _ Ew), Wb. unfold all_fates. cbn. lia.
  - alls. cbn [readf relayed isdropped isignored taken snd orb]. right. unfold u64. rewrite Zmod_mod. rewrite (all_setw _ _ _ _ Ew), Wb, hand_after. f_equal; lia.
  - right. change (count readf (all_fates [])) with 0. rewrite (all_setw _ _ _ _ Ew), Wb. f_equal; lia.
  - rewrite (all_setw _ _ _ _ Ew), Wb, hand_after. destruct w; cbn [app]; alls; cbn [readf relayed isdropped isignored taken snd orb]; right; f_equal; lia.
  - alls. cbn [readf relayed isdropped isignored taken snd orb]. left; split; auto. rewrite (all_setw _ _ _ _ Ew), Wb, hand_after. lia.
  - left; split; auto. rewrite (all_setw _ _ _ _ Ew), Wb. unfold all_fates. cbn. lia.
  - alls. cbn [readf relayed isdropped isignored taken snd orb]. right. f_equal. rewrite (all_setw _ _ _ _ Ew), Wb, hand_after. lia.
Qed.

(** Packets of a stream *)
Ltac mine := match goal with |- context [count ?g (fates ?ev ?y)] => 
    first [erewrite (one_fate ev _ _ y) by (cbn; rewrite ?peer_peer; reflexivity)
          |rewrite drain_one by reflexivity
          |change (count g (fates [] y)) with 0] end.
Lemma way_setw s s' b p y : wrk s' = setw s b p ->
  on_way_out s' y = if Bool.eqb (s_rtcp y) b then match p with Ready z _ _ => if sid_eq_dec z y then 1 else 0 | _ => 0 end else on_way_out s y.
Proof. intros E. unfold on_way_out. rewrite E. unfold setw. destruct (Bool.eqb _ _); reflexivity. Qed.
Lemma way_after x nd y : match after x nd with Ready z _ _ => if sid_eq_dec z y then 1 else 0 | _ => 0 end = 0.
Proof. unfold after. destruct (_ >? 0); reflexivity. Qed.
Lemma way_not s b y p : wrk s b = p -> s_rtcp y = b -> match p with Ready _ _ _ => False | _ => True end -> on_way_out s y = 0.
Proof. intros W E N. unfold on_way_out. rewrite E, W. destruct p; auto; contradiction. Qed.
Lemma count1 {A} (g : A -> bool) p : count g [p] = if g p then 1 else 0.
Proof. unfold count. cbn. destruct (g p); reflexivity. Qed.
Lemma way_idle s s' b p y : wrk s' = setw s b p -> match p with Ready _ _ _ => False | _ => True end ->
  match wrk s b with Ready _ _ _ => False | _ => True end -> on_way_out s' y = on_way_out s y.
Proof.
  intros E P Q. rewrite (way_setw _ _ _ _ _ E). destruct (Bool.eqb _ _) eqn:B; auto. apply eqb_prop in B. rewrite (way_not s b y (wrk s b)); auto. destruct p; auto; contradiction.
Qed.
Lemma after_not x nd : match after x nd with Ready _ _ _ => False | _ => True end.
Proof. unfold after. destruct (_ >? 0); exact Logic.I. Qed.

Lemma npin_follows y : follows (fun s => npin s y) (fun ev => count analysed (fates ev y)) (fun s => on_way_out s y).
Proof.
  intros s o s1 ev1 I H. cbv zeta. shapes H; rewrite E4.
  - left. split; auto. rewrite silent_fates; auto; [|intros ?; reflexivity]. destruct Ew as [Ew|(x & _ & Ew & Ei)].
    + unfold on_way_out. rewrite Ew. lia.
    + rewrite (way_idle _ _ _ _ y Ew); [lia|exact Logic.I|rewrite Ei; exact Logic.I].
  - mine. left. split; auto. unfold on_way_out. rewrite Ew. lia.
  - mine. left. split; auto. rewrite (way_idle _ _ _ _ y Ew); [lia|exact Logic.I|rewrite Wb; exact Logic.I].
  - mine. left. split; auto. rewrite (way_idle _ _ _ _ y Ew); [|apply after_not|rewrite Wb; exact Logic.I].
    destruct (sid_eq_dec x y); [rewrite count1; cbn [analysed snd]|change (count analysed []) with 0]; lia.
  - mine. left. split; auto. rewrite (way_idle _ _ _ _ y Ew); [lia|exact Logic.I|rewrite Wb; exact Logic.I].
  - rewrite (way_idle _ _ _ _ y Ew); [|apply after_not|rewrite Wb; exact Logic.I].
    destruct w; cbn [app]; mine; rewrite ?sset_eq; destruct (sid_eq_dec x y) as [<-|N];
      rewrite ?count1; cbn [analysed snd]; try (change (count analysed []) with 0);
      try (destruct (sid_eq_dec x x); [|congruence]); try (destruct (sid_eq_dec y x); [congruence|]); try (left; split; [reflexivity|lia]); right; f_equal; lia.
  - mine. rewrite (way_idle _ _ _ _ y Ew); [|apply after_not|rewrite Wb; exact Logic.I].
    destruct Wy as [->| ->]; rewrite ?sset_eq; destruct (sid_eq_dec x y) as [<-|N];
      rewrite ?count1; cbn [analysed snd]; try (change (count analysed []) with 0);
      try (destruct (sid_eq_dec x x); [|congruence]); try (destruct (sid_eq_dec y x); [congruence|]); try (left; split; [reflexivity|lia]); right; f_equal; lia.
  - change (count analysed (fates [ETtl x] y)) with 0. rewrite (way_setw _ _ _ _ _ Ew), sset_eq.
    destruct (Bool.eqb (s_rtcp y) bb) eqn:B.
    + apply eqb_prop in B. rewrite (way_not s bb y _ Wb B Logic.I). destruct (sid_eq_dec y x) as [->|N].
      * destruct (sid_eq_dec x x); [|congruence]. right. f_equal; lia.
      * destruct (sid_eq_dec x y); [congruence|]. left. split; [reflexivity|lia].
    + destruct (sid_eq_dec y x) as [->|N]; [rewrite Eb, eqb_refl' in B; discriminate|]. left. split; [reflexivity|lia].
  - mine. left. split; auto. rewrite (way_setw _ _ _ _ _ Ew), way_after. destruct (Bool.eqb (s_rtcp y) bb) eqn:B.
    + apply eqb_prop in B. unfold on_way_out. rewrite B, Wb. destruct (sid_eq_dec x y); [rewrite count1; cbn [analysed snd]|change (count analysed []) with 0]; lia.
    + destruct (sid_eq_dec x y) as [<-|N]; [rewrite Eb, eqb_refl' in B; discriminate|]. change (count analysed []) with 0; lia.
Qed.

(** Restarts of the timeout *)
Lemma restarts_app a b y : restarts (a ++ b) y = restarts a y + restarts b y. Proof. apply count_app. Qed.
Lemma silent_restarts ev y : forallb silent ev = true -> restarts ev y = 0.
Proof.
  intros H. unfold restarts, count. rewrite filter_none; auto. intros e He. rewrite forallb_forall in H. specialize (H e He). destruct e; auto; discriminate.
Qed.
Lemma restarts_step s o s1 ev1 y : inv s -> step s o = (s1, ev1) -> restarts ev1 y = count reached_relay (fates ev1 y) + on_way_out s1 y - on_way_out s y.
Proof.
  intros I H. shapes H.
  - rewrite silent_restarts, silent_fates; auto; [|intros ?; reflexivity]. destruct Ew as [Ew|(x & _ & Ew & Ei)].
    + unfold on_way_out. rewrite Ew. lia.
    + rewrite (way_idle _ _ _ _ y Ew); [lia|exact Logic.I|rewrite Ei; exact Logic.I].
  - mine. unfold on_way_out. rewrite Ew. unfold restarts, count. cbn. lia.
  - mine. rewrite (way_idle _ _ _ _ y Ew); [unfold restarts, count; cbn [filter length]; lia|exact Logic.I|rewrite Wb; exact Logic.I].
  - mine. rewrite (way_idle _ _ _ _ y Ew); [|apply after_not|rewrite Wb; exact Logic.I].
    change (restarts [EIgnore x k] y) with 0. destruct (sid_eq_dec x y); [rewrite count1; cbn [reached_relay snd]|change (count reached_relay []) with 0]; lia.
  - mine. rewrite (way_idle _ _ _ _ y Ew); [unfold restarts, count; cbn [filter length]; lia|exact Logic.I|rewrite Wb; exact Logic.I].
  - rewrite (way_idle _ _ _ _ y Ew); [|apply after_not|rewrite Wb; exact Logic.I].
    destruct w; cbn [app]; mine; unfold restarts, count; cbn [filter length]; destruct (sid_eq_dec x y); cbn [filter length reached_relay snd]; lia.
  - mine. rewrite (way_idle _ _ _ _ y Ew); [|apply after_not|rewrite Wb; exact Logic.I].
    unfold restarts, count; cbn [filter length]; destruct (sid_eq_dec x y); cbn [filter length reached_relay snd]; lia.
  - change (count reached_relay (fates [ETtl x] y)) with 0. rewrite (way_setw _ _ _ _ _ Ew). unfold restarts; rewrite count1.
    destruct (Bool.eqb (s_rtcp y) bb) eqn:B.
    + apply eqb_prop in B. rewrite (way_not s bb y _ Wb B Logic.I). destruct (sid_eq_dec x y); lia.
    + destruct (sid_eq_dec x y) as [<-|N]; [rewrite Eb, eqb_refl' in B; discriminate|]. lia.
  - mine. change (restarts [ESend (peer x) a k] y) with 0. rewrite (way_setw _ _ _ _ _ Ew), way_after. destruct (Bool.eqb (s_rtcp y) bb) eqn:B.
    + apply eqb_prop in B. unfold on_way_out. rewrite B, Wb. destruct (sid_eq_dec x y); [rewrite count1; cbn [reached_relay snd]|change (count reached_relay []) with 0]; lia.
    + destruct (sid_eq_dec x y) as [<-|N]; [rewrite Eb, eqb_refl' in B; discriminate|]. change (count reached_relay []) with 0; lia.
Qed.
Lemma restarts_run os : forall s s' tr y, inv s -> run s os = (s', tr) -> restarts tr y = count reached_relay (fates tr y) + on_way_out s' y - on_way_out s y.
Proof.
  induction os as [|o os IH]; intros s s' tr y I H; [injection H as <- <-; unfold restarts, fates, count; cbn; lia|]. rewrite run_cons in H. destruct (step s o) as [s1 e1] eqn:S1.
  destruct (run s1 os) as [s2 e2] eqn:R. injection H as <- <-. rewrite restarts_app, fates_app, count_app.
  rewrite (restarts_step _ _ _ _ _ I S1), (IH s1 s2 e2 y (step_inv _ _ _ _ I S1) R). lia.
Qed.

(** Results *)
Lemma pipe_lemma os s tr c b : run start os = (s, tr) ->
  reld s c b = count relayed (pipe_fates tr c b) mod M64 /\ drop s c b = count isdropped (pipe_fates tr c b) mod M64 /\
  ignr s c b = count isignored (pipe_fates tr c b) mod M64.
Proof.
  intros H. repeat split.
  - rewrite (follows_run _ _ _ (reld_follows c b) eq_refl ltac:(intros; apply pipe_count_app) os start s tr 0 start_inv H eq_refl). f_equal; lia.
  - rewrite (follows_run _ _ _ (drop_follows c b) eq_refl ltac:(intros; apply pipe_count_app) os start s tr 0 start_inv H eq_refl). f_equal; lia.
  - rewrite (follows_run _ _ _ (ignr_follows c b) eq_refl ltac:(intros; apply pipe_count_app) os start s tr 0 start_inv H eq_refl). f_equal; lia.
Qed.
Lemma stats_lemma os s tr : run start os = (s, tr) ->
  g_reld s = count relayed (all_fates tr) mod M64 /\ g_disc s = count discarded (all_fates tr) mod M64 /\
  g_rcvd s = (count readf (all_fates tr) + all_in_hand s) mod M64.
Proof.
  intros H. repeat split.
  - rewrite (follows_run _ _ _ greld_follows eq_refl ltac:(intros; apply all_count_app) os start s tr 0 start_inv H eq_refl). f_equal; lia.
  - rewrite (follows_run _ _ _ gdisc_follows eq_refl ltac:(intros; apply all_count_app) os start s tr 0 start_inv H eq_refl). f_equal; lia.
  - rewrite (follows_run _ _ _ grcvd_follows eq_refl ltac:(intros; apply all_count_app) os start s tr 0 start_inv H eq_refl). f_equal. change (all_in_hand start) with 0. lia.
Qed.
Lemma npin_lemma os s tr x : run start os = (s, tr) -> npin s x = (count analysed (fates tr x) + on_way_out s x) mod M64.
Proof.
  intros H. rewrite (follows_run _ _ _ (npin_follows x) eq_refl ltac:(intros; cbv beta; rewrite fates_app; apply count_app) os start s tr 0 start_inv H eq_refl).
  f_equal. change (on_way_out start x) with 0. lia.
Qed.
Lemma restarts_lemma os s tr x : run start os = (s, tr) -> restarts tr x = count reached_relay (fates tr x) + on_way_out s x.
Proof. intros H. rewrite (restarts_run _ _ _ _ x start_inv H). change (on_way_out start x) with 0. lia. Qed.

Lemma fates_in tr x k f : In (x, (k, f)) (flat_map fates_of tr) -> In k (map fst (fates tr x)).
Proof.
  intros H. apply in_map_iff. exists (k, f). split; auto. unfold fates, on. apply in_flat_map. exists (x, (k, f)). split; auto. cbn.
  destruct (sid_eq_dec x x); [left; auto|congruence].
Qed.
Lemma arrived_in tr x k : In k (arrived tr x) -> In (EArrive x k) tr.
Proof.
  intros H. unfold arrived in H. apply in_flat_map in H as (e & He & H). destruct e; try contradiction. destruct (sid_eq_dec x0 x) as [->|]; [|contradiction].
  destruct H as [->|[]]. auto.
Qed.
Lemma send_lemma os s tr o s' ev yy aa kk : run start os = (s, tr) -> step s o = (s', ev) -> In (ESend yy aa kk) ev ->
  known_address s yy = Some aa /\ In (EArrive (peer yy) kk) tr.
Proof.
  intros R H Hin. assert (I := run_inv _ _ _ _ start_inv R). assert (S1 := H). shapes H; try (destruct Hin as [Hin|[]]; discriminate); try contradiction.
  - exfalso. rewrite forallb_forall in Es. specialize (Es _ Hin). discriminate.
  - exfalso. destruct Hin as [Hin|[Hin|[]]]; discriminate.
  - exfalso. destruct w; cbn in Hin; intuition discriminate.
  - destruct Hin as [Hin|[]]. injection Hin as <- <- <-. split; auto. rewrite peer_peer.
    assert (F := fate_lemma _ _ _ x R). apply arrived_in. rewrite F, !in_app_iff. right; left. unfold in_hand. rewrite Eb, Wb. destruct (sid_eq_dec x x); [left; auto|congruence].
Qed.
Lemma nowhere_lemma os s tr : run start os = (s, tr) -> ~ In ENull tr.
Proof.
  assert (G : forall os s0 s tr, inv s0 -> run s0 os = (s, tr) -> ~ In ENull tr); [|apply G; apply start_inv]. clear.
  induction os as [|o os IH]; intros s0 s tr I H; [injection H as <- <-; auto|]. rewrite run_cons in H. destruct (step s0 o) as [s1 e1] eqn:S1.
  destruct (run s1 os) as [s2 e2] eqn:R. injection H as <- <-. rewrite in_app_iff. intros [Hin|Hin]; [|exact (IH s1 s2 e2 (step_inv _ _ _ _ I S1) R Hin)].
  clear R. clear s2. shapes S1; try (destruct Hin as [Hin|[]]; discriminate); try contradiction.
  - rewrite forallb_forall in Es. specialize (Es _ Hin). discriminate.
  - destruct Hin as [Hin|[Hin|[]]]; discriminate.
  - destruct w; cbn in Hin; intuition discriminate.
Qed.
Lemma drop_lemma os s tr o s' ev xx kk ww : run start os = (s, tr) -> step s o = (s', ev) -> In (EDrop xx kk ww) ev ->
  match ww with Playing => plr s (peer xx) = true | NoAddr => known_address s (peer xx) = None | _ => True end.
Proof.
  intros R H Hin. assert (I := run_inv _ _ _ _ start_inv R). shapes H; try (destruct Hin as [Hin|[]]; discriminate); try contradiction.
  - exfalso. rewrite forallb_forall in Es. specialize (Es _ Hin). discriminate.
  - exfalso. destruct Hin as [Hin|[Hin|[]]]; discriminate.
  - assert (Hw : EDrop xx kk ww = EDrop x k w) by (destruct w; cbn in Hin; intuition congruence). injection Hw as -> -> ->. exact Ey.
Qed.
Lemma rx_discard l c e p l' c' : rx l c e p = (l', c', Discard) -> l' = l /\ c' = c /\ e = false /\ l_mode l <> FORCE_OFF /\ exists a, l_rem l = Some a /\
  (if l_asym l then ishostseq a (p_from p) <> Some true else sa_eqb a (p_from p) = false /\ l_latched l = true).
Proof.
  unfold rx. intros H.
  destruct (l_mode l) eqn:Em; cbn in H; try discriminate; (destruct (l_rem l) as [a|] eqn:Er; [|discriminate]); (destruct e; [discriminate|]);
  (destruct (l_asym l) eqn:Ea; cbn in H;
   [destruct (ishostseq a (p_from p)) as [[|]|] eqn:Eh; try discriminate; injection H as <- <-; repeat split; try congruence; exists a; split; congruence
   |destruct (sa_eqb a (p_from p)) eqn:Es; cbn in H; [destruct (l_latched l); discriminate|]; destruct (l_latched l) eqn:El; [|discriminate];
    destruct (override l (p_time p) p); [discriminate|]; injection H as <- <-; repeat split; try congruence; exists a; auto]).
Qed.
Lemma ignore_lemma os s tr o s' ev xx kk : run start os = (s, tr) -> step s o = (s', ev) -> In (EIgnore xx kk) ev ->
  exists a, l_rem (str s xx) = Some a /\ l_mode (str s xx) <> FORCE_OFF /\
    (if l_asym (str s xx) then ishostseq a (p_from (k_h kk)) <> Some true else sa_eqb a (p_from (k_h kk)) = false /\ l_latched (str s xx) = true).
Proof.
  intros R H Hin. assert (I := run_inv _ _ _ _ start_inv R). shapes H; try (destruct Hin as [Hin|[]]; discriminate); try contradiction.
  - exfalso. rewrite forallb_forall in Es. specialize (Es _ Hin). discriminate.
  - exfalso. destruct Hin as [Hin|[Hin|[]]]; discriminate.
  - destruct Hin as [Hin|[]]. injection Hin as <- <-. apply rx_discard in Er as (_ & _ & _ & M & a & A & B). eauto.
  - exfalso. destruct w; cbn in Hin; intuition discriminate.
Qed.

(** One turn *)
Definition left_ (p : wpc) : Z := match p with Idle => 0 | Rx _ nd | Hold _ nd _ | Ready _ nd _ => nd + 1 end.
Definition nonneg (s : st) : Prop := forall b, match wrk s b with Idle => True | Rx _ nd | Hold _ nd _ | Ready _ nd _ => 0 <= nd end.
Lemma handled_one b ev x p : flat_map fates_of ev = [(x, p)] -> count (handled b) (flat_map fates_of ev) = if handled b (x, p) then 1 else 0.
Proof. intros ->. apply count1. Qed.
Lemma handled_silent b ev : forallb silent ev = true -> count (handled b) (flat_map fates_of ev) = 0.
Proof.
  intros H. unfold count. rewrite filter_none; auto. intros [x [k f]] Hp. apply in_flat_map in Hp as (e & He & Hp). rewrite forallb_forall in H. specialize (H e He).
  destruct e; try discriminate; cbn in Hp; try contradiction. apply in_map_iff in Hp as (k' & E & _). injection E as <- <- <-. unfold handled. cbn. apply andb_false_r.
Qed.
Lemma setw_nonneg s s' b p : nonneg s -> wrk s' = setw s b p -> match p with Idle => True | Rx _ nd | Hold _ nd _ | Ready _ nd _ => 0 <= nd end -> nonneg s'.
Proof. intros N E P b'. rewrite E. unfold setw. destruct (Bool.eqb b' b); auto. apply N. Qed.
Lemma after_nonneg x nd : match after x nd with Idle => True | Rx _ nd | Hold _ nd _ | Ready _ nd _ => 0 <= nd end.
Proof. unfold after. destruct (nd >? 0) eqn:E; auto. lia. Qed.
Lemma step_nonneg s o s1 ev : inv s -> nonneg s -> step s o = (s1, ev) -> nonneg s1.
Proof.
  intros I N H. assert (S0 := N). 
  assert (Nb : forall b p, wrk s b = p -> match p with Idle => True | Rx _ nd | Hold _ nd _ | Ready _ nd _ => 0 <= nd end) by (intros b p <-; apply N).
  shapes H; try (apply (setw_nonneg _ _ _ _ N Ew); first [apply after_nonneg|exact (Nb _ _ Wb)|exact Logic.I]).
  - destruct Ew as [Ew|(x & _ & Ew & _)]; [intros b; rewrite Ew; apply N|]. apply (setw_nonneg _ _ _ _ N Ew). unfold DRAIN. lia.
  - intros b; rewrite Ew; apply N.
Qed.
Lemma left_after x nd : 0 <= nd -> left_ (after x nd) = nd.
Proof. intros N. unfold after. destruct (nd >? 0) eqn:E; cbn; lia. Qed.

Lemma turn_step s o s1 ev b : inv s -> nonneg s -> step s o = (s1, ev) -> no_turn b o ->
  count (handled b) (flat_map fates_of ev) + left_ (wrk s1 b) <= left_ (wrk s b).
Proof.
  intros I N H NT.
  assert (Nb : forall b p, wrk s b = p -> match p with Idle => True | Rx _ nd | Hold _ nd _ | Ready _ nd _ => 0 <= nd end) by (intros b' p <-; apply N).
  assert (H0 := H). shapes H; try (specialize (Nb _ _ Wb); cbn in Nb).
  - rewrite handled_silent by auto. destruct Ew as [Ew|(x & -> & Ew & Ei)]; [rewrite Ew; lia|]. rewrite Ew. unfold setw. cbn in NT.
    destruct (Bool.eqb b (s_rtcp x)) eqn:B; [|lia]. apply eqb_prop in B. congruence.
  - rewrite Ew. cbn [flat_map fates_of app]. rewrite app_nil_r. unfold count. rewrite filter_none; [cbn; lia|]. intros p Hp. apply in_map_iff in Hp as (k & <- & _).
    unfold handled. cbn. apply andb_false_r.
  - rewrite Ew. unfold setw. destruct (Bool.eqb b bb) eqn:B; [apply eqb_prop in B; subst b; rewrite Wb|]; unfold count; cbn [left_ flat_map fates_of filter length app]; lia.
  - rewrite Ew, (handled_one b [EIgnore x k] x (k, Ignored)) by reflexivity. unfold handled at 1. cbn [snd fst]. rewrite andb_false_r. unfold setw.
    destruct (Bool.eqb b bb) eqn:B; [apply eqb_prop in B; subst b; rewrite Wb, left_after by lia|]; unfold count; cbn [left_ flat_map fates_of filter length app]; lia.
  - rewrite Ew. unfold setw. destruct (Bool.eqb b bb) eqn:B; [apply eqb_prop in B; subst b; rewrite Wb|]; unfold count; cbn [left_ flat_map fates_of filter length app]; lia.
  - rewrite Ew, (handled_one b _ x (k, Dropped w)) by (destruct w; reflexivity). unfold handled, setw. cbn [snd fst]. rewrite andb_true_r, Eb.
    destruct (Bool.eqb b bb) eqn:B; [apply eqb_prop in B; subst b; rewrite Wb, left_after, eqb_refl' by lia; unfold count; cbn [left_ flat_map fates_of filter length app]; lia|].
    destruct (Bool.eqb bb b) eqn:B'; [apply eqb_prop in B'; subst b; rewrite eqb_refl' in B; discriminate|lia].
  - rewrite Ew, (handled_one b _ x (k, Taken w)) by reflexivity. unfold handled, setw. cbn [snd fst]. rewrite andb_true_r, Eb.
    destruct (Bool.eqb b bb) eqn:B; [apply eqb_prop in B; subst b; rewrite Wb, left_after, eqb_refl' by lia; unfold count; cbn [left_ flat_map fates_of filter length app]; lia|].
    destruct (Bool.eqb bb b) eqn:B'; [apply eqb_prop in B'; subst b; rewrite eqb_refl' in B; discriminate|lia].
  - rewrite Ew. unfold setw. destruct (Bool.eqb b bb) eqn:B; [apply eqb_prop in B; subst b; rewrite Wb|]; unfold count; cbn [left_ flat_map fates_of filter length app]; lia.
  - rewrite Ew, (handled_one b _ x (k, Relayed a)) by (cbn; rewrite peer_peer; reflexivity). unfold handled, setw. cbn [snd fst]. rewrite andb_true_r, Eb.
    destruct (Bool.eqb b bb) eqn:B; [apply eqb_prop in B; subst b; rewrite Wb, left_after, eqb_refl' by lia; unfold count; cbn [left_ flat_map fates_of filter length app]; lia|].
    destruct (Bool.eqb bb b) eqn:B'; [apply eqb_prop in B'; subst b; rewrite eqb_refl' in B; discriminate|lia].
Qed.
Lemma turn_run os : forall s s1 tr b, inv s -> nonneg s -> run s os = (s1, tr) -> Forall (no_turn b) os ->
  count (handled b) (flat_map fates_of tr) + left_ (wrk s1 b) <= left_ (wrk s b).
Proof.
  induction os as [|o os IH]; intros s s' tr b I N H F; [injection H as <- <-; cbn; lia|]. rewrite run_cons in H. destruct (step s o) as [s1 e1] eqn:S1.
  destruct (run s1 os) as [s2 e2] eqn:R. injection H as <- <-. inversion F as [|? ? F1 F2]; subst.
  assert (A := turn_step _ _ _ _ b I N S1 F1). assert (B := IH s1 s2 e2 b (step_inv _ _ _ _ I S1) (step_nonneg _ _ _ _ I N S1) R F2).
  rewrite flat_map_app, count_app. lia.
Qed.
Lemma run_nonneg os : forall s s1 tr, inv s -> nonneg s -> run s os = (s1, tr) -> nonneg s1.
Proof.
  induction os as [|o os IH]; intros s s' tr I N H; [injection H as <- <-; auto|]. rewrite run_cons in H. destruct (step s o) as [s1 e1] eqn:S1.
  destruct (run s1 os) as [s2 e2] eqn:R. injection H as <- <-. exact (IH s1 s2 e2 (step_inv _ _ _ _ I S1) (step_nonneg _ _ _ _ I N S1) R).
Qed.
Lemma start_nonneg : nonneg start. Proof. intros b; exact Logic.I. Qed.
Lemma left_nonneg s b : nonneg s -> 0 <= left_ (wrk s b).
Proof. intros N. specialize (N b). destruct (wrk s b); cbn in *; lia. Qed.
Lemma turn_lemma os0 s0 tr0 x os s tr : run start os0 = (s0, tr0) -> wrk s0 (s_rtcp x) = Idle -> Forall (no_turn (s_rtcp x)) os ->
  run s0 (Turn x :: os) = (s, tr) -> count (handled (s_rtcp x)) (flat_map fates_of tr) <= 1.
Proof.
  intros R0 W F H. assert (I := run_inv _ _ _ _ start_inv R0). assert (N := run_nonneg _ _ _ _ start_inv start_nonneg R0).
  rewrite run_cons in H. destruct (step s0 (Turn x)) as [s1 e1] eqn:S1. destruct (run s1 os) as [s2 e2] eqn:R. injection H as <- <-.
  assert (I1 := step_inv _ _ _ _ I S1). assert (N1 := step_nonneg _ _ _ _ I N S1). assert (B := turn_run _ _ _ _ (s_rtcp x) I1 N1 R F).
  assert (L := left_nonneg _ (s_rtcp x) (run_nonneg _ _ _ _ I1 N1 R)). rewrite flat_map_app, count_app.
  cbn [step] in S1. rewrite W in S1. destruct (negb _) in S1; [|destruct (cmpl _ _) in S1]; apply pair_equal_spec in S1 as [<- <-].
  - rewrite W in B. unfold count in *; cbn in *; lia.
  - rewrite set_wrk_same in B. unfold count in *; cbn in *; lia.
  - cbn [wrk set_g set_inq] in B. rewrite W in B.
    assert (Z0 : count (handled (s_rtcp x)) (flat_map fates_of [ETurn x; EDrain x (inq s0 x)]) = 0).
    { cbn [flat_map fates_of app]. rewrite app_nil_r. unfold count. rewrite filter_none; auto. intros p Hp. apply in_map_iff in Hp as (k & <- & _).
      unfold handled. cbn. apply andb_false_r. }
    cbn [left_] in B. lia.
Qed.

(** A packet that should get through does *)
Lemma relay_lemma os s tr x k q empty chg a c2 el2 l2 e3 c3 el3 e4 l4 : run start os = (s, tr) -> wrk s (s_rtcp x) = Idle -> skt s x = true -> live s (s_call x) = true ->
  cmpl s (s_call x) = true -> inq s x = k :: q ->
  snd (rx (str s x) (if s_rtcp x then None else Some (str s (rtcp_of x))) empty (k_h k)) = Accept ->
  plr s (peer x) = false -> known_address s (peer x) = Some a ->
  snd (run s [Turn x; Step (s_rtcp x) empty c2 el2 l2; Step (s_rtcp x) e3 chg NOP NOP; Step (s_rtcp x) e4 c3 el3 l4]) = [ETurn x; ETtl x; ESend (peer x) a k].
Proof.
  intros R W K L C Q V P A. assert (I := run_inv _ _ _ _ start_inv R).
  set (s1 := set_wrk s (s_rtcp x) (Rx x (DRAIN - 1))).
  assert (S1 : step s (Turn x) = (s1, [ETurn x])). { cbn [step]. rewrite W, K, L. cbn [andb negb]. rewrite C. reflexivity. }
  assert (I1 := step_inv _ _ _ _ I S1).
  rewrite run_cons, S1.
  assert (S2 : exists l c', step s1 (Step (s_rtcp x) empty c2 el2 l2) = (set_wrk (after_rx (with_queue s1 x q) x l c') (s_rtcp x) (Hold x (DRAIN - 1) k), []) /\
     match c' with Some _ => s_rtcp x = false | None => True end).
  { cbn [step]. unfold s1 at 1. rewrite set_wrk_same, receive_eq. change (inq s1 x) with (inq s x). rewrite Q. change (str s1) with (str s).
    destruct (rx (str s x) _ empty (k_h k)) as [[l c'] v] eqn:Rx. cbn in V. subst v. exists l, c'. split; [reflexivity|]. apply rx_c in Rx. destruct (s_rtcp x), c'; auto; contradiction. }
  destruct S2 as (l & c' & S2 & Hc). set (s2 := set_wrk (after_rx (with_queue s1 x q) x l c') (s_rtcp x) (Hold x (DRAIN - 1) k)) in *.
  assert (I2 := step_inv _ _ _ _ I1 S2). rewrite run_cons, S2.
  destruct (after_rx_rest (with_queue s1 x q) x l c') as (K2&_&P2&_&_&_&_&_&_&_&_&_&_&_).
  assert (A2 : known_address s2 (peer x) = Some a).
  { unfold known_address, s2. cbn [skt set_wrk str]. rewrite K2. cbn [skt with_queue set_g set_inq]. change (skt s1) with (skt s). unfold known_address in A.
    destruct (skt s (peer x)); [|discriminate]. unfold after_rx. destruct c'; unfold update_sendable; cbn [str set_snd set_str with_queue set_g set_inq];
    rewrite ?sset_other; auto using peer_ne. unfold peer, rtcp_of. intros E. injection E as E1 E2. destruct (s_side x); discriminate. }
  set (s2a := analysed_state s2 x k chg).
  assert (Sn : snd_ s2a (peer x) = true).
  { unfold s2a. rewrite (i_snd _ (analysed_inv s2 x k chg I2)). destruct (analysed_rest s2 x k chg) as (K3&_). rewrite K3, analyze_other by apply peer_ne.
    unfold known_address in A2. unfold has. destruct (skt s2 (peer x)); [|discriminate]. rewrite A2. reflexivity. }
  set (s3 := set_wrk s2a (s_rtcp x) (Ready x (DRAIN - 1) k)).
  assert (S3 : step s2 (Step (s_rtcp x) e3 chg NOP NOP) = (s3, [ETtl x])).
  { cbn [step]. unfold s2 at 1. rewrite set_wrk_same, handle_eq. cbv zeta. fold s2a. rewrite Sn.
    assert (P3 : plr s2a (peer x) = false). { unfold s2a. destruct (analysed_rest s2 x k chg) as (_&_&P3&_). rewrite P3. unfold s2. cbn [plr set_wrk]. rewrite P2. exact P. }
    rewrite P3. reflexivity. }
  assert (I3 := step_inv _ _ _ _ I2 S3). rewrite run_cons, S3.
  assert (A3 : known_address s3 (peer x) = Some a).
  { unfold known_address, s3. cbn [skt set_wrk str]. unfold s2a. destruct (analysed_rest s2 x k chg) as (K3&_). rewrite K3, analyze_other by apply peer_ne. exact A2. }
  rewrite run_cons. cbn [step run]. unfold s3 at 1. rewrite set_wrk_same. destruct (transmit_eq s3 (s_rtcp x) x (DRAIN - 1) k I3 Sn) as (a' & Ka & Ra & ->).
  unfold known_address in A3. rewrite Ka in A3. rewrite Ra in A3. injection A3 as ->. reflexivity.
Qed.

(** The end of a session *)
Lemma idle_way s c x : busy s c = false -> s_call x = c -> on_way_out s x = 0.
Proof.
  intros B E. unfold on_way_out. unfold busy in B. apply orb_false_iff in B as [B0 B1].
  assert (Bx : match wrk s (s_rtcp x) with Idle => false | Rx y _ | Hold y _ _ | Ready y _ _ => Nat.eqb (s_call y) c end = false) by (destruct (s_rtcp x); auto).
  destruct (wrk s (s_rtcp x)) as [|y nd|y nd k|y nd k]; auto; destruct (sid_eq_dec y x) as [->|]; auto. rewrite E, Nat.eqb_refl in Bx. discriminate.
Qed.
Lemma end_npin os s tr c x : run start os = (s, tr) -> busy s c = false -> s_call x = c -> npin s x = seen tr x.
Proof. intros R B E. rewrite (npin_lemma _ _ _ x R), (idle_way s c x B E). unfold seen. f_equal. lia. Qed.
Lemma pipe_end_in s c b : let o := npin s (mkSid c b false) in let a := npin s (mkSid c b true) in
  (forall b' , In (ENoMedia c b') (pipe_end s c b) <-> b' = b /\ cmpl s c = true /\ o = 0 /\ a = 0) /\
  (forall b', In (EOneWay c b') (pipe_end s c b) <-> b' = b /\ cmpl s c = true /\ (o = 0 /\ a <> 0 \/ o <> 0 /\ a = 0)) /\
  (forall b' x1 x2 x3 x4 x5, In (EReport c b' x1 x2 x3 x4 x5) (pipe_end s c b) <-> b' = b /\ x1 = o /\ x2 = a /\ x3 = reld s c b /\ x4 = drop s c b /\ x5 = ignr s c b).
Proof.
  cbv zeta. unfold pipe_end. set (o := npin s (mkSid c b false)). set (a := npin s (mkSid c b true)).
  destruct (cmpl s c); cbn [negb].
  - destruct (o =? 0) eqn:O, (a =? 0) eqn:A; cbn [andb orb]; destruct b; cbn [app]; repeat split; intros; cbn in *;
      try (intuition (try congruence; try lia; try discriminate); fail).
  - destruct b; cbn [app]; repeat split; intros; cbn in *; intuition (try congruence; try discriminate).
Qed.

(** A flood *)
Definition x0 := mkSid 0 false false.
Definition adr := SaIn 1 1000.
Definition bad := mkPkt {| p_from := SaIn 2 2000; p_time := 20000000; p_rtp := None |} [].
Definition setup : list op := [Open x0; Complete 0; Prefill x0 adr 1; Lock x0].
Definition l0 : stream := str (fst (run start setup)) x0.
Definition P (s : st) (l : list pkt) (w : wpc) : Prop :=
  skt s x0 = true /\ live s 0%nat = true /\ cmpl s 0%nat = true /\ str s x0 = l0 /\ inq s x0 = l /\ wrk s false = w.
Lemma flood_arrive n : forall s l w, P s l w -> P (fst (run s (repeat (Arrive x0 bad) n))) (l ++ repeat bad n) w.
Proof.
  induction n as [|n IH]; intros s l w H; [rewrite app_nil_r; exact H|]. cbn [repeat]. rewrite run_cons. destruct H as (K & L & C & E & Q & W).
  destruct (step s (Arrive x0 bad)) as [s1 e1] eqn:S1. cbn [step] in S1. change (s_call x0) with 0%nat in S1. rewrite K, L in S1. cbn [andb] in S1.
  apply pair_equal_spec in S1 as [<- <-]. specialize (IH (set_inq s (sset (inq s) x0 (inq s x0 ++ [bad]))) (l ++ [bad]) w).
  destruct (run _ (repeat (Arrive x0 bad) n)) as [s2 e2]. cbn [fst] in *. rewrite <- app_assoc in IH. apply IH. repeat split; auto. cbn [inq set_inq]. rewrite sset_same, Q. reflexivity.
Qed.
Lemma flood_ignore n : forall s, P s (repeat bad n) (Rx x0 0) -> count isignored (fates (snd (run s (repeat (Step false false false NOP NOP) n))) x0) = Z.of_nat n.
Proof.
  induction n as [|n IH]; intros s H; [reflexivity|]. cbn [repeat]. rewrite run_cons. destruct H as (K & L & C & E & Q & W).
  destruct (step s (Step false false false NOP NOP)) as [s1 e1] eqn:S1. cbn [step] in S1. rewrite W, receive_eq, Q in S1. cbn [repeat] in S1.
  change (s_rtcp x0) with false in S1. cbv iota in S1. rewrite E in S1.
  assert (R : rx l0 (Some (str s (rtcp_of x0))) false (k_h bad) = (l0, Some (str s (rtcp_of x0)), Discard)) by reflexivity.
  rewrite R in S1. cbv zeta iota beta in S1. apply pair_equal_spec in S1 as [<- <-].
  set (s2 := after_rx (with_queue s x0 (repeat bad n)) x0 l0 (Some (str s (rtcp_of x0)))).
  destruct (after_rx_rest (with_queue s x0 (repeat bad n)) x0 l0 (Some (str s (rtcp_of x0)))) as (K2 & Q2 & _ & _ & _ & _ & _ & _ & _ & _ & _ & L2 & C2 & W2). fold s2 in K2, Q2, L2, C2, W2.
  specialize (IH (next (set_g (set_cnt s2 (reld s2) (drop s2) (padd (ignr s2) x0)) (g_rcvd s2) (g_reld s2) (g_disc s2 + 1)) false x0 (0 + 1))).
  destruct (run _ (repeat (Step false false false NOP NOP) n)) as [s3 e3]. cbn [snd] in *. rewrite fates_app, count_app, IH.
  - rewrite (one_fate [EIgnore x0 bad] x0 (bad, Ignored)) by reflexivity. destruct (sid_eq_dec x0 x0); [|congruence]. rewrite count1. cbn [isignored snd]. lia.
  - unfold P, next. cbn [skt live cmpl str inq set_wrk set_g set_cnt]. rewrite K2, L2, C2, Q2. cbn [with_queue skt live cmpl inq set_g set_inq].
    rewrite sset_same. split; [exact K|]. split; [exact L|]. split; [exact C|]. split; [|split; [reflexivity|rewrite set_wrk_same; reflexivity]].
    unfold s2, after_rx, update_sendable. cbn [str set_snd set_str]. rewrite sset_other by discriminate. apply sset_same.
Qed.
Lemma flood_lemma n : exists os0 x os s0 tr0, run start os0 = (s0, tr0) /\ wrk s0 (s_rtcp x) = Idle /\ Forall (no_turn (s_rtcp x)) os /\
  count isignored (fates (snd (run s0 (Turn x :: os))) x) = Z.of_nat n.
Proof.
  exists (setup ++ repeat (Arrive x0 bad) n), x0, (repeat (Step false false false NOP NOP) n).
  destruct (run start (setup ++ repeat (Arrive x0 bad) n)) as [s0 tr0] eqn:R. exists s0, tr0.
  assert (A : P s0 (repeat bad n) Idle).
  { rewrite run_app in R. assert (A0 : P (fst (run start setup)) [] Idle) by (repeat split).
    destruct (run start setup) as [s1 e1]. cbn [fst] in A0. apply (flood_arrive n) in A0. destruct (run s1 _) as [s2 e2]. apply pair_equal_spec in R as [<- _]. exact A0. }
  assert (A' := A). destruct A' as (K & L & C & E & Q & W). split; [reflexivity|]. split; [exact W|]. split; [apply Forall_forall; intros o Ho; apply repeat_spec in Ho; subst o; exact Logic.I|].
  rewrite run_cons. cbn [step]. change (s_rtcp x0) with false. change (s_call x0) with 0%nat. rewrite W, K, L. cbn [andb negb]. rewrite C. change (DRAIN - 1) with 0.
  assert (B := flood_ignore n (set_wrk s0 false (Rx x0 0))). destruct (run (set_wrk s0 false (Rx x0 0)) _) as [s2 e2]. cbn [snd] in *. rewrite fates_app, count_app.
  change (count isignored (fates [ETurn x0] x0)) with 0. rewrite B; [lia|]. repeat split; auto.
Qed.

Lemma end_lemma os s tr c s' ev : run start os = (s, tr) -> step s (End c) = (s', ev) -> ev <> [] ->
  (forall b callee caller rl dr ig, In (EReport c b callee caller rl dr ig) ev <->
     callee = seen tr (mkSid c b false) /\ caller = seen tr (mkSid c b true) /\ rl = count relayed (pipe_fates tr c b) mod M64 /\
     dr = count isdropped (pipe_fates tr c b) mod M64 /\ ig = count isignored (pipe_fates tr c b) mod M64) /\
  (forall b, In (ENoMedia c b) ev <-> cmpl s c = true /\ seen tr (mkSid c b false) = 0 /\ seen tr (mkSid c b true) = 0) /\
  (forall b, In (EOneWay c b) ev <-> cmpl s c = true /\
     (seen tr (mkSid c b false) = 0 /\ seen tr (mkSid c b true) <> 0 \/ seen tr (mkSid c b false) <> 0 /\ seen tr (mkSid c b true) = 0)).
Proof.
  intros R H N. cbn [step] in H. destruct (busy s c || negb (live s c)) eqn:B; apply pair_equal_spec in H as [_ <-]; [congruence|]. apply orb_false_iff in B as [B _].
  assert (Q : forall b d, npin s (mkSid c b d) = seen tr (mkSid c b d)) by (intros; eapply end_npin; eauto).
  assert (Ls : forall e, In e (map (fun x => ELost x (inq s x)) (streams_of c)) -> exists x l, e = ELost x l) by (intros e He; apply in_map_iff in He as (x & <- & _); eauto).
  destruct (pipe_end_in s c false) as (F1 & F2 & F3). destruct (pipe_end_in s c true) as (T1 & T2 & T3). rewrite !Q in *.
  assert (Pl : forall b, reld s c b = count relayed (pipe_fates tr c b) mod M64 /\ drop s c b = count isdropped (pipe_fates tr c b) mod M64 /\
    ignr s c b = count isignored (pipe_fates tr c b) mod M64) by (intros b; eapply pipe_lemma; eauto).
  split; [|split].
  - intros b callee caller rl dr ig. rewrite !in_app_iff, F3, T3. destruct (Pl false) as (-> & -> & ->). destruct (Pl true) as (-> & -> & ->). split.
    + intros [(-> & E)|[(-> & E)|E]]; auto. apply Ls in E as (x & l & E). discriminate.
    + intros E. destruct b; auto.
  - intros b. rewrite !in_app_iff, F1, T1. split.
    + intros [(-> & E)|[(-> & E)|E]]; auto. apply Ls in E as (x & l & E). discriminate.
    + intros E. destruct b; auto.
  - intros b. rewrite !in_app_iff, F2, T2. split.
    + intros [(-> & E)|[(-> & E)|E]]; auto. apply Ls in E as (x & l & E). discriminate.
    + intros E. destruct b; auto.
Qed.
