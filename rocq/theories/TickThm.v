(** C71: lines on the standard error stream. *)
From Verif Require Import Base Str TickModel TickSpec TickProof.

Section T.
  Context (n : nat) (start : Z) (ops : list top) (Hn : Z.of_nat n <= uint_mod) (Hs : 0 <= start < uint_mod)
          (Ho : Forall (fun o => (op_thread o < n)%nat) ops).
  Lemma um : 0 < uint_mod. Proof. reflexivity. Qed.
  Lemma reached : exists k h ws ls done, inv uint_mod n (trun uint_mod (tl_init start) ops) k h ws ls done.
  Proof. exact (inv_run uint_mod n um Hn ops _ _ _ _ _ _ Ho (inv_init uint_mod n start Hs)). Qed.
End T.

(** Lines are whole and in the order of the tickets, whatever the order of the steps of up to 2^32 threads, from any
    value of the counters, which wrap *)
Theorem tick_whole n start ops : Z.of_nat n <= uint_mod -> 0 <= start < uint_mod -> Forall (fun o => (op_thread o < n)%nat) ops ->
  whole_lines (trun uint_mod (tl_init start) ops).
Proof.
  intros Hn Hs Ho. destruct (reached n start ops Hn Hs Ho) as (k & h & ws & ls & done & I). exists done, (hline h ++ ls), (hpart h).
  split; [exact (i_asked _ _ _ _ _ _ _ _ I)|]. split; [exact (i_strm _ _ _ _ _ _ _ _ I)|].
  destruct h as [|t w l]; cbn [hline hpart app]; [destruct ls as [|l ls]; [reflexivity | exists l; reflexivity] | exists l; reflexivity].
Qed.
Print Assumptions tick_whole.
Example tick_whole_ex : let s := trun uint_mod (tl_init (uint_mod - 1)) [OTicket 0 [1; 2]; OTicket 1 [3; 4]; OLook 1; OLook 0; OPiece 0; OPiece 1; OPiece 0; ORelease 0; OLook 1; OPiece 1] in
  strm s = [1; 2; 3] /\ asked s = [[1; 2]; [3; 4]] /\ now_serving s = 0.
Proof. repeat split. Qed.

(** One thread writes at a time *)
Theorem tick_one n start ops t u : Z.of_nat n <= uint_mod -> 0 <= start < uint_mod -> Forall (fun o => (op_thread o < n)%nat) ops ->
  let s := trun uint_mod (tl_init start) ops in is_in (th s t) -> is_in (th s u) -> t = u.
Proof.
  cbv zeta. intros Hn Hs Ho. destruct (reached n start ops Hn Hs Ho) as (k & h & ws & ls & done & I).
  assert (X : forall v, is_in (th (trun uint_mod (tl_init start) ops) v) -> hth h = [v]).
  { intros v V. destruct (in_dec_nat v (hth h ++ ws)) as [J|J]; [|rewrite (i_idle _ _ _ _ _ _ _ _ I v J) in V; destruct V]. apply in_app_or in J. destruct J as [J|J].
    - destruct h; [destruct J|]. destruct J as [->|[]]. reflexivity.
    - destruct (waits_in uint_mod n um _ _ _ _ _ (i_wait _ _ _ _ _ _ _ _ I) J) as (i & l & _ & E). rewrite E in V. destruct V. }
  intros A B. apply X in A. apply X in B. congruence.
Qed.
Print Assumptions tick_one.

(** The lock is never stuck: if a thread waits and none writes, one of those that wait gets in when it looks *)
Theorem tick_progress n start ops t k l : Z.of_nat n <= uint_mod -> 0 <= start < uint_mod -> Forall (fun o => (op_thread o < n)%nat) ops ->
  let s := trun uint_mod (tl_init start) ops in
  th s t = TWait k l -> (forall u, ~ is_in (th s u)) -> exists u, is_in (th (tstep uint_mod s (OLook u)) u).
Proof.
  cbv zeta. intros Hn Hs Ho E NI. destruct (reached n start ops Hn Hs Ho) as (k' & h & ws & ls & done & I).
  destruct h as [|u w l']; [|exfalso; apply (NI u); pose proof (i_head _ _ _ _ _ _ _ _ I) as H; cbv beta iota in H; rewrite H; exact Logic.I].
  pose proof (i_wait _ _ _ _ _ _ _ _ I) as W. destruct ws as [|u ws].
  { rewrite (i_idle _ _ _ _ _ _ _ _ I t) in E by (intros []). discriminate. }
  destruct ls as [|l2 ls]; cbn [waits] in W; [contradiction|]. destruct W as [W _]. exists u. cbn [tstep]. rewrite W.
  rewrite (i_serv _ _ _ _ _ _ _ _ I). cbn [hth length]. rewrite Z.add_0_r, Z.eqb_refl. cbn [th]. rewrite set_same. exact Logic.I.
Qed.
Print Assumptions tick_progress.
Example tick_progress_ex : let s := trun uint_mod (tl_init 5) [OTicket 0 [1]; OTicket 1 [2]; OLook 0; OPiece 0; ORelease 0] in
  th s 1%nat = TWait 6 [2] /\ th s 0%nat = TIdle /\ th (tstep uint_mod s (OLook 1)) 1%nat = TIn [] [2].
Proof. repeat split. Qed.

(** The bound on the number of threads is needed: with counters of one bit three threads break it *)
Theorem tick_unbounded_refuted : ~ (forall m start ops t u, 0 <= start < m ->
  let s := trun m (tl_init start) ops in is_in (th s t) -> is_in (th s u) -> t = u).
Proof.
  intros H. specialize (H 2 0 [OTicket 0 [1]; OTicket 1 [2]; OTicket 2 [3]; OLook 0; OLook 2] 0%nat 2%nat ltac:(lia) Logic.I Logic.I). discriminate.
Qed.
Print Assumptions tick_unbounded_refuted.

(** "The error reported is the one at the call" is false: waiting for the lock may change it *)
Theorem tick_errno_refuted : ~ (forall e sleeps, reported e sleeps = e).
Proof. intros H. specialize (H 98 [None; Some 4]). discriminate. Qed.
Print Assumptions tick_errno_refuted.

(** Names of levels: any case, one level each, and back *)
Theorem tick_levels s l : (exists name, In (name, l) levels /\ Forall2 same_letter s name) <-> (str2lvl s = l /\ l <> -1).
Proof.
  unfold str2lvl, caseeq. split.
  - intros (name & I & E). apply low_same in E. unfold levels in I. cbn [In] in I. rewrite E.
    repeat (destruct I as [I|I]; [injection I as <- <-; split; [reflexivity | discriminate]|]). destruct I.
  - unfold levels. cbn [In]. intros [E N].
    repeat match type of E with (if beq ?a (map low ?b) then _ else _) = _ =>
      let Q := fresh "Q" in destruct (beq a (map low b)) eqn:Q;
        [apply beq_eq in Q; exists b; split; [subst l; unfold L_DBUG, L_INFO, L_WARN, L_ERR, L_CRIT; tauto | apply low_same; exact Q]|] end.
    congruence.
Qed.
Print Assumptions tick_levels.
Theorem tick_level_names l name : strlvl l = Some name <-> In (name, l) levels.
Proof.
  unfold strlvl, levels, L_DBUG, L_INFO, L_WARN, L_ERR, L_CRIT. cbn [In]. split.
  - intros E. repeat match type of E with (if ?a =? ?b then _ else _) = _ => destruct (Z.eqb_spec a b); [subst; injection E as <-; tauto|] end. discriminate.
  - intros I. repeat (destruct I as [I|I]; [injection I as <- <-; reflexivity|]). destruct I.
Qed.
Print Assumptions tick_level_names.
Example tick_level_names_ex : strlvl 3 = Some (B "ERR") /\ strlvl 5 = None.
Proof. split; reflexivity. Qed.

(** A level shows itself and all that are more severe, and no others *)
Theorem tick_shown i j a b na nb : nth_error levels i = Some (na, a) -> nth_error levels j = Some (nb, b) -> shown a b = true <-> (i <= j)%nat.
Proof.
  intros A B. do 5 (destruct i as [|i]; [do 5 (destruct j as [|j]; [injection A as <- <-; injection B as <- <-; cbn; split; (discriminate || lia || reflexivity)|]); destruct j; discriminate|]). destruct i; discriminate.
Qed.
Print Assumptions tick_shown.
Example tick_shown_ex : str2lvl (B "warn") = 4 /\ shown 4 L_ERR = true /\ shown 4 L_INFO = false.
Proof. repeat split. Qed.
