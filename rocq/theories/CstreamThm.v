(** C37: stream control connections. *)
From Verif Require Import Base Str CstreamModel CstreamSpec CstreamProof.
Local Opaque BUFLEN.

(** However the bytes are split into segments and reads, nothing is stored outside of a buffer and
    the commands made so far are the lines of the bytes read so far, in order; what was read is a
    prefix of what arrived, and all of it but what is still in the socket while the connection is open. *)
Theorem stream_framing : forall alloc es, exists w got tail,
  run alloc world0 es = Some w /\
  lines_of got (map fst (w_seen w)) tail /\
  (exists rest, arrived es = got ++ rest) /\
  (w_closed w = false -> arrived es = got ++ w_sock w) /\
  (forall i l b, nth_error (w_seen w) i = Some (l, b) -> b = alloc i).
Proof.
  intros alloc es. destruct (run_inv alloc es world0 [] [] (inv0 alloc)) as (w & got & E & [O A P L AL]).
  exists w, got, (win (w_conn w)). split; [exact E|]. split; [exact L|]. split; [exact P|]. split; [exact A|exact AL].
Qed.
Print Assumptions stream_framing.

(** Serving a readable connection reads at least a byte and keeps it open, unless the peer has closed
    it or a line of 8192 bytes has not ended: then, and only then, it is closed. *)
Theorem stream_progress : forall alloc es n w got tail,
  run alloc world0 es = Some w -> w_closed w = false -> lines_of got (map fst (w_seen w)) tail -> arrived es = got ++ w_sock w ->
  exists w', step alloc w (Serve n) = Some w' /\
    (w_closed w' = true <-> w_sock w = [] \/ Z.of_nat (length tail) = 8192) /\
    (w_closed w' = false -> exists bs, bs <> [] /\ w_sock w = bs ++ w_sock w' /\
       exists tail', lines_of (got ++ bs) (map fst (w_seen w')) tail').
Proof.
  intros alloc es n w got tail R C L A.
  destruct (run_inv alloc es world0 [] [] (inv0 alloc)) as (w0 & g & E & I). rewrite R in E. injection E as <-. cbn [app] in I.
  pose proof I as [O A1 _ L1 _]. specialize (A1 C). assert (g = got) by (rewrite A in A1; apply app_inv_tail in A1; auto). subst g.
  destruct (lines_det _ _ _ _ _ L L1) as [_ ->].
  destruct (step_inv alloc w _ got (Serve n) I) as (w' & g' & E & I' & _ & H). exists w'. split; [exact E|]. specialize (H C). cbn [app] in H. destruct H as [Hg Hc].
  assert (B8 : Z.of_nat BUFLEN = 8192) by reflexivity.
  split; [rewrite Hc; split; intros [X|X]; auto; right; lia|].
  intros C'. destruct I' as [_ A2 _ L2 _]. specialize (A2 C'). rewrite app_nil_r in A2. exists (firstn (Nat.min (BUFLEN - length (win (w_conn w))) (S n)) (w_sock w)).
  assert (Lw : (length (win (w_conn w)) <= BUFLEN)%nat) by (rewrite win_len by exact O; destruct O; lia).
  assert (N : ~ (w_sock w = [] \/ length (win (w_conn w)) = BUFLEN)) by (rewrite <- Hc; congruence).
  split; [|split].
  - intros X. destruct (w_sock w) as [|x t]; [tauto|]. destruct (BUFLEN - length (win (w_conn w)))%nat eqn:EE; [lia|]. discriminate.
  - rewrite Hg in A2. rewrite A1, <- app_assoc in A2. apply app_inv_head in A2. exact A2.
  - exists (win (w_conn w')). rewrite <- Hg. exact L2.
Qed.
Print Assumptions stream_progress.

(** The commands depend on the bytes read, not on how they were split. *)
Theorem stream_segmentation : forall alloc es es' w w',
  run alloc world0 es = Some w -> run alloc world0 es' = Some w' -> w_closed w = false -> w_closed w' = false ->
  w_sock w = [] -> w_sock w' = [] -> arrived es = arrived es' -> w_seen w = w_seen w'.
Proof.
  intros alloc es es' w w' R R' C C' HS HS' E.
  destruct (stream_framing alloc es) as (w0 & g & t & R0 & L & _ & A & AL). rewrite R in R0. injection R0 as <-. specialize (A C). rewrite HS, app_nil_r in A.
  destruct (stream_framing alloc es') as (w0 & g' & t' & R0 & L' & _ & A' & AL'). rewrite R' in R0. injection R0 as <-. specialize (A' C'). rewrite HS', app_nil_r in A'.
  rewrite <- A, E in L. rewrite <- A' in L'. destruct (lines_det _ _ _ _ _ L L') as [X _]. clear - X AL AL'.
  revert X AL AL'. generalize (w_seen w), (w_seen w'). intros l l' X. 
  assert (G : forall k, (forall i x b, nth_error l i = Some (x, b) -> b = alloc (k + i)%nat) -> (forall i x b, nth_error l' i = Some (x, b) -> b = alloc (k + i)%nat) -> l = l').
  { revert l' X. induction l as [|[x b] l IH]; intros [|[x' b'] l'] X k A A'; cbn in X; try discriminate; [reflexivity|]. injection X as -> X. f_equal.
    - rewrite (A 0%nat x' b eq_refl), (A' 0%nat x' b' eq_refl). reflexivity.
    - apply (IH l' X (S k)); intros i y c H; [rewrite (A (S i) y c H)|rewrite (A' (S i) y c H)]; f_equal; lia. }
  intros A A'. apply (G 0%nat); assumption.
Qed.
Print Assumptions stream_segmentation.

Definition ex_events : list event := [Arrive (B "V"); Serve 100; Arrive (B "
I
D"); Serve 0; Serve 0; Serve 5].
Example stream_ex : exists w, run (fun i => (i <? 5)%nat) world0 ex_events = Some w /\ w_seen w = [(B "V", true); (B "I", true)] /\ w_closed w = false /\ w_sock w = [].
Proof. eexists. split; [vm_compute; reflexivity|]. repeat split. Qed.
(** An over-long line: 8192 bytes without a newline fill the buffer, and the next round closes. *)
Example stream_overlong : exists w, run (fun _ => true) world0 [Arrive (repeat 65 (Z.to_nat 9000)); Serve (Z.to_nat 10000); Serve 0] = Some w /\ w_closed w = true /\ w_seen w = [].
Proof. eexists. split; [vm_compute; reflexivity|]. split; reflexivity. Qed.
