(** C23: a repeated command is answered from the cache. *)
From Verif Require Import Base RcacheModel RcacheSpec RcacheProof.

(** For every history of datagrams, replies and clean-ups, any hash function, debug build or not:
    once a command with cookie [c] received at [t] has been answered with [r] and the answer stored,
    then as long as no clean-up runs later than [t] plus 35 s, the next datagram with that cookie is
    answered with the same bytes. *)
Theorem repeat_gets_the_reply : forall hash dbg es tr1 ex tr2 c t r t' o,
  snd (run hash (rc_ctor dbg) es) = tr1 ++ ex ++ tr2 ++ [(Recv c t', o)] -> answered ex c t r -> kept tr2 t -> o = Resend r.
Proof.
  intros hash dbg es tr1 ex tr2 c t r t' o E A K. pose proof (run_steps hash es (rc_ctor dbg)) as St. rewrite E in St.
  apply steps_app in St. destruct St as (s1 & S1 & St). apply steps_app in St. destruct St as (s2 & S2 & St).
  apply steps_app in St. destruct St as (s3 & S3 & St). apply steps_one in St. destruct St as [St N].
  destruct (steps_inv _ dbg _ _ _ _ (inv0 hash dbg) S1) as (al1 & I1 & _).
  destruct (answered_has _ dbg _ _ _ _ _ _ _ I1 S2 A) as (al2 & I2 & H2).
  destruct (has_keep _ dbg c (mkRe r (t + MIN_TTL)) t tr2 eq_refl _ _ _ I2 H2 S3 K) as (_ & al3 & I3 & H3).
  destruct (step_inv _ dbg _ _ (Recv c t') I3) as (al4 & _ & _ & M). rewrite St in M. cbn [fst snd] in M.
  destruct M as (_ & M & _). destruct (rc_pend s3) eqn:P.
  - cbn [step] in St. rewrite P in St. congruence.
  - destruct (M eq_refl _ H3). assumption.
Qed.
Print Assumptions repeat_gets_the_reply.

(** ... and no datagram with that cookie is executed meanwhile. *)
Theorem executed_once : forall hash dbg es tr1 ex tr2 c t r,
  snd (run hash (rc_ctor dbg) es) = tr1 ++ ex ++ tr2 -> answered ex c t r -> kept tr2 t -> not_executed tr2 c.
Proof.
  intros hash dbg es tr1 ex tr2 c t r E A K. pose proof (run_steps hash es (rc_ctor dbg)) as St. rewrite E in St.
  apply steps_app in St. destruct St as (s1 & S1 & St). apply steps_app in St. destruct St as (s2 & S2 & St).
  destruct (steps_inv _ dbg _ _ _ _ (inv0 hash dbg) S1) as (al1 & I1 & _).
  destruct (answered_has _ dbg _ _ _ _ _ _ _ I1 S2 A) as (al2 & I2 & H2).
  destruct (has_keep _ dbg c (mkRe r (t + MIN_TTL)) t tr2 eq_refl _ _ _ I2 H2 St K) as (X & _). exact X.
Qed.
Print Assumptions executed_once.

(** Conversely a reply is repeated only if it answered the latest execution of a command with this
    very cookie, and no clean-up later than its time has run since. *)
Theorem repeated_reply_is_genuine : forall hash dbg es tr c t' r,
  snd (run hash (rc_ctor dbg) es) = tr ++ [(Recv c t', Resend r)] ->
  exists tr1 ex tr2 t, tr = tr1 ++ ex ++ tr2 /\ answered ex c t r /\ kept tr2 t /\ not_executed tr2 c.
Proof.
  intros hash dbg es tr c t' r E. pose proof (run_steps hash es (rc_ctor dbg)) as St. rewrite E in St.
  apply steps_app in St. destruct St as (s1 & S1 & St). apply steps_one in St. destruct St as [St _].
  destruct (genuine_ok hash dbg _ _ S1) as (al & I & G & _).
  destruct (step_inv _ dbg _ _ (Recv c t') I) as (al4 & _ & _ & M). rewrite St in M. cbn [fst snd] in M.
  destruct M as (_ & _ & _ & _ & M). destruct (M r eq_refl) as (en & H & <-).
  destruct (G _ _ H) as (tr1 & ex & tr2 & t & A1 & A2 & _ & A3 & A4). exists tr1, ex, tr2, t. auto.
Qed.
Print Assumptions repeated_reply_is_genuine.

(** Replies do not stay for ever: after a clean-up later than the guaranteed time the command is
    executed again. *)
Theorem expired_reply_is_forgotten : forall hash dbg es tr1 ex tr2 c t r t' o x q,
  snd (run hash (rc_ctor dbg) es) = tr1 ++ ex ++ tr2 ++ [(Recv c t', o)] -> answered ex c t r ->
  In (Tick x, q) tr2 -> t + KEEP < x -> not_executed tr2 c -> o = Execute.
Proof.
  intros hash dbg es tr1 ex tr2 c t r t' o x q E A Hin Hx K. pose proof (run_steps hash es (rc_ctor dbg)) as St. rewrite E in St.
  apply steps_app in St. destruct St as (s1 & S1 & St). apply steps_app in St. destruct St as (s2 & S2 & St).
  apply steps_app in St. destruct St as (s3 & S3 & St). apply steps_one in St. destruct St as [St N].
  destruct (steps_inv _ dbg _ _ _ _ (inv0 hash dbg) S1) as (al1 & I1 & _).
  destruct (answered_has _ dbg _ _ _ _ _ _ _ I1 S2 A) as (al2 & I2 & H2).
  assert (P2 : forall t0, rc_pend s2 <> Some (c, t0)).
  { destruct A as (ticks & mem & ->). apply steps_cons in S2. destruct S2 as (x1 & _ & _ & S2). apply steps_app in S2. destruct S2 as (x2 & _ & S2).
    apply steps_one in S2. destruct S2 as [S2 _]. cbn [step] in S2. destruct (rc_pend x2) as [[c2 t2]|]; [|congruence].
    unfold rc_insert in S2. cbn [negb rc_pend rc_ents rc_ht] in S2. destruct (HashModel.ht_append _ _ _ _ _ _ _ _) in S2; try congruence. injection S2 as <-. discriminate. }
  destruct (has_expire _ dbg c (mkRe r (t + MIN_TTL)) t tr2 x q eq_refl Hin Hx _ _ _ I2 H2 P2 S3 K) as (al3 & I3 & H3 & _).
  cbn [step] in St. destruct (rc_pend s3); [congruence|]. destruct (rc_lookup hash s3 c) as [en|] eqn:L; [|congruence].
  exfalso. apply (lookup_some _ _ _ _ _ _ I3) in L. exact (H3 _ L).
Qed.
Print Assumptions expired_reply_is_forgotten.

(** The table's duplicate check (fatal in debug builds) never fires. *)
Theorem rcache_never_aborts : forall hash dbg es e, ~ In (e, Abort) (snd (run hash (rc_ctor dbg) es)).
Proof.
  intros hash dbg es e. destruct (steps_inv _ dbg _ _ _ _ (inv0 hash dbg) (run_steps hash es (rc_ctor dbg))) as (_ & _ & H). apply H.
Qed.
Print Assumptions rcache_never_aborts.

(** Two clients, a retransmission before and after the expiry; all cookies collide. *)
Example rcache_ex :
  let es := [Recv [49] 1000; Tick 2000; Finish [79; 75] true true; Recv [50] 1500; Recv [49] 1600; NoReply; Recv [49] 36000;
             Tick 36000; Recv [49] 36000; Tick 36001; Recv [49] 36002] in
  map snd (snd (run (fun _ => 3) (rc_ctor true) es)) =
  [Execute; Quiet; Sent [79; 75]; Execute; Quiet; Resend [79; 75]; Quiet; Resend [79; 75]; Quiet; Execute].
Proof. vm_compute. reflexivity. Qed.
Example rcache_hyp_ex :
  snd (run (fun _ => 3) (rc_ctor false) [Recv [49] 1000; Tick 2000; Finish [79; 75] true true; Tick 36000; Recv [49] 36000]) =
    [] ++ [(Recv [49] 1000, Execute); (Tick 2000, Quiet); (Finish [79; 75] true true, Sent [79; 75])] ++ [(Tick 36000, Quiet)] ++ [(Recv [49] 36000, Resend [79; 75])] /\
  answered [(Recv [49] 1000, Execute); (Tick 2000, Quiet); (Finish [79; 75] true true, Sent [79; 75])] [49] 1000 [79; 75] /\
  kept [(Tick 36000, Quiet)] 1000.
Proof.
  split; [vm_compute; reflexivity|]. split; [exists [2000], true; reflexivity|].
  intros x o [E|[]]. injection E as <- <-. cbv. discriminate.
Qed.
