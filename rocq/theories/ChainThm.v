(** C59: commands with sub-commands. *)
From Verif Require Import Base SessModel SessSpec SessProof ChainModel ChainSpec ChainProof.
From Verif Require TtlModel.
Import TtlModel (max_ttl, cur_ttl).

Section thms.
Context (sh : bool) (setup mx tos : Z) (v4 : Z -> bool).
Notation step := (ChainModel.step sh setup mx tos v4).
Notation run := (ChainModel.run sh setup mx tos v4).
Notation start0 := (sys0 sh setup mx tos v4).

(** Every history of commands with sub-commands comes to an end, and leaves a table that some history of commands without sub-commands leaves. *)
Theorem chains_do_what_commands_do : forall cs, exists y l ds, run start0 cs = Some (y, l, ds) /\ exists es tr, SessModel.run table0 es = Some (y_tb y, tr).
Proof.
  intros cs. destruct (run_plain sh setup mx tos v4 cs start0 good0) as (y & l & d & E & _ & P). exists y, l, d. split; [exact E|exact P].
Qed.

(** The sub-commands are run in order up to the first that fails; none is run when the command itself fails. *)
Theorem subcommands_stop_at_failure : forall cs y l ds m subs y' rep rs d, run start0 cs = Some (y, l, ds) -> step y (chain m subs) = Some (y', (rep, rs), d) ->
  ((rep = RErr \/ rep = RZero) /\ rs = [] /\ d = []) \/ (((exists p a, rep = RPort p a) \/ rep = ROk) /\ stops_at_failure subs rs).
Proof.
  intros cs y l ds m subs y' rep rs d R E. destruct (reach _ _ _ _ _ _ _ _ _ R) as (_ & G).
  destruct (start sh setup mx tos v4 y m G) as [(y1 & rep1 & S & F)|(y1 & rep1 & k & S & F & _)]; rewrite S in E.
  - injection E as <- <- <- <-. left. auto.
  - right. unfold then_subs in E. destruct (run_subs v4 y1 k subs) as [[[y2 rs2] d2]|] eqn:E2; [|discriminate]. injection E as <- <- <- <-. split; [exact F|]. eapply stops. exact E2.
Qed.

(** A lookup as sub-command of an update does what the lookup with the same tags does after the update. *)
Theorem lookup_subcommand_is_lookup : forall cs y l ds call from to u ls refuse pre y1 p a rs d u2 l2,
  run start0 cs = Some (y, l, ds) -> Forall calm pre ->
  step y (CUpdate call from to u ls refuse pre) = Some (y1, (RPort p a, rs), d) -> Forall (fun r => fst r = 0) rs ->
  exists y2 rep, step y1 (CLookup call from to u2 l2 []) = Some (y2, (rep, []), []) /\
    step y (CUpdate call from to u ls refuse (pre ++ [SubL u2 l2])) =
      Some (y2, (RPort p a, rs ++ [match rep with RPort _ _ => (0, Some rep) | _ => (-1, None) end]), d).
Proof.
  intros cs y l ds call from to u ls refuse pre y1 p a rs d u2 l2 R C E F. destruct (reach _ _ _ _ _ _ _ _ _ R) as (_ & G).
  set (m := MUpdate call from to u ls refuse). change (CUpdate call from to u ls refuse) with (chain m) in *.
  destruct (start sh setup mx tos v4 y m G) as [(ya & ra & S & W)|(ya & ra & k & S & W & G1 & K & _ & _ & _ & (side & _ & KI & _ & FS) & _)]; rewrite S in E |- *; [injection E as <- -> <- <-; destruct W; discriminate|].
  unfold then_subs in *. destruct (run_subs v4 ya k pre) as [[[yb rb] db]|] eqn:E2; [|discriminate]. injection E as <- -> <- <-.
  destruct (subs_app v4 pre ya k yb rb db G1 K E2 F) as (k1 & _ & _ & _ & _ & _ & CC & A). destruct (CC C) as (T & ->). rewrite A. cbn [m remote_side] in KI. cbn [ChainModel.step m m_call m_from m_to] in *. rewrite T, FS, <- KI.
  cbn [run_subs run_sub]. destruct (ul_one v4 yb false u2 l2 (k_s k) (k_in k)) as [[y2 s2] rep]. exists y2, rep. destruct rep; cbn [fst Z.eqb negb then_subs run_subs]; rewrite app_nil_r; auto.
Qed.

(** A delete as sub-command does what a delete command with the call and the tag of the session does, provided that the to tag of that command does not address anything. *)
Theorem delete_subcommand_is_delete : forall cs y l ds m pre y1 rep rs d, run start0 cs = Some (y, l, ds) ->
  step y (chain m pre) = Some (y1, (rep, rs), d) -> (exists p a, rep = RPort p a) \/ rep = ROk -> Forall (fun r => fst r = 0) rs ->
  forall to w, (forall x e, In x (t_ht (y_tb y1)) -> ~ tag_match (s_tag x) to e) ->
  exists y2 r, step y1 (CDelete (m_call m) (match find_stream (t_ht (y_tb y)) (m_call m) (m_from m) (m_to m) with Some (s, _) => s_tag s | None => m_from m end) to w) =
      Some (y2, (if r =? -1 then RErr else ROk, []), []) /\
    step y (chain m (pre ++ [SubD w])) = Some (y2, (rep, rs ++ [(r, None)]), d).
Proof.
  intros cs y l ds m pre y1 rep rs d R E V F to w UM. destruct (reach _ _ _ _ _ _ _ _ _ R) as (_ & G).
  destruct (start sh setup mx tos v4 y m G) as [(ya & ra & S & W)|(ya & ra & k & S & W & G1 & K & _ & KC & KT & _)]; rewrite S in E |- *; [injection E as <- -> <- <-; destruct V as [(p & a & ->)| ->], W; discriminate|].
  unfold then_subs in *. destruct (run_subs v4 ya k pre) as [[[yb rb] db]|] eqn:E2; [|discriminate]. injection E as <- -> <- <-.
  destruct (subs_app v4 pre ya k yb rb db G1 K E2 F) as (k1 & G2 & K2 & C1 & C2 & _ & _ & A). rewrite A, <- KT, <- KC, <- C1, <- C2.
  cbn [ChainModel.step run_subs run_sub].
  assert (U : unmatched (t_ht (y_tb yb)) to).
  { intros x X. destruct (compare_ok (s_tag x) to) as (Q1 & Q2 & [Q|[Q|Q]]); auto; exfalso.
    - apply (UM x true X). apply Q1. exact Q.
    - apply (UM x false X). apply Q2. exact Q. }
  rewrite (delete_none _ _ to w _ _ 0 U). destruct (do_delete_run (y_tb yb) (s_call (k_s k1)) (s_tag (k_s k1)) to w (proj1 G2)) as (l0 & r0 & D & _). rewrite D.
  eexists _, _. split; [reflexivity|]. cbn [fst]. destruct (negb _); rewrite app_nil_r; auto.
Qed.

(** The time to live of a stream is the one set last; without one it is the configured one, the one for sessions in setup as long as the session has one party only. *)
Theorem time_to_live_as_set : forall cs y l ds s d, run start0 cs = Some (y, l, ds) -> In s (t_ht (y_tb y)) -> d = 0 \/ d = 1 ->
  max_ttl (ttl_of (x_ttl (y_ext y (s_uid s))) d) = match last_ttl sh (s_uid s) d ds with Some v => v | None => if s_complete s then mx else setup end.
Proof.
  intros cs y l ds s d R X D. destruct (reach _ _ _ _ _ _ _ _ _ R) as (I & _). destruct (e_si _ _ _ _ _ _ I s X) as (_ & A & B).
  destruct D as [-> | ->]; [exact (d_max _ _ _ _ _ _ _ _ A)|exact (d_max _ _ _ _ _ _ _ _ B)].
Qed.

(** An update or lookup that is answered with a port restarts both timers of its session. *)
Theorem answer_restarts_timers : forall cs y l ds m subs y' p a rs d uid side, run start0 cs = Some (y, l, ds) ->
  step y (chain m subs) = Some (y', (RPort p a, rs), d) -> about (y_tb y) m uid side -> restarted (y_ext y' uid).
Proof.
  intros cs y l ds m subs y' p a rs d uid side R E AB. destruct (reach _ _ _ _ _ _ _ _ _ R) as (_ & G).
  destruct (start sh setup mx tos v4 y m G) as [(ya & ra & S & W)|(ya & ra & k & S & W & G1 & K & _ & _ & _ & (sd & AB2 & _ & M & _) & _)]; rewrite S in E; [injection E as <- -> <- <-; destruct W; discriminate|].
  rewrite (about_same _ _ _ _ _ _ AB AB2). unfold then_subs in E. destruct (run_subs v4 ya k subs) as [[[yb rb] db]|] eqn:E2; [|discriminate]. injection E as <- -> <- <-.
  eapply subs_full; eauto. destruct m; cbn [chain] in *; try apply M. exfalso. destruct W as [(? & ? & W)|W]; try discriminate. eapply query_no_port. rewrite S. unfold then_subs. rewrite E2. reflexivity.
Qed.

(** No command changes the timers or the types of service of a session it is not about. *)
Theorem chain_leaves_others_alone : forall cs y l ds m subs y' a d uid side uid', run start0 cs = Some (y, l, ds) ->
  step y (chain m subs) = Some (y', a, d) -> about (y_tb y) m uid side -> uid' <> uid -> y_ext y' uid' = y_ext y uid'.
Proof.
  intros cs y l ds m subs y' a d uid side uid' R E AB N. destruct (reach _ _ _ _ _ _ _ _ _ R) as (_ & G).
  eapply step_other; eauto.
Qed.

(** What S sub-commands set: the stream whose remote address was given by the update or lookup before, the other one with the reverse form. *)
Theorem settings_go_to_their_stream : forall cs y l ds m subs y' rep rs d uid side, run start0 cs = Some (y, l, ds) ->
  step y (chain m subs) = Some (y', (rep, rs), d) -> about (y_tb y) m uid side -> (exists p a, rep = RPort p a) \/ rep = ROk ->
  d = settings uid (remote_side m side) subs rs /\
  match m with MUpdate _ _ _ u _ _ | MLookup _ _ _ u _ => subs = [] -> sx_media (xside (y_ext y' uid) (remote_side m side)) = u_media u | _ => True end.
Proof.
  intros cs y l ds m subs y' rep rs d uid side R E AB V. destruct (reach _ _ _ _ _ _ _ _ _ R) as (_ & G).
  destruct (start sh setup mx tos v4 y m G) as [(ya & ra & S & W)|(ya & ra & k & S & W & G1 & K & _ & _ & _ & (sd & AB2 & KI & M & _) & _)]; rewrite S in E; [injection E as <- -> <- <-; destruct V as [(? & ? & ->)| ->], W; discriminate|].
  rewrite (about_same _ _ _ _ _ _ AB AB2), (about_side _ _ _ _ _ _ AB AB2), <- KI. unfold then_subs in E. destruct (run_subs v4 ya k subs) as [[[yb rb] db]|] eqn:E2; [|discriminate]. injection E as <- -> <- <-.
  split; [eapply subs_settings; eauto|]. destruct m; auto; intros ->; cbn [run_subs] in E2; injection E2 as <- _ _; apply M.
Qed.

(** The IPv4 sockets of a stream carry the type of service that was set last, in case no request failed. Missing: the requests that fail (next theorem). *)
Theorem type_of_service_as_set_partial : forall cs y l ds s d a b, 0 <= tos -> run start0 cs = Some (y, l, ds) -> In s (t_ht (y_tb y)) -> d = 0 \/ d = 1 ->
  tos_fine (s_uid s) d ds -> sx_sock (xside (y_ext y (s_uid s)) d) = Some (true, a, b) ->
  a = last_tos tos (s_uid s) d ds /\ b = last_tos tos (s_uid s) d ds.
Proof.
  intros cs y l ds s d a b T R X D F Q. destruct (reach _ _ _ _ _ _ _ _ _ R) as (I & _). destruct (e_si _ _ _ _ _ _ I s X) as (_ & A & B).
  destruct D as [-> | ->]; [apply (d_tos _ _ _ _ _ _ _ _ A T F)|apply (d_tos _ _ _ _ _ _ _ _ B T F)]; auto.
Qed.
End thms.
Print Assumptions chains_do_what_commands_do.
Print Assumptions subcommands_stop_at_failure.
Print Assumptions lookup_subcommand_is_lookup.
Print Assumptions delete_subcommand_is_delete.
Print Assumptions time_to_live_as_set.
Print Assumptions answer_restarts_timers.
Print Assumptions chain_leaves_others_alone.
Print Assumptions settings_go_to_their_stream.
Print Assumptions type_of_service_as_set_partial.

(** Addresses below 100 are IPv4 ones. *)
Definition ex4 (a : Z) : bool := a <? 100.
Definition ex_u : uopts := mkU (mkUl false false None true 7 8) 5.
Definition ex_u2 : uopts := mkU (mkUl false false None true 7 8) 6.
Definition ex_run := ChainModel.run true 60 90 184 ex4 (sys0 true 60 90 184 ex4).
Definition ex_step := ChainModel.step true 60 90 184 ex4.
(** U with S ttl, S tos and L *)
Definition ex_cs : list cmd :=
  [CUpdate [1] [65] None ex_u (Some 100) false [SubTtl false 30; SubTos true 16 false false; SubL ex_u2 (Some 102)]].
Example chain_ex : exists y,
  ex_run ex_cs = Some (y, [(RPort 100 7, [(0, None); (0, None); (0, Some (RPort 102 8))])], [DTtl 0 1 30; DTos 0 0 16 0]) /\
  map s_complete (t_ht (y_tb y)) = [true] /\ max_ttl (ttl_of (x_ttl (y_ext y 0)) 0) = 30 /\ sx_sock (x_0 (y_ext y 0)) = Some (true, 16, 16) /\ sx_sock (x_1 (y_ext y 0)) = Some (true, 184, 184) /\
  about (y_tb y) (MLookup [1] [65] None ex_u None) 0 0 /\ tos_fine 0 0 [DTtl 0 1 30; DTos 0 0 16 0].
Proof.
  eexists. split; [vm_compute; reflexivity|]. split; [vm_compute; reflexivity|]. split; [vm_compute; reflexivity|]. split; [vm_compute; reflexivity|]. split; [vm_compute; reflexivity|]. split.
  - left. eexists. split; [vm_compute; reflexivity|reflexivity].
  - intros v r [E|[E|[]]]; [discriminate|]. injection E as <- <-. lia.
Qed.
(** A failing sub-command stops the chain; a delete in the chain removes the session. *)
Example chain_stops_ex : exists y,
  ex_run [CUpdate [1] [65] None ex_u (Some 100) false [SubOther (-1); SubL ex_u2 (Some 102)]; CLookup [1] [65] None ex_u2 (Some 104) [SubD false]] =
    Some (y, [(RPort 100 7, [(-1, None)]); (RPort 104 8, [(0, None)])], []) /\ t_ht (y_tb y) = [].
Proof. eexists. split; vm_compute; reflexivity. Qed.

(** Refuted: a request for a type of service that fails changes nothing. The RTP socket has the new one if it fails for the RTCP one. *)
Theorem failed_type_of_service_changes_nothing_refuted : exists cs y l ds s, ex_run cs = Some (y, l, ds) /\ In s (t_ht (y_tb y)) /\
  (forall v r, In (DTos (s_uid s) 0 v r) ds -> r <> 0) /\ sx_sock (x_0 (y_ext y (s_uid s))) = Some (true, 16, 184).
Proof.
  exists [CUpdate [1] [65] None ex_u (Some 100) false [SubTos true 16 false true]]. eexists _, _, _, _. split; [vm_compute; reflexivity|]. split; [left; reflexivity|]. split; [|vm_compute; reflexivity].
  intros v r [E|[]]. injection E as _ <-. discriminate.
Qed.
Print Assumptions failed_type_of_service_changes_nothing_refuted.
(** Refuted: a type of service can be set on a stream with IPv4 sockets, when the system lets it. It fails for ever once the stream was moved from IPv6 to IPv4. *)
Definition ex_u6 : uopts := mkU (mkUl false false (Some 200) true 7 8) 5.
Definition ex_u4 : uopts := mkU (mkUl false true (Some 9) true 7 8) 5.
Theorem type_of_service_can_be_set_refuted : exists cs y l ds s, ex_run cs = Some (y, l, ds) /\ In s (t_ht (y_tb y)) /\ st_laddr (s_st0 s) = 9 /\ ex4 9 = true /\
  sx_sock (x_0 (y_ext y (s_uid s))) = Some (true, 184, 184) /\
  forall v, exists y' a, ex_step y (CUpdate [1] [65] None ex_u (Some 100) false [SubTos true v false false]) = Some (y', a, [DTos (s_uid s) 0 v (-1)]).
Proof.
  exists [CUpdate [1] [65] None ex_u6 (Some 100) false []; CUpdate [1] [65] None ex_u4 (Some 102) false []]. eexists _, _, _, _. split; [vm_compute; reflexivity|]. split; [left; reflexivity|].
  split; [reflexivity|]. split; [reflexivity|]. split; [vm_compute; reflexivity|]. intros v. eexists _, _. cbn. reflexivity.
Qed.
Print Assumptions type_of_service_can_be_set_refuted.
(** Refuted: a session with one party only has the time to live of a session in setup. An update that asks for a new port ends the setup. *)
Theorem setup_time_until_two_parties_refuted : exists cs y l ds s, ex_run cs = Some (y, l, ds) /\ In s (t_ht (y_tb y)) /\ ds = [] /\
  st_port (s_st1 s) = 0 /\ st_skt (s_st1 s) = false /\ max_ttl (ttl_of (x_ttl (y_ext y (s_uid s))) 0) = 90.
Proof.
  exists [CUpdate [1] [65] None ex_u (Some 100) false []; CUpdate [1] [65] None ex_u4 (Some 102) false []]. eexists _, _, _, _. split; [vm_compute; reflexivity|]. split; [left; reflexivity|].
  split; [reflexivity|]. split; [reflexivity|]. split; [reflexivity|]. vm_compute. reflexivity.
Qed.
Print Assumptions setup_time_until_two_parties_refuted.
(** Refuted: a port that is answered belongs to a session of the table. A lookup that follows a delete in the same chain is answered with one of a session that is gone. *)
Theorem answered_port_is_in_table_refuted : exists cs y ds, ex_run cs = Some (y, [(RPort 100 7, [(0, None); (0, Some (RPort 102 8))])], ds) /\ t_ht (y_tb y) = [].
Proof. exists [CUpdate [1] [65] None ex_u (Some 100) false [SubD false; SubL ex_u2 (Some 102)]]. eexists _, _. split; vm_compute; reflexivity. Qed.
Print Assumptions answered_port_is_in_table_refuted.
(** Refuted: the delete sub-command is about the session of its command only. *)
Theorem delete_subcommand_is_local_refuted : exists cs y l ds y' a d, ex_run cs = Some (y, l, ds) /\ map s_tag (t_ht (y_tb y)) = [[65; 59; 49]] /\
  ex_step y (CUpdate [1] [65] None ex_u (Some 104) false [SubD false]) = Some (y', a, d) /\ t_ht (y_tb y') = [].
Proof. exists [CUpdate [1] [65; 59; 49] None ex_u (Some 100) false []]. eexists _, _, _, _, _, _. split; [vm_compute; reflexivity|]. split; [vm_compute; reflexivity|]. split; vm_compute; reflexivity. Qed.
Print Assumptions delete_subcommand_is_local_refuted.
