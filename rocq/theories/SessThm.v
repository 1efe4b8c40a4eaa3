(** C28, C29, C30: tag matching, delete, update and lookup. *)
From Verif Require Import Base SessModel SessSpec SessProof.

(** * C28 *)
(** Tags compare as equal, as a media stream of the requested tag, or not at all. *)
Theorem compare_tags_exact : forall stored req,
  (compare_session_tags stored req = 1 <-> stored = req) /\
  (compare_session_tags stored req = 2 <-> media_of stored req) /\
  (compare_session_tags stored req = 0 <-> stored <> req /\ ~ media_of stored req).
Proof.
  intros t q. destruct (compare_ok t q) as (A & B & C). split; [exact A|]. split; [exact B|]. split.
  - intros E. rewrite <- A, <- B. lia.
  - intros [N M]. rewrite <- A in N. rewrite <- B in M. lia.
Qed.
Print Assumptions compare_tags_exact.

(** The lookup finds the first session of the call that the tags match, on the matching side; it fails
    only if there is none. *)
Theorem find_stream_exact : forall ht call from to,
  (forall s i, find_stream ht call from to = Some (s, i) <->
     exists l1 l2, ht = l1 ++ s :: l2 /\ s_call s = call /\ side_of from to s i /\
       forall s' j, In s' l1 -> s_call s' = call -> ~ side_of from to s' j) /\
  (find_stream ht call from to = None <-> forall s j, In s ht -> s_call s = call -> ~ side_of from to s j).
Proof. intros. split; [intros; apply find_some|apply find_none]. Qed.
Print Assumptions find_stream_exact.

Definition ex_o : ulopts := mkUl false false None true 7 8.
Definition ex_s (u : Z) (tag : list Z) : sess := mkSess u [1] tag true false (mkStrm (100 + 2 * u) true false 7) (mkStrm 0 false false 8).
Example find_ex : compare_session_tags [65; 59; 49] [65] = 2 /\
  find_stream [ex_s 0 [65; 59; 49]; ex_s 1 [65]; ex_s 2 [65]] [1] [65] None = Some (ex_s 1 [65], 0) /\
  find_stream [ex_s 0 [65; 59; 49]; ex_s 1 [65; 59; 50]] [1] [66; 59; 50] (Some [65]) = Some (ex_s 1 [65; 59; 50], 1).
Proof. repeat split. Qed.

(** * C29 *)
(** A delete command in any history sweeps the table as the specification says; it answers with success
    iff some session is addressed; the removed sessions, and no others, leave the registry as well. *)
Theorem delete_exact : forall es tb tr call from to weak l r, run table0 es = Some (tb, tr) ->
  exists tb' removed rep, step tb (Delete call from to weak) l r = Some (tb', rep) /\
    swept call from to weak (t_ht tb) (t_ht tb') removed /\
    (forall u, In u (t_wrt tb') <-> In u (t_wrt tb) /\ ~ In u removed) /\
    (rep = ROk /\ (exists s i e, In s (t_ht tb) /\ addressed call from to s i e) \/
     rep = RErr /\ forall s i e, In s (t_ht tb) -> ~ addressed call from to s i e).
Proof.
  intros es tb tr call from to weak l r R. apply reach_inv in R. destruct (delete_step tb call from to weak l r R) as (l' & rem & rep & E & Sw & Rp).
  eexists _, rem, rep. split; [exact E|]. split; [exact Sw|]. split; [|exact Rp]. intros u. cbn [t_wrt]. apply rm_iff.
Qed.
Print Assumptions delete_exact.

(** In particular: sessions of other calls, or with other tags, stay untouched; *)
Theorem delete_keeps_others : forall es tb tr call from to weak l r tb' rep s, run table0 es = Some (tb, tr) ->
  step tb (Delete call from to weak) l r = Some (tb', rep) -> In s (t_ht tb) -> (forall i e, ~ addressed call from to s i e) -> In s (t_ht tb').
Proof.
  intros es tb tr call from to weak l r tb' rep s R St Hin Na. apply reach_inv in R. destruct (delete_step tb call from to weak l r R) as (l' & rem & rep' & E & Sw & _).
  rewrite E in St. injection St as <- <-. eapply swept_other; eassumption.
Qed.
Print Assumptions delete_keeps_others.

(** a session goes only if it is addressed and neither side holds it any more; *)
Theorem delete_only_when_free : forall es tb tr call from to weak l r tb' rep s, run table0 es = Some (tb, tr) ->
  step tb (Delete call from to weak) l r = Some (tb', rep) -> In s (t_ht tb) -> ~ In (s_uid s) (map s_uid (t_ht tb')) ->
  exists i e s', addressed call from to s i e /\ loses weak i s s' /\ free s'.
Proof.
  intros es tb tr call from to weak l r tb' rep s R St Hin Na. apply reach_inv in R. destruct (delete_step tb call from to weak l r R) as (l' & rem & rep' & E & Sw & _).
  rewrite E in St. injection St as <- <-. eapply swept_gone; [exact Sw|apply (v_nd _ R)|exact Hin|exact Na].
Qed.
Print Assumptions delete_only_when_free.

(** and all media streams of a dialog go. Missing for the full claim: no stored tag may be equal to the
    requested one, see the refutation below. *)
Theorem delete_dialog_partial : forall es tb tr call from to weak l r tb' rep s i e s', run table0 es = Some (tb, tr) ->
  step tb (Delete call from to weak) l r = Some (tb', rep) ->
  (forall x j, In x (t_ht tb) -> ~ addressed call from to x j true) ->
  In s (t_ht tb) -> addressed call from to s i e -> loses weak i s s' -> free s' ->
  ~ In (s_uid s) (map s_uid (t_ht tb')) /\ ~ In (s_uid s) (t_wrt tb').
Proof.
  intros es tb tr call from to weak l r tb' rep s i e s' R St Ne Hin A Lo Fr. apply reach_inv in R. destruct (delete_step tb call from to weak l r R) as (l' & rem & rep' & E & Sw & _).
  rewrite E in St. injection St as <- <-. destruct (swept_all _ _ _ _ _ _ _ _ _ _ _ Sw (v_nd _ R) Ne Hin A Lo Fr) as [B C]. split; [exact C|].
  cbn [t_wrt]. rewrite rm_iff. tauto.
Qed.
Print Assumptions delete_dialog_partial.

(** When one stored tag is exactly the requested one, the sweep ends there: the caller's second stream
    survives the delete command for the dialog. *)
Theorem delete_dialog_refuted : exists es tb tr call from to tb' rep s, run table0 es = Some (tb, tr) /\
  step tb (Delete call from to false) None false = Some (tb', rep) /\ In s (t_ht tb) /\ addressed call from to s 1 false /\
  (exists s', loses false 1 s s' /\ free s') /\ In s (t_ht tb').
Proof.
  exists [(Update [1] [65] None ex_o, Some 100, false); (Update [1] [65; 59; 49] None ex_o, Some 102, false)].
  eexists _, _, [1], [65], [], _, _, (ex_s 1 [65; 59; 49]). split; [vm_compute; reflexivity|]. split; [vm_compute; reflexivity|].
  split; [vm_compute; auto|]. split.
  { split; [reflexivity|]. left. split; [reflexivity|]. exists [49]. reflexivity. }
  split; [|vm_compute; auto].
  exists (clear_flag (ex_s 1 [65; 59; 49]) false 1). unfold loses, free, same_stream. cbn. auto 10.
Qed.
Print Assumptions delete_dialog_refuted.

(** A party that takes a weak hold by an update command and releases it by a delete command with the
    same call and tag keeps the session alive: the update marks one side and the delete releases the other. *)
Theorem weak_release_refuted : exists es tb tr call tag tb' rep u,
  es = [(Update call tag None (mkUl true false None true 7 8), Some 100, false)] /\ run table0 es = Some (tb, tr) /\
  step tb (Delete call tag [] true) None false = Some (tb', rep) /\ map s_uid (t_ht tb) = [u] /\ t_ht tb' = t_ht tb.
Proof.
  exists [(Update [1] [65] None (mkUl true false None true 7 8), Some 100, false)].
  eexists _, _, [1], [65], _, _, 0. split; [reflexivity|]. split; [vm_compute; reflexivity|]. split; [vm_compute; reflexivity|]. split; reflexivity.
Qed.
Print Assumptions weak_release_refuted.

Definition ex_hist : list event :=
  [(Update [1] [65; 59; 49] None ex_o, Some 100, false); (Update [1] [65; 59; 50] None ex_o, Some 102, false);
   (Update [2] [65; 59; 49] None ex_o, Some 104, false); (Lookup [1] [65; 59; 50] (Some [66; 59; 50]) ex_o, Some 106, false)].
Example delete_ex : exists tb tr tb', run table0 ex_hist = Some (tb, tr) /\ map s_uid (t_ht tb) = [0; 1; 2] /\
  step tb (Delete [1] [65] [] false) None false = Some (tb', ROk) /\ map s_uid (t_ht tb') = [2] /\ t_wrt tb' = [2].
Proof. eexists _, _, _. split; [vm_compute; reflexivity|]. split; [reflexivity|]. split; [vm_compute; reflexivity|]. split; reflexivity. Qed.

(** * C30 *)
(** Every history runs to its end: no command loops. *)
Theorem run_total : forall es, exists tb tr, run table0 es = Some (tb, tr).
Proof. intros es. destruct (run_ok es table0 inv_table0) as (tb & tr & E & _). eauto. Qed.
Print Assumptions run_total.

(** Once an update or lookup command was answered with a port and an address, the same command is
    answered with the same port and address, after any commands that ask for no new port, as long as
    the session exists. *)
Theorem repeat_same_ports : forall es tb tr c l r tb1 p a, run table0 es = Some (tb, tr) ->
  step tb c l r = Some (tb1, RPort p a) -> wants_new c = false -> p <> 0 ->
  exists uid, In uid (map s_uid (t_ht tb1)) /\
    forall es' tb2 tr', run tb1 es' = Some (tb2, tr') -> (forall c' l' r', In (c', l', r') es' -> wants_new c' = false) -> In uid (map s_uid (t_ht tb2)) ->
      forall l' r', exists tb3, step tb2 c l' r' = Some (tb3, RPort p a).
Proof. intros es tb tr c l r tb1 p a R. apply reach_inv in R. apply repeat_ok. exact R. Qed.
Print Assumptions repeat_same_ports.

(** An update or lookup command for a stream that has a port, when no new port is asked for, answers with
    that port and its address and changes nothing but the flags of that session. *)
Theorem existing_is_kept : forall es tb tr c l r s i, run table0 es = Some (tb, tr) -> wants_new c = false ->
  match c with
  | Update call from to _ => find_stream (t_ht tb) call from to = Some (s, i)
  | Lookup call from to _ => find_stream (t_ht tb) call from to = Some (s, 1 - i)
  | _ => False
  end -> st_port (stream s i) <> 0 ->
  exists l1 l2 s', t_ht tb = l1 ++ s :: l2 /\
    step tb c l r = Some (mkTab (l1 ++ s' :: l2) (t_wrt tb) (t_next tb), RPort (st_port (stream s i)) (st_laddr (stream s i))) /\
    s_uid s' = s_uid s /\ s_call s' = s_call s /\ s_tag s' = s_tag s /\ same_stream (s_st0 s') (s_st0 s) /\ same_stream (s_st1 s') (s_st1 s).
Proof.
  intros es tb tr c l r s i R Wn F P. apply reach_inv in R. destruct c as [call from to o|call from to o|?|?|?]; try contradiction; cbn [step wants_new] in *; rewrite F.
  - destruct (existing_ok tb true o l s i _ _ _ i R F (or_introl eq_refl) Wn P) as (l1 & l2 & s' & A & B & C). exists l1, l2, s'. rewrite B. auto.
  - replace (1 - (1 - i)) with i by lia.
    assert (Hi : i = 1 - i \/ i = 1 - (1 - i)) by lia.
    destruct (existing_ok tb false o l s i _ _ _ (1 - i) R F Hi Wn P) as (l1 & l2 & s' & A & B & C). exists l1, l2, s'. rewrite B. auto.
Qed.
Print Assumptions existing_is_kept.

(** A lookup for an unknown session creates and changes nothing; an update for one creates exactly one
    session, with the port and address it answers with, or answers with an error and changes nothing. *)
Theorem unknown_lookup_and_update : forall es tb tr call from to o l r, run table0 es = Some (tb, tr) ->
  (forall s j, In s (t_ht tb) -> s_call s = call -> ~ side_of from to s j) ->
  step tb (Lookup call from to o) l r = Some (tb, RZero) /\
  (step tb (Update call from to o) l r = Some (tb, RErr) /\ (r = true \/ l = None) \/
   exists s p a, l = Some p /\ r = false /\
     step tb (Update call from to o) l r = Some (mkTab (t_ht tb ++ [s]) (s_uid s :: t_wrt tb) (s_uid s + 1), RPort p a) /\
     s_call s = call /\ s_tag s = from /\ ~ In (s_uid s) (map s_uid (t_ht tb)) /\
     st_port (s_st0 s) = p /\ st_laddr (s_st0 s) = a /\ st_port (s_st1 s) = 0).
Proof.
  intros es tb tr call from to o l r R N. apply reach_inv in R. apply find_none in N. cbn [step]. rewrite N. split; [reflexivity|]. unfold ul_new.
  destruct r; [left; auto|]. destruct l as [p|]; [|left; auto]. right. set (s := mkSess _ _ _ _ _ _ _). exists s, p. eexists. split; [reflexivity|]. split; [reflexivity|]. split; [reflexivity|].
  cbn. split; [reflexivity|]. split; [reflexivity|]. split; [|auto]. intros X. apply in_map_iff in X. destruct X as (x & E & Hx). pose proof (v_lt _ R _ Hx). lia.
Qed.
Print Assumptions unknown_lookup_and_update.

(** No two streams in the table have the same port, if the system hands out ports that are not in use. *)
Theorem ports_distinct : forall es tb tr, sound_env es -> run table0 es = Some (tb, tr) -> NoDup (ports (t_ht tb)).
Proof. intros es tb tr Se R. eapply run_ports; eassumption. Qed.
Print Assumptions ports_distinct.

(** A request for a new port that fails is not without effect: the answer is an error, yet the next
    command gets the old port with the new address. *)
Theorem failed_update_changes_address_refuted : exists es tb tr c tb1 c' p a tb3 tb4 a',
  run table0 es = Some (tb, tr) /\ step tb c' None false = Some (tb3, RPort p a) /\
  step tb c None false = Some (tb1, RErr) /\ step tb1 c' None false = Some (tb4, RPort p a') /\ a' <> a.
Proof.
  exists [(Update [1] [65] None ex_o, Some 100, false)].
  eexists _, _, (Update [1] [65] None (mkUl false true (Some 9) false 7 8)), _, (Update [1] [65] None ex_o), 100, 7, _, _, 9.
  split; [vm_compute; reflexivity|]. split; [vm_compute; reflexivity|]. split; [vm_compute; reflexivity|]. split; [vm_compute; reflexivity|]. lia.
Qed.
Print Assumptions failed_update_changes_address_refuted.

Example repeat_ex : exists tb tr tb' tb'', run table0 ex_hist = Some (tb, tr) /\ map snd tr = [RPort 100 7; RPort 102 7; RPort 104 7; RPort 106 8] /\
  ports (t_ht tb) = [100; 102; 106; 104] /\
  step tb (Lookup [1] [65; 59; 50] (Some [66; 59; 50]) ex_o) (Some 108) false = Some (tb', RPort 106 8) /\
  step tb (Update [1] [65; 59; 50] None ex_o) (Some 110) false = Some (tb'', RPort 102 7).
Proof. eexists _, _, _, _. split; [vm_compute; reflexivity|]. split; [reflexivity|]. split; [reflexivity|]. split; vm_compute; reflexivity. Qed.

Example sound_env_ex : sound_env [(Update [1] [65] None ex_o, Some 100, false); (Update [1] [66] None ex_o, Some 102, false)].
Proof.
  intros es1 c p r es2 tb tr E R. destruct es1 as [|e1 [|e2 es1]].
  - injection E as _ <- _ _. injection R as <- _. split; [lia|intros s []].
  - injection E as <- _ <- _ _. vm_compute in R. injection R as <- _. split; [lia|]. intros s [<-|[]]. cbn. lia.
  - injection E as _ _ E. destruct es1; discriminate.
Qed.

(** A time-out removes exactly that session from both tables; delete-all removes everything. *)
Theorem timeout_removes_one : forall tb uid l r, exists tb', step tb (Timeout uid) l r = Some (tb', ROk) /\
  (forall s, In s (t_ht tb') <-> In s (t_ht tb) /\ s_uid s <> uid) /\ (forall u, In u (t_wrt tb') <-> In u (t_wrt tb) /\ u <> uid) /\
  step tb DeleteAll l r = Some (mkTab [] [] (t_next tb), ROk).
Proof.
  intros tb uid l r. eexists. split; [reflexivity|]. cbn [t_ht t_wrt]. split; [|split; [|reflexivity]]; intros x; unfold unreg; rewrite filter_In, negb_true_iff, Z.eqb_neq; tauto.
Qed.
Print Assumptions timeout_removes_one.
