(** C64: the accounting file. *)
From Verif Require Import Base Str CsvModel CsvSpec CsvProof CsvProof2 CsvProof3 CsvProof4 CsvProof5.

(** ** A row says under each name of the header what belongs there *)
Theorem csv_row_reads_back nid pid c :
  acct_ok c -> plain nid -> plain_opt (cc_call c) -> plain_opt (cc_from c) ->
  exists names line,
    csv_head = names ++ [10] /\ csv_row nid pid c = line ++ [10]
    /\ ~ In 10 names /\ ~ In 10 line
    /\ length (cells line) = length (cells names)
    /\ combine (cells names) (cells line) = record_of nid pid c.
Proof.
  intros A N C F. destruct (row_reads nid pid c A N C F) as (line & L1 & L2 & L3).
  exists csv_names, line. split; [reflexivity|]. split; [exact L1|].
  split. { intros I. assert (E : existsb (Z.eqb 10) csv_names = true) by (apply existsb_exists; exists 10; split; [exact I|reflexivity]).
           vm_compute in E. discriminate. }
  split; [exact L2|]. rewrite L3, (names_are nid pid c), !map_length. split; [reflexivity|].
  clear. induction (record_of nid pid c) as [|[a b] l IH]; [reflexivity|]. cbn. now rewrite IH.
Qed.
Print Assumptions csv_row_reads_back.

Theorem csv_ssrc_reads_back v :
  0 <= v < 2 ^ 32 ->
  exists digits, ssrc_cell (Some v) = B "0x" ++ digits /\ length digits = 8%nat /\ hex_value 0 digits = Some v.
Proof.
  intros H. exists (hexn 8 v). split; [reflexivity|]. split; [apply hexn_length|].
  rewrite hexn_value by lia. f_equal. change (16 ^ Z.of_nat 8) with (2 ^ 32). rewrite Z.mod_small; lia.
Qed.
Print Assumptions csv_ssrc_reads_back.

Definition zface : cface := CFace (B "1.000000") (B "2.000000") 5 6 1 2 3 4 0 (Some 3735928559) 1 8
  (B "0.5") (B "0.7") (B "0.6") (Some (CAdr true (B "::1") 5000)) None 1 2.
Definition zacct : cacct := CAcct 77 (Some (B "call@host")) None (B "0.5") (B "9.5") 10 1 2 0 zface zface.
Example csv_row_reads_back_ex : acct_ok zacct /\ plain (B "node") /\ plain_opt (cc_call zacct) /\ plain_opt (cc_from zacct)
  /\ nth_error (record_of (B "node") 12 zacct) 42 = Some (B "rtpp_rtp_rmt_ip_o", B "[::1]").
Proof.
  assert (P : forall t, existsb (fun x => (x =? 44) || (x =? 10)) t = false -> plain t).
  { intros t E. split; intros I; assert (F : existsb (fun x => (x =? 44) || (x =? 10)) t = true) by (apply existsb_exists; eexists; split; [exact I|reflexivity]); congruence. }
  unfold acct_ok, face_ok, adr_ok, u64_ok, zacct, zface; cbn [cc_init cc_destroy cc_nrel cc_ndrop cc_crel cc_cdrop cc_o cc_a cf_first cf_last cf_jlast cf_jmax cf_javg cf_npkts cf_rtcp_npkts cf_psent cf_precvd cf_pdups cf_plost cf_pecount cf_schg cf_rtp cf_rtcp ca_host ca_port cc_call cc_from plain_opt].
  repeat match goal with |- _ /\ _ => split end; try (apply P; reflexivity); try lia; try exact I; reflexivity.
Qed.

(** A comma in the Call-ID moves all the columns behind it. *)
Theorem csv_any_call_id_refuted :
  exists nid pid c, acct_ok c /\ plain nid /\ plain_opt (cc_from c)
    /\ length (cells (csv_row nid pid c)) <> length (cells csv_head).
Proof.
  exists (B "n"), 1, (CAcct 77 (Some (B "a,b")) None (B "0.5") (B "9.5") 10 1 2 0 zface zface).
  destruct csv_row_reads_back_ex as (A & _). split; [exact A|]. split; [split; intros [I|[]]; discriminate|].
  split; [exact I|]. vm_compute. discriminate.
Qed.
Print Assumptions csv_any_call_id_refuted.

(** ** The name of the node is that of the host no longer than the interval ago *)
Theorem csv_node_name_fresh ival first l d h :
  0 < ival -> 0 < d -> Forall (fun e => 0 < fst e /\ exists h, snd e = Some h) l ->
  let n := nids ival (CNid first 0) (l ++ [(d, Some h)]) in
  exists t, In (t, Some (cn_id n)) (l ++ [(d, Some h)]) /\ d <= t + ival.
Proof.
  intros Hi Hd F n.
  destruct (nids_fresh ival (l ++ [(d, Some h)]) (CNid first 0) [] Hi) as [[E _]|(t & _ & T2 & _ & T4)].
  - apply Forall_app. split; [exact F|]. constructor; [split; [exact Hd|eexists; reflexivity]|constructor].
  - left. reflexivity.
  - destruct l; discriminate.
  - exists t. split; [exact T2|]. rewrite last_last in T4. exact T4.
Qed.
Print Assumptions csv_node_name_fresh.
Example csv_node_name_fresh_ex :
  cn_id (nids 10 (CNid (B "x") 0) [(5, Some (B "a")); (15, Some (B "b"))]) = B "a"
  /\ cn_id (nids 10 (CNid (B "x") 0) [(5, Some (B "a")); (16, Some (B "b"))]) = B "b".
Proof. split; reflexivity. Qed.

(** ** Every file is whole rows under one header, whatever the proxies and the rotation do *)
Theorem csv_whole_rows files name l i :
  Forall writes_whole l -> heads_written (cinit files name) l ->
  let s := crun (cinit files name) l in
  let there := nth i files [] in
  let rows := rows_of i (cy_log s) in
  (there <> [] -> fdata s i = there ++ concat rows)
  /\ (there = [] -> (fdata s i = [] /\ rows = []) \/ fdata s i = csv_head ++ concat rows).
Proof.
  intros W H s there rows.
  destruct (si_file _ _ (sinv_run files l _ (sinv_init files name) W H) i) as (hd & H1 & H2 & H3).
  fold there s rows in H1, H2, H3. split; intros E.
  - destruct H1 as [->|[_ E']]; [exact H2|congruence].
  - rewrite E in H2, H3. cbn [app] in H2, H3. destruct H1 as [->|[-> _]]; [|right; exact H2].
    left. destruct rows as [|r t]; [split; [exact H2|reflexivity]|]. exfalso. apply H3; [discriminate|reflexivity].
Qed.
Print Assumptions csv_whole_rows.

(** ** Every session has one outcome, and the rows of a proxy are written in order *)
Theorem csv_one_outcome files name l p :
  let s := crun (cinit files name) l in
  map fst (fates p (cy_log s)) ++ in_hand (cy_proc s p) = ended p (cy_log s).
Proof. intros s. apply accounted_run. reflexivity. Qed.
Print Assumptions csv_one_outcome.

Theorem csv_no_row_lost files name l p :
  Forall all_good l -> let s := crun (cinit files name) l in small s ->
  Forall (fun f => exists i, snd f = Whole i) (fates p (cy_log s)).
Proof.
  intros A s S. apply only_whole_fates.
  apply (gi_log _ (ginv_run files l _ (sinv_init files name) A (small_tiny _ S) (ginv_init files name))).
Qed.
Print Assumptions csv_no_row_lost.

(** ** No call waits for ever: some proxy can go on, and each has at most nine calls to make *)
Theorem csv_no_deadlock files name l p :
  Forall writes_whole l -> heads_written (cinit files name) l ->
  let s := crun (cinit files name) l in small s ->
  ~ at_rest (cy_proc s p) ->
  exists q, ~ at_rest (cy_proc s q) /\ do_step s q ROk <> s.
Proof.
  intros W H s S R. apply (someone_moves files s p).
  - apply sinv_run; auto using sinv_init.
  - apply (held_run files l _ (sinv_init files name) W H (small_tiny _ S) (held_init files name)).
  - exact R.
Qed.
Print Assumptions csv_no_deadlock.
Theorem csv_calls_bounded s p x q :
  (calls_left (cy_proc s p) <= 9)%nat
  /\ (do_step s p x = s \/ (calls_left (cy_proc (do_step s p x) p) < calls_left (cy_proc s p))%nat)
  /\ (q <> p -> cy_proc (do_step s p x) q = cy_proc s q).
Proof.
  split; [|split; [apply do_left|apply do_other]].
  unfold calls_left. destruct (cp_pc (cy_proc s p)); lia.
Qed.
Print Assumptions csv_calls_bounded.

(** ** The row goes to the file that has the name, which is made anew if it is not there *)
Theorem csv_rotation_followed files name l p r :
  Forall all_good l -> let s := crun (cinit files name) l in small s ->
  cp_pc (cy_proc s p) = PIdle -> (forall q, at_rest (cy_proc s q)) ->
  let s' := crun s (OEnd p r :: repeat (ODo p ROk) 9) in
  exists i, cy_name s' = Some i
    /\ (cy_name s = Some i \/ (cy_name s = None /\ i = length (cy_data s)))
    /\ fdata s' i = fdata s i ++ (match fdata s i with [] => csv_head | _ => [] end) ++ r
    /\ (forall j, j <> i -> fdata s' j = fdata s j)
    /\ cp_pc (cy_proc s' p) = PIdle /\ cy_log s' = EWrote p r i :: ECall p r :: cy_log s.
Proof.
  intros A s S V R s'.
  assert (I : sinv files s) by (apply sinv_run; [apply sinv_init|now apply good_wholes|now apply all_good_heads]).
  assert (G : ginv s) by (apply (ginv_run files l _ (sinv_init files name) A (small_tiny _ S) (ginv_init files name))).
  assert (K : held_at_work s).
  { apply (held_run files l _ (sinv_init files name) (good_wholes _ A) (all_good_heads _ _ A) (small_tiny _ S) (held_init files name)). }
  destruct (run_alone files s p r I (small_tiny _ S) (gi_open _ G p) V) as (s2 & i & E & X).
  - intros i. destruct (cy_lock s i) as [q|] eqn:L; [|reflexivity]. exfalso.
    destruct (working_moves files s q i I (K _ _ L)) as [_ N]. exact (N (R q)).
  - exists i. unfold s'. rewrite E. exact X.
Qed.
Print Assumptions csv_rotation_followed.

(** The module is loaded by two proxies, which write a row each, the file is moved away in between. *)
Definition zops : list cop :=
  [OStart 0; ODo 0 ROk; OStart 1; ODo 1 ROk; ODo 0 ROk; ODo 1 ROk; ODo 0 ROk; ODo 0 ROk; ODo 0 ROk; ODo 1 ROk;
   ODo 1 ROk; ODo 1 ROk; ODo 1 ROk; OEnd 0 [65; 10]; ODo 0 ROk; OAway; ODo 0 ROk; ODo 0 ROk; ODo 0 ROk].
Example csv_ops_ex : Forall all_good zops.
Proof. repeat constructor. Qed.
Example csv_run_ex : let s := crun (cinit [] None) zops in
  fdata s 0%nat = csv_head ++ [65; 10] /\ cy_name s = None /\ cp_pc (cy_proc s 0%nat) = PIdle /\ cp_pc (cy_proc s 1%nat) = PIdle
  /\ fates 0 (cy_log s) = [([65; 10], Whole 0)].
Proof. vm_compute. auto 10. Qed.

(** ** What a user would expect and does not get *)

(** A file of 2 GiB: the second row is lost, the lock is kept, and others wait for ever. *)
Theorem csv_big_file_refuted :
  exists c l, Forall all_good l /\
    let s := crun (cinit [c] (Some 0%nat)) l in
    (exists r, In (ELost 0 r) (cy_log s))
    /\ cp_pc (cy_proc s 0%nat) = PIdle /\ cy_lock s 0%nat = Some 0%nat
    /\ ~ at_rest (cy_proc s 1%nat) /\ do_step s 1 ROk = s.
Proof.
  exists (repeat 65 (Z.to_nat (2 ^ 31))), (big_ops [65; 10] [66; 10]).
  split; [repeat constructor|].
  assert (L : Z.of_nat (length (repeat 65 (Z.to_nat (2 ^ 31)))) = 2 ^ 31) by (rewrite repeat_length, Z2Nat.id; lia).
  set (c := repeat 65 (Z.to_nat (2 ^ 31))) in *. clearbody c.
  assert (N : c <> []) by (intros ->; cbn in L; lia).
  assert (H : (s32 (Z.of_nat (length (c ++ [65; 10]))) <? 0) = true).
  { rewrite app_length, Nat2Z.inj_add, L. reflexivity. }
  destruct (big_run c [65; 10] [66; 10] N H) as (A1 & A2 & A3 & A4). cbv zeta.
  set (s := crun _ _) in *. clearbody s.
  split; [exists [66; 10]; rewrite A1; left; reflexivity|]. split; [exact A3|]. split; [exact A2|].
  split. { rewrite A4. intros [E|[E|E]]; discriminate. }
  unfold do_step. rewrite A4. cbn [cp_pc cp_fd cp_stt]. unfold lock_free. rewrite A2. reflexivity.
Qed.
Print Assumptions csv_big_file_refuted.

(** A file truncated in place has no header any more. *)
Theorem csv_truncation_refuted :
  exists l, Forall (fun o => match o with ODo _ ROk => True | ODo _ _ => False | _ => True end) l
    /\ let s := crun (cinit [] None) l in fdata s 0%nat = [65; 10] /\ cy_name s = Some 0%nat.
Proof.
  exists [OStart 0; ODo 0 ROk; ODo 0 ROk; ODo 0 ROk; ODo 0 ROk; ODo 0 ROk; OTrunc 0;
          OEnd 0 [65; 10]; ODo 0 ROk; ODo 0 ROk; ODo 0 ROk].
  split; [repeat constructor|]. vm_compute. auto.
Qed.
Print Assumptions csv_truncation_refuted.

(** A header that could not be written is not written later. *)
Theorem csv_header_retried_refuted :
  exists l, Forall writes_whole l
    /\ let s := crun (cinit [] None) l in fdata s 1%nat = [65; 10].
Proof.
  exists [OStart 0; ODo 0 ROk; ODo 0 ROk; ODo 0 ROk; ODo 0 ROk; ODo 0 ROk; OAway;
          OEnd 0 [64; 10]; ODo 0 ROk; ODo 0 ROk; ODo 0 ROk; ODo 0 ROk; ODo 0 RErr; ODo 0 ROk;
          OEnd 0 [65; 10]; ODo 0 ROk; ODo 0 ROk; ODo 0 ROk].
  split; [repeat constructor|]. vm_compute. auto.
Qed.
Print Assumptions csv_header_retried_refuted.

(** A lock that failed leaves a number closed, which is closed again at the next session. *)
Theorem csv_descriptor_owned_refuted :
  exists l, Forall writes_whole l /\ In (EForeign 0) (cy_log (crun (cinit [] None) l)).
Proof.
  exists [OStart 0; ODo 0 ROk; ODo 0 ROk; ODo 0 ROk; ODo 0 ROk; ODo 0 ROk; OAway;
          OEnd 0 [64; 10]; ODo 0 ROk; ODo 0 ROk; ODo 0 RErr;
          OEnd 0 [65; 10]; ODo 0 ROk; ODo 0 ROk].
  split; [repeat constructor|]. vm_compute. auto.
Qed.
Print Assumptions csv_descriptor_owned_refuted.

(** After one failure to open, and the old file back in its place, every row is lost though all
    calls would succeed. *)
Theorem csv_recovers_refuted :
  exists l, Forall writes_whole l /\ heads_written (cinit [] None) l /\
    let s := crun (cinit [] None) l in
    cy_name s = Some 0%nat
    /\ forall r, let s' := crun s [OEnd 0 r; ODo 0 ROk; ODo 0 ROk] in
         cy_log s' = ELost 0 r :: ECall 0 r :: cy_log s /\ cy_data s' = cy_data s
         /\ cy_proc s' 0%nat = cy_proc s 0%nat /\ cp_pc (cy_proc s 0%nat) = PIdle.
Proof.
  exists [OStart 0; ODo 0 ROk; ODo 0 ROk; ODo 0 ROk; ODo 0 ROk; ODo 0 ROk; OAway;
          OEnd 0 [64; 10]; ODo 0 ROk; ODo 0 RErr; OPut 0].
  split; [repeat constructor|]. split; [vm_compute; auto 20|].
  set (s := crun _ _).
  assert (V : cy_proc s 0%nat = CProc PIdle FNone (Some 0%nat)) by (vm_compute; reflexivity).
  assert (N : cy_name s = Some 0%nat) by (vm_compute; reflexivity).
  clearbody s. split; [exact N|]. intros r s'.
  destruct (end_call s 0 r _ _ V) as (s1 & E1 & V1 & N1 & L1 & D1 & G1 & O1).
  destruct (stat_same s1 0 r _ 0 V1 ltac:(congruence)) as (s2 & E2 & V2 & N2 & L2 & D2 & G2 & O2).
  assert (E : s' = do_step s2 0 ROk).
  { unfold s'. rewrite crun_cons, E1, crun_cons. change (cstep s1 (ODo 0 ROk)) with (do_step s1 0 ROk). rewrite E2. reflexivity. }
  rewrite E. unfold do_step. rewrite V2. cbn [cp_pc cp_fd cp_stt].
  cbn [cy_log slog sproc app cy_data cy_proc]. rewrite fset_same, G2, G1, D2, D1, V. auto.
Qed.
Print Assumptions csv_recovers_refuted.

(** A short write joins two rows into one line. *)
Theorem csv_short_write_refuted :
  exists l, Forall (fun o => match o with OTrunc _ => False | _ => True end) l
    /\ let s := crun (cinit [[64; 10]] (Some 0%nat)) l in
       ended 0 (cy_log s) = [[65; 65; 10]; [66; 10]] /\ fdata s 0%nat = [64; 10; 65; 66; 10].
Proof.
  exists [OStart 0; ODo 0 ROk; ODo 0 ROk; ODo 0 ROk; ODo 0 ROk; ODo 0 ROk;
          OEnd 0 [65; 65; 10]; ODo 0 ROk; ODo 0 ROk; ODo 0 (RShort 1); ODo 0 ROk;
          OEnd 0 [66; 10]; ODo 0 ROk; ODo 0 ROk; ODo 0 ROk].
  split; [repeat constructor|]. vm_compute. auto.
Qed.
Print Assumptions csv_short_write_refuted.
