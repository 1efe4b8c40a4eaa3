(** C24, C31: replies. *)
From Verif Require Import Base Str NumSpec StrSpec StrProof ReplyModel ReplySpec ReplyProof.

Definition prefix (cookie : option (list Z)) : list Z := match cookie with Some c => c ++ B " " | None => [] end.

(** C24: whatever the cookie and whatever the command answers, nothing is ever stored outside of the
    1024 byte buffer; unless an assertion stops the server exactly one reply is sent, it begins with
    the cookie, ends with a newline and is shorter than the buffer. *)
Theorem reply_never_overflows : forall cookie h,
  match exec_reply cookie h with
  | Oob => False
  | Abort => True
  | Ret s => exists body e, rp_sent s = [(prefix cookie ++ body ++ B "
", e)] /\ Z.of_nat (length (prefix cookie ++ body ++ B "
")) <= 1023
  end.
Proof.
  intros cookie h. change (B "
") with [10]. destruct (exec_start cookie h) as [(s & E & R)|(E & _)]; rewrite E; [|exact I].
  pose proof (answer_good h s _ _ R) as G. destruct (answer h s) as [| |s']; cbn [good] in G; auto.
  destruct G as (b & e & Es & L). exists b, e. split; [exact Es|]. fold (prefix_of cookie). change (prefix cookie) with (prefix_of cookie). rewrite app_assoc, len_app. cbn [length]. lia.
Qed.
Print Assumptions reply_never_overflows.

(** C24, partial: with a cookie below a thousand bytes and outside of the tight cases excluded by
    [roomy] every command is answered. Missing: the sizes for which an assertion fails, see below. *)
Theorem reply_no_abort_partial : forall cookie h,
  Z.of_nat (length (prefix cookie)) <= 1000 -> roomy (Z.of_nat (length (prefix cookie))) h ->
  exists s, exec_reply cookie h = Ret s.
Proof.
  intros cookie h L H. destruct (exec_start cookie h) as [(s & E & R)|(E & c & -> & Hc)].
  - rewrite E. exact (answer_no_abort h s _ R L H).
  - cbn [prefix] in L. rewrite len_app in L. lia.
Qed.
Print Assumptions reply_no_abort_partial.

Definition st0 : qstats := mkQstats 60 100 200 290 10 0 0 0 0 0 (B "0.02") (B "0.0") (B "0.0") (B "0.0").
Example reply_no_abort_meets : Z.of_nat (length (prefix (Some (B "123_7")))) <= 1000 /\
  roomy (Z.of_nat (length (prefix (Some (B "123_7"))))) (HUl (B "10000 192.0.2.1") [mkSubres 0 []; mkSubres (-3) []] false).
Proof. split; vm_compute; congruence. Qed.

(** The full statement fails: a long cookie, or a reply that only just fits, stops the server. *)
Theorem reply_no_abort_refuted :
  (exists c, exec_reply (Some c) (HNumber 0) = Abort) /\
  (exists c e, Z.of_nat (length c) <= 1019 /\ exec_reply (Some c) (HError e) = Abort) /\
  (exists c, exec_reply (Some c) (HQuery [] true [] st0 []) = Abort) /\
  (exists c sub, Z.of_nat (length (c ++ B " ") + length (query_simple_text st0 false)) = 1017 /\
     exec_reply (Some c) (HQuery [] true [] st0 sub) = Abort) /\
  (exists c main sub, Z.of_nat (length (c ++ B " ") + length main) = 1017 /\ exec_reply (Some c) (HUl main sub false) = Abort).
Proof.
  split; [exists (repeat 97 1023); vm_compute; reflexivity|].
  split; [exists (repeat 97 1019), 62; vm_compute; split; [congruence|reflexivity]|].
  split; [exists (repeat 97 1005); vm_compute; reflexivity|].
  split; [exists (repeat 97 999), [mkSubres 0 (B "text")]; vm_compute; auto|].
  exists (repeat 97 1000), (B "10000 192.0.2.22"), [mkSubres 0 []]. vm_compute. auto.
Qed.
Print Assumptions reply_no_abort_refuted.

(** C31: the reply to a query lists the requested counters (or the five default ones), in the
    requested order, followed by the results of the sub-commands. *)
Theorem query_reply_exact : forall cookie mods verbose names st T subc sub,
  verbose_only mods verbose -> st_ok st -> subs_ok subc ->
  fields (counter st) verbose (match names with [] => default_names | _ => names end) T ->
  sub_text (executed subc) sub ->
  Z.of_nat (length (prefix cookie ++ T ++ sub)) <= match subc with [] => 1022 | _ => 1016 end ->
  exists s, exec_reply cookie (HQuery mods (match names with [] => true | _ => false end) names st subc) = Ret s /\
            rp_sent s = [(prefix cookie ++ T ++ sub ++ [10], false)].
Proof.
  intros cookie mods verbose names st T subc sub V SO SU F S L.
  destruct (exec_start cookie (HQuery mods (match names with [] => true | _ => false end) names st subc)) as [(s & E & R)|(E & c & -> & Hc)].
  - rewrite E. cbn [answer]. eapply query_exact; eauto.
  - cbn [prefix] in L. rewrite !len_app in L. destruct subc; lia.
Qed.
Print Assumptions query_reply_exact.

Lemma dec_of n t : is_int n -> t = fmt_d n -> dec n t.
Proof. intros H ->. apply fmt_d_dec; [apply int_printable; exact H|reflexivity]. Qed.

Example query_reply_meets : exists T sub, T = B "nrelayed=290 ttl=60" /\ sub = B " && 0 && -2" /\
  fields (counter st0) true [B "nrelayed"; B "ttl"] T /\
  sub_text (executed [mkSubres 0 []; mkSubres (-2) []; mkSubres 5 []]) sub /\ st_ok st0 /\ verbose_only (B "v") true.
Proof.
  eexists. eexists. split; [reflexivity|]. split; [reflexivity|]. split; [|split; [|split]].
  - apply (f_more (counter st0) true (B "nrelayed") (B "290") [B "ttl"] (B "ttl=60")); [discriminate| |].
    + apply c_relayed, dec_of; [unfold is_int; cbn; lia|reflexivity].
    + apply (f_one (counter st0) true (B "ttl") (B "60")). apply c_ttl, dec_of; [unfold is_int; cbn; lia|reflexivity].
  - apply (st_field _ _ (B "0") (B " && -2")).
    + intros F. inversion F as [|? ? _ F']. inversion F' as [|? ? [X _] _]. discriminate.
    + apply sf_silent. split; reflexivity.
    + apply (st_field _ _ (B "-2") []); [intros F; inversion F as [|? ? [X _] _]; discriminate| |constructor; constructor].
      apply sf_failed; [discriminate|]. apply dec_of; [unfold is_int; cbn; lia|reflexivity].
  - split; [unfold is_int; cbn; lia|]. repeat constructor; cbn; lia.
  - split; [repeat constructor|]. split; [discriminate|reflexivity].
Qed.

(** C31: a name that is not a counter makes the whole query fail with error 62 ... *)
Theorem query_unknown_counter : forall cookie mods verbose known bad rest st T subc,
  verbose_only mods verbose -> st_ok st -> fields (counter st) verbose known T ->
  (forall v, ~ counter st bad v) ->
  Z.of_nat (length (prefix cookie)) <= 1000 -> Z.of_nat (length (prefix cookie ++ T ++ bad)) <= 1021 ->
  exists s, exec_reply cookie (HQuery mods false (known ++ bad :: rest) st subc) = Ret s /\
            rp_sent s = [(prefix cookie ++ B "E62
", true)].
Proof.
  intros cookie mods verbose known bad rest st T subc V SO F NB L1 L2.
  destruct (exec_start cookie (HQuery mods false (known ++ bad :: rest) st subc)) as [(s & E & R)|(E & c & -> & Hc)].
  2:{ cbn [prefix] in L1. rewrite len_app in L1. lia. }
  rewrite E. cbn [answer]. rewrite run_query_eq, (verbose_spec _ _ V). unfold query_main.
  apply (fields_ftext (counter st) (query_field st) verbose) in F; [|intros; apply counter_field; assumption].
  assert (NB' : query_field st bad = None).
  { destruct (query_field st bad) as [v|] eqn:Eb; [|reflexivity]. exfalso. apply (NB v). apply counter_field; assumption. }
  rewrite !len_app in L2. change (prefix cookie) with (prefix_of cookie) in *.
  destruct (field_loop_unknown (query_field st) verbose ECODE_RTOOBIG_2 ECODE_QRYFAIL ECODE_RTOOBIG_2 known bad rest T s _ [] ltac:(discriminate) ltac:(discriminate) ltac:(discriminate) R F NB' ltac:(lia)) as (s1 & txt & E1 & R1).
  rewrite E1. cbn [bind]. change (negb (ECODE_QRYFAIL =? 0)) with true. cbn [negb].
  destruct (error_ok _ _ _ _ ECODE_QRYFAIL R1 i62 L1) as (s' & E' & Es). exists s'. split; [exact E'|]. exact Es.
Qed.
Print Assumptions query_unknown_counter.
Example query_unknown_meets : forall v, ~ counter st0 (B "nrelay") v.
Proof. intros v H. inversion H. Qed.

(** ... and so does a modifier other than v, with error 19. *)
Theorem query_bad_modifier : forall cookie mods few names st subc,
  ~ Forall (fun c => c = 118 \/ c = 86) mods -> Z.of_nat (length (prefix cookie)) <= 1000 ->
  exists s, exec_reply cookie (HQuery mods few names st subc) = Ret s /\ rp_sent s = [(prefix cookie ++ B "E19
", true)].
Proof.
  intros cookie mods few names st subc H L.
  destruct (exec_start cookie (HQuery mods few names st subc)) as [(s & E & R)|(E & c & -> & Hc)].
  2:{ cbn [prefix] in L. rewrite len_app in L. lia. }
  rewrite E. cbn [answer]. rewrite run_query_eq, (verbose_none _ _ H).
  destruct (error_ok _ _ _ _ ECODE_PARSE_8 R ltac:(unfold is_int, ECODE_PARSE_8; lia) L) as (s' & E' & Es). exists s'. split; [exact E'|exact Es].
Qed.
Print Assumptions query_bad_modifier.
Example query_bad_modifier_meets : ~ Forall (fun c => c = 118 \/ c = 86) (B "vx").
Proof. intros F. inversion F as [|? ? _ F']. inversion F' as [|? ? [X|X] _]; discriminate. Qed.

(** C31, the case left out above: a default query that does not fit is answered with nothing but the
    cookie, as a success. *)
Theorem query_default_overflow_refuted : exists cookie st s, st_ok st /\
  exec_reply (Some cookie) (HQuery [] true [] st []) = Ret s /\ rp_sent s = [(cookie ++ B " " ++ [10], false)].
Proof.
  exists (repeat 97 1010), st0. eexists. split; [split; [unfold is_int; cbn; lia|repeat constructor; cbn; lia]|].
  vm_compute. split; reflexivity.
Qed.
Print Assumptions query_default_overflow_refuted.

(** The reply to an update or a lookup: port, then the results of the sub-commands. *)
Theorem update_reply_exact : forall cookie main subc sub errd,
  subs_ok subc -> sub_text subc sub ->
  Z.of_nat (length (prefix cookie ++ main ++ sub)) <= match subc with [] => 1021 | _ => 1015 end ->
  exists s, exec_reply cookie (HUl main subc errd) = Ret s /\ rp_sent s = [(prefix cookie ++ main ++ sub ++ [10], errd)].
Proof.
  intros cookie main subc sub errd SU S L.
  destruct (exec_start cookie (HUl main subc errd)) as [(s & E & R)|(E & c & -> & Hc)].
  - rewrite E. cbn [answer]. eapply ul_exact; eauto.
  - cbn [prefix] in L. rewrite !len_app in L. destruct subc; lia.
Qed.
Print Assumptions update_reply_exact.
Example update_reply_meets : subs_ok [mkSubres 0 []; mkSubres 0 (B "7")] /\ sub_text [mkSubres 0 []; mkSubres 0 (B "7")] (B " && 0 && 7").
Proof.
  split; [repeat constructor; unfold is_int; cbn; lia|].
  apply (st_field _ _ (B "0") (B " && 7")).
  - intros F. inversion F as [|? ? _ F']. inversion F' as [|? ? [_ X] _]. discriminate.
  - apply sf_silent. split; reflexivity.
  - apply (st_field _ _ (B "7") []); [intros F; inversion F as [|? ? [_ X] _]; discriminate|apply sf_text; [reflexivity|discriminate]|constructor; constructor].
Qed.

(** The remaining replies are exact too: a number, an error, the port of a copy target, the
    information text. *)
Theorem simple_reply_exact : forall cookie h txt e, simple_reply h txt e ->
  Z.of_nat (length (prefix cookie ++ txt)) <= 1022 ->
  exists s, exec_reply cookie h = Ret s /\ rp_sent s = [(prefix cookie ++ txt ++ [10], e)].
Proof. exact simple_exact. Qed.
Print Assumptions simple_reply_exact.
Example simple_reply_meets : simple_reply (HCopy (B "192.0.2.7") 10002 false) (B "10002 192.0.2.7") false.
Proof. apply (sr_copy4 (B "192.0.2.7") 10002 (B "10002")); [unfold is_int; lia|apply dec_of; [unfold is_int; lia|reflexivity]]. Qed.
