From Verif Require Import Base NumModel NumSpec OptsModel OptsSpec OptsProof.

(** Whatever bytes the modifiers of a U or L command consist of, and whatever follows them in memory: the parser stays within the
    string, ends, and answers with the options or an error that is not 0. *)
Theorem modifiers_parser_safe : forall e s junk addr, cstring s ->
  (exists o, parse e (s ++ 0 :: junk) addr = OOk o) \/ (exists x, x <> 0 /\ parse e (s ++ 0 :: junk) addr = OErr x).
Proof.
  intros e s junk addr F. destruct (parse_cases e s junk addr F) as [(ms & o & _ & _ & _ & _ & E)|(x & U & E & _)]; [eauto|].
  right. exists x. split; [|exact E]. destruct U as [(_ & ->)|[(ms & rest & _ & _ & O)|(ms & o & _ & _ & _ & [(-> & _)|(a & p & _ & _ & [(-> & _)|(-> & _)])])]]; try lia.
  inversion O; lia.
Qed.
Print Assumptions modifiers_parser_safe.

(** A command is accepted exactly when its modifiers are a sequence of the language, each good after those before it, and the
    addresses can be found; the options are then those the modifiers say. *)
Theorem accepted_exactly : forall e s junk addr o, cstring s ->
  (parse e (s ++ 0 :: junk) addr = OOk o <-> mem1 e = true /\ exists ms, many s ms [] /\ all_good e [] ms /\ accepted e ms addr o).
Proof. exact parse_ok_iff. Qed.
Print Assumptions accepted_exactly.

(** ... and when it is not, the error is that of the first modifier that is not good. *)
Theorem rejected_for_a_reason : forall e s junk addr x, cstring s -> parse e (s ++ 0 :: junk) addr = OErr x -> unacceptable e s addr x.
Proof. intros e s junk addr x F E. destruct (parse_cases e s junk addr F) as [(ms & o & _ & _ & _ & _ & E')|(y & U & E' & _)]; congruence. Qed.
Print Assumptions rejected_for_a_reason.

(** There is one reading of a string of modifiers. *)
Theorem modifiers_unambiguous : forall s ms ms', many s ms [] -> many s ms' [] -> ms = ms'.
Proof. intros s ms ms' H H'. eapply many_det; eauto. Qed.
Print Assumptions modifiers_unambiguous.

(** Example: two addresses, object 7 for any label, 8 for an IPv4 address, none for an IPv6 one; the remote host is the first
    byte of the address. *)
Definition E0 := mkEnv false 0 (Some 1%nat) (fun _ => INET) (fun _ => Some 7%nat) (fun _ f => match f with INET => Some 8%nat | _ => None end) (fun _ _ => None)
  (fun _ => None) (fun _ a p => match p with [x] => Some (head0 a, 1000 + x) | _ => Some (head0 a, 65535) end) true true true.
(** Aec0,8Iz20l1.2.3.4W *)
Definition m0 : list Z := [65; 101; 99; 48; 44; 56; 73; 122; 50; 48; 108; 49; 46; 50; 46; 51; 46; 52; 87].
Definition a0 : option (list Z * list Z) := Some ([49; 46; 50; 46; 51; 46; 52], [55]).
Example ex_ok : parse E0 (m0 ++ 0 :: [122; 122]) a0 =
  OOk (mkOpts true true 20 (Some [48; 44; 56]) (Some ((49, 1055), (49, 1056))) 0 1 (-1) (Some 8%nat) INET false false).
Proof. vm_compute. reflexivity. Qed.
Example ex_lang : many m0 [Asym; External; Codecs [48; 44; 56]; Internal; Ptime 20; Local INET [49; 46; 50; 46; 51; 46; 52]; Weak] [] /\ cstring m0.
Proof.
  split; [|unfold m0; repeat constructor; lia].
  unfold m0. eapply many_cons; [constructor; left; reflexivity|]. eapply many_cons; [constructor; right; reflexivity|].
  eapply many_cons; [apply (one_c 99 [48; 44; 56]); [right; reflexivity|discriminate|unfold codec_char, digit; repeat constructor; lia|apply not_next_cons; unfold codec_char, digit; lia]|].
  eapply many_cons; [constructor; left; reflexivity|].
  eapply many_cons; [constructor; [right; reflexivity|]; exists [], [], 1, [50; 48]; repeat split; try constructor; try discriminate; unfold digit; try lia; [repeat constructor; lia|apply not_next_cons; lia]|].
  eapply many_cons; [apply one_l; [right; reflexivity|]; apply (address4 [49; 46; 50; 46; 51; 46; 52]); [discriminate|unfold addr4, digit; repeat constructor; lia|apply not_next_cons; unfold addr4, digit; lia]|].
  eapply many_cons; [constructor; left; reflexivity|]. constructor.
Qed.
(** A third direction; two lists of codecs; no packet time; an address without its bracket; an unknown letter *)
Example ex_err : map (fun s => parse E0 (s ++ [0]) None) [[69; 73; 69]; [99; 48; 99; 49]; [122; 87]; [76; 91; 58; 58]; [76; 91; 58; 58; 93]; [120]] =
  [OErr 11; OErr 14; OErr 13; OErr 15; OErr 31; OErr 35].
Proof. vm_compute. reflexivity. Qed.

(** "The packet time is taken only if it is between 1 and 999": the number is cut to 32 bits before it is looked at. *)
Theorem packet_time_exact_refuted : exists s v o, one s (Ptime v) [] /\ v = 4294967316 /\ parse E0 (s ++ [0]) None = OOk o /\ requested_ptime o = 20.
Proof.
  exists (122 :: [52; 50; 57; 52; 57; 54; 55; 51; 49; 54]), 4294967316. eexists. split; [|split; [reflexivity|split; [vm_compute; reflexivity|reflexivity]]].
  constructor; [right; reflexivity|]. exists [], [], 1, [52; 50; 57; 52; 57; 54; 55; 51; 49; 54].
  repeat split; try constructor; try discriminate; unfold digit; try lia. repeat constructor; lia.
Qed.
Print Assumptions packet_time_exact_refuted.

(** Packet times that are numbers of 32 bits are. *)
Theorem packet_time_exact_partial : forall v, is_int v -> stored v = v.
Proof. intros v H. rewrite <- int_stored. apply NumProof.int_of_small, H. Qed.
Print Assumptions packet_time_exact_partial.

(** "RTCP is sent to the port above that of RTP": not for the last port. *)
Theorem rtcp_port_follows_refuted : exists o, parse E0 [0] (Some ([49; 46; 50; 46; 51; 46; 52], [])) = OOk o /\ ia o = Some ((49, 65535), (49, 0)).
Proof. eexists. split; vm_compute; reflexivity. Qed.
Print Assumptions rtcp_port_follows_refuted.
