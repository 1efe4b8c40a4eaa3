(** C55: reading a recording. *)
From Verif Require Import Base CksumModel CksumSpec TimeModel RecModel RecSpec RecProof RtpModel RtpSpec AnaModel LoadModel LoadSpec LoadProof.
From Coq Require Import Sorting Permutation.

(** Every file in one of the two formats is counted: one for every datagram of IPv4 (pcap), one for every packet with room for
    the fixed header (older format). *)
Theorem recording_counted : forall f ds fuel, recording f ds -> Forall byte f -> (length f < fuel)%nat ->
  scan_session fuel f = SCount (Z.of_nat (length ds)).
Proof. intros f ds fuel R B Hf. exact (recording_scan f ds fuel R B Hf). Qed.
Print Assumptions recording_counted.

(** Loading, into the channels there are. It never leaves the file; it fails exactly when the accounting (C14) does. When it does
    not, every channel has packets of one source, the number returned is that of the packets added, and for every source: all of
    its packets with audio are there, the first of those with the same number, by number, when neither number nor timestamp
    wraps around; they are there as they came when each follows the one before, also across a wrap; other sources are as
    before; the side is the one where the source was first seen. Missing: a packet that is late across a wrap of the number
    (false, see below). *)
Theorem recording_loaded_partial : forall f ds answer ch fuel, recording f ds -> Forall byte f -> (length f < fuel)%nat -> well_formed ch ->
  (~ steady stat0 (rtp ds) -> exists ch', load_session fuel answer f ch = LBad ch') /\
  (steady stat0 (rtp ds) -> exists n ch', load_session fuel answer f ch = LCount n ch' /\ well_formed ch' /\ total ch' = total ch + n /\
    (forall s, by_seq (session ch s) -> unwrapped (session ch s ++ of_ssrc s (audio ds)) ->
       by_seq (session ch' s) /\
       Permutation (session ch' s) (session ch s ++ firsts (map l_seq (session ch s)) (of_ssrc s (audio ds)))) /\
    (forall s, session ch s = [] -> in_order (of_ssrc s (audio ds)) -> session ch' s = of_ssrc s (audio ds)) /\
    (forall s, of_ssrc s (audio ds) = [] -> session ch' s = session ch s) /\
    (forall s, side ch' s = match side ch s with
                            | Some b => Some b
                            | None => match of_ssrc s (audio ds) with [] => None | _ => Some answer end
                            end)).
Proof.
  intros f ds answer ch fuel R B Hf W. rewrite (recording_load answer f ds fuel ch R B Hf). pose proof (datagrams_bytes f ds R B) as Bd. split.
  - intros St. apply go_unsteady; assumption.
  - intros St. rewrite (go_inserts answer ds Bd ch stat0 0 St). pose proof (inserts_ok answer (audio ds) ch W) as H.
    destruct (inserts answer ch (audio ds)) as [ch' n]. destruct H as (W' & T & Ss & Sd). exists n, ch'. cbn [fst snd].
    split; [reflexivity|]. split; [exact W'|]. split; [exact T|]. split; [|split; [|split; [|exact Sd]]].
    + intros s S U. rewrite Ss. apply placed_sorted; assumption.
    + intros s E O. rewrite Ss, E. apply placed_in_order_nil. exact O.
    + intros s E. rewrite Ss, E. reflexivity.
Qed.
Print Assumptions recording_loaded_partial.

(** What the recorder (C38) writes can be read: both formats, when all writes are complete, and when some fail. From a pcap file
    the packets of IPv4 only (see below). *)
Theorem recorded_readable_partial : forall single odd ops w,
  Forall wf_pkt (pkts ops) -> Forall (fun p => single && p_rtcp p = true -> same_ip p) (pkts ops) ->
  (exists c, RecModel.session LOCAL_PCAP single odd ops w = Ok c /\
    (all_written (answers ops w) -> Forall byte (r_file c) /\ recording (r_file c) (map as_data (filter v4 (flat_map (pview single) (pkts ops))))) /\
    (none_short (answers ops w) -> Forall byte (r_file c) /\
       exists k, recording (r_file c) (map as_data (filter v4 (flat_map (pview single) (firstn k (pkts ops))))))) /\
  (exists c, RecModel.session LOCAL_PKT single odd ops w = Ok c /\
    (all_written (answers ops w) -> ops <> [] -> Forall byte (r_file c) /\ recording (r_file c) (filter long (map (fun p => ad_data (aview p)) (pkts ops)))) /\
    (none_short (answers ops w) -> r_file c <> [] -> Forall byte (r_file c) /\
       exists k, recording (r_file c) (filter long (map (fun p => ad_data (aview p)) (firstn k (pkts ops)))))).
Proof.
  intros single odd ops w W S. split.
  - assert (G : Forall (good LOCAL_PCAP single) (pkts ops)) by (rewrite Forall_forall in *; intros p Hp; split; auto).
    destruct (session_ok LOCAL_PCAP single odd ops w) as (c & E & K & A); [discriminate| |].
    { unfold op_ok. rewrite Forall_forall in *. intros o Ho. apply G. apply in_map. assumption. }
    exists c. split; [assumption|]. split.
    + intros N. rewrite (A N). pose proof (file_bytes LOCAL_PCAP single _ W) as B. split; [exact B|]. apply parse_pcap_recording; [exact B|]. apply parse_file_pcap. assumption.
    + intros N. destruct (K N) as [k F]. rewrite F.
      assert (W' : Forall (good LOCAL_PCAP single) (firstn k (pkts ops))) by (rewrite Forall_forall in *; intros p Hp; apply G; rewrite <- (firstn_skipn k); apply in_app_iff; auto).
      assert (B : bytes8 (file_hdr LOCAL_PCAP ++ bs LOCAL_PCAP single (firstn k (pkts ops)))) by (apply file_bytes; eapply Forall_impl; [|exact W']; intros p [Hp _]; exact Hp).
      split; [exact B|]. exists k. apply parse_pcap_recording; [exact B|]. apply parse_file_pcap. assumption.
  - assert (G : Forall (good LOCAL_PKT single) (pkts ops)) by (rewrite Forall_forall in *; intros p Hp; split; [auto|discriminate]).
    destruct (session_ok LOCAL_PKT single odd ops w) as (c & E & K & A); [discriminate| |].
    { unfold op_ok. rewrite Forall_forall in *. intros o Ho. apply G. apply in_map. assumption. }
    exists c. split; [assumption|]. cbn [file_hdr app] in *. split.
    + intros N Ne. rewrite (A N). pose proof (file_bytes LOCAL_PKT single _ W) as B. cbn [file_hdr app] in B. split; [exact B|]. rewrite <- (map_map aview ad_data).
      apply (parse_adhoc_recording _ _ (length (bs LOCAL_PKT single (pkts ops))) B).
      * destruct ops as [|[p w1 w2] ops]; [congruence|]. unfold bs. cbn [pkts map concat pkt_of]. unfold rb at 1. cbn [hdrf]. inversion W as [|? ? Wp _]; subst. pose proof (adhoc_len p Wp) as L.
        destruct (adhoc_hdr p); [discriminate L|]. discriminate.
      * apply parse_file_adhoc; [assumption|lia].
    + intros N Ne. destruct (K N) as [k F]. rewrite F in *.
      assert (W' : Forall (good LOCAL_PKT single) (firstn k (pkts ops))) by (rewrite Forall_forall in *; intros p Hp; apply G; rewrite <- (firstn_skipn k); apply in_app_iff; auto).
      assert (B : bytes8 (bs LOCAL_PKT single (firstn k (pkts ops)))) by (apply (file_bytes LOCAL_PKT); eapply Forall_impl; [|exact W']; intros p [Hp _]; exact Hp).
      split; [exact B|]. exists k. rewrite <- (map_map aview ad_data). apply (parse_adhoc_recording _ _ (length (bs LOCAL_PKT single (firstn k (pkts ops)))) B Ne).
      apply parse_file_adhoc; [assumption|lia].
Qed.
Print Assumptions recorded_readable_partial.

(** A pcap file that ends within a record, as after a crash, is refused by the counting, wherever it ends. *)
Theorem cut_pcap_refused : forall net h l rs r frame k fuel, net = 0 \/ net = 1 -> pcap_header net h -> records l rs -> Forall (fits net) rs ->
  Forall byte (l ++ r ++ frame) -> length r = 16%nat -> le_num (sub r 8 4) = len frame -> fits net (0, 0, frame) ->
  (0 < k < length (r ++ frame))%nat -> (length (h ++ l ++ firstn k (r ++ frame)) < fuel)%nat ->
  scan_session fuel (h ++ l ++ firstn k (r ++ frame)) = SBad.
Proof. exact cut_pcap. Qed.
Print Assumptions cut_pcap_refused.

(** Whatever is in a file taken for one of the older format: counting and loading end and read nothing outside the file, unless it
    ends in the last 28 bytes of a page. *)
Theorem any_adhoc_safe : forall f answer ch fuel, Forall byte f -> rtpp_load f = Adhoc -> roomy f -> (length f + 1 < fuel)%nat ->
  (scan_session fuel f = SBad \/ exists n, scan_session fuel f = SCount n) /\
  (exists ch', load_session fuel answer f ch = LBad ch' \/ exists n, load_session fuel answer f ch = LCount n ch').
Proof.
  intros f answer ch fuel B K Rm Hf. unfold scan_session, load_session. rewrite K. unfold size. split.
  - apply scan_adhoc_any; try assumption; unfold size; lia.
  - apply load_adhoc_any; try assumption; unfold size; lia.
Qed.
Print Assumptions any_adhoc_safe.

(** *** Examples *)
Definition rtpb (pt seq ts ssrc : Z) (n : nat) : list Z := [128; pt] ++ be16 seq ++ be32 ts ++ be32 ssrc ++ repeat 85 n.
Definition adrec_of (time : Z) (d : list Z) : list Z := st16 2 ++ be16 5000 ++ [10; 0; 0; 1] ++ zeros 12 ++ le64 time ++ st16 (Z.of_nat (length d)) ++ d.
(** Seconds after 1e9 *)
Definition at_ (k : Z) : Z := 4741671816366391296 + 8388608 * k.
(** Two sources, one with a duplicate and a late packet, an event of no length, a short packet *)
Definition file_ex : list Z :=
  adrec_of (at_ 0) (rtpb 0 10 0 7 20) ++ adrec_of (at_ 1) (rtpb 0 12 320 7 20) ++ adrec_of (at_ 1) (rtpb 8 500 9000 8 20) ++
  adrec_of (at_ 2) (rtpb 0 11 160 7 20) ++ adrec_of (at_ 2) [1; 2; 3] ++ adrec_of (at_ 3) (rtpb 0 12 320 7 20) ++ adrec_of (at_ 3) (rtpb 8 501 9160 8 20).
Definition seqs (l : list lp) : list Z := map l_seq l.
Definition ds_ex : list (option Z * list Z) :=
  match parse_adhoc (length file_ex) file_ex with Some rs => filter long (map ad_data rs) | None => [] end.
Definition byteb_all (l : list Z) : bool := forallb byteb l.
Definition steadyb (s : stat) (l : list lp) : bool :=
  (fix go s l := match l with [] => true | x :: l => match update s (stat_pkt x) with (_, UPDATE_ERR) => false | (s, _) => go s l end end) s l.
Lemma steadyb_ok l : forall s, steadyb s l = true -> steady s l.
Proof.
  induction l as [|x l IH]; intros s; [intros _; exact Logic.I|]. cbn. destruct (update s (stat_pkt x)) as [s' r] eqn:E.
  intros H. cbn [fst snd]. destruct r; try discriminate; (split; [discriminate|]; apply IH; exact H).
Qed.
Lemma rec_by_parse f : match parse_adhoc (length f) f with Some _ => byteb_all f && negb (length f =? 0)%nat | None => false end = true ->
  Forall byte f /\ recording f (match parse_adhoc (length f) f with Some rs => filter long (map ad_data rs) | None => [] end).
Proof.
  destruct (parse_adhoc (length f) f) as [rs|] eqn:E; [|discriminate]. intros H. apply andb_prop in H. destruct H as [H1 H2].
  assert (B : bytes8 f) by exact (bytesb_ok f H1). split; [exact B|]. apply (parse_adhoc_recording f rs (length f) B); [|exact E]. intros ->. discriminate.
Qed.
Example file_ex_ok : recording file_ex ds_ex /\ Forall byte file_ex /\ steady stat0 (rtp ds_ex) /\ well_formed [] /\
  length ds_ex = 6%nat /\ seqs (of_ssrc 7 (audio ds_ex)) = [10; 12; 11; 12] /\ seqs (of_ssrc 8 (audio ds_ex)) = [500; 501].
Proof.
  destruct (rec_by_parse file_ex) as [B R]; [vm_compute; reflexivity|]. split; [exact R|]. split; [exact B|].
  split; [apply steadyb_ok; vm_compute; reflexivity|]. split; [split; constructor|]. vm_compute. auto.
Qed.
Example file_ex_loaded : match load_session 1000 true file_ex [] with
  | LCount n ch => n = 5 /\ seqs (session ch 7) = [10; 11; 12] /\ seqs (session ch 8) = [500; 501] /\ side ch 7 = Some true
  | _ => False end.
Proof. vm_compute. auto. Qed.
(** Across a wrap of the number in order *)
Example wrap_in_order : match load_session 1000 true (adrec_of (at_ 0) (rtpb 0 65535 0 7 20) ++ adrec_of (at_ 0) (rtpb 0 0 160 7 20)) [] with
  | LCount n ch => n = 2 /\ seqs (session ch 7) = [65535; 0] | _ => False end.
Proof. vm_compute. auto. Qed.
(** A file of the recorder *)
Definition rec_ops : list op := [Pkt (RecModel.mkPkt (mkSa V4 [10; 0; 0; 1] 5000) [10; 0; 0; 9] 35000 (mkSa V4 [10; 0; 0; 3] 35002) None false (at_ 0) 7 None (rtpb 0 1 2 3 20)) WAll WAll].
Example recorded_ex : Forall wf_pkt (pkts rec_ops) /\ all_written (answers rec_ops WAll) /\
  match RecModel.session LOCAL_PCAP false false rec_ops WAll with Ok c => scan_session 200 (r_file c) = SCount 1 | Overflow => False end.
Proof. split; [apply wfs_ok; vm_compute; reflexivity|]. split; [repeat constructor|]. vm_compute. reflexivity. Qed.

(** ** What does not hold *)

Definition phdr : list Z := le32 2712847316 ++ st16 2 ++ st16 4 ++ le32 0 ++ le32 0 ++ le32 65535 ++ le32 1.
Definition prec (etype incl : Z) (rest : list Z) : list Z := le32 1 ++ le32 2 ++ le32 incl ++ le32 incl ++ zeros 12 ++ be16 etype ++ rest.
(** IPv6: what the recorder wrote is not counted. *)
Theorem ipv6_not_read_refuted : exists ops c, Forall wf_pkt (pkts ops) /\ all_written (answers ops WAll) /\ length ops = 1%nat /\
  RecModel.session LOCAL_PCAP false false ops WAll = Ok c /\ scan_session 1000 (r_file c) = SCount 0.
Proof.
  exists [Pkt (RecModel.mkPkt (mkSa V6 (zeros 15 ++ [1]) 5000) (zeros 15 ++ [2]) 35000 (mkSa V6 (zeros 15 ++ [2]) 35002) None false (at_ 0) 7 None (rtpb 0 1 2 3 20)) WAll WAll].
  eexists. split; [apply wfs_ok; vm_compute; reflexivity|]. split; [repeat constructor|]. split; [reflexivity|]. split; [vm_compute; reflexivity|]. vm_compute. reflexivity.
Qed.
Print Assumptions ipv6_not_read_refuted.
(** A file that makes the counting, and the loading, go on forever *)
Theorem pcap_ends_refuted : exists f, Forall byte f /\ (forall fuel, scan_session fuel f = SFuel) /\ forall fuel answer ch, load_session fuel answer f ch = LFuel.
Proof.
  exists (phdr ++ prec 2054 4294967280 (zeros 60)). split; [apply bytesb_ok; vm_compute; reflexivity|]. set (f := phdr ++ _).
  assert (K : rtpp_load f = Pcap 1) by (vm_compute; reflexivity). assert (D : pcap_dissect f 24 1 = DUnk 0) by (vm_compute; reflexivity). assert (L : 24 <? size f = true) by (vm_compute; reflexivity).
  unfold scan_session, load_session. rewrite K. generalize dependent f. clear. intros f K D L. split.
  - intros fuel. induction fuel as [|fuel IH]; [reflexivity|]. cbn [scan_pcap]. rewrite L, D. exact IH.
  - intros fuel answer ch. induction fuel as [|fuel IH]; [reflexivity|]. cbn [load_pcap]. rewrite L, D. exact IH.
Qed.
Print Assumptions pcap_ends_refuted.
(** A file that makes it read in front of the file; one where the sum of two lengths overflows; one where a record is longer than the
    file and the packet is taken from memory behind it; one of the older format that ends close to the end of a page *)
Theorem pcap_inside_refuted :
  (exists f, Forall byte f /\ scan_session 10 f = SOob) /\
  (exists f, Forall byte f /\ scan_session 10 f = SUb) /\
  (exists f, Forall byte f /\ scan_session 10 f = SBad /\ load_session 10 true f [] = LOob) /\
  (exists f, Forall byte f /\ rtpp_load f = Adhoc /\ scan_session 4100 f = SOob).
Proof.
  split; [|split; [|split]].
  - exists (phdr ++ prec 2054 4294967040 (zeros 60)). split; [apply bytesb_ok; vm_compute; reflexivity|]. vm_compute. reflexivity.
  - exists (phdr ++ prec 2048 2147483640 (zeros 60)). split; [apply bytesb_ok; vm_compute; reflexivity|]. vm_compute. reflexivity.
  - exists (phdr ++ prec 2048 200 (zeros 60)). split; [apply bytesb_ok; vm_compute; reflexivity|]. split; vm_compute; reflexivity.
  - exists (zeros (Z.to_nat 4096)). split; [apply bytesb_ok; vm_compute; reflexivity|]. split; vm_compute; reflexivity.
Qed.
Print Assumptions pcap_inside_refuted.
(** A proper recording that cannot be loaded: the second of two packets swapped by the network, right after a wrap. *)
Theorem recording_refused_refuted : exists f ds ch, recording f ds /\ Forall byte f /\ map l_seq (audio ds) = [65535; 0; 65534] /\ load_session 1000 true f [] = LBad ch.
Proof.
  set (f := adrec_of (at_ 0) (rtpb 0 65535 160 7 20) ++ adrec_of (at_ 0) (rtpb 0 0 320 7 20) ++ adrec_of (at_ 0) (rtpb 0 65534 0 7 20)).
  destruct (rec_by_parse f) as [B R]; [vm_compute; reflexivity|]. exists f. do 2 eexists. split; [exact R|]. split; [exact B|]. split; vm_compute; reflexivity.
Qed.
Print Assumptions recording_refused_refuted.
(** A packet that is late across a wrap comes after the one it should precede. *)
Theorem late_across_wrap_refuted : exists f ds, recording f ds /\ Forall byte f /\
  match load_session 1000 true f [] with LCount 3 ch => map l_ts (session ch 7) = [0; 320; 160] | _ => False end.
Proof.
  set (f := adrec_of (at_ 0) (rtpb 0 65534 0 7 20) ++ adrec_of (at_ 0) (rtpb 0 0 320 7 20) ++ adrec_of (at_ 0) (rtpb 0 65535 160 7 20)).
  destruct (rec_by_parse f) as [B R]; [vm_compute; reflexivity|]. exists f. eexists. split; [exact R|]. split; [exact B|]. vm_compute. reflexivity.
Qed.
Print Assumptions late_across_wrap_refuted.
(** The same source in both files: what the other side sent is taken for what this side sent. *)
Theorem sides_apart_refuted : exists f g ch, Forall byte f /\ Forall byte g /\ load_session 1000 false f [] = LCount 1 ch /\
  match load_session 1000 true g ch with LCount 1 ch' => length ch' = 1%nat /\ side ch' 7 = Some false /\ seqs (session ch' 7) = [10; 500] | _ => False end.
Proof.
  exists (adrec_of (at_ 0) (rtpb 0 10 0 7 20)), (adrec_of (at_ 0) (rtpb 8 500 0 7 20)). eexists. split; [apply bytesb_ok; vm_compute; reflexivity|]. split; [apply bytesb_ok; vm_compute; reflexivity|].
  split; [vm_compute; reflexivity|]. vm_compute. auto.
Qed.
Print Assumptions sides_apart_refuted.
(** A frame of another kind with less than 42 bytes as the last one makes the file unreadable. *)
Theorem short_frame_refuted : exists h r frame, pcap_header 1 h /\ records (r ++ frame) [(1, 2, frame)] /\ inet 1 frame = false /\ length frame = 41%nat /\
  Forall byte (h ++ r ++ frame) /\ scan_session 1000 (h ++ r ++ frame) = SBad.
Proof.
  exists phdr, (le32 1 ++ le32 2 ++ le32 41 ++ le32 41), (zeros 12 ++ [8; 6] ++ zeros 27). split; [repeat split; vm_compute; reflexivity|].
  split; [|split; [vm_compute; reflexivity|split; [vm_compute; reflexivity|split; [apply bytesb_ok; vm_compute; reflexivity|vm_compute; reflexivity]]]].
  replace ((le32 1 ++ le32 2 ++ le32 41 ++ le32 41) ++ zeros 12 ++ [8; 6] ++ zeros 27) with ((le32 1 ++ le32 2 ++ le32 41 ++ le32 41) ++ (zeros 12 ++ [8; 6] ++ zeros 27) ++ []) by reflexivity.
  apply (records_cons (le32 1 ++ le32 2 ++ le32 41 ++ le32 41) (zeros 12 ++ [8; 6] ++ zeros 27) [] []); [reflexivity|vm_compute; reflexivity|constructor].
Qed.
Print Assumptions short_frame_refuted.
