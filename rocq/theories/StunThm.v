(** Theorems about the STUN messages of ICE (C60). The two digests, the keyed one of
    MESSAGE-INTEGRITY and the checksum of FINGERPRINT, are any functions with results of 20 bytes
    and of 32 bits. *)
From Verif Require Import Base Str StunModel StunSpec StunProof.

Definition digests (mac : list Z -> list Z -> list Z) (crc : list Z -> Z) : Prop :=
  (forall k x, length (mac k x) = 20%nat /\ bytes (mac k x)) /\ (forall x, 0 <= crc x < 2 ^ 32).
(** For the examples: digests that depend on every byte. *)
Definition ex_crc (x : list Z) : Z := fold_left (fun a c => (a * 31 + c) mod 2 ^ 32) x 7.
Definition ex_mac (k x : list Z) : list Z := repeat (ex_crc (k ++ x) mod 256) 20.
Lemma ex_digests : digests ex_mac ex_crc.
Proof.
  split.
  - intros k x. unfold ex_mac. split; [apply repeat_length|]. apply Forall_forall. intros y H. apply repeat_spec in H. lia.
  - intros x. unfold ex_crc. destruct x as [|c x] using rev_ind; [vm_compute; split; congruence|]. rewrite fold_left_app. cbn [fold_left]. apply Z.mod_pos_bound. lia.
Qed.
Definition ex_tid : list Z := B "abcdefghijkl".
Definition ex_l : list attr := [mkAttr 0x6 (VStr (B "L1:R1")); mkAttr 0x802a (VU64 77); mkAttr 0x24 (VU32 1862270975); mkAttr 0x25 VFlag].
Definition ex_b : list Z := match encode ex_mac ex_crc 1 0 ex_tid (Some (B "secret")) true ex_l with Some b => b | None => [] end.

(** Whatever datagram comes in, reading it ends and takes no byte from outside it, and neither do the
    two checks of a message that was read, with any key. *)
Theorem stun_reading_stays_inside_datagram : forall mac crc key b, bytes b -> zlen b < 2 ^ 40 ->
  decode b <> Past /\ decode b <> Hang /\
  forall m, decode b = Ok m -> (chk_fp crc b m <> Past /\ chk_fp crc b m <> Hang) /\ fst (chk_mi mac key b m) <> Past.
Proof. exact stays_inside. Qed.
Print Assumptions stun_reading_stays_inside_datagram.
Example stun_inside_ex : exists m, bytes ex_b /\ zlen ex_b = 88 /\ decode ex_b = Ok m /\ length (m_attrs m) = 6%nat /\
  decode (firstn 87 ex_b) = Err EBADMSG /\ decode ([0; 1; 0; 4] ++ part ex_b 4 16 ++ [0; 19; 255; 255]) = Err EBADMSG.
Proof.
  eexists. split; [|split; [|split; [|split; [|split]]]]; try (vm_compute; reflexivity).
  apply Forall_forall. intros x H. assert (A : forallb (fun x => (0 <=? x) && (x <? 256)) ex_b = true) by (vm_compute; reflexivity).
  rewrite forallb_forall in A. specialize (A x H). lia.
Qed.

(** The attributes of a message that was read stand one after the other in the bytes the header
    counts, from the 20th on to at most 3 before their end, and the header is that of the datagram. *)
Theorem stun_attributes_in_message : forall b m, bytes b -> zlen b < 2 ^ 40 -> decode b = Ok m ->
  20 + num b 2 2 <= zlen b /\ m_hdr m = mkHdr (num b 0 2) (num b 2 2) (num b 4 4) (part b 8 12) /\ (length (m_ua m) <= 8)%nat /\
  exists e, one_after_another b 20 (m_attrs m) e /\ 20 + num b 2 2 - 4 < e <= 20 + num b 2 2.
Proof.
  intros b m Bb L D. pose proof (msg_shape b Bb L) as M. rewrite D in M. cbn [msg_good] in M.
  destruct M as (M1 & M2 & M3 & M4 & M5 & M6 & M7 & M8 & e & M9 & M10). rewrite M3 in M1, M10. cbn [h_len] in M1, M10.
  split; [exact M1|]. split; [exact M3|]. split; [exact M8|]. exists e. split; [exact M9|exact M10].
Qed.
Print Assumptions stun_attributes_in_message.
Example stun_in_message_ex : forall m, decode ex_b = Ok m ->
  num ex_b 2 2 = 68 /\ map a_type (m_attrs m) = [0x6; 0x802a; 0x24; 0x25; 0x8; 0x8028].
Proof. intros m E. vm_compute in E. injection E as <-. vm_compute. split; reflexivity. Qed.

(** The integrity check puts the packet back as it was. *)
Theorem stun_integrity_check_leaves_packet : forall mac key b m, bytes b -> zlen b < 2 ^ 40 -> decode b = Ok m ->
  snd (chk_mi mac key b m) = b.
Proof. intros mac key b m Bb L D. exact (chk_mi_after mac (fun _ => 0) key b m Bb L (read_ok b m Bb L D)). Qed.
Print Assumptions stun_integrity_check_leaves_packet.
Example stun_check_ex : forall m, decode ex_b = Ok m -> chk_mi ex_mac (B "secret") ex_b m = (Ok tt, ex_b) /\
  chk_mi ex_mac (B "other") ex_b m = (Err EBADMSG, ex_b).
Proof. intros m E. vm_compute in E. injection E as <-. vm_compute. split; reflexivity. Qed.

(** What is written is read back: the type, the transaction, the attributes in their order and no
    others than the two digests asked for, and both checks pass with the key. *)
Theorem stun_written_messages_read_back : forall mac crc, digests mac crc -> forall method class tid key fp l b,
  0 <= method < 16 -> 0 <= class < 4 -> length tid = 12%nat -> bytes tid ->
  encode mac crc method class tid key fp l = Some b -> Forall well_formed l ->
  exists m tail, decode b = Ok m /\
    msg_method (h_type (m_hdr m)) = method /\ msg_class (h_type (m_hdr m)) = class /\ h_tid (m_hdr m) = tid /\
    h_cookie (m_hdr m) = 0x2112a442 /\ h_len (m_hdr m) = zlen b - 20 /\
    m_attrs m = l ++ tail /\ m_ua m = [] /\
    map a_type tail = (if key then [0x8] else []) ++ (if fp then [0x8028] else []) /\
    (plain l -> (fp = true -> chk_fp crc b m = Ok tt) /\ (forall k, key = Some k -> fst (chk_mi mac k b m) = Ok tt)).
Proof.
  intros mac crc (Dm & Dc) method class tid key fp l b M C T Bt E W.
  destruct (read_back mac crc Dm Dc method class tid key fp l b T Bt E W) as (m & tail & D & H & R).
  exists m, tail. rewrite H. cbn [h_type h_tid h_cookie h_len]. destruct (types_back method class M C) as (-> & ->).
  repeat (split; [first [exact D|reflexivity]|]). exact R.
Qed.
Print Assumptions stun_written_messages_read_back.
Example stun_written_ex : digests ex_mac ex_crc /\ length ex_tid = 12%nat /\ plain ex_l /\
  encode ex_mac ex_crc 1 0 ex_tid (Some (B "secret")) true ex_l = Some ex_b /\
  encode ex_mac ex_crc 1 2 ex_tid None false [mkAttr 0x20 (VSa (In6 (repeat 1 16) 5060))] =
    Some ([1; 1; 0; 24] ++ [0x21; 0x12; 0xa4; 0x42] ++ ex_tid ++ [0; 32; 0; 20; 0; 2; 50; 214] ++ [0x20; 0x13; 0xa5; 0x43] ++ map (fun x => Z.lxor x 1) ex_tid).
Proof.
  split; [exact ex_digests|]. split; [reflexivity|]. split; [|split; vm_compute; reflexivity].
  assert (X : text (B "L1:R1")).
  { split; [|split]; [repeat constructor; vm_compute; congruence| |reflexivity]. intros H. cbn in H. repeat (destruct H as [H|H]; [discriminate|]). exact H. }
  unfold plain, ex_l. repeat (apply Forall_cons; [split; [|split; discriminate]|]); [| | | |apply Forall_nil]; unfold well_formed; cbn [a_val a_type In]; try tauto; split; try tauto; lia.
Qed.

(** What is written stands on the wire as the documents draw it: the cookie and the transaction, the
    length, and every attribute with the bytes of its value, addresses masked where they have to be. *)
Theorem stun_written_messages_on_wire : forall mac crc, digests mac crc -> forall method class tid key fp l b,
  length tid = 12%nat -> Forall well_formed l -> encode mac crc method class tid key fp l = Some b -> zlen b < 65000 ->
  part b 4 16 = [0x21; 0x12; 0xa4; 0x42] ++ tid /\ num b 2 2 = zlen b - 20 /\
  exists tail, map a_type tail = (if key then [0x8] else []) ++ (if fp then [0x8028] else []) /\ all_drawn b 20 (l ++ tail) (zlen b).
Proof. intros mac crc (Dm & Dc). exact (message_drawn mac crc Dm Dc). Qed.
Print Assumptions stun_written_messages_on_wire.
Example stun_wire_ex : zlen ex_b < 65000 /\ num ex_b 2 2 = 68 /\ num ex_b 20 2 = 0x6 /\ num ex_b 22 2 = 5 /\ part ex_b 24 5 = B "L1:R1".
Proof. repeat split; vm_compute; reflexivity. Qed.

(** A datagram passes both checks with a key exactly if it can be read and carries, first of their
    types, the keyed digest of the bytes it covers and the checksum of the bytes before the last 8. *)
Theorem stun_accepted_iff_integrity : forall mac crc key b m, bytes b -> zlen b < 2 ^ 40 ->
  (accepted mac crc key b m <->
   decode b = Ok m /\
   find_attr 0x8 m = Some (mkAttr 0x8 (VMi (mac key (covered b)))) /\
   find_attr 0x8028 m = Some (mkAttr 0x8028 (VU32 (Z.lxor (crc (part b 0 (12 + num b 2 2))) 0x5354554e)))).
Proof. exact accepted_iff. Qed.
Print Assumptions stun_accepted_iff_integrity.
Example stun_accepted_ex : exists m, accepted ex_mac ex_crc (B "secret") ex_b m /\
  covered ex_b = [0; 1; 0; 60] ++ part ex_b 4 52 /\ zlen (covered ex_b) = 56.
Proof. eexists. split; [split; [vm_compute; reflexivity|split; vm_compute; reflexivity]|]. split; vm_compute; reflexivity. Qed.

(** One who does not know the key can only send again bytes whose digest was seen. A datagram that
    covers the same bytes as a message written with attributes [l] is accepted as a message of that
    type and transaction whose attributes are [l] and the two digests: nothing is added, left out or
    changed. *)
Theorem stun_forged_messages_add_nothing : forall mac crc, digests mac crc -> forall method class tid k l b0,
  length tid = 12%nat -> bytes tid -> plain l -> encode mac crc method class tid (Some k) true l = Some b0 ->
  forall key b m, bytes b -> zlen b < 2 ^ 40 -> accepted mac crc key b m -> covered b = covered b0 ->
  h_type (m_hdr m) = msg_type method class /\ h_tid (m_hdr m) = tid /\
  exists a1 a2, a_type a1 = 0x8 /\ a_type a2 = 0x8028 /\ (m_attrs m = l ++ [a1; a2] \/ m_attrs m = l ++ [a2; a1]).
Proof. intros mac crc (Dm & Dc). exact (nothing_added mac crc Dm Dc). Qed.
Print Assumptions stun_forged_messages_add_nothing.
(** Bytes after the message, say. *)
Example stun_forged_ex : exists m, bytes (ex_b ++ [1; 2; 3]) /\ covered (ex_b ++ [1; 2; 3]) = covered ex_b /\
  accepted ex_mac ex_crc (B "secret") (ex_b ++ [1; 2; 3]) m /\ map a_type (m_attrs m) = map a_type ex_l ++ [0x8; 0x8028].
Proof.
  eexists. split; [|split; [vm_compute; reflexivity|split; [split; [vm_compute; reflexivity|split; vm_compute; reflexivity]|vm_compute; reflexivity]]].
  apply Forall_forall. intros x H. assert (A : forallb (fun x => (0 <=? x) && (x <? 256)) (ex_b ++ [1; 2; 3]) = true) by (vm_compute; reflexivity).
  rewrite forallb_forall in A. specialize (A x H). lia.
Qed.

(** Every request gets its reply: the buffer of 256 bytes is enough for the address a request came
    from, of either family, or for an error, with a name of the software of up to 170 bytes. The reply
    repeats the method and the transaction, and the other side, knowing the key, reads there what was meant. *)
Theorem stun_replies_fit_and_read_back : forall mac crc, digests mac crc -> forall h key sw,
  0 <= msg_method (h_type h) < 16 -> length (h_tid h) = 12%nat -> bytes (h_tid h) -> text sw -> zlen sw <= 170 ->
  (forall src, address src ->
     exists b m, send_reply mac crc 2 h key [mkAttr 0x20 (VSa src); mkAttr 0x8022 (VStr sw)] = Sent b /\ zlen b <= 256 /\
       accepted mac crc key b m /\ h_tid (m_hdr m) = h_tid h /\
       msg_method (h_type (m_hdr m)) = msg_method (h_type h) /\ msg_class (h_type (m_hdr m)) = 2 /\
       find_attr 0x20 m = Some (mkAttr 0x20 (VSa src))) /\
  (forall code reason, 0 <= code < 800 -> text reason -> zlen reason <= 16 ->
     exists b m, send_reply mac crc 3 h key [mkAttr 0x9 (VErr code reason); mkAttr 0x8022 (VStr sw)] = Sent b /\ zlen b <= 256 /\
       accepted mac crc key b m /\ h_tid (m_hdr m) = h_tid h /\
       msg_method (h_type (m_hdr m)) = msg_method (h_type h) /\ msg_class (h_type (m_hdr m)) = 3 /\
       find_attr 0x9 m = Some (mkAttr 0x9 (VErr code reason))).
Proof. intros mac crc (Dm & Dc). exact (replies_ok mac crc Dm Dc). Qed.
Print Assumptions stun_replies_fit_and_read_back.
Definition ex_sw : list Z := B "ice stunsrv v2.10.0 (x86_64/linux)".
Example stun_reply_ex : text ex_sw /\ zlen ex_sw = 34 /\
  (exists b, send_reply ex_mac ex_crc 2 (mkHdr 1 64 COOKIE ex_tid) (B "secret") [mkAttr 0x20 (VSa (In4 0x0a000001 5000)); mkAttr 0x8022 (VStr ex_sw)] = Sent b /\ zlen b = 104) /\
  send_reply ex_mac ex_crc 2 (mkHdr 1 64 COOKIE ex_tid) (B "secret") [mkAttr 0x20 (VSa (In4 0x0a000001 5000)); mkAttr 0x8022 (VStr (repeat 65 200))] = Abort.
Proof.
  split; [|split; [reflexivity|split; [eexists; split; [vm_compute; reflexivity|reflexivity]|vm_compute; reflexivity]]].
  split; [|split; [|reflexivity]]; [repeat constructor; vm_compute; congruence|]. intros H. vm_compute in H. repeat (destruct H as [H|H]; [discriminate|]). exact H.
Qed.

(** Of the types a message can have only one is that of a binding request. *)
Theorem stun_binding_request_type : forall b m, bytes b -> zlen b < 2 ^ 40 -> decode b = Ok m ->
  (msg_method (h_type (m_hdr m)) = 1 /\ msg_class (h_type (m_hdr m)) = 0 <-> part b 0 2 = [0; 1]).
Proof. exact binding_bytes. Qed.
Print Assumptions stun_binding_request_type.
Example stun_binding_ex : forall m, decode ex_b = Ok m -> part ex_b 0 2 = [0; 1] /\ msg_method (h_type (m_hdr m)) = 1.
Proof. intros m E. vm_compute in E. injection E as <-. vm_compute. split; reflexivity. Qed.

(** Refuted: attributes are found by their lengths, as the documents say. The length of an address is
    not looked at: an attribute that says it is empty takes the bytes of those after it. *)
Theorem stun_attribute_lengths_refuted : exists b m, bytes b /\ decode b = Ok m /\
  map a_type (m_attrs m) = [0x1] /\ tlv_types 9 b 20 (20 + num b 2 2) = [0x1; 0x1; 0x25].
Proof.
  exists ([0; 1; 0; 12; 0x21; 0x12; 0xa4; 0x42] ++ ex_tid ++ [0; 1; 0; 0; 0; 1; 0; 0; 0; 0x25; 0; 0]). eexists.
  split; [repeat constructor; vm_compute; congruence|]. split; [vm_compute; reflexivity|]. split; vm_compute; reflexivity.
Qed.
Print Assumptions stun_attribute_lengths_refuted.

(** Refuted: the class and the method written are those read, whatever the method. The class is read
    off bits that belong to methods from 16 on. *)
Theorem stun_class_of_every_method_refuted : exists method class, 0 <= method < 4096 /\ 0 <= class < 4 /\
  msg_method (msg_type method class) = method /\ msg_class (msg_type method class) <> class.
Proof. exists 16, 0. repeat split; try lia. vm_compute. discriminate. Qed.
Print Assumptions stun_class_of_every_method_refuted.
