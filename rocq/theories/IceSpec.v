(** What an ICE-lite agent is expected to do (RFC 5245, sections 2.7, 7.2 and 7.2.2), said of the datagrams it
    gets and of what is seen of it. *)
From Verif Require Import Base Str StunModel StunSpec IceModel.
From Verif Require LatchModel NumSpec AddrModel.

(** The type of a message is that of a binding request. *)
Definition binding_request (b : list Z) : Prop := part b 0 2 = [0; 1].
Definition has (t : Z) (m : msg) : Prop := exists a, In a (m_attrs m) /\ a_type a = t.

(** The user name [s], cut at a zero byte, is a local and a remote fragment with a colon between them. The
    program lets more colons stand in front. *)
Definition user_is (s lu ru : list Z) : Prop :=
  exists n tail, s = repeat 58 n ++ lu ++ [58] ++ ru ++ tail /\ (tail = [] \/ exists t, tail = 0 :: t) /\
    lu <> [] /\ ~ In 58 lu /\ ~ In 0 lu /\ ru <> [] /\ ~ In 0 ru.

(** The role the sender says it has, with its tie-breaker. *)
Definition claims (m : msg) (r : role) (tie : Z) : Prop :=
  (r = RControlling /\ find_attr 0x802a m = Some (mkAttr 0x802a (VU64 tie))) \/
  (r = RControlled /\ ~ has 0x802a m /\ find_attr 0x8029 m = Some (mkAttr 0x8029 (VU64 tie))).

Section digests.
  Context (mac : list Z -> list Z -> list Z) (crc : list Z -> Z).

  (** The fingerprint is right, and so is the integrity under the key. *)
  Definition fingerprint_ok (b : list Z) (m : msg) : Prop :=
    find_attr 0x8028 m = Some (mkAttr 0x8028 (VU32 (Z.lxor (crc (part b 0 (12 + num b 2 2))) 0x5354554e))).
  Definition integrity_ok (key b : list Z) (m : msg) : Prop :=
    find_attr 0x8 m = Some (mkAttr 0x8 (VMi (mac key (covered b)))).
  (** The user is one of this agent: our fragment and, if we were told it, theirs. *)
  Definition user_ok (g : agent) (m : msg) : Prop :=
    exists s ru, find_attr 0x6 m = Some (mkAttr 0x6 (VStr s)) /\ user_is s (g_lufrag g) ru /\
      (g_rufrag g = [] \/ ru = g_rufrag g).
  (** Both sides say they have the same role and they have the higher number. *)
  Definition in_conflict (g : agent) (m : msg) : Prop := exists tie, claims m (g_role g) tie /\ 1 < tie.

  (** What each binding request with a right fingerprint is answered. *)
  Inductive answers (g : agent) (b : list Z) (m : msg) : answer -> Prop :=
  | no_integrity : ~ has 0x8 m -> answers g b m (Refused 400 (B "Bad Request"))
  | bad_integrity : has 0x8 m -> ~ integrity_ok (g_lpwd g) b m -> answers g b m (Refused 401 (B "Unauthorized"))
  | no_user : integrity_ok (g_lpwd g) b m -> ~ has 0x6 m -> answers g b m (Refused 400 (B "Bad Request"))
  | bad_user : integrity_ok (g_lpwd g) b m -> has 0x6 m -> ~ user_ok g m -> answers g b m (Refused 401 (B "Unauthorized"))
  | conflicting : integrity_ok (g_lpwd g) b m -> user_ok g m -> in_conflict g m -> answers g b m (Refused 487 (B "Role Conflict"))
  | no_priority : integrity_ok (g_lpwd g) b m -> user_ok g m -> ~ in_conflict g m -> ~ has 0x24 m ->
                  answers g b m (Refused 400 (B "Bad Request"))
  | granted : integrity_ok (g_lpwd g) b m -> user_ok g m -> ~ in_conflict g m -> has 0x24 m -> answers g b m Granted.

  (** A request that comes from one who knows the password and the fragments. *)
  Definition authentic (g : agent) (b : list Z) (m : msg) : Prop :=
    decode b = Ok m /\ binding_request b /\ fingerprint_ok b m /\ integrity_ok (g_lpwd g) b m /\ user_ok g m.
  (** A packet that nominates: a granted request to use the candidate it comes from, which we were told of. *)
  Definition nominates (g : agent) (k : pkt) : Prop :=
    exists m, authentic g (k_bytes k) m /\ ~ in_conflict g m /\ has 0x24 m /\ has 0x25 m /\
      In (mkRc 1 (k_src k)) (g_cands g) /\ g_local g <> None.

  (** A reply [s] to the request [m] that says [a], as the one who asked reads it. *)
  Definition says (key : list Z) (src : sa) (m : msg) (a : answer) (s : sent) : Prop :=
    exists b r, s = Sent b /\ zlen b <= 256 /\ accepted mac crc key b r /\ h_tid (m_hdr r) = h_tid (m_hdr m) /\
      msg_method (h_type (m_hdr r)) = 1 /\
      match a with
      | Granted => msg_class (h_type (m_hdr r)) = 2 /\ find_attr 0x20 r = Some (mkAttr 0x20 (VSa src))
      | Refused code reason => msg_class (h_type (m_hdr r)) = 3 /\ find_attr 0x9 r = Some (mkAttr 0x9 (VErr code reason))
      end.
End digests.

(** The agent of a side of the session, if the module was asked for one and not to give it up. *)
Definition agent_of (y : sys) (d : bool) : option nat := lookup (get d (y_crtp y)) KStun.
Definition done (y : sys) (i : nat) : bool := g_done (nth_ag y i).
Definition address_of (y : sys) (d : bool) := LatchModel.l_rem (get d (y_rtp y)).

(** Where a packet let in at a port of side [d] goes: [own] says whether the agent of this side is
    completed, [other] whether the other side has an agent. *)
Definition destiny (own : option bool) (other : bool) (d : bool) (at_rtcp is_stun is_rtcp : bool) (i : nat) : fate :=
  if at_rtcp then (if is_rtcp && other then HandedOn (Rtp d) else HandedOn (Rtcp d))
  else match own with
       | None => HandedOn (Rtp d)
       | Some completed =>
           if is_stun then Queued i
           else if negb completed then DroppedHere
           else if is_rtcp then (if other then HandedOn (Rtp d) else HandedOn (Rtcp d))
           else HandedOn (Rtp d)
       end.

(** What a session is on side [d] as far as the module is concerned. *)
Definition same_side (d : bool) (y z : sys) : Prop :=
  get d (y_rtp y) = get d (y_rtp z) /\ get d (y_crtp y) = get d (y_crtp z) /\ get (negb d) (y_crtcp y) = get (negb d) (y_crtcp z) /\
  (forall i, agent_of y d = Some i -> nth_ag y i = nth_ag z i).

(** A history in which no agent is given up. *)
Definition gives_up (o : op) : Prop :=
  match o with Command _ args _ => parse args = Some RIL_D \/ parse args = Some RIL_U | _ => False end.
(** The address of a stream is looked at without the lock of the stream; here nobody gets in between. *)
Definition locked (o : op) : Prop :=
  match o with RtpIn _ _ empty _ _ => empty = false | RtcpIn _ _ empty _ => empty = false | _ => True end.

(** What comes from the network, and a history of such things. *)
Definition datagram (k : pkt) : Prop := bytes (k_bytes k) /\ zlen (k_bytes k) < 2 ^ 40 /\ address (k_src k).
(** The address a datagram came from, as a socket address; and the datagram as the ports see it. *)
Definition place (a : sa) : AddrModel.sockaddr := match a with In4 h p => AddrModel.SaIn h p | In6 h p => AddrModel.SaIn6 h p end.
Definition arrival (k : pkt) : LatchModel.packet :=
  {| LatchModel.p_from := place (k_src k); LatchModel.p_time := k_time k; LatchModel.p_rtp := k_rtp k |}.
Definition possible (o : op) : Prop :=
  match o with RtpIn _ k _ _ _ => datagram k | RtcpIn _ k _ _ => datagram k | _ => True end.

Definition present (o : option nat) : bool := match o with Some _ => true | None => false end.
Definition index (o : option nat) : nat := match o with Some i => i | None => O end.
(** Whether somebody holds a packet after it was handled. *)
Definition kept (x : fate) (taken : bool) : bool :=
  match x with Queued _ => true | HandedOn _ => taken | _ => false end.
(** The side a command is about: A, C and D are about the side they are sent for, S and U about the other. *)
Definition acted (args : list (list Z)) (d : bool) : bool :=
  match parse args with Some RIL_S | Some RIL_U => negb d | _ => d end.

(** A number in decimal, as the candidates have it: 0 when something else than a digit is in it. *)
Definition reads_as (s : list Z) (n : Z) : Prop :=
  (Forall NumSpec.digit s /\ n = NumSpec.place_value s mod 2 ^ 32) \/ (~ Forall NumSpec.digit s /\ n = 0).
Definition at_port (a : sa) (p : Z) : sa := match a with In4 h _ => In4 h p | In6 h _ => In6 h p end.
(** The candidate the arguments of a C command describe ([pton] reads an address). *)
Definition described (pton : list Z -> option sa) (args : list (list Z)) (c : rcand) : Prop :=
  exists a port comp, pton (firstn 63 (nth 5 args [])) = Some a /\ reads_as (nth 6 args []) port /\ reads_as (nth 2 args []) comp /\
    c = mkRc (comp mod 256) (at_port a (port mod 65536)).
(** Letters the fragments and passwords are made of (RFC 5245, section 15.1: ice-char). *)
Definition ice_char (c : Z) : Prop := 65 <= c <= 90 \/ 97 <= c <= 122 \/ 48 <= c <= 57 \/ c = 43 \/ c = 47.
