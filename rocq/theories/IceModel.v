(** Model of the ICE module, modules/ice_lite/rtpp_ice_lite.c, with the server of
    external/libre/src/ice/stunsrv.c and the candidates of libre/rtpp_re_icesdp.c. *)
From Verif Require Import Base Str AddrModel StunModel.
From Verif Require LatchModel RtpModel QuoteModel.

(** enum ice_role, external/libre/include/re_ice.h. *)
Inductive role := RUnknown | RControlling | RControlled.

(** struct ice_cand of the other side, external/libre/src/ice/ice.h: component and address; the
    type, the priority, the foundation and the related address are kept by the code and looked at by
    nothing here. *)
Record rcand := mkRc { rc_comp : Z; rc_addr : sa }.

(** enum ice_candpair_state, and a pair of the local candidate with the remote candidate of that
    number in the list. *)
Inductive pstate := PFrozen | PWaiting | PInProgress | PSucceeded | PFailed.
Record pair := mkPair { cp_rc : nat; cp_state : pstate; cp_nominated : bool }.

(** struct ice_lite_agent_cfg, rtpp_ice_lite.c:110-120, and the parts in use of struct icem.
    [g_side]: the stream it was made for, from which lines 468-500 take the streams of rtcp_dmx_ctx
    and rtcp_mx_ctx. [g_local]: the local candidate, once there is one (sock->laddr, sock->rh, the
    component and the candidate are all set by lines 411-423). The password of the other side is
    stored and not used. *)
Record agent := mkAgent {
  g_side : bool; g_lufrag : list Z; g_lpwd : list Z; g_rufrag : list Z; g_role : role;
  g_cands : list rcand; g_local : option sa; g_valid : list pair; g_done : bool }.

Definition with_rufrag (g : agent) (u : list Z) : agent :=
  mkAgent (g_side g) (g_lufrag g) (g_lpwd g) u (g_role g) (g_cands g) (g_local g) (g_valid g) (g_done g).
Definition with_role (g : agent) (r : role) : agent :=
  mkAgent (g_side g) (g_lufrag g) (g_lpwd g) (g_rufrag g) r (g_cands g) (g_local g) (g_valid g) (g_done g).
Definition with_cands (g : agent) (l : list rcand) : agent :=
  mkAgent (g_side g) (g_lufrag g) (g_lpwd g) (g_rufrag g) (g_role g) l (g_local g) (g_valid g) (g_done g).
Definition with_local (g : agent) (a : sa) : agent :=
  mkAgent (g_side g) (g_lufrag g) (g_lpwd g) (g_rufrag g) (g_role g) (g_cands g) (Some a) (g_valid g) (g_done g).
Definition with_valid (g : agent) (l : list pair) : agent :=
  mkAgent (g_side g) (g_lufrag g) (g_lpwd g) (g_rufrag g) (g_role g) (g_cands g) (g_local g) l (g_done g).
Definition with_done (g : agent) : agent :=
  mkAgent (g_side g) (g_lufrag g) (g_lpwd g) (g_rufrag g) (g_role g) (g_cands g) (g_local g) (g_valid g) true.

(** sa_cmp with SA_ALL, external/libre/src/sa/sa.c:465-504. *)
Definition sa_cmp (x y : sa) : bool :=
  match x, y with
  | In4 a p, In4 b q => (a =? b) && (p =? q)
  | In6 a p, In6 b q => beq a b && (p =? q)
  | _, _ => false
  end.

(** icem_cand_find, external/libre/src/ice/cand.c:210-229: the number in the list. *)
Fixpoint cand_find (l : list rcand) (comp : Z) (a : sa) : option nat :=
  match l with
  | [] => None
  | c :: t =>
      if negb (comp =? 0) && negb (rc_comp c =? comp) then option_map S (cand_find t comp a)
      else if negb (sa_cmp (rc_addr c) a) then option_map S (cand_find t comp a)
      else Some O
  end.

(** The string before the first zero byte (strlen of a decoded USERNAME). *)
Fixpoint cstr (s : list Z) : list Z :=
  match s with [] => [] | c :: t => if c =? 0 then [] else c :: cstr t end.
(** re_regex, external/libre/src/fmt/regex.c:60-257, with "[^:]+:[^]+" (stunsrv.c:259-260): a match
    may start anywhere, so it starts at the first byte that is not a colon. *)
Fixpoint to_colon (s : list Z) : option (list Z * list Z) :=
  match s with
  | [] => None
  | c :: t => if c =? 58 then Some ([], t)
              else match to_colon t with Some (l, r) => Some (c :: l, r) | None => None end
  end.
Fixpoint user_split (s : list Z) : option (list Z * list Z) :=
  match s with
  | [] => None
  | c :: t => if c =? 58 then user_split t
              else match to_colon s with
                   | Some (l, r) => match r with [] => None | _ => Some (l, r) end
                   | None => None
                   end
  end.

Definition role_eqb (a b : role) : bool :=
  match a, b with
  | RUnknown, RUnknown | RControlling, RControlling | RControlled, RControlled => true
  | _, _ => false
  end.
(** ice_switch_local_role, external/libre/src/ice/util.c:75-92. *)
Definition switch_role (r : role) : role :=
  match r with RControlling => RControlled | _ => RControlling end.

(** ICE_COMPID_RTP, rtpp_ice_lite.c:369; tiebrk of line 299. *)
Definition COMPID_RTP : Z := 1.
Definition TIEBRK : Z := 1.

(** What a request is answered with. *)
Inductive answer := Granted | Refused (code : Z) (reason : list Z).

Definition tie_of (a : attr) : Z := match a_val a with VU64 n => n | _ => 0 end.

(** icem_candpair_iscompleted, external/libre/src/ice/candpair.c:256-261, and iscompleted,
    rtpp_ice_lite.c:208-222. *)
Definition pair_completed (p : pair) : bool :=
  match cp_state p with PSucceeded | PFailed => true | _ => false end.
Fixpoint iscompleted_from (rval : bool) (l : list pair) : bool :=
  match l with [] => rval | p :: t => if negb (pair_completed p) then false else iscompleted_from true t end.
Definition iscompleted (g : agent) : bool := iscompleted_from false (g_valid g).

(** handle_stun_lite, stunsrv.c:176-214, with icem_candpair_find, icem_candpair_alloc,
    icem_candpair_make_valid and icem_candpair_set_state, candpair.c:82-114, 179-192 and 208-224: the new pair joins the valid ones in the
    state "succeeded" (in an order of priorities that nothing depends on). *)
Definition handle_lite (g : agent) (src : sa) (use_cand : bool) : agent :=
  if negb use_cand then g else
  match cand_find (g_cands g) COMPID_RTP src with
  | None => g
  | Some i =>
      match g_local g with
      | None => g
      | Some _ => if existsb (fun p => Nat.eqb (cp_rc p) i) (g_valid g) then g
                  else with_valid g (mkPair i PSucceeded true :: g_valid g)
      end
  end.

(** struct rtp_packet: bytes, source, time, and SSRC and sequence number if it parses as RTP. *)
Record pkt := mkPkt { k_bytes : list Z; k_src : sa; k_time : Z; k_rtp : option (Z * Z) }.
Definition sock (a : sa) : sockaddr := match a with In4 h p => SaIn h p | In6 h p => SaIn6 h p end.
Definition lpkt (k : pkt) : LatchModel.packet :=
  {| LatchModel.p_from := sock (k_src k); LatchModel.p_time := k_time k; LatchModel.p_rtp := k_rtp k |}.
(** rtpp_is_stun_tst and rtpp_is_rtcp_tst. *)
Definition stun (k : pkt) : bool := match RtpModel.is_stun (k_bytes k) with Some b => b | None => false end.
Definition rtcp (k : pkt) : bool := match RtpModel.is_rtcp (k_bytes k) with Some b => b | None => false end.

(** Something of each of the two sides of a session ([false] and [true]). *)
Record two (A : Type) := Two { of0 : A; of1 : A }.
Arguments Two {A} of0 of1. Arguments of0 {A} t. Arguments of1 {A} t.
Definition get {A} (d : bool) (t : two A) : A := if d then of1 t else of0 t.
Definition set {A} (d : bool) (t : two A) (x : A) : two A := if d then Two (of0 t) x else Two x (of1 t).

(** Entries of a chain of packet processors registered by this module: keys pvt, pvt + 1, pvt + 2.
    Processors of others are not modelled but as what is behind these. *)
Inductive key := KStun | KDmx | KMx.
Definition key_eqb (a b : key) : bool :=
  match a, b with KStun, KStun | KDmx, KDmx | KMx, KMx => true | _, _ => false end.
Record entry := mkEntry { e_ord : Z; e_key : key; e_ag : nat }.
(** enum pproc_order, src/advanced/packet_processor.h:51-65. *)
Definition ORD_RECV : Z := 1. Definition ORD_CT_RECV : Z := 3. Definition ORD_CT_SEND : Z := 10.

(** A session: latching of its four streams (LatchModel), chains of the four, local addresses of
    the RTP streams, agents made so far, and the queue of the module: packet, agent, stream. *)
Record work := mkWork { w_pkt : pkt; w_ag : nat; w_side : bool }.
Record sys := mkSys {
  y_rtp : two LatchModel.stream; y_rtcp : two LatchModel.stream;
  y_crtp : two (list entry); y_crtcp : two (list entry); y_local : two sa;
  y_ag : list agent; y_q : list work }.
Definition with_rtp (y : sys) x := mkSys x (y_rtcp y) (y_crtp y) (y_crtcp y) (y_local y) (y_ag y) (y_q y).
Definition with_rtcp (y : sys) x := mkSys (y_rtp y) x (y_crtp y) (y_crtcp y) (y_local y) (y_ag y) (y_q y).
Definition with_crtp (y : sys) x := mkSys (y_rtp y) (y_rtcp y) x (y_crtcp y) (y_local y) (y_ag y) (y_q y).
Definition with_crtcp (y : sys) x := mkSys (y_rtp y) (y_rtcp y) (y_crtp y) x (y_local y) (y_ag y) (y_q y).
Definition with_ag (y : sys) x := mkSys (y_rtp y) (y_rtcp y) (y_crtp y) (y_crtcp y) (y_local y) x (y_q y).
Definition with_q (y : sys) x := mkSys (y_rtp y) (y_rtcp y) (y_crtp y) (y_crtcp y) (y_local y) (y_ag y) x.

(** rtpp_pproc_mgr_register, src/advanced/pproc_manager.c:135-171: before the first of a higher order. *)
Fixpoint reg (l : list entry) (e : entry) : list entry :=
  match l with
  | [] => [e]
  | x :: t => if e_ord x >? e_ord e then e :: l else x :: reg t e
  end.
(** rtpp_pproc_mgr_unregister, lines 259-298: [None] is the abort() of line 297. *)
Fixpoint unreg (l : list entry) (k : key) : option (list entry) :=
  match l with
  | [] => None
  | x :: t => if key_eqb (e_key x) k then Some t else option_map (cons x) (unreg t k)
  end.
(** rtpp_pproc_mgr_lookup, lines 237-257. *)
Definition lookup (l : list entry) (k : key) : option nat :=
  option_map e_ag (find (fun x => key_eqb (e_key x) k) l).

Section digests.
  Context (mac : list Z -> list Z -> list Z) (crc : list Z -> Z).
  (** The name of the software in the replies, stunsrv.c:25. *)
  Context (sw : list Z).
  (** net_inet_pton, external/libre/src/sa/pton.c:229-255: an address with port 0. *)
  Context (pton : list Z -> option sa).
  (** The line ice_cand_encode prints for a local candidate, external/libre/src/ice/icesdp.c:67-84. *)
  Context (cand_line : sa -> list Z).

  Definition unauth : answer := Refused 401 (B "Unauthorized").
  Definition badmsg : answer := Refused 400 (B "Bad Request").
  Definition conflict : answer := Refused 487 (B "Role Conflict").

  (** icem_stund_recv, stunsrv.c:230-324, of an agent in lite mode: [None] when nothing is sent. *)
  Definition stund_recv (g : agent) (src : sa) (b : list Z) (m : msg) : agent * option answer :=
    match chk_fp crc b m with
    | Ok _ =>
        match fst (chk_mi mac (g_lpwd g) b m) with
        | Err EBADMSG => (g, Some unauth)
        | Ok _ =>
            match find_attr USERNAME m with
            | None => (g, Some badmsg)
            | Some u =>
                match user_split (cstr (match a_val u with VStr s => s | _ => [] end)) with
                | None => (g, Some unauth)
                | Some (lu, ru) =>
                    if negb (beq lu (g_lufrag g)) then (g, Some unauth)
                    else if negb (beq (g_rufrag g) []) && negb (beq ru (g_rufrag g)) then (g, Some unauth)
                    else
                      let '(rrole, tie) :=
                        match find_attr CONTROLLING m with
                        | Some a => (RControlling, tie_of a)
                        | None => match find_attr CONTROLLED m with
                                  | Some a => (RControlled, tie_of a)
                                  | None => (RUnknown, 0)
                                  end
                        end in
                      if role_eqb rrole (g_role g) && negb (TIEBRK >=? tie) then (g, Some conflict)
                      else
                        let g1 := if role_eqb rrole (g_role g) then with_role g (switch_role (g_role g)) else g in
                        match find_attr PRIORITY m with
                        | None => (g1, Some badmsg)
                        | Some _ =>
                            (handle_lite g1 src (match find_attr USE_CAND m with Some _ => true | None => false end),
                             Some Granted)
                        end
                end
            end
        | _ => (g, Some badmsg)
        end
    | _ => (g, None)
    end.

  (** stun_reply and stunsrv_ereply, stunsrv.c:217-227 and 311-323. *)
  Definition reply_of (g : agent) (src : sa) (m : msg) (a : answer) : sent :=
    match a with
    | Granted => send_reply mac crc 2 (m_hdr m) (g_lpwd g)
                   [mkAttr XOR_MAPPED_ADDR (VSa src); mkAttr SOFTWARE (VStr sw)]
    | Refused code reason => send_reply mac crc 3 (m_hdr m) (g_lpwd g)
                               [mkAttr ERR_CODE (VErr code reason); mkAttr SOFTWARE (VStr sw)]
    end.

  (** helper_recv_handler, external/libre/src/ice/comp.c:30-63; stun_ctrans_recv does nothing, no
      transactions being open. *)
  Definition recv_handler (g : agent) (src : sa) (b : list Z) : agent * option sent :=
    match decode b with
    | Ok m =>
        if (msg_method (h_type (m_hdr m)) =? 1) && (msg_class (h_type (m_hdr m)) =? 0) then
          let '(g1, a) := stund_recv g src b m in
          (g1, match a with Some a => Some (reply_of g src m a) | None => None end)
        else (g, None)
    | _ => (g, None)
    end.

  (** The letters of generate_random_string, src/rtpp_util.c:579-593. *)
  Definition CHARSET : list Z := B "ABCDEFGHIJKLMNOPQRSTUVWXYZabcdefghijklmnopqrstuvwxyz0123456789+/".
  Definition rand_string (rnd : nat -> Z) (from len : nat) : list Z :=
    map (fun i => nth (Z.to_nat (rnd i mod 64)) CHARSET 0) (seq from len).

  Definition set_mode (y : sys) (d : bool) (m : LatchModel.lmode) : sys :=
    with_rtp y (set d (y_rtp y) (LatchModel.with_mode (get d (y_rtp y)) m)).

  (** ice_lite_activate and ice_lite_data_ctor, rtpp_ice_lite.c:446-515 and 294-349; icem_alloc,
      external/libre/src/ice/icem.c:98-101, wants 4 and 22 letters. [rnd]: what random() returns.
      Allocations and registrations are taken to succeed. *)
  Definition activate (y : sys) (d : bool) (ulen plen : nat) (rnd : nat -> Z) : option (sys * nat) :=
    if (ulen <? 4)%nat || (plen <? 22)%nat then None else
    let g := mkAgent d (rand_string rnd 0 ulen) (rand_string rnd ulen plen) [] RControlled [] None [] false in
    let id := length (y_ag y) in
    let y := with_ag y (y_ag y ++ [g]) in
    let y := with_crtp y (set d (y_crtp y) (reg (get d (y_crtp y)) (mkEntry ORD_RECV KStun id))) in
    let y := with_crtp y (set d (y_crtp y) (reg (get d (y_crtp y)) (mkEntry ORD_CT_RECV KDmx id))) in
    let y := with_crtcp y (set (negb d) (y_crtcp y) (reg (get (negb d) (y_crtcp y)) (mkEntry ORD_CT_SEND KMx id))) in
    Some (set_mode y d LatchModel.FORCE_OFF, id).

  (** pl_u32, external/libre/src/fmt/pl.c:64-82. *)
  Definition digit (c : Z) : bool := (48 <=? c) && (c <=? 57).
  Definition pl_u32 (s : list Z) : Z :=
    if forallb digit s then u32 (fold_left (fun a c => a * 10 + (c - 48)) s 0) else 0.
  (** pl_strcasecmp *)
  Definition lower (c : Z) : Z := if (65 <=? c) && (c <=? 90) then c + 32 else c.
  Definition caseeq (a b : list Z) : bool := beq (map lower a) (map lower b).
  (** sa_set, external/libre/src/sa/sa.c:47-95: the text is cut at 63 bytes, the port to 16 bits. *)
  Definition sa_set (text : list Z) (port : Z) : option sa :=
    match pton (firstn 63 text) with
    | Some (In4 a _) => Some (In4 a (u16 port))
    | Some (In6 a _) => Some (In6 a (u16 port))
    | None => None
    end.
  (** The loop over pairs of a name and a value, libre/rtpp_re_icesdp.c:83-99: whether it runs to its end. *)
  Fixpoint extras_ok (l : list (list Z)) : bool :=
    match l with
    | name :: value :: t =>
        if caseeq name (B "raddr") then match sa_set value 0 with Some _ => extras_ok t | None => false end
        else extras_ok t
    | _ => true
    end.
  (** rtpp_cand_decode, libre/rtpp_re_icesdp.c:37-115. [None]: an error. *)
  Definition cand_decode (g : agent) (args : list (list Z)) : option agent :=
    match args with
    | _foundation :: compid :: transp :: _prio :: addr :: port :: typ :: _type :: extra =>
        if negb (caseeq typ (B "typ")) then None
        else if negb (caseeq transp (B "UDP")) then None
        else if negb (extras_ok extra) then None
        else match sa_set addr (pl_u32 port) with
             | None => None
             | Some a =>
                 let cid := pl_u32 compid mod 256 in
                 match cand_find (g_cands g) cid a with
                 | Some _ => Some g
                 | None => Some (with_cands g (g_cands g ++ [mkRc cid a]))
                 end
             end
    | _ => None
    end.

  (** A buffer being filled: what was written, and the room left. APPEND, rtpp_ice_lite.c:399-400:
      what does not fit is left out and nobody is told; what fits to the last byte loses that byte to
      the terminating zero. *)
  Record buf := mkBuf { b_text : list Z; b_room : Z }.
  Definition append (r : buf) (s : list Z) : buf :=
    if zlen s >? b_room r then r
    else mkBuf (b_text r ++ (if (zlen s =? b_room r) && (0 <? b_room r) then removelast s ++ [0] else s)) (b_room r - zlen s).
  (** What url_quote writes, src/rtpp_util.c:336-361 (QuoteModel). *)
  Definition quote1 (c : Z) : list Z :=
    if QuoteModel.unreserved c then [c] else [37; QuoteModel.hexdig (Z.shiftr c 4); QuoteModel.hexdig (Z.land c 15)].
  Definition quoted (s : list Z) : list Z := concat (map quote1 s).
  (** cand_printf_handler, rtpp_ice_lite.c:385-397, called once with the line (the code: once for every
      piece of it). No terminating zero is written; the buffer was zeroed. *)
  Definition put_cand (r : buf) (line : list Z) : option buf :=
    if zlen line + 1 >? b_room r then None
    else if zlen (quoted line) >? b_room r then None
    else Some (mkBuf (b_text r ++ quoted line) (b_room r - zlen (quoted line))).
  (** sizeof(ctxp->resp->buf_t), src/rtpp_command_sub.h:37. *)
  Definition RESP_SIZE : Z := 512.

  (** ice_lite_start, rtpp_ice_lite.c:402-444. *)
  Definition start (g : agent) (laddr : sa) : agent * option (list Z) :=
    let g := match g_local g with None => with_local g laddr | Some _ => g end in
    let r := append (append (append (mkBuf [] RESP_SIZE) (g_lufrag g)) (B " ")) (g_lpwd g) in
    let r := append r (B " c:") in
    (g, match put_cand r (cand_line (match g_local g with Some a => a | None => laddr end)) with
        | Some r => Some (cstr (b_text r))
        | None => None
        end).

  (** What a command returns: 0 with the text of the reply, -1, or abort(). *)
  Inductive cres := COk (text : list Z) | CFail | CAbort.
  Inductive ril := RIL_A | RIL_C | RIL_S | RIL_D | RIL_U.

  (** The first switch of rtpp_ice_lite_handle_command, lines 535-573: the first two bytes of the
      first argument, with the zero that ends it, are or-ed. A second zero is taken to follow an empty
      argument. *)
  Definition parse (args : list (list Z)) : option ril :=
    match args with
    | [] => None
    | a :: _ =>
        let c := Z.lor (nth 0 a 0) (nth 1 a 0) in
        let n := length args in
        if (c =? 97) || (c =? 65) then if (n =? 3)%nat then Some RIL_A else None
        else if (c =? 99) || (c =? 67) then if (n <? 9)%nat then None else Some RIL_C
        else if (c =? 115) || (c =? 83) then if (n =? 1)%nat then Some RIL_S else None
        else if (c =? 100) || (c =? 68) then if (n =? 1)%nat then Some RIL_D else None
        else if (c =? 117) || (c =? 85) then if (n =? 1)%nat then Some RIL_U else None
        else None
    end.

  Definition nth_ag (y : sys) (i : nat) : agent :=
    nth i (y_ag y) (mkAgent false [] [] [] RControlled [] None [] false).
  Definition put_ag (y : sys) (i : nat) (g : agent) : sys := with_ag y (upd (y_ag y) i g).

  (** Lines 598-641. [d]: the side of env->strmp_in. D and U: lines 599-611. *)
  Definition remove (y : sys) (d : bool) (i : nat) : sys * cres :=
    let c := negb (g_side (nth_ag y i)) in
    match unreg (get c (y_crtcp y)) KMx with
    | None => (y, CAbort)
    | Some l1 =>
        let y := with_crtcp y (set c (y_crtcp y) l1) in
        match unreg (get d (y_crtp y)) KDmx with
        | None => (y, CAbort)
        | Some l2 =>
            let y := with_crtp y (set d (y_crtp y) l2) in
            match unreg (get d (y_crtp y)) KStun with
            | None => (y, CAbort)
            | Some l3 =>
                let y := with_crtp y (set d (y_crtp y) l3) in
                (set_mode y d LatchModel.NORMAL, COk [])
            end
        end
    end.
  Definition command (y : sys) (d : bool) (args : list (list Z)) (rnd : nat -> Z) : sys * cres :=
    match parse args with
    | None => (y, CFail)
    | Some c =>
        let d := match c with RIL_A | RIL_C | RIL_D => d | RIL_S | RIL_U => negb d end in
        let found := lookup (get d (y_crtp y)) KStun in
        match c with
        | RIL_D | RIL_U => match found with None => (y, CFail) | Some i => remove y d i end
        | RIL_C =>
            match found with
            | None => (y, CFail)
            | Some i => match cand_decode (nth_ag y i) (skipn 1 args) with
                        | None => (y, CFail)
                        | Some g => (put_ag y i g, COk [])
                        end
            end
        | RIL_S =>
            match (match found with Some i => Some (y, i) | None => activate y d 4 24 rnd end) with
            | None => (y, CFail)
            | Some (y, i) =>
                let '(g, r) := start (nth_ag y i) (get d (y_local y)) in
                (put_ag y i g, match r with Some t => COk t | None => CFail end)
            end
        | RIL_A =>
            let u := nth 1 args [] in
            match (match found with Some i => Some (y, i)
                               | None => activate y d (length u) (length (nth 2 args [])) rnd end) with
            | None => (y, CFail)
            | Some (y, i) => (put_ag y i (with_rufrag (nth_ag y i) u), COk [])
            end
        end
    end.

  (** Where a packet ended up: not let in (rtpp_stream_rx), dropped by this module, in the queue of the
      module, or with the processors behind this module of one of the four chains. *)
  Inductive chan := Rtp (d : bool) | Rtcp (d : bool).
  Inductive fate := Outside | DroppedHere | Queued (ag : nat) | HandedOn (c : chan).
  Definition chain (y : sys) (c : chan) : list entry :=
    match c with Rtp d => get d (y_crtp y) | Rtcp d => get d (y_crtcp y) end.

  (** rtpp_pproc_mgr_handleat, pproc_manager.c:180-235, with the processors of rtpp_ice_lite.c:655-713:
      where the packet ends, whether the result is "drop", and how many times the packet was released.
      [taken]: whether the processors behind take it. Nested calls: to the RTCP chain of the same side
      (line 703), and to the chain strmp_out->pproc_manager->reverse (line 712). [None]: the nesting is
      deeper than [fuel]. *)
  Fixpoint handleat (fuel : nat) (y : sys) (c : chan) (from : Z) (taken : bool) (k : pkt)
    : option (fate * bool * nat) :=
    match fuel with
    | O => None
    | S f =>
        let fix go (l : list entry) : option (fate * bool * nat) :=
          match l with
          | [] => Some (HandedOn c, negb taken, O)
          | e :: t =>
              if e_ord e <? from then go t else
              match e_key e with
              | KStun => if stun k then Some (Queued (e_ag e), false, O)
                         else if g_done (nth_ag y (e_ag e)) then go t
                         else Some (DroppedHere, true, O)
              | KDmx => if rtcp k then handleat f y (Rtcp (g_side (nth_ag y (e_ag e)))) ORD_CT_RECV taken k
                        else go t
              | KMx => if rtcp k then handleat f y (Rtp (negb (g_side (nth_ag y (e_ag e))))) ORD_CT_SEND taken k
                       else go t
              end
          end in
        match go (chain y c) with
        | None => None
        | Some (x, drop, n) => Some (x, drop, if drop then S n else n)
        end
    end.
  (** rxmit_packets, src/rtpp_proc.c:89-99, after the packet was let in; enqueueing, rtpp_ice_lite.c:672-695.
      The queue is taken to have room. *)
  Definition handle (y : sys) (c : chan) (taken : bool) (k : pkt) : sys * fate * nat :=
    match handleat 4 y c 0 taken k with
    | None => (y, Outside, O)
    | Some (x, _, n) =>
        (match x with
         | Queued i => with_q y (y_q y ++ [mkWork k i (match c with Rtp d | Rtcp d => d end)])
         | _ => y
         end, x, n)
    end.

  (** rtpp_ice_lite_worker, rtpp_ice_lite.c:238-270, one item: the reply sent. Packets are never longer
      than the buffer of the agent (both MAX_RPKT_LEN). *)
  Definition worker (y : sys) : sys * option (sa * sent) :=
    match y_q y with
    | [] => (y, None)
    | w :: q =>
        let y := with_q y q in
        let g := nth_ag y (w_ag w) in
        match g_local g with
        | None => (y, None)
        | Some _ =>
            let '(g1, r) := recv_handler g (k_src (w_pkt w)) (k_bytes (w_pkt w)) in
            let reply := match r with Some s => Some (k_src (w_pkt w), s) | None => None end in
            if negb (g_done g1) && iscompleted g1 then
              let s := LatchModel.with_mode (get (w_side w) (y_rtp y)) LatchModel.FORCE_ON in
              let s := LatchModel.latch s (k_time (w_pkt w)) (lpkt (w_pkt w)) in
              (put_ag (with_rtp y (set (w_side w) (y_rtp y) s)) (w_ag w) (with_done g1), reply)
            else (put_ag y (w_ag w) g1, reply)
        end
    end.

  (** What happens in a session: sub-commands of the module, packets at its RTP and RTCP ports, a step of
      the module's thread, addresses and locks given by U and L commands. *)
  Inductive op :=
  | Command (d : bool) (args : list (list Z)) (rnd : nat -> Z)
  | RtpIn (d : bool) (k : pkt) (empty chg taken : bool)
  | RtcpIn (d : bool) (k : pkt) (empty taken : bool)
  | Work
  | Address (d : bool) (a_rtp a_rtcp : sockaddr) (now : Z)
  | Lock (d : bool).
  Inductive out :=
  | Answered (r : cres)
  | Packet (x : fate) (released : nat)
  | Worked (reply : option (sa * sent))
  | Nothing.

  (** A packet that is not let in is released by rtpp_stream_rx. The analyser (order 4 of the chain) sees
      RTP packets that get to the rest of the chain of their own stream. *)
  Definition step (y : sys) (o : op) : sys * out :=
    match o with
    | Command d args rnd => let '(y, r) := command y d args rnd in (y, Answered r)
    | RtpIn d k empty chg taken =>
        let '(s, c, v) := LatchModel.rx (get d (y_rtp y)) (Some (get d (y_rtcp y))) empty (lpkt k) in
        let y := with_rtp y (set d (y_rtp y) s) in
        let y := match c with Some c => with_rtcp y (set d (y_rtcp y) c) | None => y end in
        match v with
        | LatchModel.Discard => (y, Packet Outside 1)
        | LatchModel.Accept =>
            let '(y, x, n) := handle y (Rtp d) taken k in
            match x with
            | HandedOn (Rtp e) =>
                if Bool.eqb e d && negb (rtcp k)
                then (with_rtp y (set d (y_rtp y) (LatchModel.analyze (get d (y_rtp y)) chg (lpkt k))), Packet x n)
                else (y, Packet x n)
            | _ => (y, Packet x n)
            end
        end
    | RtcpIn d k empty taken =>
        let '(s, _, v) := LatchModel.rx (get d (y_rtcp y)) None empty (lpkt k) in
        let y := with_rtcp y (set d (y_rtcp y) s) in
        match v with
        | LatchModel.Discard => (y, Packet Outside 1)
        | LatchModel.Accept => let '(y, x, n) := handle y (Rtcp d) taken k in (y, Packet x n)
        end
    | Work => let '(y, r) := worker y in (y, Worked r)
    | Address d a b now =>
        (with_rtcp (with_rtp y (set d (y_rtp y) (LatchModel.prefill (get d (y_rtp y)) a now)))
                   (set d (y_rtcp y) (LatchModel.prefill (get d (y_rtcp y)) b now)), Nothing)
    | Lock d =>
        (with_rtcp (with_rtp y (set d (y_rtp y) (LatchModel.locklatch (get d (y_rtp y)))))
                   (set d (y_rtcp y) (LatchModel.locklatch (get d (y_rtcp y)))), Nothing)
    end.
  Fixpoint run (y : sys) (l : list op) : sys * list out :=
    match l with
    | [] => (y, [])
    | o :: t => let '(y, x) := step y o in let '(y, xs) := run y t in (y, x :: xs)
    end.

  (** A session in which the module has not been asked for anything. *)
  Definition fresh (s c : two LatchModel.stream) (local : two sa) : sys :=
    mkSys s c (Two [] []) (Two [] []) local [] [].
End digests.
