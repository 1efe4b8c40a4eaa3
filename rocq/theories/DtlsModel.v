(** Model of the DTLS gateway, modules/dtls_gw/rtpp_dtls_gw.c, rtpp_dtls_conn.c and rtpp_dtls_util.c. What the
    TLS library answers comes in from outside with each step; the SRTP library is three functions that are
    given. *)
From Verif Require Import Base Str.
From Verif Require NumModel RtpModel QuoteModel.

(** rtp_packet_is_dtls, src/rtp_packet.c:204-215. *)
Definition is_dtls (b : list Z) : bool :=
  match b with
  | [] => false
  | c :: _ => if Z.of_nat (length b) <? 13 then false else (19 <? c) && (c <? 64)
  end.
Definition rtcp (b : list Z) : bool := match RtpModel.is_rtcp b with Some x => x | None => false end.

(** FP_DIGEST_ALG and the lengths of rtpp_dtls_util.h:29-35. *)
Definition ALG : list Z := B "SHA-256".
Definition FP_STR_LEN : nat := 32 * 2 + 31.

(** The digits of the loop of rtpp_dtls_fp_gen, rtpp_dtls_util.c:51-58. *)
Fixpoint colon_hex (d : list Z) : list Z :=
  match d with
  | [] => []
  | [x] => [QuoteModel.hexdig (x / 16); QuoteModel.hexdig (x mod 16)]
  | x :: t => QuoteModel.hexdig (x / 16) :: QuoteModel.hexdig (x mod 16) :: 58 :: colon_hex t
  end.
(** rtpp_dtls_fp_gen, rtpp_dtls_util.c:34-60, for the digest of the certificate. *)
Definition fp_gen (digest : list Z) : list Z := ALG ++ [32] ++ colon_hex digest.

(** strtoul(s, &ep, 10) with a 64-bit long (ISO C 7.22.1.4): a number with a minus is taken modulo 2^64, and
    one that does not fit gives the largest. The second is what ep points to, [None] when ep == s. *)
Definition strtoul (s : list Z) : Z * option (list Z) :=
  let s1 := NumModel.skip_space s in
  let neg := NumModel.head0 s1 =? 45 in
  let s2 := if neg || (NumModel.head0 s1 =? 43) then tl s1 else s1 in
  let '(v, n, rest) := NumModel.digits 0 0 s2 in
  if (n =? 0)%nat then (0, None)
  else if v >=? 2 ^ 64 then (2 ^ 64 - 1, Some rest)
  else (if neg then (- v) mod 2 ^ 64 else v, Some rest).

(** enum rdc_state and enum rtpp_dtls_mode, rtpp_dtls_conn.c:71-76, rtpp_dtls_conn.h:33-38. *)
Inductive rstate := RDC_INIT | RDC_CONNECTING | RDC_UP | RDC_DEAD.
Inductive mode := ACTPASS | ACTIVE | PASSIVE.
Definition mode_eqb (a b : mode) : bool :=
  match a, b with ACTPASS, ACTPASS | ACTIVE, ACTIVE | PASSIVE, PASSIVE => true | _, _ => false end.
(** rtpp_dtls_conn_pickmode, rtpp_dtls_conn.c:261-276. *)
Definition pickmode (peer : mode) : mode := match peer with PASSIVE => ACTIVE | _ => PASSIVE end.

(** struct srtp_crypto_suite, rtpp_dtls_conn.c:91-131: sizes, and whether the entry has a function that sets
    the policy (those of F8 have none). *)
Record suite := mkSuite { s_name : list Z; s_key : nat; s_iv : nat; s_tag : Z; s_policy : bool }.
(** The table of tls_srtp_keyinfo, lines 806-837, by the number of the profile (RFC 5764, RFC 7714). Another
    number is the abort() of line 836. *)
Definition suite_of (id : Z) : option suite :=
  if id =? 1 then Some (mkSuite (B "AES_CM_128_HMAC_SHA1_80") 16 14 10 true)
  else if id =? 2 then Some (mkSuite (B "AES_CM_128_HMAC_SHA1_32") 16 14 4 true)
  else if id =? 3 then Some (mkSuite (B "F8_128_HMAC_SHA1_80") 16 14 10 false)
  else if id =? 4 then Some (mkSuite (B "F8_128_HMAC_SHA1_32") 16 14 4 false)
  else if id =? 7 then Some (mkSuite (B "AES_128_GCM") 16 12 16 true)
  else if id =? 8 then Some (mkSuite (B "AES_256_GCM") 32 12 16 true)
  else None.
(** srtp_profiles, rtpp_dtls.c:59-63: what is offered. *)
Definition offered (id : Z) : bool := (id =? 1) || (id =? 2) || (id =? 7) || (id =? 8).

(** The four memcpy of tls_srtp_keyinfo, rtpp_dtls_conn.c:855-863. *)
Definition keys (s : suite) (keymat : list Z) : list Z * list Z :=
  let p := keymat in
  let ck := firstn (s_key s) p in let p := skipn (s_key s) p in
  let sk := firstn (s_key s) p in let p := skipn (s_key s) p in
  let cs := firstn (s_iv s) p in let p := skipn (s_iv s) p in
  let ss := firstn (s_iv s) p in
  (ck ++ cs, sk ++ ss).

(** What the TLS library and the scheduler answer when the handshake is driven: BIO_write takes the datagram;
    SSL_get_state is TLS_ST_OK before; the result of SSL_accept or SSL_connect; SSL_get_state is TLS_ST_OK
    after; DTLSv1_get_timeout gives a time; schedule_rc makes the timer; SSL_get_selected_srtp_profile;
    the bytes of SSL_export_keying_material; the SHA-256 digest of the certificate of the peer. *)
Inductive shake := SErr | SWant | SDone.
Record tls := mkTls {
  t_write : bool; t_ok0 : bool; t_shake : shake; t_ok1 : bool; t_timeout : bool; t_sched : bool;
  t_profile : option Z; t_keymat : option (nat -> Z); t_digest : option (list Z) }.

Record two (A : Type) := Two { of0 : A; of1 : A }.
Arguments Two {A}. Arguments of0 {A}. Arguments of1 {A}.
Definition get {A} (d : bool) (t : two A) : A := if d then of1 t else of0 t.
Definition set {A} (d : bool) (t : two A) (x : A) : two A := if d then Two (of0 t) x else Two x (of1 t).

(** sizeof(data.buf) of struct rtp_packet, src/rtp_packet.h:37. *)
Definition MAX_RPKT_LEN : Z := 8192.
Definition SSRC_BAD : Z := 0.

Section srtp.
  (** srtp_create with the suite, the key and the ssrc of setup_srtp_stream; srtp_protect or srtp_protect_rtcp
      and srtp_unprotect or srtp_unprotect_rtcp, by the flag. *)
  Context {ctx : Type} (create : suite -> list Z -> Z -> option ctx)
    (protect unprotect : ctx -> bool -> list Z -> option (ctx * list Z)).

  (** struct rtpp_dtls_conn_priv, rtpp_dtls_conn.c:133-151. [c_side]: the stream it was made for; [c_fp] is
      empty when fingerprint[0] is zero; [c_timer]: ttp is not NULL; [c_unread]: bytes in sbio_in that nothing
      has read, supposing that the handshake reads all there is. *)
  Record conn := mkConn {
    c_side : bool; c_state : rstate; c_mode : mode; c_out : option ctx; c_in : option ctx;
    c_fp : list Z; c_ssrc : Z; c_timer : bool; c_unread : Z }.
  Definition with_state (c : conn) x := mkConn (c_side c) x (c_mode c) (c_out c) (c_in c) (c_fp c) (c_ssrc c) (c_timer c) (c_unread c).
  Definition with_mode (c : conn) x := mkConn (c_side c) (c_state c) x (c_out c) (c_in c) (c_fp c) (c_ssrc c) (c_timer c) (c_unread c).
  Definition with_out (c : conn) x := mkConn (c_side c) (c_state c) (c_mode c) x (c_in c) (c_fp c) (c_ssrc c) (c_timer c) (c_unread c).
  Definition with_in (c : conn) x := mkConn (c_side c) (c_state c) (c_mode c) (c_out c) x (c_fp c) (c_ssrc c) (c_timer c) (c_unread c).
  Definition with_fp (c : conn) x := mkConn (c_side c) (c_state c) (c_mode c) (c_out c) (c_in c) x (c_ssrc c) (c_timer c) (c_unread c).
  Definition with_ssrc (c : conn) x := mkConn (c_side c) (c_state c) (c_mode c) (c_out c) (c_in c) (c_fp c) x (c_timer c) (c_unread c).
  Definition with_timer (c : conn) x := mkConn (c_side c) (c_state c) (c_mode c) (c_out c) (c_in c) (c_fp c) (c_ssrc c) x (c_unread c).
  Definition with_unread (c : conn) x := mkConn (c_side c) (c_state c) (c_mode c) (c_out c) (c_in c) (c_fp c) (c_ssrc c) (c_timer c) x.

  (** rtpp_dtls_conn_ctor, rtpp_dtls_conn.c:200-246. *)
  Definition newconn (d : bool) : conn := mkConn d RDC_INIT ACTPASS None None [] 0 false 0.

  (** check_timer, rtpp_dtls_conn.c:721-745: the connection and whether the result is 0. *)
  Definition check_timer (c : conn) (t : tls) : conn * bool :=
    if t_timeout t && c_timer c then (c, true)
    else if t_timeout t then if t_sched t then (with_timer c true, true) else (c, false)
    else (with_timer c false, true).

  (** tls_accept, rtpp_dtls_conn.c:661-691, and tls_connect, lines 747-776: the second does not look at the
      result of check_timer. *)
  Definition tls_accept (c : conn) (t : tls) : conn * bool :=
    let c := with_unread c 0 in
    match t_shake t with
    | SErr => (c, false)
    | _ => check_timer c t
    end.
  Definition tls_connect (c : conn) (t : tls) : conn * bool :=
    let c := with_unread c 0 in
    match t_shake t with
    | SErr => (c, false)
    | _ => (fst (check_timer c t), true)
    end.

  (** struct rdc_peer_spec, rtpp_dtls_conn.h:40-46. *)
  Record peer := mkPeer { p_mode : mode; p_alg : list Z; p_fp : list Z; p_ssrc : option (list Z) }.

  (** rtpp_dtls_conn_setmode, rtpp_dtls_conn.c:278-335; [None] is RTPP_DTLS_MODERR. *)
  Definition setmode (c : conn) (o : option peer) (t : tls) : conn * option mode :=
    match o with
    | None => (c, Some (c_mode c))
    | Some p =>
        let my := pickmode (p_mode p) in
        if negb (mode_eqb my (c_mode c)) && negb (match c_state c with RDC_INIT => true | _ => false end)
        then (c, None)
        else if negb (length (p_alg p) =? length ALG)%nat || negb (beq (p_alg p) ALG) then (c, None)
        else if negb (length (p_fp p) =? FP_STR_LEN)%nat then (c, None)
        else
          let c := with_fp c (p_alg p ++ [32] ++ p_fp p) in
          let r := match p_ssrc p with
                   | None => (c, true)
                   | Some s =>
                       match strtoul s with
                       | (v, Some []) => (with_ssrc c (u32 v), true)
                       | _ => (c, false)
                       end
                   end in
          if negb (snd r) then (fst r, None)
          else
            let c := fst r in
            match my, c_state c with
            | ACTIVE, RDC_INIT =>
                let '(c, ok) := tls_connect (with_state c RDC_CONNECTING) t in
                if ok then (with_mode c my, Some my) else (c, None)
            | _, _ => (with_mode c my, Some my)
            end
    end.

  (** Steps that can go wrong for good: abort(), a call through NULL, a write past the end of a buffer. *)
  Inductive res (A : Type) := Ok (x : A) | Abort | NullCall | PastEnd.
  Arguments Ok {A}. Arguments Abort {A}. Arguments NullCall {A}. Arguments PastEnd {A}.

  (** tls_srtp_keyinfo, rtpp_dtls_conn.c:788-868. *)
  Definition keyinfo (t : tls) : res (option (suite * (list Z * list Z))) :=
    match t_profile t with
    | None => Ok None
    | Some id =>
        match suite_of id with
        | None => Abort
        | Some s =>
            let size := (s_key s + s_iv s)%nat in
            if (32 + 14 <? size)%nat then Abort
            else match t_keymat t with
                 | None => Ok None
                 | Some f => Ok (Some (s, keys s (map f (seq 0 (2 * size)))))
                 end
        end
    end.

  (** setup_srtp_stream, rtpp_dtls_conn.c:337-366. *)
  Definition setup_srtp (s : suite) (key : list Z) (ssrc : Z) : res (option ctx) :=
    if s_policy s then Ok (create s key ssrc) else NullCall.

  Definition dead (c : conn) : conn := with_state c RDC_DEAD.
  Definition is_active (c : conn) : bool := match c_mode c with ACTIVE => true | _ => false end.

  (** rtpp_dtls_conn_dtls_recv, lines 417-457: the engine has just been driven with success. *)
  Definition established (c : conn) (t : tls) : res conn :=
    if negb (t_ok1 t) then Ok c
    else match keyinfo t with
    | Ok None => Ok (dead c)
    | Ok (Some (s, (cli, srv))) =>
        match t_digest t with
        | None => Ok (dead c)
        | Some d =>
            if negb (match c_fp c with [] => true | _ => false end) && negb (beq (c_fp c) (fp_gen d))
            then Ok (dead c)
            else match setup_srtp s (if is_active c then cli else srv) SSRC_BAD with
            | Ok None => Ok (dead (with_out c None))
            | Ok (Some o) =>
                let c := with_out c (Some o) in
                match setup_srtp s (if is_active c then srv else cli) (c_ssrc c) with
                | Ok None => Ok (dead (with_in c None))
                | Ok (Some i) => Ok (with_state (with_in c (Some i)) RDC_UP)
                | _ => NullCall
                end
            | _ => NullCall
            end
        end
    | Abort => Abort
    | _ => NullCall
    end.

  (** rtpp_dtls_conn_dtls_recv, rtpp_dtls_conn.c:393-465, past the switch. *)
  Definition drive (c : conn) (b : list Z) (t : tls) : res conn :=
    if negb (t_write t) then Ok c
    else
      let c := with_unread c (c_unread c + Z.of_nat (length b)) in
      if t_ok0 t then Ok c
      else match c_state c with
      | RDC_UP => Ok (dead c)
      | _ =>
          let '(c, ok) := if is_active c then tls_connect c t else tls_accept c t in
          if negb ok then Ok (dead c) else established c t
      end.
  (** rtpp_dtls_conn_dtls_recv, rtpp_dtls_conn.c:368-391. *)
  Definition dtls_recv (c : conn) (b : list Z) (t : tls) : res conn :=
    match c_state c with
    | RDC_INIT => drive (with_state c RDC_CONNECTING) b t
    | RDC_CONNECTING | RDC_UP => drive c b t
    | RDC_DEAD => Ok c
    end.

  (** rtpp_dtls_conn_timeout, rtpp_dtls_conn.c:693-719; [h]: DTLSv1_handle_timeout is not negative. *)
  Definition timeout (c : conn) (h : bool) (t : tls) : conn :=
    if negb (c_timer c) then c
    else
      let c := with_timer c false in
      match c_state c with
      | RDC_CONNECTING =>
          if h then let '(c, ok) := check_timer c t in if ok then c else dead c
          else dead c
      | _ => c
      end.

  (** rtpp_dtls_conn_godead, rtpp_dtls_conn.c:887-902. *)
  Definition godead (c : conn) : conn := with_timer (dead c) false.

  (** rtpp_dtls_conn_rtp_send, rtpp_dtls_conn.c:475-516, for a packet with the flag PPROC_FLAG_COW or without
      it. [None]: the result is not zero. The flag with the bytes that are handed on says whether they were
      written over those of the packet that came in. [al]: there is memory for the copy. The library writes
      into a buffer of MAX_RPKT_LEN bytes and is not told so. *)
  Definition rtp_send (c : conn) (cow al : bool) (b : list Z) : res (conn * option (list Z * bool)) :=
    match c_state c with
    | RDC_UP =>
        if cow && negb al then Ok (c, None)
        else match c_out c with
        | None => NullCall
        | Some x =>
            match protect x (rtcp b) b with
            | None => Ok (c, None)
            | Some (x, w) =>
                if MAX_RPKT_LEN <? Z.of_nat (length w) then PastEnd
                else Ok (with_out c (Some x), Some (w, negb cow))
            end
        end
    | _ => Ok (c, None)
    end.

  (** rtpp_dtls_conn_srtp_recv, rtpp_dtls_conn.c:518-549. *)
  Definition srtp_recv (c : conn) (b : list Z) : res (conn * option (list Z)) :=
    match c_state c with
    | RDC_UP =>
        match c_in c with
        | None => NullCall
        | Some x =>
            match unprotect x (rtcp b) b with
            | None => Ok (c, None)
            | Some (x, p) =>
                if MAX_RPKT_LEN <? Z.of_nat (length p) then PastEnd
                else Ok (with_in c (Some x), Some p)
            end
        end
    | _ => Ok (c, None)
    end.

  (** struct wipkt, rtpp_dtls_gw.c:97-110: the direction, the connection, the stream the packet came in at
      (strmp_in), the flag PPROC_FLAG_COW, the packet. *)
  Inductive dir := DTLS_IN | SRTP_IN | RTP_OUT.
  Record work := mkWork { w_dir : dir; w_conn : nat; w_side : bool; w_cow : bool; w_pkt : list Z }.

  (** A session as the module sees it. [y_dec d]: the argument of the processor of the module at
      PPROC_ORD_DECRYPT (key pvt) in the chain of the RTP stream [d]; [y_enc d]: that of the one at
      PPROC_ORD_ENCRYPT (key pvt + 1). The manager called reverse of one stream is that of the other. [y_con]:
      all connections ever made; one that no chain refers to is one for which rtps_c was destroyed. [y_skt],
      [y_port]: the stream has a socket, and the RTP port. [y_q]: the queue of the module. *)
  Record sys := mkSys {
    y_dec : two (option nat); y_enc : two (option nat); y_con : list conn;
    y_skt : two bool; y_port : two Z; y_complete : bool; y_q : list work }.
  Definition with_dec (y : sys) x := mkSys x (y_enc y) (y_con y) (y_skt y) (y_port y) (y_complete y) (y_q y).
  Definition with_enc (y : sys) x := mkSys (y_dec y) x (y_con y) (y_skt y) (y_port y) (y_complete y) (y_q y).
  Definition with_con (y : sys) x := mkSys (y_dec y) (y_enc y) x (y_skt y) (y_port y) (y_complete y) (y_q y).
  Definition with_skt (y : sys) x := mkSys (y_dec y) (y_enc y) (y_con y) x (y_port y) (y_complete y) (y_q y).
  Definition with_port (y : sys) x := mkSys (y_dec y) (y_enc y) (y_con y) (y_skt y) x (y_complete y) (y_q y).
  Definition with_complete (y : sys) x := mkSys (y_dec y) (y_enc y) (y_con y) (y_skt y) (y_port y) x (y_q y).
  Definition with_q (y : sys) x := mkSys (y_dec y) (y_enc y) (y_con y) (y_skt y) (y_port y) (y_complete y) x.
  Definition nth_con (y : sys) (i : nat) : conn := nth i (y_con y) (newconn false).
  Definition put_con (y : sys) (i : nat) (c : conn) : sys := with_con y (upd (y_con y) i c).

  (** enum rdg_cmd and the two switches of rtpp_dtls_gw_handle_command, rtpp_dtls_gw.c:272-334. *)
  Inductive rdg := RDG_A | RDG_P | RDG_S | RDG_D | RDG_U.
  Definition parse (args : list (list Z)) : option rdg :=
    match args with
    | [] => None
    | a :: _ =>
        let n := length args in
        if negb ((n =? 1)%nat || (n =? 3)%nat || (n =? 4)%nat) then None
        else
          let c := Z.lor (nth 0 a 0) (nth 1 a 0) in
          if (c =? 97) || (c =? 65) then if (n =? 1)%nat then None else Some RDG_A
          else if (c =? 112) || (c =? 80) then if (n =? 1)%nat then None else Some RDG_P
          else if (c =? 115) || (c =? 83) then if (n =? 1)%nat then Some RDG_S else None
          else if (c =? 100) || (c =? 68) then if (n =? 1)%nat then Some RDG_D else None
          else if (c =? 117) || (c =? 85) then if (n =? 1)%nat then Some RDG_U else None
          else None
    end.
  (** Lines 341-345; char is signed, so bytes from 128 on are below 'a'. *)
  Definition upper (c : Z) : Z := if (97 <=? c) && (c <? 128) then c - 32 else c.

  (** Lines 336-362: what rdfsp points to. *)
  Definition spec_of (cmd : rdg) (args : list (list Z)) : option peer :=
    match cmd with
    | RDG_A => Some (mkPeer ACTIVE (map upper (nth 1 args [])) (nth 2 args []) (nth_error args 3))
    | RDG_P => Some (mkPeer PASSIVE (map upper (nth 1 args [])) (nth 2 args []) (nth_error args 3))
    | _ => None
    end.

  (** What the rest of the program does for a command: dtls_gw_data_ctor succeeds; rtpp_create_listener gives
      a port; the two processors are registered. *)
  Record env := mkEnv { e_ctor : bool; e_listen : option Z; e_reg_in : bool; e_reg_out : bool }.

  (** rtpp_dtls_gw_setup_sender, rtpp_dtls_gw.c:231-270, without the times to live and the statistics. *)
  Definition setup_sender (y : sys) (d : bool) (e : env) : sys * bool :=
    if get d (y_skt y) then (y, true)
    else match e_listen e with
    | None => (y, false)
    | Some p => (with_complete (with_port (with_skt y (set d (y_skt y) true)) (set d (y_port y) p)) true, true)
    end.

  Inductive cres := COk (text : list Z) | CFail | CAbort.
  Definition mode_word (m : mode) : list Z :=
    match m with ACTPASS => B "actpass " | ACTIVE => B "active " | PASSIVE => B "passive " end.

  (** Lines 386-464, once rtps_c is there; [i] is its number, and [found] says that it is in the chains. The
      last reference goes at e0 when it is not: the destructor of rtps_c calls godead. [own]: the fingerprint
      of our own certificate. *)
  Definition act (y : sys) (d : bool) (i : nat) (found : bool) (o : option peer) (own : list Z) (e : env) (t : tls)
    : sys * cres :=
    let drop y := if found then y else put_con y i (godead (nth_con y i)) in
    let s := match o with
             | Some p => match p_mode p with PASSIVE => setup_sender y d e | _ => (y, true) end
             | None => (y, true)
             end in
    if negb (snd s) then (drop (fst s), CFail)
    else
      let y := fst s in
      let '(c, m) := setmode (nth_con y i) o t in
      let y := put_con y i c in
      match m with
      | None => (drop y, CFail)
      | Some m =>
          if negb found && negb (e_reg_in e && e_reg_out e) then (drop y, CFail)
          else
            let y := if found then y
                     else with_enc (with_dec y (set d (y_dec y) (Some i))) (set (negb d) (y_enc y) (Some i)) in
            (y, COk (match o with None => mode_word m ++ own | Some _ => [] end))
      end.

  (** rtpp_dtls_gw_handle_command, rtpp_dtls_gw.c:274-465. [d]: the stream that is strmp_in for the command;
      the other is strmp_out. The lookup of line 366 is of the key pvt, in the chain of the stream. *)
  Definition command (y : sys) (d : bool) (args : list (list Z)) (own : list Z) (e : env) (t : tls) : sys * cres :=
    match parse args with
    | None => (y, CFail)
    | Some cmd =>
        if match cmd with RDG_A | RDG_P => (length ALG <? length (nth 1 args []))%nat | _ => false end
        then (y, CFail)
        else
          let o := spec_of cmd args in
          let s := match cmd with RDG_A | RDG_P | RDG_D => d | _ => negb d end in
          match cmd with
          | RDG_D | RDG_U =>
              match get s (y_dec y) with
              | None => (y, CFail)
              | Some i =>
                  let y := with_dec y (set s (y_dec y) None) in
                  match get (negb s) (y_enc y) with
                  | None => (y, CAbort)
                  | Some _ =>
                      let y := with_enc y (set (negb s) (y_enc y) None) in
                      (put_con y i (godead (nth_con y i)), COk [])
                  end
              end
          | _ =>
              match get s (y_dec y) with
              | Some i => act y s i true o own e t
              | None =>
                  if e_ctor e then act (with_con y (y_con y ++ [newconn s])) s (length (y_con y)) false o own e t
                  else (y, CFail)
              end
          end
    end.

  (** What becomes of a packet that gets to a place of the module in the chain of a stream: it goes to the
      processors behind, it is dropped, or it is put into the queue. *)
  Inductive fate := Passed (b : list Z) | Lost | Queued.
  (** rtpp_dtls_gw_taste_encrypted and rtpp_dtls_gw_enqueue, rtpp_dtls_gw.c:467-484, 501-525; [room]: there is
      memory for the item and place in the queue. *)
  Definition incoming (y : sys) (d cow room : bool) (b : list Z) : sys * fate :=
    match get d (y_dec y) with
    | None => (y, Passed b)
    | Some i =>
        if room then (with_q y (y_q y ++ [mkWork (if is_dtls b then DTLS_IN else SRTP_IN) i d cow b]), Queued)
        else (y, Lost)
    end.
  (** rtpp_dtls_gw_taste_plain, lines 486-499; [dst]: strmp_out is not NULL. *)
  Definition outgoing (y : sys) (d cow dst room : bool) (b : list Z) : sys * fate :=
    match get d (y_enc y) with
    | None => (y, Passed b)
    | Some i =>
        if negb dst then (y, Passed b)
        else if room then (with_q y (y_q y ++ [mkWork RTP_OUT i d cow b]), Queued)
        else (y, Lost)
    end.

  (** What the thread of the module does with the first item of its queue, rtpp_dtls_gw.c:148-202: a handshake
      message is consumed; the packet goes on behind PPROC_ORD_DECRYPT or behind PPROC_ORD_ENCRYPT in the chain
      of the stream it came in at; it is counted as dropped and released, and with the first flag also counted
      as come in; or the program dies. *)
  Inductive done := Idle | Shaken (i : nat) | Behind (d : bool) (i : nat) (b : list Z)
    | Relayed (d : bool) (i : nat) (b : list Z) (in_place : bool) | Dropped (d : bool) (counted : bool) | Died.
  Definition worker (y : sys) (t : tls) (al : bool) : sys * done :=
    match y_q y with
    | [] => (y, Idle)
    | w :: q =>
        let y := with_q y q in
        let i := w_conn w in
        match w_dir w with
        | DTLS_IN =>
            match dtls_recv (nth_con y i) (w_pkt w) t with
            | Ok c => (put_con y i c, Shaken i)
            | _ => (y, Died)
            end
        | SRTP_IN =>
            match srtp_recv (nth_con y i) (w_pkt w) with
            | Ok (c, Some b) => (put_con y i c, Behind (w_side w) i b)
            | Ok (c, None) => (put_con y i c, Dropped (w_side w) true)
            | _ => (y, Died)
            end
        | RTP_OUT =>
            match rtp_send (nth_con y i) (w_cow w) al (w_pkt w) with
            | Ok (c, Some (b, pl)) => (put_con y i c, Relayed (w_side w) i b pl)
            | Ok (c, None) => (put_con y i c, Dropped (w_side w) false)
            | _ => (y, Died)
            end
        end
    end.

  (** What happens in a session: sub-commands; packets that get to the place of the module behind
      PPROC_ORD_RECV and before PPROC_ORD_RELAY; a step of the thread; a timer of a connection. *)
  Inductive op :=
  | Command (d : bool) (args : list (list Z)) (e : env) (t : tls)
  | Incoming (d cow room : bool) (b : list Z)
  | Outgoing (d cow dst room : bool) (b : list Z)
  | Work (t : tls) (al : bool)
  | Timer (i : nat) (h : bool) (t : tls).
  Inductive out := Answered (r : cres) | Packet (f : fate) | Worked (w : done) | Nothing.

  Definition step (own : list Z) (y : sys) (o : op) : sys * out :=
    match o with
    | Command d args e t => let '(y, r) := command y d args own e t in (y, Answered r)
    | Incoming d cow room b => let '(y, f) := incoming y d cow room b in (y, Packet f)
    | Outgoing d cow dst room b => let '(y, f) := outgoing y d cow dst room b in (y, Packet f)
    | Work t al => let '(y, w) := worker y t al in (y, Worked w)
    | Timer i h t =>
        if (i <? length (y_con y))%nat then (put_con y i (timeout (nth_con y i) h t), Nothing) else (y, Nothing)
    end.
  Fixpoint run (own : list Z) (y : sys) (l : list op) : sys * list out :=
    match l with
    | [] => (y, [])
    | o :: r => let '(y, x) := step own y o in let '(y, xs) := run own y r in (y, x :: xs)
    end.

  (** A session in which the module has not been asked for anything. *)
  Definition fresh (skt : two bool) (port : two Z) (complete : bool) : sys :=
    mkSys (Two None None) (Two None None) [] skt port complete [].
End srtp.
Arguments Ok {A}. Arguments Abort {A}. Arguments NullCall {A}. Arguments PastEnd {A}.
