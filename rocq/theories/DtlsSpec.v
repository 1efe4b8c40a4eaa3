(** What is expected of a gateway between DTLS-SRTP (RFC 5763, RFC 5764) and RTP, said of the commands, the
    packets and the handshakes. *)
From Verif Require Import Base Str DtlsModel.
From Verif Require NumSpec.

(** RFC 8122: the digest as bytes in upper-case hexadecimal with colons between them. *)
Definition upper_digit (v : Z) : Z := nth (Z.to_nat v) (B "0123456789ABCDEF") 0.
Inductive writes_bytes : list Z -> list Z -> Prop :=
| wb_one x : writes_bytes [x] [upper_digit (x / 16); upper_digit (x mod 16)]
| wb_more x d s : writes_bytes d s -> writes_bytes (x :: d) (upper_digit (x / 16) :: upper_digit (x mod 16) :: 58 :: s).
Definition byte (x : Z) : Prop := 0 <= x < 256.

(** RFC 5764, section 4.2: the key material is the key of the client, the key of the server, the salt of the
    client and the salt of the server. *)
Record keying := mkKeying { k_ck : list Z; k_sk : list Z; k_cs : list Z; k_ss : list Z }.
Definition layout (s : suite) (keymat : list Z) (k : keying) : Prop :=
  keymat = k_ck k ++ k_sk k ++ k_cs k ++ k_ss k /\
  length (k_ck k) = s_key s /\ length (k_sk k) = s_key s /\ length (k_cs k) = s_iv s /\ length (k_ss k) = s_iv s.
Definition client_key (k : keying) : list Z := k_ck k ++ k_cs k.
Definition server_key (k : keying) : list Z := k_sk k ++ k_ss k.

(** The exporter is asked for twice the size of a key and a salt. *)
Definition exported (s : suite) (f : nat -> Z) : list Z := map f (seq 0 (2 * (s_key s + s_iv s))).

(** The side of the session a command is for: A, P and D are about the side the command was sent for, S and U about
    the other. *)
Definition target (d : bool) (c : rdg) : bool := match c with RDG_A | RDG_P | RDG_D => d | RDG_S | RDG_U => negb d end.
(** The commands that put the gateway on a side, and those that take it off. *)
Definition puts (c : rdg) : bool := match c with RDG_A | RDG_P | RDG_S => true | _ => false end.

(** There is a gateway on side [d] after these commands and their answers: the last one that succeeded for
    the side was not D or U. The first in the list is the latest. *)
Definition about (d : bool) (o : op) (x : out) : option bool :=
  match o, x with
  | Command d' args _ _, Answered (COk _) =>
      match parse args with
      | Some c => if Bool.eqb (target d' c) d then Some (puts c) else None
      | None => None
      end
  | _, _ => None
  end.
Fixpoint on_latest (d : bool) (l : list (op * out)) : bool :=
  match l with
  | [] => false
  | (o, x) :: r => match about d o x with Some b => b | None => on_latest d r end
  end.
Definition gateway_on (d : bool) (ops : list op) (outs : list out) : bool := on_latest d (rev (combine ops outs)).

(** The packets the module took, in order: whether it is one for the DTLS side, the stream it came in at,
    whether others still use its bytes, the bytes. *)
Definition taken (o : op) (x : out) : list (bool * bool * bool * list Z) :=
  match o, x with
  | Incoming d cow _ b, Packet Queued => [(false, d, cow, b)]
  | Outgoing d cow _ _ b, Packet Queued => [(true, d, cow, b)]
  | _, _ => []
  end.
Definition served (x : out) : nat := match x with Worked Idle => O | Worked _ => 1%nat | _ => O end.
(** Those that the thread has not dealt with. *)
Definition waiting (ops : list op) (outs : list out) : list (bool * bool * bool * list Z) :=
  skipn (list_sum (map served outs)) (concat (map (fun q => taken (fst q) (snd q)) (combine ops outs))).

(** The ssrc that a text stands for: a numeral and nothing behind it. A number that does not fit into 64
    bits counts as the largest. *)
Definition ssrc_text (t : list Z) (x : Z) : Prop :=
  exists v, NumSpec.numeral t v [] /\ x = if Z.abs v <? 2 ^ 64 then v mod 2 ^ 32 else 2 ^ 32 - 1.

(** A datagram that can be a DTLS record by its first byte and its length (RFC 5764, section 5.1.2). *)
Definition dtls_record (b : list Z) : Prop := (13 <= length b)%nat /\ 20 <= nth 0 b 0 <= 63.

(** Letters in any case. *)
Definition same_letters (a b : list Z) : Prop :=
  Forall2 (fun x y => x = y \/ (97 <= x <= 122 /\ y = x - 32)) a b.

(** The letters of the commands. *)
Definition letter (c : Z) (cmd : rdg) : Prop :=
  match cmd with
  | RDG_A => c = 65 \/ c = 97 | RDG_P => c = 80 \/ c = 112 | RDG_S => c = 83 \/ c = 115
  | RDG_D => c = 68 \/ c = 100 | RDG_U => c = 85 \/ c = 117
  end.

(** A command that tells a fingerprint for side [d]. *)
Definition tells (d : bool) (fp : list Z) (o : op) : Prop :=
  exists args e t, o = Command d args e t /\ (parse args = Some RDG_A \/ parse args = Some RDG_P) /\ fp = nth 2 args [].

(** The life of a connection. *)
Definition stage (s : rstate) : nat := match s with RDC_INIT => 0 | RDC_CONNECTING => 1 | RDC_UP => 2 | RDC_DEAD => 3 end.

(** A context after some uses. *)
Inductive used {ctx} (f : ctx -> bool -> list Z -> option (ctx * list Z)) (x : ctx) : ctx -> Prop :=
| used_not : used f x x
| used_more y r p z q : used f x y -> f y r p = Some (z, q) -> used f x z.

Section srtp.
  Context {ctx : Type} (create : suite -> list Z -> Z -> option ctx)
    (protect unprotect : ctx -> bool -> list Z -> option (ctx * list Z)).
  Notation sys := (@sys ctx). Notation conn := (@conn ctx).

  Definition after (own : list Z) (y : sys) (ops : list op) : sys := fst (run create protect unprotect own y ops).
  Definition reached (own : list Z) (y : sys) : Prop :=
    exists skt port complete ops, y = after own (fresh skt port complete) ops.

  (** Connection [i] has gone through a handshake: there is a moment in the history at which it completed, and
      the contexts come from the keys it gave. *)
  Definition established_by (own : list Z) (y0 : sys) (ops : list op) (i : nat) (y1 : sys) (s : suite) (km : keying) (dg : list Z) : Prop :=
    exists l1 t al l2, ops = l1 ++ Work t al :: l2 /\ y1 = after own y0 l1 /\ (i < length (y_con y1))%nat /\
      (c_state (nth_con y1 i) = RDC_INIT \/ c_state (nth_con y1 i) = RDC_CONNECTING) /\
      (exists w q, y_q y1 = w :: q /\ w_dir w = DTLS_IN /\ w_conn w = i /\ dtls_record (w_pkt w)) /\
      t_shake t <> SErr /\ t_ok1 t = true /\ t_digest t = Some dg /\
      exists id f, t_profile t = Some id /\ suite_of id = Some s /\ t_keymat t = Some f /\ layout s (exported s f) km.

  (** At this moment what is known of the peer, if anything, is the fingerprint of the certificate. *)
  Definition verified (c : conn) (dg : list Z) : Prop := c_fp c = [] \/ c_fp c = fp_gen dg.

  (** The keys for what comes in and for what goes out: the side that opened the handshake is the client. *)
  Definition key_in (m : mode) (km : keying) : list Z := match m with ACTIVE => server_key km | _ => client_key km end.
  Definition key_out (m : mode) (km : keying) : list Z := match m with ACTIVE => client_key km | _ => server_key km end.

  (** All packets of a list through [rtp_send] of one end and [srtp_recv] of the other. [None] is a packet that was not let
      through. *)
  Fixpoint send_all (c : conn) (l : list (list Z)) : list (option (list Z)) :=
    match l with
    | [] => []
    | b :: r =>
        match rtp_send protect c false true b with
        | Ok (c, Some (w, _)) => Some w :: send_all c r
        | Ok (c, None) => None :: send_all c r
        | _ => []
        end
    end.
  Fixpoint recv_all (c : conn) (l : list (option (list Z))) : list (option (list Z)) :=
    match l with
    | [] => []
    | None :: r => None :: recv_all c r
    | Some w :: r =>
        match srtp_recv unprotect c w with
        | Ok (c, b) => b :: recv_all c r
        | _ => []
        end
    end.
  (** What the program is to live with: datagrams of the size it reads at most, room in the packets to be
      protected for what the library adds, and a profile that was offered. *)
  Definition fits (grow : Z) (o : op) : Prop :=
    match o with
    | Incoming _ _ _ b => Z.of_nat (length b) <= MAX_RPKT_LEN
    | Outgoing _ _ _ _ b => Z.of_nat (length b) + grow <= MAX_RPKT_LEN
    | Work t _ => forall id, t_profile t = Some id -> offered id = true
    | _ => True
    end.
  (** An RTP or RTCP packet by its version and length. *)
  Definition rtp_like (b : list Z) : Prop := (12 <= length b)%nat /\ nth 0 b 0 / 64 = 2.
  (** What is asked of an SRTP library: a packet protected by a context for sending is given back by a
      context for receiving that was made with the same key and had all the packets before; the first bytes of
      the header stay readable; a packet grows by [grow] at most. *)
  Record srtp_library (grow : Z) : Prop := {
    lib_pair : exists sync : ctx -> ctx -> Prop,
      (forall s k x, create s k SSRC_BAD = Some x -> sync x x) /\
      (forall o i r b, sync o i -> rtp_like b -> exists o' w i', protect o r b = Some (o', w) /\
         unprotect i r w = Some (i', b) /\ sync o' i' /\ firstn 2 w = firstn 2 b);
    lib_grow : forall o r b o' w, protect o r b = Some (o', w) -> Z.of_nat (length w) <= Z.of_nat (length b) + grow;
    lib_shrink : forall i r w i' b, unprotect i r w = Some (i', b) -> Z.of_nat (length b) <= Z.of_nat (length w) }.
End srtp.
