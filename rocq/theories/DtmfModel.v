(** Model of modules/catch_dtmf/rtpp_catch_dtmf.c: DTMF events (RFC 4733) seen in the packets of a stream are reported as
    notifications. Other threads run the command and receive packets; a thread of the module takes packets from a queue. Logs are
    left out; a stream that goes away is one whose index is not used again. *)
From Verif Require Import Base Str NumModel QuoteModel.

(** ** Packets *)

(** A packet: its bytes. The buffer is zeroed (rtp_packet_alloc, src/rtp_packet.c:78-88) and larger than what is read here, so
    what is read behind the packet is 0. *)
Definition byte (p : list Z) (i : nat) : Z := nth i p 0.
(** rtp_hdr_t: [pt] is the lower 7 bits of the second byte, [ts] is big endian at 4. *)
Definition p_pt (p : list Z) : Z := byte p 1 mod 128.
Definition p_ts (p : list Z) : Z := ((byte p 4 * 256 + byte p 5) * 256 + byte p 6) * 256 + byte p 7.
(** struct rtp_dtmf_event behind the fixed header, lines 161-173 and 198-199, on a little endian machine. *)
Definition p_event (p : list Z) : Z := byte p 12.
Definition p_end (p : list Z) : bool := byte p 13 / 128 =? 1.
Definition p_volume (p : list Z) : Z := byte p 13 mod 64.
Definition p_duration (p : list Z) : Z := byte p 14 * 256 + byte p 15.

(** ** State *)

(** struct catch_dtmf_einfo, lines 76-81. *)
Record einfo := mkE { pending : bool; digit : Z; ets : Z; duration : Z }.
(** struct catch_dtmf_stream_cfg and its edata, lines 85-99: payload type, whether packets are dropped ([act]), the tag and the
    target of [rtdp], [side] (caller or not), the history and [hst_next]. *)
Record cfg := mkC { c_pt : Z; c_hide : bool; c_tag : list Z; c_tgt : nat; c_caller : bool; hst : list einfo; hnext : Z }.
(** What the streams have, and the queue of the module: stream, packet, tag and target. *)
Record st := mkS { cfgs : nat -> option cfg; queue : list (nat * list Z * list Z * nat) }.

Inductive verdict := Pass | Tee | Drop.
Inductive event :=
| EMod (i : nat) (pt : Z) (hide : bool) (tag : list Z) (tgt : nat) (caller : bool)  (** the command succeeded, with these arguments *)
| ERefused (i : nat)                                                 (** the command failed *)
| ERecv (i : nat) (rtp : bool) (p : list Z) (lost : bool) (v : verdict)  (** a packet; [lost]: no memory to look at it *)
| ENote (i : nat) (tgt : nat) (text : list Z)                        (** a notification was scheduled *)
| EOverread (i : nat) (n : nat).                                     (** [n] bytes behind a buffer were read *)

(** rtpp_catch_dtmf_edata_ctor, lines 146-148 *)
Definition hst0 : list einfo := repeat (mkE false (-1) 0 0) 4.

(** ** The command *)

(** Lines 324-334: the tag is unquoted into a new buffer of one byte more; [MOob]: memory violated. *)
Inductive ures := UOob | UBad | UGot (s : list Z).
Definition unquote (tag : list Z) : ures :=
  let len := length tag in
  match url_unquote2 (tag ++ 0 :: repeat 0 (S len)) 0 (S len) len with
  | MOob => UOob
  | MRet r m => if r =? -1 then UBad else UGot (firstn (Z.to_nat r) (skipn (S len) m))
  end.
(** Lines 342-355: only h or H. *)
Fixpoint opts (o : list Z) (hide : bool) : option bool :=
  match o with
  | [] => Some hide
  | c :: o => if (c =? 104) || (c =? 72) then opts o true else None
  end.
(** Lines 312-357: the arguments, the first is the name of the subcommand. [None]: refused. *)
Definition arguments (args : list (list Z)) : option (list Z * Z * bool) :=
  match args with
  | _ :: tag :: more =>
      if (2 <? Z.of_nat (length more)) then None
      else match unquote tag with
      | UGot t =>
          match more with
          | [] => Some (t, 101, false)
          | pt :: more =>
              match atoi_saferange pt 0 127 with
              | ATOI_OK n =>
                  match more with
                  | [] => Some (t, n, false)
                  | o :: _ => match opts o false with Some h => Some (t, n, h) | None => None end
                  end
              | _ => None
              end
          end
      | _ => None
      end
  | _ => None
  end.
(** rtpp_catch_dtmf_handle_command, lines 297-392. [tgt]: the target of the session's notifications, if it has; [mem]: whether
    memory can be had and the processor be registered. The tag of a stream that has the module already is not changed. *)
Definition command (s : st) (i : nat) (tgt : option nat) (caller : bool) (mem : bool) (args : list (list Z)) : st * list event :=
  match tgt, arguments args with
  | Some tg, Some (tag, pt, hide) =>
      match cfgs s i with
      | None =>
          if negb mem then (s, [ERefused i])
          else (mkS (fun j => if (j =? i)%nat then Some (mkC pt hide tag tg caller hst0 0) else cfgs s j) (queue s), [EMod i pt hide tag tg caller])
      | Some c =>
          (mkS (fun j => if (j =? i)%nat then Some (mkC pt hide (c_tag c) (c_tgt c) (c_caller c) (hst c) (hnext c)) else cfgs s j) (queue s),
           [EMod i pt hide tag tg caller])
      end
  | _, _ => (s, [ERefused i])
  end.

(** ** Receiving *)

(** rtp_packet_is_dtmf, lines 394-407, and rtpp_catch_dtmf_enqueue, lines 409-433. [mem]: memory for the queue item is there and
    the queue takes it. *)
Definition receive (s : st) (i : nat) (rtp : bool) (mem : bool) (p : list Z) : st * list event :=
  match cfgs s i with
  | None => (s, [ERecv i rtp p (negb mem) Pass])
  | Some c =>
      if negb rtp then (s, [ERecv i rtp p (negb mem) Pass])
      else if negb (c_pt c =? p_pt p) then (s, [ERecv i rtp p (negb mem) Pass])
      else if negb mem then (s, [ERecv i rtp p (negb mem) Drop])
      else (mkS (cfgs s) (queue s ++ [(i, p, c_tag c, c_tgt c)]), [ERecv i rtp p (negb mem) (if c_hide c then Drop else Tee)])
  end.

(** ** The thread of the module *)

(** dtmf_events, line 185: with the terminator it has 18 elements. *)
Definition dtmf_events : list Z := B "0123456789*#ABCD " ++ [0].
(** Lines 208-216: looks at the 4 entries before [hst_next], the nearest first. *)
Definition entry (hst : list einfo) (j : Z) : einfo := nth (Z.to_nat j) hst (mkE false (-1) 0 0).
Fixpoint lookup (n : nat) (i : Z) (hst : list einfo) (hnext : Z) (ts : Z) : option Z :=
  match n with
  | O => None
  | S n =>
      let j := hnext - i in
      let j := if j <? 0 then 4 + j else j in
      let e := entry hst j in
      if (ets e =? ts) && negb (digit e =? -1) then Some j else lookup n (i + 1) hst hnext ts
  end.
(** %.*s stops at a NUL. *)
Fixpoint upto0 (l : list Z) : list Z := match l with [] => [] | c :: l => if c =? 0 then [] else c :: upto0 l end.
(** Lines 250-255. snprintf() returns the length the text would have; the buffer has 512 bytes; schedule() copies as many bytes
    as were returned from it. *)
Definition report (i : nat) (tag : list Z) (tgt : nat) (dg vol dur : Z) (caller : bool) : list event :=
  let full := upto0 tag ++ [32] ++ [dg] ++ [32] ++ fmt_u vol ++ [32] ++ fmt_u dur ++ [32] ++ fmt_d (if caller then 0 else 1) in
  let buf := firstn 511 full ++ [0] in
  if (512 <? Z.of_nat (length full)) then [EOverread i (length full - 512)]
  else [ENote i tgt (firstn (length full) buf)].
Definition set_entry (c : cfg) (j : Z) (e : einfo) (nx : Z) : cfg :=
  mkC (c_pt c) (c_hide c) (c_tag c) (c_tgt c) (c_caller c) (upd (hst c) (Z.to_nat j) e) nx.
(** Lines 196-256, one packet. *)
Definition work1 (i : nat) (c : cfg) (p tag : list Z) (tgt : nat) : cfg * list event :=
  if 17 <? p_event p then (c, [])
  else
    let dg := nth (Z.to_nat (p_event p)) dtmf_events 0 in
    match lookup 4 1 (hst c) (hnext c) (p_ts p) with
    | None =>
        let nx := hnext c + 1 in
        (set_entry c (hnext c) (mkE true dg (p_ts p) (p_duration p)) (if nx =? 4 then 0 else nx), [])
    | Some j =>
        let e := entry (hst c) j in
        if negb (pending e) then (c, [])
        else if negb (dg =? digit e) then (c, [])
        else
          let dur := if duration e <? p_duration p then p_duration p else duration e in
          if negb (p_end p) then (set_entry c j (mkE (pending e) (digit e) (ets e) dur) (hnext c), [])
          else (set_entry c j (mkE false (digit e) (ets e) dur) (hnext c), report i tag tgt dg (p_volume p) dur (c_caller c))
    end.
(** Lines 190-259: takes one item; the items of a stream refer to its history. *)
Definition work (s : st) : st * list event :=
  match queue s with
  | [] => (s, [])
  | (i, p, tag, tgt) :: q =>
      match cfgs s i with
      | None => (mkS (cfgs s) q, [])   (* not reachable: see the proofs *)
      | Some c => let (c', ev) := work1 i c p tag tgt in (mkS (fun j => if (j =? i)%nat then Some c' else cfgs s j) q, ev)
      end
  end.

Inductive op :=
| Cmd (i : nat) (tgt : option nat) (caller : bool) (mem : bool) (args : list (list Z))
| Recv (i : nat) (rtp : bool) (mem : bool) (p : list Z)
| Work.
Definition exec (s : st) (o : op) : st * list event :=
  match o with
  | Cmd i tgt caller mem args => command s i tgt caller mem args
  | Recv i rtp mem p => receive s i rtp mem p
  | Work => work s
  end.
Fixpoint run (s : st) (os : list op) : st * list event :=
  match os with
  | [] => (s, [])
  | o :: os => let (s1, e1) := exec s o in let (s2, e2) := run s1 os in (s2, e1 ++ e2)
  end.
Definition init : st := mkS (fun _ => None) [].
