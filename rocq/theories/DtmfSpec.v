(** DTMF events in RTP (RFC 4733), and what reporting them should mean. *)
From Verif Require Import Base StrSpec NumSpec QuoteSpec DtmfModel.

(** ** Telephone events *)

Fixpoint big (l : list Z) : Z := match l with [] => 0 | b :: l => b * 256 ^ Z.of_nat (length l) + big l end.
Definition field (p : list Z) (off len : nat) : Z := big (firstn len (skipn off p)).

(** A telephone event packet: timestamp (the identity of the event), number of the event, end bit, volume, duration so far. *)
Record tel := mkTel { ts : Z; ev : Z; final : bool; vol : Z; dur : Z }.
Definition payload_tel (stamp : Z) (d : list Z) : tel :=
  mkTel stamp (field d 0 1) (128 <=? field d 1 1) (field d 1 1 mod 64) (field d 2 2).
(** Where the payload of an RTP packet starts (RFC 3550): behind 12 bytes, the sources and the extension. *)
Definition payload (p : list Z) : list Z :=
  let cc := Z.to_nat (field p 0 1 mod 16) in
  let off := (12 + 4 * cc)%nat in
  if (field p 0 1 / 16) mod 2 =? 1 then skipn (off + 4 + 4 * Z.to_nat (field p (off + 2) 2))%nat p else skipn off p.
(** The event in a packet; [None]: there is none, the payload is too short. *)
Definition tel_of (p : list Z) : option tel :=
  if (length (payload p) <? 4)%nat then None else Some (payload_tel (field p 4 4) (payload p)).
(** A packet without sources and extension, with a telephone event in it. *)
Definition plain_tel (p : list Z) : Prop :=
  Forall (fun b => 0 <= b < 256) p /\ (16 <= length p)%nat /\ field p 0 1 mod 32 = 0.

(** The symbols of the events: 0 to 9, star, pound, A to D, and a blank for flash. *)
Inductive symbol : Z -> Z -> Prop :=
| sym_digit e : 0 <= e <= 9 -> symbol e (48 + e)
| sym_star : symbol 10 42
| sym_pound : symbol 11 35
| sym_letter e : 12 <= e <= 15 -> symbol e (65 + (e - 12))
| sym_flash : symbol 16 32.

(** ** What is to be reported *)

(** Packet [p] makes a report, of this duration: it is an end packet, the event was seen before ([q] is its first packet) with
    the same number, and there was no end packet of it since. The duration is the longest seen. *)
Definition trigger (past : list tel) (p : tel) : option Z :=
  match filter (fun r => ts r =? ts p) past with
  | [] => None
  | q :: rest =>
      let same := filter (fun r => ev r =? ev p) rest in
      if final p && (ev q =? ev p) && negb (existsb final same) then Some (fold_right Z.max 0 (map dur (q :: same ++ [p]))) else None
  end.
Fixpoint reports (past l : list tel) : list (tel * Z) :=
  match l with
  | [] => []
  | p :: l => match trigger past p with Some d => [(p, d)] | None => [] end ++ reports (past ++ [p]) l
  end.
(** Events 17 and above are not reported on. *)
Definition known (p : tel) : bool := ev p <=? 16.

(** Between the first packet of an event and any later packet of it, fewer than 4 other events begin. *)
Definition fresh (seen : list Z) (l : list Z) : list Z := nodup Z.eq_dec (filter (fun t => negb (existsb (Z.eqb t) seen)) l).
Definition interleaved (l : list tel) : Prop :=
  forall a x b y c, l = a ++ x :: b ++ y :: c -> ts x = ts y -> ~ In (ts x) (map ts a) ->
    (length (fresh (map ts (a ++ [x])) (map ts b)) < 4)%nat.

(** The text of a report: tag, symbol, volume, duration, 0 for the caller and 1 for the callee. *)
Definition text_of (tag : list Z) (caller : bool) (r : tel * Z) (t : list Z) : Prop :=
  exists s v d, symbol (ev (fst r)) s /\ dec (vol (fst r)) v /\ dec (snd r) d /\
    t = tag ++ [32] ++ [s] ++ [32] ++ v ++ [32] ++ d ++ [32] ++ (if caller then [48] else [49]).

(** ** What is seen from outside *)

(** The arguments of the command: a quoted tag, a payload type (101 if not given), and hiding. *)
Inductive asked : list (list Z) -> list Z -> Z -> bool -> Prop :=
| asked1 n q t : decoded q = Some t -> asked [n; q] t 101 false
| asked2 n q p t v : decoded q = Some t -> numeral p v [] -> 0 <= v <= 127 -> asked [n; q; p] t v false
| asked3 n q p o t v : decoded q = Some t -> numeral p v [] -> 0 <= v <= 127 -> Forall (fun c => c = 104 \/ c = 72) o ->
    asked [n; q; p; o] t v (match o with [] => false | _ => true end).

(** The packets of stream [i] to be looked at: RTP packets of the payload type last asked for, if there was memory. *)
Fixpoint caught (want : option Z) (l : list event) (i : nat) : list (list Z) :=
  match l with
  | [] => []
  | EMod j pt _ _ _ _ :: l => caught (if (j =? i)%nat then Some pt else want) l i
  | ERecv j rtp p lost _ :: l =>
      (if (j =? i)%nat && rtp && negb lost && (match want with Some pt => pt =? field p 1 1 mod 128 | None => false end) then [p] else []) ++ caught want l i
  | _ :: l => caught want l i
  end.
(** What is done with the packets: those not looked at pass; those looked at pass too, unless hiding was asked for last; those
    that could not be looked at are dropped. *)
Fixpoint verdicts (want : option (Z * bool)) (l : list event) (i : nat) : Prop :=
  match l with
  | [] => True
  | EMod j pt hide _ _ _ :: l => verdicts (if (j =? i)%nat then Some (pt, hide) else want) l i
  | ERecv j rtp p lost v :: l =>
      (j = i ->
       v = match want with
           | Some (pt, hide) => if rtp && (pt =? field p 1 1 mod 128) then (if lost || hide then Drop else Tee) else Pass
           | None => Pass
           end) /\ verdicts want l i
  | _ :: l => verdicts want l i
  end.
Definition notes (l : list event) (i : nat) : list (nat * list Z) :=
  flat_map (fun e => match e with ENote j g t => if (j =? i)%nat then [(g, t)] else [] | _ => [] end) l.
(** All commands for the stream gave this tag, target and side. *)
Definition always (l : list event) (i : nat) (tag : list Z) (tgt : nat) (caller : bool) : Prop :=
  forall pt hide g t c, In (EMod i pt hide g t c) l -> g = tag /\ t = tgt /\ c = caller.
(** The packets of the stream that wait for the thread of the module. *)
Definition waiting (s : st) (i : nat) : list (list Z) :=
  flat_map (fun it : nat * list Z * list Z * nat => let '(j, p, _, _) := it in if (j =? i)%nat then [p] else []) (queue s).
Definition tels (ps : list (list Z)) : list tel := flat_map (fun p => match tel_of p with Some t => [t] | None => [] end) ps.
