(** Re-packetization, in terms of RTP packets (RFC 3550, as in RtpSpec.v) and of the datagrams that go in and
    out of the resizer. *)
From Verif Require Import Base RtpModel RtpSpec RszModel.

(** What the callers do: datagrams of bytes that fit the receive buffer, packet times of 1 to 999 ms. *)
Definition valid (o : op) : Prop :=
  match o with
  | Enq d _ => Forall byte d /\ Z.of_nat (length d) <= 8192
  | Get _ _ => True
  | SetPtime n => 0 < n < 1000
  end.

(** Datagrams that were accepted, and datagrams that were sent, in order *)
Fixpoint taken (tr : list obs) : list (list Z) :=
  match tr with [] => [] | OEnq d ETaken :: t => d :: taken t | _ :: t => taken t end.
Fixpoint sent (tr : list obs) : list (list Z) :=
  match tr with [] => [] | OOut d :: t => d :: sent t | _ :: t => sent t end.
Definition is (d : list Z) (r : rtp_pkt) : Prop := wf r /\ encode r = d.
(** Payload bytes, each with its payload type *)
Definition media (l : list rtp_pkt) : list (Z * Z) := concat (map (fun r => map (pair (r_pt r)) (r_payload r)) l).
(** Sequence numbers follow each other *)
Definition numbered (l : list rtp_pkt) : Prop :=
  forall i a b, nth_error l i = Some a -> nth_error l (S i) = Some b -> r_seq b = u16 (r_seq a + 1).
(** The datagrams accepted are packets without padding; all from one source *)
Definition unpadded (tr : list obs) : Prop := forall d r, In d (taken tr) -> is d r -> r_pad r = [].
Definition one_source (ssrc : Z) (tr : list obs) : Prop :=
  forall d e r, In (OEnq d e) tr -> e <> EBack -> is d r -> r_ssrc r = ssrc.

(** Time of a packet relative to [base], on the 32 bit clock *)
Definition since (base : Z) (r : rtp_pkt) : Z := u32 (r_ts r - base).
(** All timestamps within one half of the clock circle, less about two minutes *)
Definition window (base : Z) (l : list rtp_pkt) : Prop := Forall (fun r => since base r < 2147483648 - 1048576) l.
(** Insertion after everything that is not later: a stable sort *)
Fixpoint insert (base : Z) (r : rtp_pkt) (l : list rtp_pkt) : list rtp_pkt :=
  match l with
  | [] => [r]
  | x :: t => if since base r <? since base x then r :: l else x :: insert base r t
  end.
Definition by_time (base : Z) (l : list rtp_pkt) : list rtp_pkt := fold_left (fun acc r => insert base r acc) l [].

(** Codec frames: how many samples a frame lasts, and how a payload splits into frames. For G.711 a frame is
    a byte. The last frame of a G.729 payload may be a short one (comfort noise). *)
Definition duration (pt : Z) : Z := if pt =? 18 then 80 else if pt =? 3 then 160 else if pt =? 4 then 240 else 1.
Definition full (pt : Z) (f : list Z) : Prop :=
  match f with
  | [] => False
  | ch :: _ => Z.of_nat (length f) =
      if pt =? 18 then 10 else if pt =? 3 then 33
      else if pt =? 4 then (if ch mod 4 =? 0 then 24 else if ch mod 4 =? 1 then 20 else if ch mod 4 =? 2 then 4 else -1)
      else 1
  end.
Inductive framed (pt : Z) : list Z -> list (list Z) -> Prop :=
| fr_nil : framed pt [] []
| fr_cons : forall f l fs, full pt f -> framed pt l fs -> framed pt (f ++ l) (f :: fs)
| fr_last : forall f, pt = 18 -> 0 < Z.of_nat (length f) < 10 -> framed pt f [f].
(** Frames with the time at which they are to be played *)
Fixpoint stamp (dur ts : Z) (fs : list (list Z)) : list (Z * list Z) :=
  match fs with [] => [] | f :: t => (u32 ts, f) :: stamp dur (ts + dur) t end.
Definition timed (r : rtp_pkt) (l : list (Z * list Z)) : Prop :=
  exists fs, framed (r_pt r) (r_payload r) fs /\ l = stamp (duration (r_pt r)) (r_ts r) fs.

(** [r] can be played frame by frame: everything but G.722 (9), whole frames *)
Definition framable (r : rtp_pkt) : Prop := r_pt r <> 9 /\ exists fs, framed (r_pt r) (r_payload r) fs.
(** [r] lasts for [n] samples *)
Definition lasts (r : rtp_pkt) (n : Z) : Prop := exists fs, framed (r_pt r) (r_payload r) fs /\ n = duration (r_pt r) * Z.of_nat (length fs).
Definition is_get (o : op) : Prop := match o with Get _ true => True | _ => False end.
(** [a] is before [b] on the 32 bit clock *)
Definition earlier (a b : Z) : Prop := 2147483648 < u32 (a - b).
(** The packet time in force *)
Fixpoint ptime_now (n : Z) (os : list op) : Z := match os with [] => n | SetPtime m :: t => ptime_now m t | _ :: t => ptime_now n t end.
