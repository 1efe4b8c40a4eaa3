(** What the listener of an announcement relies on. *)
From Verif Require Import Base SrvModel.

(** Codecs an announcement can be in: payload type, bytes of a frame, milliseconds of a frame. *)
Definition codecs : list (Z * (Z * Z)) :=
  [(0, (8, 1)); (8, (8, 1)); (9, (8, 1)); (18, (10, 10)); (4, (24, 30)); (3, (33, 20))].

(** Frames in a packet of at least [ptime] milliseconds. *)
Definition frames (ptime ms : Z) : Z := (ptime + ms - 1) / ms.

(** The packet time in use: the one negotiated (1 to 999 ms) or else 10 ms. *)
Definition good_ptime (p : Z) : Prop := p <= 999.
Definition used_ptime (p : Z) : Z := if p <=? 0 then 10 else p.

(** The datagrams among the answers, with the time each was sent at. *)
Fixpoint sent (cs : list (Z * io)) (gs : list gres) : list (Z * list Z) :=
  match cs, gs with
  | (t, _) :: cs', GPkt d :: gs' => (t, d) :: sent cs' gs'
  | _ :: cs', _ :: gs' => sent cs' gs'
  | _, _ => []
  end.

(** The [j]-th packet-sized piece of the file. *)
Definition piece (file : list Z) (len : Z) (j : Z) : list Z :=
  firstn (Z.to_nat len) (skipn (Z.to_nat (j * len)) file).

(** No system call fails. *)
Definition healthy (cs : list (Z * io)) : Prop := Forall (fun c => snd c = io_ok) cs.

(** A player for [codec], [loop] and [ptime], started at time [st]. *)
Definition player (codec loop ptime r1 r2 r3 st : Z) : server :=
  server_start (server_new codec loop ptime r1 r2 r3) st.
