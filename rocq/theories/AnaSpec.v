(** Loss, reordering and duplicates of an RTP stream, in terms of the true (unbounded) packet numbers of
    RFC 3550, appendix A.1: the 16 bit number on the wire is the true number modulo 65536. *)
From Verif Require Import Base AnaModel.

(** The packets after the first: true number and marker bit. [lo], [hi]: lowest and highest number so far. *)
Fixpoint tolerated (lo hi : Z) (l : list (Z * bool)) : Prop :=
  match l with
  | [] => True
  | (e, m) :: t =>
      hi - 535 <= e <= hi + 535 /\             (* the reordering window *)
      0 <= e < 4294901760 /\                   (* fewer than 2^32 - 2^16 packets; none from before the first wrap *)
      (lo <= e \/ hi < 65536) /\               (* packets from before the first one only come before a wrap *)
      (m = true -> hi <= e /\ (e / 65536 = hi / 65536 \/ hi mod 65536 = 65535)) /\ (* marked packets come in order *)
      tolerated (Z.min lo e) (Z.max hi e) t
  end.

(** One SSRC's packets *)
Record segment := mkSeg { g_ssrc : Z; g_first : Z; g_mark : bool; g_rest : list (Z * bool) }.
Definition numbers (g : segment) : list Z := g_first g :: map fst (g_rest g).
Definition good (g : segment) : Prop := 0 <= g_first g < 65536 /\ tolerated (g_first g) (g_first g) (g_rest g).
(** on the wire *)
Definition wire (ssrc : Z) (em : Z * bool) : option pkt := Some (mkPkt ssrc (fst em mod 65536) (snd em) true).
Definition packets (g : segment) : list (option pkt) := map (wire (g_ssrc g)) ((g_first g, g_mark g) :: g_rest g).

Definition highest (l : list Z) : Z := fold_right Z.max (hd 0 l) l.
Definition lowest (l : list Z) : Z := fold_right Z.min (hd 0 l) l.
Definition distinct (l : list Z) : Z := Z.of_nat (length (nodup Z.eq_dec l)).
Definition span (g : segment) : Z := highest (numbers g) - lowest (numbers g) + 1.
Definition copies (g : segment) : Z := Z.of_nat (length (numbers g)) - distinct (numbers g).

(** Several SSRCs one after the other, none but the last going through a wrap *)
Fixpoint chain (gs : list segment) : Prop :=
  match gs with
  | [] => True
  | g :: t => good g /\ match t with
                        | [] => True
                        | h :: _ => g_ssrc g <> g_ssrc h /\ highest (numbers g) < 65536
                        end /\ chain t
  end.
