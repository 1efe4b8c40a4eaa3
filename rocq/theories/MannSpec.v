(** G.711 by chords and steps, and the files makeann is to write. *)
From Verif Require Import Base.

Definition int16 (s : Z) : Prop := -32768 <= s <= 32767.

(** A-law (13 bits, here in units of 16 bit samples): 8 chords of 16 steps for each sign; the first two chords
    have steps of 16, each further one twice the step of the one before; every other bit is inverted *)
Definition a_step (e : Z) : Z := if e =? 0 then 16 else 2 ^ (e + 3).
Definition a_low (e k : Z) : Z := if e =? 0 then 16 * k else (16 + k) * 2 ^ (e + 3).
Definition a_code (neg : bool) (e k : Z) : Z := Z.lxor (e * 16 + k + if neg then 0 else 128) 85.
Definition a_mag (s : Z) : Z := if s <? 0 then - s - 1 else s.
Definition a_cell (s e k : Z) : Prop := 0 <= e < 8 /\ 0 <= k < 16 /\ a_low e k <= a_mag s < a_low e k + a_step e.

(** mu-law (14 bits): magnitude with bias 33, limited to 8191 with it; 8 chords of 16 steps, each chord with twice the step
    of the one before; all bits inverted *)
Definition u_mag (s : Z) : Z := Z.min 8158 (if s <? 0 then - (s / 4) else s / 4) + 33.
Definition u_code (neg : bool) (e k : Z) : Z := Z.lxor (e * 16 + k) (if neg then 127 else 255).
Definition u_cell (s e k : Z) : Prop := 0 <= e < 8 /\ 0 <= k < 16 /\ (16 + k) * 2 ^ (e + 1) <= u_mag s < (17 + k) * 2 ^ (e + 1).

(** the first [n] samples of a recording played over and over *)
Definition cyc (src : list Z) (n : nat) : list Z := map (fun i => nth (i mod length src) src 0) (seq 0 n).

(** what is to be encoded *)
Definition wanted (src : list Z) (limit : option nat) (loop : bool) : list Z :=
  match limit with
  | None => src
  | Some n => if loop then cyc src n else firstn n src
  end.

(** frames of 160 samples, the last filled with silence *)
Fixpoint cut (n : nat) (l : list Z) : list (list Z) :=
  match n, l with
  | S n, _ :: _ => firstn 160 (l ++ repeat 0 160) :: cut n (skipn 160 l)
  | _, _ => []
  end.
Definition frames (l : list Z) : list (list Z) := cut (length l) l.
Definition halves (fs : list (list Z)) : list (list Z) := flat_map (fun f => [firstn 80 f; skipn 80 f]) fs.

(** frames through an encoder with a state *)
Fixpoint encoded {S} (enc : S -> list Z -> S * list Z) (st : S) (fs : list (list Z)) : list Z :=
  match fs with [] => [] | f :: fs => snd (enc st f) ++ encoded enc (fst (enc st f)) fs end.

(** an encoder with frames of constant size *)
Definition size {S} (enc : S -> list Z -> S * list Z) (n : nat) : Prop := forall st f, length (snd (enc st f)) = n.
