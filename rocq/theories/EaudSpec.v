(** What is expected of the audio file extractaudio makes: the law of ITU-T G.711, where a packet lies in its stream, and
    how streams are mixed. *)
From Coq Require Import Permutation Sorted.
From Verif Require Import Base EaudModel.

(** ** G.711 *)
(** The expansion of mu-law and A-law to 16 bits. *)
Definition mulaw (b : Z) : Z :=
  let u := 255 - b in let m := (8 * (u mod 16) + 132) * 2 ^ (u / 16 mod 8) in if u <? 128 then m - 132 else 132 - m.
Definition alaw (b : Z) : Z :=
  let a := Z.lxor b 0x55 in let s := a / 16 mod 8 in
  let m := if s =? 0 then 16 * (a mod 16) + 8 else (16 * (a mod 16) + 264) * 2 ^ (s - 1) in if a <? 128 then - m else m.
(** The two zeros of mu-law are played as 2 and -2. *)
Definition mulaw' (b : Z) : Z := if b =? 255 then 2 else if b =? 127 then -2 else mulaw b.

(** ** A stream *)
Definition byte_string (l : list Z) : Prop := Forall (fun b => 0 <= b < 256) l.
Section Codecs.
  Context {X : Type} (g729_decode g722_decode gsm_decode : X -> list Z -> X * list Z) (c : cfg).
  Notation get := (decoder_get g729_decode g722_decode gsm_decode c).

  (** A frame of G.729 has 80 samples, one of GSM 160, and a byte of G.722 one. *)
  Definition codecs_ok : Prop :=
    (forall x b, length (snd (g729_decode x b)) = 80%nat) /\ (forall x b, length (snd (g722_decode x b)) = length b) /\
    (forall x b, length (snd (gsm_decode x b)) = 160%nat).

  (** Asking the decoder again and again gives the samples [l] and then the end; or, at some time, the program fails. *)
  Inductive plays : @dec X -> list Z -> Prop :=
  | plays_end : forall d d', get d = Ok (d', Eof) -> plays d []
  | plays_more : forall d d' v l, get d = Ok (d', Sample v) -> plays d' l -> plays d (v :: l).
  Inductive fails : @dec X -> Prop :=
  | fails_now : forall d, (forall a, get d <> Ok a) -> fails d
  | fails_later : forall d d' v, get d = Ok (d', Sample v) -> fails d' -> fails d.

  (** A packet no reader could object to: complete frames, and a time and a timestamp of a call of some days. *)
  Definition sane (t0 : Z) (p : pkt) : Prop :=
    let n := Z.of_nat (length (p_load p)) in
    0 <= p_ts p < 2 ^ 32 /\ 0 <= p_time p - t0 <= 10 ^ 12 /\ p_time p - t0 <= 125 * p_ts p /\
    (p_pt p = 3 -> n < 33 \/ n mod 33 = 0) /\ (p_pt p = 18 -> n mod 15 = 0 -> n mod 10 = 0 \/ n mod 8 = 0).

  Fixpoint decode_all (f : X -> list Z -> X * list Z) (x : X) (fs : list (list Z)) : X * list Z :=
    match fs with [] => (x, []) | b :: r => let (x, o) := f x b in let (x, t) := decode_all f x r in (x, o ++ t) end.
  (** What a packet says: [speech x p y o] with the codec in the state [x] before and [y] after it. *)
  Definition plays_type (pt : Z) : Prop :=
    pt = 0 \/ pt = 8 \/ (pt = 9 /\ f_722 c = true) \/ (pt = 18 /\ f_729 c <> NoG729) \/ (pt = 3 /\ f_gsm c = true).
  Inductive speech (x : X) (p : pkt) : X -> list Z -> Prop :=
  | says_ulaw : p_pt p = 0 -> (Z.of_nat (length (p_load p)) <= 4096) -> speech x p x (map mulaw' (p_load p))
  | says_alaw : p_pt p = 8 -> (Z.of_nat (length (p_load p)) <= 4096) -> speech x p x (map alaw (p_load p))
  | says_g722 : p_pt p = 9 -> f_722 c = true -> (Z.of_nat (length (p_load p)) <= 4096) ->
      speech x p (fst (g722_decode x (p_load p))) (snd (g722_decode x (p_load p)))
  | says_g729 : forall fs, p_pt p = 18 -> f_729 c <> NoG729 -> p_load p = concat fs -> Forall (fun b => length b = 10%nat) fs ->
      (length fs <= 51)%nat -> speech x p (fst (decode_all g729_decode x fs)) (snd (decode_all g729_decode x fs))
  | says_gsm : forall fs, p_pt p = 3 -> f_gsm c = true -> p_load p = concat fs -> Forall (fun b => length b = 33%nat) fs ->
      (0 < length fs <= 25)%nat -> speech x p (fst (decode_all gsm_decode x fs)) (snd (decode_all gsm_decode x fs))
  | says_nothing : ~ plays_type (p_pt p) -> speech x p x [].

  (** A stream whose packets came in time: [laid x at l s]. The sound [s] begins at the timestamp [at], and each packet lies
      at its timestamp, with silence before it. The first packet of the stream had the timestamp [base] and came at [t0].
      A packet is in time if its timestamp is not a second before, and its arrival not 0.2 seconds behind the other. *)
  Inductive laid (base t0 : Z) : X -> Z -> list pkt -> list Z -> Prop :=
  | laid_nil : forall x at_, laid base t0 x at_ [] []
  | laid_cons : forall x at_ p y o l s,
      at_ <= p_ts p -> p_ts p + Z.of_nat (length o) < 2 ^ 32 -> byte_string (p_load p) ->
      (p_ts p - base) / 8000 * 1000000 <= p_time p - t0 + 1000000 ->
      p_time p - t0 <= 125 * (p_ts p - base) + 200000 ->
      speech x p y o -> laid base t0 y (p_ts p + Z.of_nat (length o)) l s ->
      laid base t0 x at_ (p :: l) (repeat 0 (Z.to_nat (p_ts p - at_)) ++ o ++ s).
End Codecs.

(** ** Mixing *)
(** A stream in the output: the sample it begins at, whether it is the side that answered, the time of its first packet,
    and its samples. *)
Record voice := mkV { v_at : Z; v_a : bool; v_first : Z; v_sound : list Z }.
Definition v_end (v : voice) : Z := v_at v + Z.of_nat (length (v_sound v)).
Definition sounding (k : Z) (v : voice) : bool := (v_at v <=? k) && (k <? v_end v).
Definition sample (k : Z) (v : voice) : Z := nth (Z.to_nat (k - v_at v)) (v_sound v) 0.
(** Each is added to those before it and the sum is halved. *)
Definition blend (l : list Z) : Z := match l with [] => 0 | v :: r => fold_left (fun m v => Z.quot (m + v) 2) r v end.
Definition side (a : bool) (k : Z) (l : list voice) : Z := blend (map (sample k) (filter (fun v => Bool.eqb (v_a v) a) l)).
(** Sample [k] of the file: the streams that sound, from the one that began first. *)
Definition mixed (stereo : bool) (vs : list voice) (k : Z) (f : list Z) : Prop :=
  exists l, Permutation l (filter (sounding k) vs) /\ StronglySorted (fun v w => v_first v <= v_first w) l /\
    f = if stereo then [side true k l; side false k l] else [Z.quot (side true k l + side false k l) 2].
(** The file has a frame for each sample from the first of any stream to the last of any stream. *)
Definition mixdown (stereo : bool) (vs : list voice) (out : list Z) : Prop :=
  exists fs, out = concat fs /\ Z.of_nat (length fs) = fold_right (fun v m => Z.max (v_end v) m) 0 vs /\
    forall k, (k < length fs)%nat -> mixed stereo vs (Z.of_nat k) (nth k fs []).
(** A stream begins as many samples (8000 in a second) behind the first as its first packet came behind it. *)
Definition voice_of (base : Z) (s : bool * list pkt) (sound : list Z) : voice :=
  let t := match snd s with p :: _ => p_time p | [] => 0 end in mkV ((t - base) / 125) (fst s) t sound.
Definition total (a : bool) (vs : list voice) : Z :=
  fold_right (fun v n => (if Bool.eqb (v_a v) a then Z.of_nat (length (v_sound v)) else 0) + n) 0 vs.
