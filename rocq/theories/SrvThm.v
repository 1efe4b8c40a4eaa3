From Verif Require Import Base RtpModel RtpSpec SrvModel SrvSpec SrvProof.

(** Whatever memory and file errors happen and whenever the player is asked, its packets have
    consecutive sequence numbers, timestamps that advance by exactly the media time of a packet,
    the marker on the first one only, one SSRC, and a full payload; and none leaves before the
    start time plus the media time of the packets before it. *)
Theorem packets_numbered_and_paced : forall file codec b ms loop ptime r1 r2 r3 st cs j t d,
  In (codec, (b, ms)) codecs ->
  let k := frames (used_ptime ptime) ms in
  let s := player codec loop ptime r1 r2 r3 st in
  nth_error (sent cs (snd (run file s cs))) j = Some (t, d) ->
  st + Z.of_nat j * (ms * k) * 1000 <= t /\
  exists payload, Z.of_nat (length payload) = b * k /\
    d = encode (mkRtp (if (j =? 0)%nat then 1 else 0) codec ((r2 + Z.of_nat j) mod 65536)
                 ((r1 + Z.of_nat j * (8 * ms * k)) mod 4294967296) (r3 mod 4294967296) [] None payload []).
Proof. exact headers_lemma. Qed.
Print Assumptions packets_numbered_and_paced.

Definition tune : list Z := map Z.of_nat (seq 0 45).
(** GSM would need 33 bytes; G.729, 20 ms: 20 bytes a packet, two packets and a rest of 5 bytes *)
Example numbered_example :
  sent [(5, io_ok); (1000000, io_ok); (1019999, io_ok); (1020000, {| io_alloc := false; io_read1 := true; io_seek := true; io_read2 := true |}); (1050000, io_ok)]
    (snd (run tune (player 18 1 20 100 65535 7 1000000)
      [(5, io_ok); (1000000, io_ok); (1019999, io_ok); (1020000, {| io_alloc := false; io_read1 := true; io_seek := true; io_read2 := true |}); (1050000, io_ok)]))
  = [(1000000, encode (mkRtp 1 18 65535 100 7 [] None (map Z.of_nat (seq 0 20)) []));
     (1050000, encode (mkRtp 0 18 0 260 7 [] None (map Z.of_nat (seq 20 20)) []))].
Proof. vm_compute. reflexivity. Qed.

(** While nothing fails the answer to every call is known: nothing before the packet is due; then
    the next piece of the file, which is played over and over, [loop] times or forever when [loop]
    is negative; then the end. *)
Theorem plays_exactly : forall file codec b ms loop ptime r1 r2 r3 st cs,
  In (codec, (b, ms)) codecs -> good_ptime ptime -> loop <> 0 -> healthy cs ->
  let k := frames (used_ptime ptime) ms in
  let q := Z.of_nat (length file) / (b * k) in
  let '(s, gs) := run file (player codec loop ptime r1 r2 r3 st) cs in
  let n := Z.of_nat (length (sent cs gs)) in
  ~ In GEof gs -> forall t,
  snd (get file s t io_ok) =
    if t <? st + n * (ms * k) * 1000 then GLater
    else if (q =? 0) || ((0 <? loop) && (n =? loop * q)) then GEof
    else GPkt (encode (mkRtp (if n =? 0 then 1 else 0) codec ((r2 + n) mod 65536)
                 ((r1 + n * (8 * ms * k)) mod 4294967296) (r3 mod 4294967296) []
                 None (piece file (b * k) (n mod q)) [])).
Proof. exact exact_lemma. Qed.
Print Assumptions plays_exactly.

Example plays_twice :
  snd (run tune (player 18 2 20 100 5 7 0) (map (fun t => (20000 * Z.of_nat t, io_ok)) (seq 0 6)))
  = [GPkt (encode (mkRtp 1 18 5 100 7 [] None (map Z.of_nat (seq 0 20)) []));
     GPkt (encode (mkRtp 0 18 6 260 7 [] None (map Z.of_nat (seq 20 20)) []));
     GPkt (encode (mkRtp 0 18 7 420 7 [] None (map Z.of_nat (seq 0 20)) []));
     GPkt (encode (mkRtp 0 18 8 580 7 [] None (map Z.of_nat (seq 20 20)) []));
     GEof; GEof].
Proof. vm_compute. reflexivity. Qed.

(** A turn of the player thread at time [t] ends, and has then sent everything that was due. *)
Theorem turn_catches_up : forall file codec b ms loop ptime r1 r2 r3 st cs t,
  In (codec, (b, ms)) codecs -> good_ptime ptime -> loop <> 0 -> healthy cs ->
  let k := frames (used_ptime ptime) ms in
  let '(s, gs) := run file (player codec loop ptime r1 r2 r3 st) cs in
  let n := Z.of_nat (length (sent cs gs)) in
  ~ In GEof gs ->
  exists fuel s' ds e, drain fuel file s t = (s', ds, Some e) /\
    (forall more, drain (fuel + more) file s t = (s', ds, Some e)) /\
    (e = GEof \/ e = GLater /\ t < st + (n + Z.of_nat (length ds)) * (ms * k) * 1000).
Proof. exact turn_lemma. Qed.
Print Assumptions turn_catches_up.

(** ... by a series of the calls the theorems above speak of. *)
Theorem turn_is_calls : forall file fuel s t s' ds e, drain fuel file s t = (s', ds, e) ->
  exists m, run file s (repeat (t, io_ok) m) =
    (s', map GPkt ds ++ match e with Some g => [g] | None => [] end) /\
    match e with Some (GPkt _) => False | _ => True end.
Proof. exact drain_run. Qed.
Print Assumptions turn_is_calls.

Example turn_example : match drain 10 tune (player 18 (-1) 20 100 5 7 0) 50000 with
                       | (_, ds, e) => length ds = 3%nat /\ e = Some GLater end.
Proof. vm_compute. auto. Qed.

(** For every packet time a command can ask for, and any codec number, the packet buffer is never
    overrun. *)
Theorem packet_buffer_never_overrun : forall file codec loop ptime r1 r2 r3 st cs,
  good_ptime ptime -> ~ In GOverrun (snd (run file (player codec loop ptime r1 r2 r3 st) cs)).
Proof. exact fits_lemma. Qed.
Print Assumptions packet_buffer_never_overrun.

(** The limit on the packet time is needed. *)
Example overrun_without_limit :
  snd (run (repeat 0 (Z.to_nat 9000)) (player 0 1 1023 1 1 1 0) [(0, io_ok)]) = [GOverrun].
Proof. vm_compute. reflexivity. Qed.

(** Not every playback ends: a file of a codec the player does not know (the open file is all that
    is checked when it is made) is neither played nor given up, however long it runs. *)
Theorem playback_ends_refuted : forall file codec loop ptime r1 r2 r3 st cs,
  (forall b ms, ~ In (codec mod 128, (b, ms)) codecs) ->
  Forall (fun g => g = GLater \/ g = GError) (snd (run file (player codec loop ptime r1 r2 r3 st) cs)).
Proof. exact unknown_lemma. Qed.
Print Assumptions playback_ends_refuted.

Example unknown_codec_example :
  snd (run tune (player 97 1 20 1 1 1 0) [(0, io_ok); (1000000, io_ok)]) = [GError; GError].
Proof. vm_compute. reflexivity. Qed.
