(** Model of what extractaudio makes of the streams it has read: extractaudio/decoder.c:52-300, eaud_substreams.c:34-74,
    extractaudio.c:139-177 (channel_insert, channel_remove), 411-575 (main behind the options), src/g711.h:34-116.
    Simplified: no memory shortage; times are whole microseconds and what is computed of them is exact (the program has
    doubles: seconds); a payload has less than 2^31 bytes; the codecs of the libraries (G.722, G.729, GSM) are given
    functions on a given state, [codec]; the number of samples is not bounded. *)
From Verif Require Import Base.

(** _u2sl and _A2sl, g711.h:34-102. *)
Definition u2sl : list Z :=
  [(-32124); (-31100); (-30076); (-29052); (-28028); (-27004); (-25980); (-24956); (-23932); (-22908); (-21884); (-20860); (-19836); (-18812); (-17788); (-16764);
  (-15996); (-15484); (-14972); (-14460); (-13948); (-13436); (-12924); (-12412); (-11900); (-11388); (-10876); (-10364); (-9852); (-9340); (-8828); (-8316);
  (-7932); (-7676); (-7420); (-7164); (-6908); (-6652); (-6396); (-6140); (-5884); (-5628); (-5372); (-5116); (-4860); (-4604); (-4348); (-4092);
  (-3900); (-3772); (-3644); (-3516); (-3388); (-3260); (-3132); (-3004); (-2876); (-2748); (-2620); (-2492); (-2364); (-2236); (-2108); (-1980);
  (-1884); (-1820); (-1756); (-1692); (-1628); (-1564); (-1500); (-1436); (-1372); (-1308); (-1244); (-1180); (-1116); (-1052); (-988); (-924);
  (-876); (-844); (-812); (-780); (-748); (-716); (-684); (-652); (-620); (-588); (-556); (-524); (-492); (-460); (-428); (-396);
  (-372); (-356); (-340); (-324); (-308); (-292); (-276); (-260); (-244); (-228); (-212); (-196); (-180); (-164); (-148); (-132);
  (-120); (-112); (-104); (-96); (-88); (-80); (-72); (-64); (-56); (-48); (-40); (-32); (-24); (-16); (-8); (-2);
  32124; 31100; 30076; 29052; 28028; 27004; 25980; 24956; 23932; 22908; 21884; 20860; 19836; 18812; 17788; 16764;
  15996; 15484; 14972; 14460; 13948; 13436; 12924; 12412; 11900; 11388; 10876; 10364; 9852; 9340; 8828; 8316;
  7932; 7676; 7420; 7164; 6908; 6652; 6396; 6140; 5884; 5628; 5372; 5116; 4860; 4604; 4348; 4092;
  3900; 3772; 3644; 3516; 3388; 3260; 3132; 3004; 2876; 2748; 2620; 2492; 2364; 2236; 2108; 1980;
  1884; 1820; 1756; 1692; 1628; 1564; 1500; 1436; 1372; 1308; 1244; 1180; 1116; 1052; 988; 924;
  876; 844; 812; 780; 748; 716; 684; 652; 620; 588; 556; 524; 492; 460; 428; 396;
  372; 356; 340; 324; 308; 292; 276; 260; 244; 228; 212; 196; 180; 164; 148; 132;
  120; 112; 104; 96; 88; 80; 72; 64; 56; 48; 40; 32; 24; 16; 8; 2].
Definition A2sl : list Z :=
  [(-5504); (-5248); (-6016); (-5760); (-4480); (-4224); (-4992); (-4736); (-7552); (-7296); (-8064); (-7808); (-6528); (-6272); (-7040); (-6784);
  (-2752); (-2624); (-3008); (-2880); (-2240); (-2112); (-2496); (-2368); (-3776); (-3648); (-4032); (-3904); (-3264); (-3136); (-3520); (-3392);
  (-22016); (-20992); (-24064); (-23040); (-17920); (-16896); (-19968); (-18944); (-30208); (-29184); (-32256); (-31232); (-26112); (-25088); (-28160); (-27136);
  (-11008); (-10496); (-12032); (-11520); (-8960); (-8448); (-9984); (-9472); (-15104); (-14592); (-16128); (-15616); (-13056); (-12544); (-14080); (-13568);
  (-344); (-328); (-376); (-360); (-280); (-264); (-312); (-296); (-472); (-456); (-504); (-488); (-408); (-392); (-440); (-424);
  (-88); (-72); (-120); (-104); (-24); (-8); (-56); (-40); (-216); (-200); (-248); (-232); (-152); (-136); (-184); (-168);
  (-1376); (-1312); (-1504); (-1440); (-1120); (-1056); (-1248); (-1184); (-1888); (-1824); (-2016); (-1952); (-1632); (-1568); (-1760); (-1696);
  (-688); (-656); (-752); (-720); (-560); (-528); (-624); (-592); (-944); (-912); (-1008); (-976); (-816); (-784); (-880); (-848);
  5504; 5248; 6016; 5760; 4480; 4224; 4992; 4736; 7552; 7296; 8064; 7808; 6528; 6272; 7040; 6784;
  2752; 2624; 3008; 2880; 2240; 2112; 2496; 2368; 3776; 3648; 4032; 3904; 3264; 3136; 3520; 3392;
  22016; 20992; 24064; 23040; 17920; 16896; 19968; 18944; 30208; 29184; 32256; 31232; 26112; 25088; 28160; 27136;
  11008; 10496; 12032; 11520; 8960; 8448; 9984; 9472; 15104; 14592; 16128; 15616; 13056; 12544; 14080; 13568;
  344; 328; 376; 360; 280; 264; 312; 296; 472; 456; 504; 488; 408; 392; 440; 424;
  88; 72; 120; 104; 24; 8; 56; 40; 216; 200; 248; 232; 152; 136; 184; 168;
  1376; 1312; 1504; 1440; 1120; 1056; 1248; 1184; 1888; 1824; 2016; 1952; 1632; 1568; 1760; 1696;
  688; 656; 752; 720; 560; 528; 624; 592; 944; 912; 1008; 976; 816; 784; 880; 848].
(** ULAW2SL and ALAW2SL, g711.h:104-116; an unsigned char is an index. *)
Definition law (table : list Z) (b : Z) : Z := nth (Z.to_nat (b mod 256)) table 0.

(** struct packet, session.h:85-91: time of arrival in microseconds, parsed.ts, rpkt->pt, RPLOAD and RPLEN. *)
Record pkt := mkP { p_time : Z; p_ts : Z; p_pt : Z; p_load : list Z }.

(** What was compiled in: ENABLE_G729 with or without ENABLE_BCG729, ENABLE_G722, ENABLE_GSM. *)
Inductive g729 := NoG729 | Bcg729 | Other729.
Record cfg := mkCfg { f_729 : g729; f_722 : bool; f_gsm : bool }.

(** [Oob]: something outside a buffer is read or written; [Abort]: a failed assertion; [BadConv]: a double that is not in
    the range of unsigned int is converted to it (undefined); [Freed]: freed memory is read. *)
Inductive res (A : Type) := Ok (a : A) | Oob | Abort | BadConv | Freed.
Arguments Ok {A} a. Arguments Oob {A}. Arguments Abort {A}. Arguments BadConv {A}. Arguments Freed {A}.
Definition bind {A C} (r : res A) (k : A -> res C) : res C :=
  match r with Ok a => k a | Oob => Oob | Abort => Abort | BadConv => BadConv | Freed => Freed end.

(** A double [num]/[den] to unsigned int. *)
Definition to_uint (num den : Z) : res Z :=
  if (- den <? num) && (Z.quot num den <? 4294967296) then Ok (Z.quot num den) else BadConv.

(** Samples put into an int16_t[4096] from an index on (decoder.h:61). *)
Definition OBUF : Z := 4 * 1024.
Definition write (buf : list Z) (i : Z) (l : list Z) : res (list Z) :=
  if OBUF <? i + Z.of_nat (length l) then Oob
  else Ok (firstn (Z.to_nat i) buf ++ l ++ skipn (Z.to_nat i + length l) buf).

Section Codecs.
  Context {X : Type} (g729_decode g722_decode gsm_decode : X -> list Z -> X * list Z) (c : cfg).

  (** struct decoder_stream, decoder.h:55-77. *)
  Record dec := mkD { d_pp : list pkt; d_nticks : Z; d_sticks : Z; d_lpt : Z; d_obuf : list Z; d_obp : Z; d_oblen : Z;
                      d_x : X; d_stime : Z; d_dticks : Z; d_nosync : bool }.
  Definition with_pp d pp := mkD pp (d_nticks d) (d_sticks d) (d_lpt d) (d_obuf d) (d_obp d) (d_oblen d) (d_x d) (d_stime d) (d_dticks d) (d_nosync d).
  Definition with_lpt d v := mkD (d_pp d) (d_nticks d) (d_sticks d) v (d_obuf d) (d_obp d) (d_oblen d) (d_x d) (d_stime d) (d_dticks d) (d_nosync d).
  Definition with_ticks d n s := mkD (d_pp d) n s (d_lpt d) (d_obuf d) (d_obp d) (d_oblen d) (d_x d) (d_stime d) (d_dticks d) (d_nosync d).
  Definition with_buf d x b := mkD (d_pp d) (d_nticks d) (d_sticks d) (d_lpt d) b (d_obp d) (d_oblen d) x (d_stime d) (d_dticks d) (d_nosync d).
  (** nticks and dticks *)
  Definition forward d n m := mkD (d_pp d) (u32 (d_nticks d + n)) (d_sticks d) (d_lpt d) (d_obuf d) (d_obp d) (d_oblen d) (d_x d) (d_stime d) (d_dticks d + m) (d_nosync d).
  (** oblen = n; obp = obuf *)
  Definition filled d n := mkD (d_pp d) (d_nticks d) (d_sticks d) (d_lpt d) (d_obuf d) 0 n (d_x d) (d_stime d) (d_dticks d) (d_nosync d).

  (** decoder_new, decoder.c:53-80. *)
  Definition decoder_new (x : X) (nosync : bool) (s : list pkt) : dec :=
    let zero := repeat 0 (Z.to_nat OBUF) in
    match s with
    | [] => mkD [] 0 0 0 zero 0 0 x 0 0 false
    | p :: _ => mkD s (p_ts p) (p_ts p) 0 zero 0 0 x (p_time p) 0 nosync
    end.

  (** decoder.c:194-202: [n] more frames fit in; a frame of more than 10 bytes is asserted away (g729_compat.c:15). *)
  Fixpoint g729_frames (n : nat) (fsize : nat) (x : X) (l : list Z) : res (X * list Z) :=
    match n, l with
    | O, _ | _, [] => Ok (x, [])
    | S n, _ =>
        if match f_729 c with Bcg729 => (10 <? fsize)%nat | _ => false end then Abort else
        let (x, o) := g729_decode x (firstn fsize l) in
        bind (g729_frames n fsize x (skipn fsize l)) (fun '(x, r) => Ok (x, o ++ r))
    end.
  (** decoder.c:234-241: ibytes is unsigned; a last frame of less than 33 bytes is read behind the payload. *)
  Fixpoint gsm_frames (n : nat) (x : X) (l : list Z) : res (X * list Z) :=
    match n, l with
    | O, _ | _, [] => Ok (x, [])
    | S n, _ =>
        if (length l <? 33)%nat then Oob else
        let (x, o) := gsm_decode x (firstn 33 l) in
        bind (gsm_frames n x (skipn 33 l)) (fun '(x, r) => Ok (x, o ++ r))
    end.

  (** decode_frame, decoder.c:149-253; with the value it returns. *)
  Definition decode_frame (d : dec) (p : pkt) : res (dec * Z) :=
    let ibytes := Z.of_nat (length (p_load p)) in
    (* if (obytes_max < (ibytes * 2)) ibytes = obytes_max / 2 *)
    let n := if OBUF * 2 <? ibytes * 2 then OBUF * 2 / 2 else ibytes in
    let ibuf := firstn (Z.to_nat n) (p_load p) in
    let put x l := bind (write (d_obuf d) 0 l) (fun b => Ok (forward (with_buf d x b) (Z.of_nat (length l)) (Z.of_nat (length l)), 2 * Z.of_nat (length l))) in
    let pt := p_pt p in
    if pt =? 0 then put (d_x d) (map (law u2sl) ibuf)
    else if pt =? 8 then put (d_x d) (map (law A2sl) ibuf)
    else if pt =? 18 then
      match f_729 c with
      | NoG729 => Ok (d, -1)
      | _ =>
          let run fsize := bind (g729_frames 51 fsize (d_x d) (p_load p)) (fun '(x, l) => put x l) in
          if ibytes mod 10 =? 0 then run 10%nat
          else if ibytes mod 8 =? 0 then run 8%nat
          else if ibytes mod 15 =? 0 then run 15%nat
          else if ibytes mod 2 =? 0 then run 2%nat
          else Ok (d, -1)
      end
    else if pt =? 9 then
      if f_722 c then let (x, l) := g722_decode (d_x d) ibuf in put x l else Ok (d, -1)
    else if pt =? 3 then
      if f_gsm c then
        if ibytes <? 33 then Ok (d, -1)
        else bind (gsm_frames 25 (d_x d) (p_load p)) (fun '(x, l) => put x l)
      else Ok (d, -1)
    else if (pt =? 13) || (pt =? 100) || (pt =? 101) then Ok (d, 0)
    else Ok (d, -1).

  (** decoder.c:279-284: obuf is advanced by 160 samples for each 80. *)
  Fixpoint g729_silence (n : nat) (i : Z) (x : X) (buf : list Z) : res (X * list Z) :=
    match n with
    | O => Ok (x, buf)
    | S n => let (x, o) := g729_decode x [] in bind (write buf i o) (fun b => g729_silence n (i + 160) x b)
    end.
  (** generate_silence, decoder.c:256-300. *)
  Definition generate_silence (d : dec) (t : Z) : res (dec * Z) :=
    let zeros i n b := write b i (repeat 0 (Z.to_nat n)) in
    let flat := bind (zeros 0 t (d_obuf d)) (fun b => Ok (with_buf d (d_x d) b, t * 2)) in
    let l := d_lpt d in
    if (l =? 0) || (l =? 8) || (l =? 4) || (l =? 9) || (l =? 3) then flat
    else if l =? 18 then
      match f_729 c with
      | NoG729 => Ok (d, -1)
      | Bcg729 => flat
      | Other729 =>
          bind (g729_silence (Z.to_nat (t / 80)) 0 (d_x d) (d_obuf d)) (fun '(x, b) =>
          bind (if 0 <? t mod 80 then zeros (160 * (t / 80)) (t mod 80) b else Ok b) (fun b =>
          Ok (with_buf d x b, 160 * (t / 80) + t mod 80 * 2)))
      end
    else Ok (d, -1).

  (** What decoder_get returns: a sample, DECODER_EOF, DECODER_ERROR or DECODER_SKIP. [Full]: there is something in obuf. *)
  Inductive got := Sample (v : Z) | Eof | Err | Skip.
  Inductive state := Full | Other (g : got).

  (** decoder_get with oblen == 0, decoder.c:89-141, with the call of itself in line 138; [pp] is dp->pp. *)
  Fixpoint fill (d : dec) (pp : list pkt) : res (dec * state) :=
    match pp with
    | [] => Ok (d, Other Eof)
    | p :: rest =>
        let cticks := p_ts p in let since := p_time p - d_stime d in
        let silence d t n :=
          if d_nosync d then Ok (forward d n t, Other Skip)
          else bind (generate_silence d t) (fun '(d, j) =>
               if j <=? 0 then Ok (d, Other Err) else Ok (filled (forward d n t) (j / 2), Full)) in
        bind (if since + 1000000 <? u32 (cticks - d_sticks d) / 8000 * 1000000
              then bind (to_uint (125 * cticks - since) 125) (fun s => Ok (with_ticks d cticks s)) else Ok d) (fun d =>
        if d_nticks d <? cticks then let t := Z.min 4000 (cticks - d_nticks d) in silence d t t
        else if 200000 <? since - 125 * d_dticks d then
          bind (to_uint (since - 125 * d_dticks d) 250) (fun t => silence d (Z.min 4000 t) 0)
        else
          bind (decode_frame d p) (fun '(d, j) =>
          let d := with_pp (if 0 <? j then with_lpt d (p_pt p) else d) rest in
          if j <=? 0 then fill d rest else Ok (filled d (j / 2), Full)))
    end.
  (** decoder_get, decoder.c:83-146. *)
  Definition decoder_get (d : dec) : res (dec * got) :=
    let pop d := match nth_error (d_obuf d) (Z.to_nat (d_obp d)) with
      | None => Oob
      | Some v => Ok (mkD (d_pp d) (d_nticks d) (d_sticks d) (d_lpt d) (d_obuf d) (d_obp d + 1) (d_oblen d - 1) (d_x d) (d_stime d) (d_dticks d) (d_nosync d), Sample v)
      end in
    if d_oblen d =? 0 then bind (fill d (d_pp d)) (fun '(d, s) => match s with Full => pop d | Other g => Ok (d, g) end)
    else pop d.
  (** extractaudio.c:492-494; [None]: more than [n] calls. *)
  Fixpoint get_skip (n : nat) (d : dec) : res (dec * option got) :=
    match n with
    | O => Ok (d, None)
    | S n => bind (decoder_get d) (fun '(d, g) => match g with Skip => get_skip n d | g => Ok (d, Some g) end)
    end.

  (** ** Mixing *)

  (** struct channel, session.h:99-107; [c_a]: the origin is A_CH. *)
  Record chan := mkC { c_skip : Z; c_a : bool; c_btime : Z; c_dec : dec }.
  Definition with_dec (ch : chan) (d : dec) : chan := mkC (c_skip ch) (c_a ch) (c_btime ch) d.

  (** The variables of main, extractaudio.c:238-259, and the two lists of channels (numbers of them); [s_out] are the
      shorts given to sf_write_short so far. *)
  Record st := mkS { s_obj : list chan; s_all : list nat; s_act : list nat; s_i : Z; s_sync : Z; s_nch : Z;
                     s_buf : list Z; s_out : list Z; s_na : Z; s_nb : Z; s_nw : Z }.

  Definition btime_of (obj : list chan) (i : nat) : Z := match nth_error obj i with Some ch => c_btime ch | None => 0 end.
  (** channel_insert, extractaudio.c:151-157, from the last to the first ([r] is reversed). *)
  Fixpoint insert_rev (obj : list chan) (r : list nat) (i : nat) : list nat :=
    match r with
    | [] => [i]
    | j :: rest => if btime_of obj j <? btime_of obj i then i :: j :: rest else j :: insert_rev obj rest i
    end.
  Definition channel_insert (obj : list chan) (l : list nat) (i : nat) : list nat := rev (insert_rev obj (rev l) i).
  (** eaud_ss_find, eaud_substreams.c:35-45. *)
  Definition member (i : nat) (l : list nat) : bool := existsb (Nat.eqb i) l.
  (** MYQ_REMOVE *)
  Definition without (i : nat) (l : list nat) : list nat := filter (fun j => negb (Nat.eqb i j)) l.
  (** eaud_ss_syncactive, eaud_substreams.c:48-74; [m] is min_nsample. *)
  Fixpoint syncactive (obj : list chan) (all act : list nat) (now m : Z) : list nat * Z :=
    match all with
    | [] => (act, m)
    | i :: rest =>
        match nth_error obj i with
        | None => (act, m)   (* not reachable: the lists hold channels *)
        | Some ch =>
            if now <? c_skip ch then syncactive obj rest act now (if m <? 0 then c_skip ch else if c_skip ch <? m then c_skip ch else m)
            else if member i act then syncactive obj rest act now m
            else syncactive obj rest (channel_insert obj act i) now m
        end
    end.

  (** asample, bsample, seen_a, seen_b and neof *)
  Record acc := mkA { a_a : Z; a_b : Z; a_sa : bool; a_sb : bool; a_neof : Z }.
  (** extractaudio.c:515-531 *)
  Definition add (a : acc) (answer : bool) (v : Z) : acc :=
    if answer then mkA (if a_sa a then Z.quot (a_a a + v) 2 else a_a a + v) (a_b a) true (a_sb a) (a_neof a)
    else mkA (a_a a) (if a_sb a then Z.quot (a_b a + v) 2 else a_b a + v) (a_sa a) true (a_neof a).
  (** extractaudio.c:480-532, [ids] are the channels still to be visited: only the one visited is ever taken out of the
      lists. With -n the list is that of all channels, and the node read in line 501 is the one freed in line 500.
      [None]: more than [n] calls of the decoder. *)
  Fixpoint visit (n : nat) (nosync : bool) (ids : list nat) (s : st) (a : acc) : res (option (st * acc)) :=
    match ids with
    | [] => Ok (Some (s, a))
    | i :: rest =>
        match nth_error (s_obj s) i with
        | None => Abort   (* not reachable *)
        | Some ch =>
            if (if nosync then (if c_a ch then a_sa a else a_sb a) else s_i s <? c_skip ch) then visit n nosync rest s a
            else bind (get_skip n (c_dec ch)) (fun '(d, g) =>
              let obj := upd (s_obj s) i (with_dec ch d) in
              let stay na nb := mkS obj (s_all s) (s_act s) (s_i s) (s_sync s) (s_nch s) (s_buf s) (s_out s) (s_na s + na) (s_nb s + nb) (s_nw s) in
              match g with
              | None | Some Skip => Ok None
              | Some Eof =>
                  if negb (member i (s_all s)) then Abort
                  else if nosync then Freed
                  else visit n nosync rest (mkS obj (without i (s_all s)) (without i (s_act s)) (s_i s) (s_sync s) (s_nch s - 1)
                                                (s_buf s) (s_out s) (s_na s) (s_nb s) (s_nw s)) a
              | Some Err => visit n nosync rest (stay 0 0) (mkA (a_a a) (a_b a) (a_sa a) (a_sb a) (a_neof a + 1))
              | Some (Sample v) => visit n nosync rest (if c_a ch then stay 1 0 else stay 0 1) (add a (c_a ch) v)
              end)
        end
    end.
  (** One round of the loop, extractaudio.c:469-553; with whether there is another. *)
  Definition round (n : nat) (nosync stereo : bool) (s : st) : res (option (st * bool)) :=
    let i := s_i s + 1 in
    let (act, sync) := if negb nosync && (s_sync s =? i) then syncactive (s_obj s) (s_all s) (s_act s) i (-1) else (s_act s, s_sync s) in
    let s := mkS (s_obj s) (s_all s) act i sync (s_nch s) (s_buf s) (s_out s) (s_na s) (s_nb s) (s_nw s) in
    bind (visit n nosync (if nosync then s_all s else act) s (mkA 0 0 false false 0)) (fun r =>
    match r with
    | None => Ok None
    | Some (s, a) =>
        let on := a_neof a <? s_nch s in
        let buf := s_buf s ++ (if negb on then [] else if stereo then [a_a a; a_b a] else [Z.quot (a_a a + a_b a) 2]) in
        let flush := (a_neof a =? s_nch s) || (Z.of_nat (length buf) =? 1024) in
        Ok (Some (mkS (s_obj s) (s_all s) (s_act s) (s_i s) (s_sync s) (s_nch s) (if flush then [] else buf)
                      (if flush then s_out s ++ buf else s_out s) (s_na s) (s_nb s)
                      (if flush then s_nw s + Z.of_nat (length buf) / 2 else s_nw s), on))
    end).
  Fixpoint rounds (n k : nat) (nosync stereo : bool) (s : st) : res (option st) :=
    match k with
    | O => Ok None
    | S k => bind (round n nosync stereo s) (fun r =>
        match r with None => Ok None | Some (s, true) => rounds n k nosync stereo s | Some (s, false) => Ok (Some s) end)
    end.

  (** extractaudio.c:433-453 and 467: [l] are the streams in the order of the list. *)
  Fixpoint make (x : X) (nosync : bool) (base : Z) (l : list (bool * list pkt)) : res (list chan) :=
    match l with
    | [] => Ok []
    | (_, []) :: _ => Oob   (* the loader makes no empty stream *)
    | (a, p :: r) :: l =>
        bind (to_uint (p_time p - base) 125) (fun skip =>
        bind (make x nosync base l) (fun cs => Ok (mkC skip a (p_time p) (decoder_new x nosync (p :: r)) :: cs)))
    end.
  Definition first_time (s : bool * list pkt) : Z := match snd s with p :: _ => p_time p | [] => 0 end.
  Definition basetime (l : list (bool * list pkt)) : Z :=
    match l with [] => 0 | s :: l => fold_left (fun b s => if first_time s <? b then first_time s else b) l (first_time s) end.
  Definition start (obj : list chan) : st :=
    mkS obj (seq 0 (length obj)) [] (-1) 0 (Z.of_nat (length obj)) [] [] 0 0 0.
  (** extractaudio.c:433-553. *)
  Definition extract (n : nat) (x : X) (nosync stereo : bool) (l : list (bool * list pkt)) : res (option st) :=
    bind (make x nosync (basetime l) l) (fun obj => rounds n n nosync stereo (start obj)).
End Codecs.

(** ** The files *)

(** What main does to files: the output is written, a link to it is made, a recording is removed. *)
Inductive eff := Output (f : list Z) | Link (f g : list Z) | Unlink (f : list Z).
Inductive exit := Exit (code : Z) (e : list eff).
(** extractaudio.c:411-431 and 459-575, [a] and [b]: the names of the recordings and whether load_session took them;
    [empty]: there is no stream in them; [opens]: sf_open works; [outs]: argv behind the options and the rdir. *)
Definition finish (errfail delete : bool) (a b : option (list Z * bool)) (empty opens : bool) (out : list Z) (links : list (list Z)) : exit :=
  let loaded x := match x with Some (_, true) => 1 | _ => 0 end in
  let failed x := match x with Some (_, false) => true | _ => false end in
  if errfail && (failed a || failed b) then Exit 1 []
  else if loaded a + loaded b =? 0 then Exit 1 []
  else
    let name x := match x with Some (f, _) => [Unlink f] | None => [] end in
    let dels := if delete then name a ++ name b else [] in
    if empty then Exit 0 dels
    else if negb opens then Exit 2 []
    else Exit 0 (Output out :: map (Link out) (rev links) ++ dels).
