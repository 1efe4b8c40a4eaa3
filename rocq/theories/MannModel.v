(** Model of makeann, which encodes a file of samples for every codec compiled in, and of the G.711 tables it uses.
    Code: makeann/makeann.c, src/g711.h. *)
From Verif Require Import Base EaudModel.

(** ** The tables from samples to G.711 *)

(** _sl2u[0x4000] (g711.h:118-1485) and _sl2A[0x2000] (g711.h:1487-2221).  Simplification: a table is given by its
    runs, i.e. the indices at which the value changes, with the new value; generated from the source. *)
Definition sl2u_runs : list (Z * Z) := [
  (0, 0); (290, 1); (546, 2); (802, 3); (1058, 4); (1314, 5); (1570, 6); (1826, 7); (2082, 8); (2338, 9); (2594, 10);
  (2850, 11); (3106, 12); (3362, 13); (3618, 14); (3874, 15); (4130, 16); (4258, 17); (4386, 18); (4514, 19);
  (4642, 20); (4770, 21); (4898, 22); (5026, 23); (5154, 24); (5282, 25); (5410, 26); (5538, 27); (5666, 28);
  (5794, 29); (5922, 30); (6050, 31); (6178, 32); (6242, 33); (6306, 34); (6370, 35); (6434, 36); (6498, 37);
  (6562, 38); (6626, 39); (6690, 40); (6754, 41); (6818, 42); (6882, 43); (6946, 44); (7010, 45); (7074, 46);
  (7138, 47); (7202, 48); (7234, 49); (7266, 50); (7298, 51); (7330, 52); (7362, 53); (7394, 54); (7426, 55);
  (7458, 56); (7490, 57); (7522, 58); (7554, 59); (7586, 60); (7618, 61); (7650, 62); (7682, 63); (7714, 64);
  (7730, 65); (7746, 66); (7762, 67); (7778, 68); (7794, 69); (7810, 70); (7826, 71); (7842, 72); (7858, 73);
  (7874, 74); (7890, 75); (7906, 76); (7922, 77); (7938, 78); (7954, 79); (7970, 80); (7978, 81); (7986, 82);
  (7994, 83); (8002, 84); (8010, 85); (8018, 86); (8026, 87); (8034, 88); (8042, 89); (8050, 90); (8058, 91);
  (8066, 92); (8074, 93); (8082, 94); (8090, 95); (8098, 96); (8102, 97); (8106, 98); (8110, 99); (8114, 100);
  (8118, 101); (8122, 102); (8126, 103); (8130, 104); (8134, 105); (8138, 106); (8142, 107); (8146, 108);
  (8150, 109); (8154, 110); (8158, 111); (8162, 112); (8164, 113); (8166, 114); (8168, 115); (8170, 116);
  (8172, 117); (8174, 118); (8176, 119); (8178, 120); (8180, 121); (8182, 122); (8184, 123); (8186, 124);
  (8188, 125); (8190, 126); (8192, 255); (8193, 254); (8195, 253); (8197, 252); (8199, 251); (8201, 250);
  (8203, 249); (8205, 248); (8207, 247); (8209, 246); (8211, 245); (8213, 244); (8215, 243); (8217, 242);
  (8219, 241); (8221, 240); (8223, 239); (8227, 238); (8231, 237); (8235, 236); (8239, 235); (8243, 234);
  (8247, 233); (8251, 232); (8255, 231); (8259, 230); (8263, 229); (8267, 228); (8271, 227); (8275, 226);
  (8279, 225); (8283, 224); (8287, 223); (8295, 222); (8303, 221); (8311, 220); (8319, 219); (8327, 218);
  (8335, 217); (8343, 216); (8351, 215); (8359, 214); (8367, 213); (8375, 212); (8383, 211); (8391, 210);
  (8399, 209); (8407, 208); (8415, 207); (8431, 206); (8447, 205); (8463, 204); (8479, 203); (8495, 202);
  (8511, 201); (8527, 200); (8543, 199); (8559, 198); (8575, 197); (8591, 196); (8607, 195); (8623, 194);
  (8639, 193); (8655, 192); (8671, 191); (8703, 190); (8735, 189); (8767, 188); (8799, 187); (8831, 186);
  (8863, 185); (8895, 184); (8927, 183); (8959, 182); (8991, 181); (9023, 180); (9055, 179); (9087, 178);
  (9119, 177); (9151, 176); (9183, 175); (9247, 174); (9311, 173); (9375, 172); (9439, 171); (9503, 170);
  (9567, 169); (9631, 168); (9695, 167); (9759, 166); (9823, 165); (9887, 164); (9951, 163); (10015, 162);
  (10079, 161); (10143, 160); (10207, 159); (10335, 158); (10463, 157); (10591, 156); (10719, 155); (10847, 154);
  (10975, 153); (11103, 152); (11231, 151); (11359, 150); (11487, 149); (11615, 148); (11743, 147); (11871, 146);
  (11999, 145); (12127, 144); (12255, 143); (12511, 142); (12767, 141); (13023, 140); (13279, 139); (13535, 138);
  (13791, 137); (14047, 136); (14303, 135); (14559, 134); (14815, 133); (15071, 132); (15327, 131); (15583, 130);
  (15839, 129); (16095, 128)].
Definition sl2A_runs : list (Z * Z) := [
  (0, 42); (128, 43); (256, 40); (384, 41); (512, 46); (640, 47); (768, 44); (896, 45); (1024, 34); (1152, 35);
  (1280, 32); (1408, 33); (1536, 38); (1664, 39); (1792, 36); (1920, 37); (2048, 58); (2112, 59); (2176, 56);
  (2240, 57); (2304, 62); (2368, 63); (2432, 60); (2496, 61); (2560, 50); (2624, 51); (2688, 48); (2752, 49);
  (2816, 54); (2880, 55); (2944, 52); (3008, 53); (3072, 10); (3104, 11); (3136, 8); (3168, 9); (3200, 14);
  (3232, 15); (3264, 12); (3296, 13); (3328, 2); (3360, 3); (3392, 0); (3424, 1); (3456, 6); (3488, 7); (3520, 4);
  (3552, 5); (3584, 26); (3600, 27); (3616, 24); (3632, 25); (3648, 30); (3664, 31); (3680, 28); (3696, 29);
  (3712, 18); (3728, 19); (3744, 16); (3760, 17); (3776, 22); (3792, 23); (3808, 20); (3824, 21); (3840, 106);
  (3848, 107); (3856, 104); (3864, 105); (3872, 110); (3880, 111); (3888, 108); (3896, 109); (3904, 98); (3912, 99);
  (3920, 96); (3928, 97); (3936, 102); (3944, 103); (3952, 100); (3960, 101); (3968, 122); (3972, 123); (3976, 120);
  (3980, 121); (3984, 126); (3988, 127); (3992, 124); (3996, 125); (4000, 114); (4004, 115); (4008, 112);
  (4012, 113); (4016, 118); (4020, 119); (4024, 116); (4028, 117); (4032, 74); (4034, 75); (4036, 72); (4038, 73);
  (4040, 78); (4042, 79); (4044, 76); (4046, 77); (4048, 66); (4050, 67); (4052, 64); (4054, 65); (4056, 70);
  (4058, 71); (4060, 68); (4062, 69); (4064, 90); (4066, 91); (4068, 88); (4070, 89); (4072, 94); (4074, 95);
  (4076, 92); (4078, 93); (4080, 82); (4082, 83); (4084, 80); (4086, 81); (4088, 86); (4090, 87); (4092, 84);
  (4094, 85); (4096, 213); (4098, 212); (4100, 215); (4102, 214); (4104, 209); (4106, 208); (4108, 211); (4110, 210);
  (4112, 221); (4114, 220); (4116, 223); (4118, 222); (4120, 217); (4122, 216); (4124, 219); (4126, 218);
  (4128, 197); (4130, 196); (4132, 199); (4134, 198); (4136, 193); (4138, 192); (4140, 195); (4142, 194);
  (4144, 205); (4146, 204); (4148, 207); (4150, 206); (4152, 201); (4154, 200); (4156, 203); (4158, 202);
  (4160, 245); (4164, 244); (4168, 247); (4172, 246); (4176, 241); (4180, 240); (4184, 243); (4188, 242);
  (4192, 253); (4196, 252); (4200, 255); (4204, 254); (4208, 249); (4212, 248); (4216, 251); (4220, 250);
  (4224, 229); (4232, 228); (4240, 231); (4248, 230); (4256, 225); (4264, 224); (4272, 227); (4280, 226);
  (4288, 237); (4296, 236); (4304, 239); (4312, 238); (4320, 233); (4328, 232); (4336, 235); (4344, 234);
  (4352, 149); (4368, 148); (4384, 151); (4400, 150); (4416, 145); (4432, 144); (4448, 147); (4464, 146);
  (4480, 157); (4496, 156); (4512, 159); (4528, 158); (4544, 153); (4560, 152); (4576, 155); (4592, 154);
  (4608, 133); (4640, 132); (4672, 135); (4704, 134); (4736, 129); (4768, 128); (4800, 131); (4832, 130);
  (4864, 141); (4896, 140); (4928, 143); (4960, 142); (4992, 137); (5024, 136); (5056, 139); (5088, 138);
  (5120, 181); (5184, 180); (5248, 183); (5312, 182); (5376, 177); (5440, 176); (5504, 179); (5568, 178);
  (5632, 189); (5696, 188); (5760, 191); (5824, 190); (5888, 185); (5952, 184); (6016, 187); (6080, 186);
  (6144, 165); (6272, 164); (6400, 167); (6528, 166); (6656, 161); (6784, 160); (6912, 163); (7040, 162);
  (7168, 173); (7296, 172); (7424, 175); (7552, 174); (7680, 169); (7808, 168); (7936, 171); (8064, 170)].

(** The entry for an index, with the start of its run *)
Fixpoint entry (l : list (Z * Z)) (cur : Z * Z) (i : Z) : Z * Z :=
  match l with [] => cur | r :: l => if i <? fst r then cur else entry l r i end.

(** SL2ULAW and SL2ALAW (g711.h:2223-2235), for one sample, a number from -32768 to 32767 *)
(* the first run starts at 0, so the second argument of [entry] is its value *)
Definition ulaw (s : Z) : Z := snd (entry sl2u_runs (0, 0) (Z.shiftr s 2 + 8192)).
Definition alaw (s : Z) : Z := snd (entry sl2A_runs (0, 42) (Z.shiftr s 3 + 4096)).

(** ** makeann *)

(** GSM_ENABLED, G729_ENABLED, G722_ENABLED (makeann.c:48-67) *)
Record mcfg := MCfg { m_gsm : bool; m_729 : bool; m_722 : bool }.

(** The input file: its samples, and whether reading on behind them gives an error instead of the end of file.
    Simplification: a byte left over at the end is not part of any sample, as with fread. *)
Record input := Input { in_samples : list Z; in_bad : bool }.

(** fread of n samples at a position: what is read and the new position *)
Definition fread (f : input) (pos : nat) (n : nat) : list Z := firstn n (skipn pos (in_samples f)).

(** slbuf after the loop in lines 208-213: zeros behind what was read *)
Definition slbuf (l : list Z) : list Z := l ++ repeat 0 (160 - length l).

Section Enc.
  (** The encoders: a state, a frame, and the bytes.  gsm_encode takes 160 samples, g722_encode and G729_ENCODE
      take 80 *)
  Context {G T D : Type}.
  Context (gsm_encode : G -> list Z -> G * list Z) (g729_encode : T -> list Z -> T * list Z) (g722_encode : D -> list Z -> D * list Z).
  Context (cf : mcfg) (f : input) (limit : option nat) (loop : bool).
  (** whether the write for a payload type succeeds, by the number of the frame *)
  Context (wok : nat -> Z -> bool).

  (** Everything main() changes in the loop: position in the input, frames so far, contexts, lawbuf[160] and the
      files by payload type (0, 3, 18, 8, 9) *)
  Record mst := MSt { ms_pos : nat; ms_n : nat; ms_gsm : G; ms_729 : T; ms_722 : D; ms_law : list Z;
                      ms_f0 : list Z; ms_f3 : list Z; ms_f18 : list Z; ms_f8 : list Z; ms_f9 : list Z }.

  (** bytes put at an offset of lawbuf *)
  Definition store (buf : list Z) (off : nat) (b : list Z) : list Z :=
    firstn off buf ++ b ++ skipn (off + length b) buf.

  (** the switch (makeann.c:217-260): lawbuf and the number of bytes to write, for each payload type; the fwrite.
      errx() is [None] *)
  Definition enc_pcmu (m : mst) (l : list Z) : option mst :=
    let law := store (ms_law m) 0 (map ulaw l) in
    if wok (ms_n m) 0 then
      Some (MSt (ms_pos m) (ms_n m) (ms_gsm m) (ms_729 m) (ms_722 m) law
              (ms_f0 m ++ firstn (length l) law) (ms_f3 m) (ms_f18 m) (ms_f8 m) (ms_f9 m))
    else None.
  Definition enc_gsm (m : mst) (l : list Z) : option mst :=
    if negb (m_gsm cf) then Some m
    else
      let (g, b) := gsm_encode (ms_gsm m) (slbuf l) in
      let law := store (ms_law m) 0 b in
      if wok (ms_n m) 3 then
        Some (MSt (ms_pos m) (ms_n m) g (ms_729 m) (ms_722 m) law
                (ms_f0 m) (ms_f3 m ++ firstn 33 law) (ms_f18 m) (ms_f8 m) (ms_f9 m))
      else None.
  Definition enc_729 (m : mst) (l : list Z) : option mst :=
    if negb (m_729 cf) then Some m
    else
      let (t, b0) := g729_encode (ms_729 m) (firstn 80 (slbuf l)) in
      let law := store (ms_law m) 0 b0 in
      let (t, b1) := g729_encode t (skipn 80 (slbuf l)) in
      let law := store law 10 b1 in
      if wok (ms_n m) 18 then
        Some (MSt (ms_pos m) (ms_n m) (ms_gsm m) t (ms_722 m) law
                (ms_f0 m) (ms_f3 m) (ms_f18 m ++ firstn (length b0 + length b1) law) (ms_f8 m) (ms_f9 m))
      else None.
  Definition enc_pcma (m : mst) (l : list Z) : option mst :=
    let law := store (ms_law m) 0 (map alaw l) in
    if wok (ms_n m) 8 then
      Some (MSt (ms_pos m) (ms_n m) (ms_gsm m) (ms_729 m) (ms_722 m) law
              (ms_f0 m) (ms_f3 m) (ms_f18 m) (ms_f8 m ++ firstn (length l) law) (ms_f9 m))
    else None.
  Definition enc_722 (m : mst) (l : list Z) : option mst :=
    if negb (m_722 cf) then Some m
    else
      let (d, b0) := g722_encode (ms_722 m) (firstn 80 (slbuf l)) in
      let law := store (ms_law m) 0 b0 in
      let (d, b1) := g722_encode d (skipn 80 (slbuf l)) in
      let law := store law 80 b1 in
      if wok (ms_n m) 9 then
        Some (MSt (ms_pos m) (ms_n m) (ms_gsm m) (ms_729 m) d law
                (ms_f0 m) (ms_f3 m) (ms_f18 m) (ms_f8 m) (ms_f9 m ++ firstn 160 law))
      else None.

  (** one turn for a frame, in the order of efiles (makeann.c:121-123, 214-261) *)
  Definition obind {A C} (o : option A) (k : A -> option C) : option C := match o with Some a => k a | None => None end.
  Definition encode (m : mst) (l : list Z) : option mst :=
    obind (enc_pcmu m l) (fun m => obind (enc_gsm m l) (fun m => obind (enc_729 m l) (fun m => obind (enc_pcma m l) (fun m => enc_722 m l)))).

  (** the reading (makeann.c:200-207): the samples and the new position.  feof() holds when fread came short
      and there was no error *)
  Definition read_frame (pos rsize : nat) : list Z * nat :=
    let a := fread f pos rsize in
    let short := (length a <? rsize)%nat in
    if short && negb (in_bad f) && loop then
      let b := fread f 0 (rsize - length a) in (a ++ b, length b)
    else (a, (pos + length a)%nat).

  (** the loop (makeann.c:199-262): [None] is errx(); rlimit is what is left of the limit, [None] without -l.
      The fuel is the number of turns *)
  Inductive mres := MExit1 | MExit0 (m : mst) | MFuel.
  Fixpoint mloop (fuel : nat) (rlimit : option nat) (m : mst) : mres :=
    match fuel with
    | O => MFuel
    | S fuel =>
        if match rlimit with Some O => true | _ => false end then MExit0 m
        else
          let rsize := match rlimit with Some r => Nat.min 160 r | None => 160%nat end in
          let (l, pos) := read_frame (ms_pos m) rsize in
          if (length l =? 0)%nat then MExit0 m
          else
            match encode m l with
            | None => MExit1
            | Some m =>
                mloop fuel (match rlimit with Some r => Some (r - length l)%nat | None => None end)
                  (MSt pos (S (ms_n m)) (ms_gsm m) (ms_729 m) (ms_722 m) (ms_law m) (ms_f0 m) (ms_f3 m) (ms_f18 m) (ms_f8 m) (ms_f9 m))
            end
    end.

  (** main (makeann.c:103-276) from the encoders on.  The options are [limit] and [loop]; loop without a limit is
      refused (line 161); lawbuf holds what was on the stack *)
  Definition mturns : nat := match limit with Some n => S n | None => S (length (in_samples f)) end.
  Definition makeann (g : G) (t : T) (d : D) (stack : list Z) : mres :=
    if loop && match limit with None => true | _ => false end then MExit1
    else mloop mturns limit (MSt 0 0 g t d stack [] [] [] [] []).

  (** fclose() of a file, the result of which is not looked at (makeann.c:265-269): what the disk holds is all that
      was written when it succeeds, a part of it otherwise *)
  Definition on_disk (closed : bool) (flushed : nat) (file : list Z) : list Z := if closed then file else firstn flushed file.
End Enc.
