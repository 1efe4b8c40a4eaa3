(** Model of modules/acct_rtcp_hep/rtcp2json.c and of the caller in rtpp_acct_rtcp_hep.c: the
    conversion of received RTCP packets into text. *)
From Verif Require Import Base Str SbufModel.

(** A literal in which ~ stands for a newline and ` for a double quote. *)
Definition C (s : String.string) : list Z :=
  map (fun c => if c =? 126 then 10 else if c =? 96 then 34 else c) (B s).
Arguments C s%string_scope.

(** Results: [Go] carry on, [Stop] the function returned, [Abort] a failed assertion, [Over] an
    access outside the packet or the text buffer, [NoFuel] more rounds of a loop than allowed for. *)
Inductive res (A : Type) := Go (a : A) | Stop (b : sbuf) (k : nat) (rv : Z) | Abort | Over | NoFuel.
Arguments Go {A}. Arguments Stop {A}. Arguments Abort {A}. Arguments Over {A}. Arguments NoFuel {A}.

(** The text buffer and the number of calls of realloc so far. *)
Definition out : Type := (sbuf * nat)%type.

(** What the n-th call of realloc returns (see [sbuf_extend]). *)
Definition heap : Type := nat -> option (Z * (nat -> Z)).

Definition bind {A} (r : res A) (f : A -> res A) : res A :=
  match r with Go a => f a | _ => r end.

(** RSW_REST, rtcp2json.c:117-130, with exitcode -1. libc's formatting itself is taken not to
    fail. The loop is given [fuel] rounds. *)
Fixpoint rsw (fuel : nat) (h : heap) (o : out) (s : list Z) : res out :=
  match fuel with
  | O => NoFuel
  | S fuel =>
      match sbuf_write (fst o) (FmtOk s) with
      | SbOOB => Over
      | SbAbort => Abort
      | SbRet (b, SBW_OK) => Go (b, snd o)
      | SbRet (b, SBW_ERR) => Stop b (snd o) (-1)
      | SbRet (b, SBW_SHRT) =>
          match sbuf_extend b (length (sb_mem b) * 2) (h (snd o)) with
          | SbOOB => Over
          | SbAbort => Abort
          | SbRet (b', true) => rsw fuel h (b', S (snd o)) s
          | SbRet (b', false) => Stop b' (S (snd o)) (-1)
          end
      end
  end.

(** One use of RSW_REST; [None]: reading an argument leaves the packet. *)
Definition put (h : heap) (t : option (list Z)) (o : out) : res out :=
  match t with None => Over | Some s => rsw (2 + length s) h o s end.

(** Reading the packet: one byte, ntohs() and ntohl() of a field, at offset [i]. *)
Definition rd8 (buf : list Z) (i : Z) : option Z := if i <? 0 then None else nth_error buf (Z.to_nat i).
Definition rd16 (buf : list Z) (i : Z) : option Z :=
  match rd8 buf i, rd8 buf (i + 1) with Some a, Some b => Some (a * 256 + b) | _, _ => None end.
Definition rd32 (buf : list Z) (i : Z) : option Z :=
  match rd16 buf i, rd16 buf (i + 2) with Some a, Some b => Some (a * 65536 + b) | _, _ => None end.

(** rtcp_common_t, rtcp.h:69-81, little-endian hosts: count (low 5 bits of the first byte) and
    version (its high 2 bits), pt, length. *)
Definition count_of (b0 : Z) : Z := b0 mod 32.
Definition version_of (b0 : Z) : Z := b0 / 64.

(** RTCP_GET_LOST, rtcp.h:106, of rtcp_rr_t, rtcp.h:93-104, little-endian hosts: after [fraction]
    the bit-fields are taken from the low end, so [lost_sb] is the lowest bit of the next byte and
    [lost_b2] its other seven. The conditional operator binds weaker than the product. *)
Definition get_lost (b5 b6 b7 : Z) : Z :=
  if negb (b5 mod 2 =? 0) then -1
  else 1 * Z.lor (Z.lor (Z.shiftl (b5 / 2) 16) (Z.shiftl b6 8)) b7.

(** The text of one report block at offset [i], rtcp2json.c:183-190 (and the same 209-216). *)
Definition block_text (buf : list Z) (i : Z) : option (list Z) :=
  match rd32 buf i, rd8 buf (i + 4), rd8 buf (i + 5), rd8 buf (i + 6), rd8 buf (i + 7),
        rd32 buf (i + 8), rd32 buf (i + 12), rd32 buf (i + 16), rd32 buf (i + 20) with
  | Some ssrc, Some fraction, Some b5, Some b6, Some b7, Some seq, Some jitter, Some lsr, Some dlsr =>
      Some (C "  {~   `source_ssrc`: " ++ fmt_u ssrc ++ C ",~   `fraction_lost`: " ++ fmt_u fraction ++
            C ",~   `packets_lost`: " ++ fmt_d (get_lost b5 b6 b7) ++ C ",~   `highest_seq_no`: " ++ fmt_u seq ++
            C ",~   `ia_jitter`: " ++ fmt_u jitter ++ C ",~   `lsr`: " ++ fmt_u lsr ++
            C ",~   `dlsr`: " ++ fmt_u dlsr ++ C "~  }~")
  | _, _, _, _, _, _, _, _, _ => None
  end.

(** The loop over the report blocks, rtcp2json.c:180-191 (and 206-217): [n] blocks are left, the
    next one is the [i]-th; the blocks begin at [base]. *)
Fixpoint blocks (h : heap) (buf : list Z) (base : Z) (n : nat) (i : Z) (o : out) : res out :=
  match n with
  | O => Go o
  | S n =>
      bind (bind (if 0 <? i then put h (Some (C "  ,~")) o else Go o)
                 (put h (block_text buf (base + 24 * i))))
           (blocks h buf base n (i + 1))
  end.

(** What follows the fixed members, rtcp2json.c:177-195 (and 203-221). *)
Definition tail_part (h : heap) (buf : list Z) (base pt count : Z) (o : out) : res out :=
  bind (bind (bind (bind (bind
    (put h (Some (C " `type`: " ++ fmt_u pt ++ C ",~")) o)
    (fun o => if 0 <? count then put h (Some (C " `report_blocks`: [~")) o else Go o))
    (blocks h buf base (Z.to_nat count) 0))
    (fun o => if 0 <? count then put h (Some (C " ],~")) o else Go o))
    (put h (Some (C " `report_count`: " ++ fmt_u count ++ C "~"))))
    (put h (Some (C "}"))).

(** rtcp2json.c:201-202 (and 169-170) *)
Definition head_text (buf : list Z) (i : Z) : option (list Z) :=
  match rd32 buf i with Some v => Some (C "{~ `ssrc`: " ++ fmt_u v ++ C ",~") | None => None end.

(** rtcp2json.c:171-176 *)
Definition sender_text (buf : list Z) (i : Z) : option (list Z) :=
  match rd32 buf i, rd32 buf (i + 4), rd32 buf (i + 8), rd32 buf (i + 12), rd32 buf (i + 16) with
  | Some a, Some b, Some c, Some d, Some e =>
      Some (C " `sender_information`: {~  `ntp_timestamp_sec`: " ++ fmt_u a ++ C ",~  `ntp_timestamp_usec`: " ++ fmt_u b ++
            C ",~  `rtp_timestamp`: " ++ fmt_u c ++ C ",~  `packets`: " ++ fmt_u d ++ C ",~  `octets`: " ++ fmt_u e ++ C "~ },~")
  | _, _, _, _, _ => None
  end.

(** The least [bincr] of a report, rtcp2json.c:167 and 199, in size_t arithmetic: the offset of
    the union, the size [fixed] of the structure with one block (rtcp.h:124-138), and a block for
    each further count, where count - 1 may be -1. *)
Definition least (fixed count : Z) : Z := u64 (4 + fixed + u64 (24 * u64 (count - 1))).

(** The body of the loop for the packet at offset [r] with [len] bytes left, up to line 272. *)
Definition packet (h : heap) (buf : list Z) (r len bincr : Z) (b0 pt : Z) (o : out) : res out :=
  let count := count_of b0 in
  if pt =? 200 then
    if (len <? bincr) || (bincr <? least 48 count) then Stop (fst o) (snd o) (-1)
    else bind (bind (put h (head_text buf (r + 4)) o) (put h (sender_text buf (r + 8))))
              (tail_part h buf (r + 28) pt count)
  else if pt =? 201 then
    if (len <? bincr) || (bincr <? least 28 count) then Stop (fst o) (snd o) (-1)
    else bind (put h (head_text buf (r + 4)) o) (tail_part h buf (r + 8) pt count)
  else Go o.

(** The loop, rtcp2json.c:159-277; [fuel] rounds. *)
Fixpoint packets (fuel : nat) (h : heap) (buf : list Z) (r len : Z) (o : out) : res out :=
  match fuel with
  | O => NoFuel
  | S fuel =>
      if negb (0 <? len) then Stop (fst o) (snd o) len
      else if len <? 4 then Stop (fst o) (snd o) (-1)
      else match rd8 buf r, rd8 buf (r + 1), rd16 buf (r + 2) with
           | Some b0, Some pt, Some l =>
               let bincr := 4 * (l + 1) in
               bind (packet h buf r len bincr b0 pt o) (packets fuel h buf (r + bincr) (len - bincr))
           | _, _, _ => Over
           end
  end.

(** rtcp2json, rtcp2json.c:136-286, on a packet of [length buf] bytes. *)
Definition rtcp2json (h : heap) (buf : list Z) (o : out) : res out :=
  let len := Z.of_nat (length buf) in
  if len <? 4 then Stop (fst o) (snd o) (-1)
  else match rd8 buf 0 with
       | None => Over
       | Some b0 =>
           if negb (version_of b0 =? 2) then Stop (fst o) (snd o) (-1)
           else packets (S (length buf)) h buf 0 len o
       end.

(** The bytes between bp and cp. *)
Definition content (b : sbuf) : list Z := firstn (Z.to_nat (rs_ulen b)) (sb_mem b).

(** rtpp_acct_rtcp_hep_do, rtpp_acct_rtcp_hep.c:210-220: what is given to send_hep(), if anything.
    The chunks of the header, filled before, are not modelled. *)
Definition hep_do (h : heap) (buf : list Z) (o : out) : res (out * option (list Z)) :=
  match sbuf_reset (fst o) with
  | SbOOB => Over
  | SbAbort => Abort
  | SbRet b =>
      match rtcp2json h buf (b, snd o) with
      | Go _ => NoFuel
      | Stop b' k rv => if rv <? 0 then Go ((b', k), None) else Go ((b', k), Some (content b'))
      | Abort => Abort | Over => Over | NoFuel => NoFuel
      end
  end.

(** The packets of a history, one after another, with the buffer of the module, which
    rtpp_acct_rtcp_hep_ctor (rtpp_acct_rtcp_hep.c:119) creates with 512 bytes; [raw] is what
    malloc() left in them. *)
Fixpoint hep_run (h : heap) (bufs : list (list Z)) (o : out) : res (list (option (list Z))) :=
  match bufs with
  | [] => Go []
  | buf :: t =>
      match hep_do h buf o with
      | Go (o', sent) => match hep_run h t o' with Go l => Go (sent :: l) | Stop b k v => Stop b k v | Abort => Abort | Over => Over | NoFuel => NoFuel end
      | Stop b k v => Stop b k v | Abort => Abort | Over => Over | NoFuel => NoFuel
      end
  end.

Definition module_run (h : heap) (raw : list Z) (addr : Z) (bufs : list (list Z)) : res (list (option (list Z))) :=
  match sbuf_ctor raw addr with
  | SbRet b => hep_run h bufs (b, O)
  | SbAbort => Abort
  | SbOOB => Over
  end.
