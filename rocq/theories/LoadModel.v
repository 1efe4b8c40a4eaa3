(** Model of extractaudio's reader of recordings: extractaudio/rtpp_loader.c:78-391 (opening, load_adhoc, load_pcap),
    eaud_pcap.c:53-103, eaud_adhoc.c:44-68, rtpp_scan_pcap.c:47-77, rtpp_scan_adhoc.c:47-75, extractaudio.c:124-159
    (session_lookup, channel_insert), 179-215 (load_session), 217-233 (scan_session), 412-425 (one file, then the other).
    For a little-endian host with AF_INET = 2. Simplified: no memory shortage; no decryption (crypto == NULL); the addresses
    stored with a packet are not used by anyone and left out; a time is compared exactly (pcap: in microseconds). *)
From Verif Require Import Base RtpModel AnaModel.

Definition size (f : list Z) : Z := Z.of_nat (length f).
(** A byte of the mapped file: behind its end the rest of the last page (4096 bytes) is zero; [None]: not mapped. *)
Definition peek (f : list Z) (i : Z) : option Z :=
  if i <? 0 then None
  else if i <? size f then nth_error f (Z.to_nat i)
  else if i <? (size f + 4095) / 4096 * 4096 then Some 0 else None.
Definition peek16 (f : list Z) (i : Z) : option Z :=
  match peek f i, peek f (i + 1) with Some a, Some b => Some (a + 256 * b) | _, _ => None end.
Definition peek32 (f : list Z) (i : Z) : option Z :=
  match peek16 f i, peek16 f (i + 2) with Some a, Some b => Some (a + 65536 * b) | _, _ => None end.
(** A packet in the file; [None]: a part of it is not in the file. *)
Definition slice (f : list Z) (off n : Z) : option (list Z) :=
  if (off <? 0) || (n <? 0) || (size f <? off + n) then None else Some (firstn (Z.to_nat n) (skipn (Z.to_nat off) f)).

(** ** Opening *)

(** rtpp_load, rtpp_loader.c:96-144; an empty file is refused. *)
Inductive format := Refused | Adhoc | Pcap (net : Z).
Definition rtpp_load (f : list Z) : format :=
  if size f =? 0 then Refused
  else match peek32 f 0 with
  | None => Refused   (* not reachable: the first page is mapped *)
  | Some magic =>
      if negb (magic =? 2712847316) then Adhoc
      else if size f <? 24 then Refused
      else match peek32 f 20, peek16 f 4, peek16 f 6 with
      | Some net, Some maj, Some min =>
          if negb (net =? 1) && negb (net =? 0) then Refused
          else if negb (maj =? 2) || negb (min =? 4) then Refused
          else Pcap net
      | _, _, _ => Refused   (* not reachable *)
      end
  end.

(** ** Dissecting *)

(** eaud_pcap_dissect, eaud_pcap.c:53-103. [DUnk]: not IPv4, with PCAP_REC_LEN; [DUdp]: time, offset and length of the data,
    length of the headers. sizeof(en10t) = 16 + 14 + 28, sizeof(null) = 16 + 4 + 28. *)
Inductive dissected := DOob | DTrunc | DUnk (adv : Z) | DUdp (sec usec off l5 hdr : Z).
Definition pcap_dissect (f : list Z) (cp net : Z) : dissected :=
  let blen := size f - cp in
  if net =? 0 then
    if blen <? 48 then DTrunc
    else match peek32 f (cp + 16), peek32 f (cp + 8), peek32 f cp, peek32 f (cp + 4) with
    | Some family, Some incl, Some sec, Some usec =>
        if negb (family =? 2) then DUnk (s32 (16 + incl))
        else let l5 := s32 (incl + 16 - 48) in
             if l5 <? 0 then DTrunc else DUdp sec usec (cp + 48) l5 48
    | _, _, _, _ => DOob
    end
  else
    if blen <? 58 then DTrunc
    else match peek16 f (cp + 28), peek32 f (cp + 8), peek32 f cp, peek32 f (cp + 4) with
    | Some etype, Some incl, Some sec, Some usec =>
        if negb (etype =? 8) then DUnk (s32 (16 + incl))   (* htons(0x0800) *)
        else let l5 := s32 (incl + 16 - 58) in
             if l5 <? 0 then DTrunc else DUdp sec usec (cp + 58) l5 58
    | _, _, _, _ => DOob
    end.

(** eaud_adhoc_dissect, eaud_adhoc.c:44-68; the header has 30 bytes, the length is at 28. [AOk]: offsets of header and packet,
    length, next position; [AEof]: next position. *)
Inductive adissected := AOob | ATrunc | AEof (next : Z) | AOk (hdr off n next : Z) | AFuel.
Fixpoint adhoc_dissect (fuel : nat) (f : list Z) (next : Z) : adissected :=
  match fuel with
  | O => AFuel
  | S fuel =>
      if next <? size f then
        match peek16 f (next + 28) with
        | None => AOob
        | Some n =>
            if n <? 12 then adhoc_dissect fuel f (next + 30 + n)
            else if size f <? next + 30 + n then ATrunc
            else AOk next (next + 30) n (next + 30 + n)
        end
      else AEof next
  end.

(** ** Counting *)

(** [SBad]: -1; [SOob]: memory outside the file is read; [SUb]: signed overflow; [SFuel]: goes on. *)
Inductive sres := SCount (n : Z) | SBad | SOob | SUb | SFuel.
(** rtpp_scan_pcap, rtpp_scan_pcap.c:47-77 *)
Fixpoint scan_pcap (fuel : nat) (f : list Z) (net cp n : Z) : sres :=
  match fuel with
  | O => SFuel
  | S fuel =>
      if cp <? size f then
        match pcap_dissect f cp net with
        | DOob => SOob
        | DTrunc => SBad
        | DUnk adv => scan_pcap fuel f net (cp + adv) n
        | DUdp _ _ _ l5 hdr => if 2147483647 <? hdr + l5 then SUb else scan_pcap fuel f net (cp + (hdr + l5)) (n + 1)
        end
      else if cp =? size f then SCount n else SBad
  end.
(** rtpp_scan_adhoc, rtpp_scan_adhoc.c:47-75 *)
Fixpoint scan_adhoc (fuel : nat) (f : list Z) (cp n : Z) : sres :=
  match fuel with
  | O => SFuel
  | S fuel' =>
      if cp <? size f then
        match adhoc_dissect fuel f cp with
        | AFuel => SFuel
        | AOob => SOob
        | ATrunc => SBad
        | AEof next => scan_adhoc fuel' f next n
        | AOk _ _ _ next => scan_adhoc fuel' f next (n + 1)
        end
      else if cp =? size f then SCount n else SBad
  end.
(** scan_session, extractaudio.c:217-233 *)
Definition scan_session (fuel : nat) (f : list Z) : sres :=
  match rtpp_load f with
  | Refused => SBad
  | Adhoc => scan_adhoc fuel f 0 0
  | Pcap net => scan_pcap fuel f net 24 0
  end.

(** ** Loading *)

(** struct packet: the time ([None]: not a number), what the parser found, the bytes. *)
Record lp := mkLp { l_time : option Z; l_info : rinfo; l_data : list Z }.
(** struct channel *)
Record chan := mkChan { c_answer : bool; c_pkts : list lp }.
Definition l_ssrc (x : lp) : Z := ri_ssrc (l_info x).
Definition l_seq (x : lp) : Z := ri_seq (l_info x).
Definition l_ts (x : lp) : Z := ri_ts (l_info x).

(** The time of the older format: the order of two doubles is that of their bits. *)
Definition dtime (bits : Z) : option Z :=
  let mag := bits mod 9223372036854775808 in
  if 9218868437227405312 <? mag then None else Some (if bits <? 9223372036854775808 then mag else - mag).
Definition earlier (a b : option Z) : bool := match a, b with Some x, Some y => x <? y | _, _ => false end.

(** session_lookup, extractaudio.c:125-137: the index of the channel, by its first packet. *)
Fixpoint lookup (ch : list chan) (ssrc : Z) : option nat :=
  match ch with
  | [] => None
  | c :: ch =>
      if match c_pkts c with x :: _ => l_ssrc x =? ssrc | [] => false end then Some 0%nat
      else match lookup ch ssrc with Some i => Some (S i) | None => None end
  end.
Definition first_time (c : chan) : option Z := match c_pkts c with x :: _ => l_time x | [] => None end.
(** channel_insert, extractaudio.c:151-157, from the last channel to the first ([rch] is reversed) *)
Fixpoint channel_insert (rch : list chan) (c : chan) : list chan :=
  match rch with
  | [] => [c]
  | d :: rest => if earlier (first_time d) (first_time c) then c :: d :: rest else d :: channel_insert rest c
  end.
(** rtpp_loader.c:233-246 and 364-377, from the last packet to the first ([rps] is reversed); [None]: a duplicate. *)
Fixpoint put (rps : list lp) (x : lp) : option (list lp) :=
  match rps with
  | [] => Some [x]
  | pp :: rest =>
      if l_seq pp =? l_seq x then None
      else if (l_ts pp <? l_ts x) || (l_seq pp <? l_seq x) then Some (x :: pp :: rest)
      else match put rest x with Some r => Some (pp :: r) | None => None end
  end.

Record lst := mkLst { s_ch : list chan; s_stat : stat; s_count : Z }.
Inductive step := Go (s : lst) | Stop (s : lst) | Outside.
(** rtpp_loader.c:188-250 and 308-381: one packet with its time. [Stop]: -1 is returned. *)
Definition take (answer : bool) (s : lst) (time : option Z) (d : list Z) : step :=
  match parse_raw d with
  | POob => Outside
  | PErr _ => Go s
  | POk i =>
      let (stat', r) := update (s_stat s) (mkPkt (ri_ssrc i) (ri_seq i) (match d with _ :: b :: _ => 128 <=? b | _ => false end) true) in
      let s := mkLst (s_ch s) stat' (s_count s) in
      match r with
      | UPDATE_ERR => Stop s
      | _ =>
          if ri_nsamples i <=? 0 then Go s
          else
            let x := mkLp time i d in
            match lookup (s_ch s) (ri_ssrc i) with
            | None => Go (mkLst (rev (channel_insert (rev (s_ch s)) (mkChan answer [x]))) stat' (s_count s + 1))
            | Some k =>
                let c := nth k (s_ch s) (mkChan answer []) in
                match put (rev (c_pkts c)) x with
                | None => Go s
                | Some r => Go (mkLst (upd (s_ch s) k (mkChan (c_answer c) (rev r))) stat' (s_count s + 1))
                end
            end
      end
  end.

(** [LCount]: what is returned, and the channels; [LBad]: -1, the channels have what was loaded before. *)
Inductive lres := LCount (n : Z) (ch : list chan) | LBad (ch : list chan) | LOob | LUb | LFuel.
(** load_pcap, rtpp_loader.c:262-391 *)
Fixpoint load_pcap (fuel : nat) (answer : bool) (f : list Z) (net cp : Z) (s : lst) : lres :=
  match fuel with
  | O => LFuel
  | S fuel =>
      if cp <? size f then
        match pcap_dissect f cp net with
        | DOob => LOob
        | DTrunc => LBad (s_ch s)
        | DUnk adv => load_pcap fuel answer f net (cp + adv) s
        | DUdp sec usec off l5 hdr =>
            if 2147483647 <? hdr + l5 then LUb
            else if l5 <? 12 then load_pcap fuel answer f net (cp + (hdr + l5)) s
            else match slice f off l5 with
            | None => LOob
            | Some d =>
                match take answer s (Some (sec * 1000000 + usec)) d with
                | Outside => LOob
                | Stop s => LBad (s_ch s)
                | Go s => load_pcap fuel answer f net (cp + (hdr + l5)) s
                end
            end
        end
      else if cp =? size f then LCount (s_count s) (s_ch s) else LBad (s_ch s)
  end.
(** load_adhoc, rtpp_loader.c:161-260 *)
Fixpoint load_adhoc (fuel : nat) (answer : bool) (f : list Z) (cp : Z) (s : lst) : lres :=
  match fuel with
  | O => LFuel
  | S fuel' =>
      if cp <? size f then
        match adhoc_dissect fuel f cp with
        | AFuel => LFuel
        | AOob => LOob
        | ATrunc => LBad (s_ch s)
        | AEof next => load_adhoc fuel' answer f next s
        | AOk hdr off n next =>
            match slice f off n, peek32 f (hdr + 20), peek32 f (hdr + 24) with
            | Some d, Some lo, Some hi =>
                match take answer s (dtime (lo + 4294967296 * hi)) d with
                | Outside => LOob
                | Stop s => LBad (s_ch s)
                | Go s => load_adhoc fuel' answer f next s
                end
            | _, _, _ => LOob
            end
        end
      else if cp =? size f then LCount (s_count s) (s_ch s) else LBad (s_ch s)
  end.
(** load_session, extractaudio.c:179-215: into the channels there are *)
Definition load_session (fuel : nat) (answer : bool) (f : list Z) (ch : list chan) : lres :=
  match rtpp_load f with
  | Refused => LBad ch
  | Adhoc => load_adhoc fuel answer f 0 (mkLst ch stat0 0)
  | Pcap net => load_pcap fuel answer f net 24 (mkLst ch stat0 0)
  end.
