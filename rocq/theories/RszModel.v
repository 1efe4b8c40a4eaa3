(** Model of the re-packetizer: src/rtp_resizer.c:70-424, with rtp_packet_first_chunk_find, src/rtp.c:128-242,
    and rtp_packet_dup, rtp_packet_set_seq, rtp_packet_set_ts, src/rtp_packet.c:50-75, 121-135. The doubly linked queue is
    a list. Clock readings (double, times 8000.0, converted to uint32_t) are given as 32 bit values. *)
From Verif Require Import Base RtpModel.

(** MAX_RPKT_LEN, src/rtp_packet.h:37 *)
Definition BUF : Z := 8192.
(** struct rtp_packet, src/rtp_packet.h:39-69: the buffer (always [BUF] bytes), size, parsed *)
Record zp := mkZ { z_buf : list Z; z_size : Z; z_i : rinfo }.
Definition z_ns (z : zp) := ri_nsamples (z_i z).
Definition z_ts (z : zp) := ri_ts (z_i z).
Definition z_dsize (z : zp) := ri_data_size (z_i z).
Definition z_off (z : zp) := ri_data_offset (z_i z).
(** data.header.pt; the payload type is never modified, so this is also what the parser saw *)
Definition z_pt (z : zp) := ri_pt (z_i z).
(** the datagram that is sent *)
Definition wire (z : zp) : list Z := firstn (Z.to_nat (z_size z)) (z_buf z).

(** A store to a fixed place in the header *)
Definition poke (b : list Z) (i : nat) (bs : list Z) : list Z := firstn i b ++ bs ++ skipn (i + length bs) b.
(** rtp_packet_set_seq, src/rtp_packet.c:121-127 *)
Definition set_seq (z : zp) (seq : Z) : zp :=
  let i := z_i z in
  mkZ (poke (z_buf z) 2 [seq / 256; seq mod 256]) (z_size z)
    (mkRi (ri_data_size i) (ri_data_offset i) (ri_nsamples i) (ri_ts i) seq (ri_ssrc i) (ri_appendable i) (ri_pt i)).
(** rtp_packet_set_ts, src/rtp_packet.c:129-135 *)
Definition set_ts (z : zp) (ts : Z) : zp :=
  let i := z_i z in
  mkZ (poke (z_buf z) 4 [ts / 65536 / 256; ts / 65536 mod 256; ts mod 65536 / 256; ts mod 65536 mod 256]) (z_size z)
    (mkRi (ri_data_size i) (ri_data_offset i) (ri_nsamples i) ts (ri_seq i) (ri_ssrc i) (ri_appendable i) (ri_pt i)).
(** p->data.header.mbt = 0, src/rtp_resizer.c:338 *)
Definition clear_mbt (z : zp) : zp := mkZ (poke (z_buf z) 1 [nth 1 (z_buf z) 0 mod 128]) (z_size z) (z_i z).
Definition set_len (z : zp) (size dsize ns app : Z) : zp :=
  let i := z_i z in mkZ (z_buf z) size (mkRi dsize (ri_data_offset i) ns (ri_ts i) (ri_seq i) (ri_ssrc i) app (ri_pt i)).

(** Bytes [from, from + n) of a buffer; [None]: outside *)
Definition load (b : list Z) (from n : Z) : option (list Z) :=
  if (0 <=? from) && (0 <=? n) && (from + n <=? Z.of_nat (length b)) then Some (firstn (Z.to_nat n) (skipn (Z.to_nat from) b)) else None.
Definition copy (dst : list Z) (at_ : Z) (src : list Z) (from n : Z) : option (list Z) :=
  match load src from n with Some bs => store dst (Z.to_nat at_) bs | None => None end.

(** rtp_packet_dup with RTPP_DUP_HDRONLY into a new (zeroed) packet, src/rtp_packet.c:50-75 *)
Definition dup_hdr (z : zp) : zp :=
  let h := firstn (Z.to_nat (z_size z - z_dsize z)) (z_buf z) in
  set_len (mkZ (h ++ repeat 0 (Z.to_nat BUF - length h)) 0 (z_i z)) (z_size z - z_dsize z) 0 0 (ri_appendable (z_i z)).

(** The loop of rtp_packet_chunk_find_g723, src/rtp.c:185-190; every round advances, [fuel] = data size suffices;
    [None]: a read outside, the assertion, or no fuel *)
Fixpoint g723_find (fuel : nat) (z : zp) (samples pos found : Z) : option (Z * Z) :=
  if (pos <? z_dsize z) && (found <? samples) then
    match fuel with
    | O => None
    | S f => match rd (z_buf z) (z_off z + pos) with
             | None => None
             | Some ch => let n := g723_len ch in
                          if n =? NS_UNKNOWN then None else g723_find f z samples (pos + n) (found + 240)
             end
    end
  else Some (pos, found).

(** rtp_packet_first_chunk_find, src/rtp.c:128-242: [Some None] the whole packet, [Some (Some (bytes, nsamples))] a
    chunk; [None]: an assertion fails *)
Definition chunk_find (z : zp) (min : Z) : option (option (Z * Z)) :=
  let frames k := min / k + (if min mod k =? 0 then 0 else 1) in
  if z_ns z <=? min then None
  else match z_pt z with
       | 0 | 8 => Some (Some (min, min))
       | 18 => if z_ns z <=? frames 80 * 80 then Some None else Some (Some (frames 80 * 10, frames 80 * 80))
       | 3 => if z_ns z <=? frames 160 * 160 then Some None else Some (Some (frames 160 * 33, frames 160 * 160))
       | 4 => if z_ns z <=? frames 240 * 240 then Some None
              else match g723_find (Z.to_nat (z_dsize z)) z (frames 240 * 240) 0 0 with
                   | None => None
                   | Some (pos, found) => Some (Some (if pos <? z_dsize z then pos else z_dsize z, found))
                   end
       | 9 => Some (Some (min / 2, min))
       | _ => Some None
       end.

(** append_packet, src/rtp_resizer.c:236-246 *)
Definition append_packet (dst src : zp) : option zp :=
  match copy (z_buf dst) (z_off dst + z_dsize dst) (z_buf src) (z_off src) (z_dsize src) with
  | None => None
  | Some b => Some (set_len (mkZ b 0 (z_i dst)) (z_size dst + z_dsize src) (z_dsize dst + z_dsize src) (z_ns dst + z_ns src)
                      (ri_appendable (z_i src)))
  end.
(** Truncate the source packet, src/rtp_resizer.c:259-265, 278-284 *)
Definition cut_head (src : zp) (bytes ns : Z) : option zp :=
  let s := set_ts src (u32 (z_ts src + ns)) in
  match copy (z_buf s) (z_off s) (z_buf s) (z_off s + bytes) (z_dsize s - bytes) with
  | None => None
  | Some b => Some (set_len (mkZ b 0 (z_i s)) (z_size s - bytes) (z_dsize s - bytes) (z_ns s - ns) (ri_appendable (z_i s)))
  end.
(** append_chunk, src/rtp_resizer.c:248-266 *)
Definition append_chunk (dst src : zp) (bytes ns : Z) : option (zp * zp) :=
  match copy (z_buf dst) (z_off dst + z_dsize dst) (z_buf src) (z_off src) bytes with
  | None => None
  | Some b => match cut_head src bytes ns with
              | None => None
              | Some s => Some (set_len (mkZ b 0 (z_i dst)) (z_size dst + bytes) (z_dsize dst + bytes) (z_ns dst + ns)
                                  (ri_appendable (z_i dst)), s)
              end
  end.
(** move_chunk, src/rtp_resizer.c:268-285 *)
Definition move_chunk (dst src : zp) (bytes ns : Z) : option (zp * zp) :=
  match copy (z_buf dst) (z_off dst) (z_buf src) (z_off src) bytes with
  | None => None
  | Some b => match cut_head src bytes ns with
              | None => None
              | Some s => Some (set_len (mkZ b 0 (z_i dst)) (bytes + z_off dst) bytes ns (ri_appendable (z_i dst)), s)
              end
  end.

(** min_nsamples, src/rtp_resizer.c:70-83 *)
Definition min_nsamples (pt : Z) : Z := if pt =? 3 then 160 else if pt =? 4 then 240 else 80.
(** lines 312-318 *)
Definition round_out (out min : Z) : Z :=
  if out <? min then min else if out mod min =? 0 then out else out + (min - out mod min).

(** The loop of rtp_resizer_get, src/rtp_resizer.c:321-412; [mem]: whether rtp_packet_alloc succeeds. The sequence
    number of the first packet (lines 342-345, 400-403) is picked up after the loop: it is still in [ret].
    [None]: an assertion fails or memory is accessed outside of a buffer *)
Fixpoint aggregate (out : Z) (mem : bool) (ret : option zp) (q : list zp) : option (option zp * list zp) :=
  match q with
  | [] => Some (ret, [])
  | p :: q' =>
      match ret with
      | None =>
          if out <? z_ns p then
            match chunk_find p out with
            | None => None
            | Some None => Some (Some p, q')
            | Some (Some (bytes, ns)) =>
                if mem then
                  match move_chunk (dup_hdr p) (clear_mbt p) bytes ns with
                  | None => None
                  | Some (r, p') => Some (Some r, p' :: q')
                  end
                else Some (None, q)
            end
          else if ri_appendable (z_i p) =? 0 then Some (Some p, q')
          else aggregate out mem (Some p) q'
      | Some r =>
          if out <=? z_ns r then Some (ret, q)
          else if negb (u32 (z_ts r + z_ns r) =? z_ts p) || negb (z_pt r =? z_pt p) then Some (ret, q)
          else
            let left := out - z_ns r in
            if (0 <? left) && (left <? z_ns p) then
              match chunk_find p left with
              | None => None
              | Some None =>
                  if BUF <? z_size r + z_dsize p then Some (ret, q)
                  else match append_packet r p with None => None | Some r' => Some (Some r', q') end
              | Some (Some (bytes, ns)) =>
                  if BUF <? z_size r + bytes then Some (ret, q)
                  else match append_chunk r p bytes ns with None => None | Some (r', p') => Some (Some r', p' :: q') end
              end
            else if BUF <? z_size r + z_dsize p then Some (ret, q)
            else match append_packet r p with
                 | None => None
                 | Some r' => if ri_appendable (z_i r') =? 0 then Some (Some r', q') else aggregate out mem (Some r') q'
                 end
      end
  end.

(** struct rtp_resizer, src/rtp_resizer.c:47-68; an option stands for a value and its inited flag *)
Record rsz := mkRsz {
  s_total : Z; s_seq : option Z; s_ssrc : option Z; s_last : option Z; s_delta : option Z; s_out : Z; s_max : Z; s_q : list zp }.

(** rtp_resizer_new, rtp_resizer_set_ptime, src/rtp_resizer.c:85-95, 125-137 *)
Definition set_ptime (s : rsz) (ptime : Z) : rsz :=
  let out := ptime * 8 in
  mkRsz (s_total s) (s_seq s) (s_ssrc s) (s_last s) (s_delta s) out (if out * 2 <? 320 then 320 else out * 2) (s_q s).
Definition resizer_new (ptime : Z) : rsz := set_ptime (mkRsz 0 None None None None 0 0 []) ptime.

(** ts_less, src/rtp.h:146 *)
Definition ts_less (a b : Z) : bool := 2147483648 <? u32 (a - b).

(** The walk from the tail, src/rtp_resizer.c:190-220, on the reversed queue *)
Fixpoint place (z : zp) (rq : list zp) : list zp :=
  match rq with
  | [] => [z]
  | p :: t => if ts_less (z_ts z) (z_ts p) then p :: place z t else z :: rq
  end.

Inductive eres := EBack | ELate | ETaken.     (* left to the caller, dropped, queued *)
(** rtp_resizer_enqueue, src/rtp_resizer.c:139-223, of a received datagram [d] at time [its] *)
Definition enqueue (s : rsz) (d : list Z) (its : Z) : option (rsz * eres) :=
  match packet_parse d with
  | POob => None
  | PErr _ => Some (s, EBack)
  | POk i =>
      if ri_nsamples i =? NS_UNKNOWN then Some (s, EBack)
      else
        let z := mkZ (d ++ repeat 0 (Z.to_nat BUF - length d)) (Z.of_nat (length d)) i in
        let same := match s_ssrc s with None => true | Some x => x =? ri_ssrc i end in
        let lst := if same then s_last s else None in
        let dlt := if same then s_delta s else None in
        let s1 := mkRsz (s_total s) (s_seq s) (Some (ri_ssrc i)) lst dlt (s_out s) (s_max s) (s_q s) in
        if match lst with Some l => ts_less (z_ts z) l | None => false end then Some (s1, ELate)
        else
          let dlt := match dlt with
                     | None => u32 (z_ts z - its + 40)
                     | Some td =>
                         let ref := u32 (its + td) in
                         if ts_less ref (z_ts z) then u32 (z_ts z - its + 40)
                         else if ts_less (u32 (z_ts z + s_out s + 160)) ref then u32 (td - u32 (ref - (z_ts z + s_out s + 160)) / 2)
                         else td
                     end in
          Some (mkRsz (s_total s + z_ns z) (s_seq s) (Some (ri_ssrc i)) lst (Some dlt) (s_out s) (s_max s)
                  (rev (place z (rev (s_q s)))), ETaken)
  end.

(** rtp_resizer_get, src/rtp_resizer.c:287-424, at time [now]; the packet returned is sent *)
Definition get (s : rsz) (now : Z) (mem : bool) : option (rsz * option zp) :=
  match s_q s with
  | [] => Some (s, None)
  | p :: _ =>
      let ref := u32 (now + match s_delta s with Some d => d | None => 0 end) in
      if (s_total s <? s_out s) && ts_less ref (u32 (z_ts p + s_max s)) then Some (s, None)
      else
        match aggregate (round_out (s_out s) (min_nsamples (z_pt p))) mem None (s_q s) with
        | None => None
        | Some (None, q) => Some (mkRsz (s_total s) (s_seq s) (s_ssrc s) (s_last s) (s_delta s) (s_out s) (s_max s) q, None)
        | Some (Some r, q) =>
            let seq := match s_seq s with Some x => x | None => ri_seq (z_i r) end in
            Some (mkRsz (s_total s - z_ns r) (Some (u16 (seq + 1))) (s_ssrc s) (Some (u32 (z_ts r + z_ns r))) (s_delta s)
                    (s_out s) (s_max s) q, Some (set_seq r seq))
        end
  end.

Inductive op := Enq (d : list Z) (its : Z) | Get (now : Z) (mem : bool) | SetPtime (n : Z).
Inductive obs := OEnq (d : list Z) (r : eres) | OOut (d : list Z) | ONone.
Definition step (s : rsz) (o : op) : option (rsz * obs) :=
  match o with
  | Enq d its => match enqueue s d its with Some (s', r) => Some (s', OEnq d r) | None => None end
  | Get now mem => match get s now mem with
                   | Some (s', Some z) => Some (s', OOut (wire z))
                   | Some (s', None) => Some (s', ONone)
                   | None => None
                   end
  | SetPtime n => Some (set_ptime s n, ONone)
  end.
Fixpoint run (s : rsz) (os : list op) : option (rsz * list obs) :=
  match os with
  | [] => Some (s, [])
  | o :: t => match step s o with
              | None => None
              | Some (s1, b) => match run s1 t with Some (s2, tr) => Some (s2, b :: tr) | None => None end
              end
  end.
