(** Model of the packet accounting: src/rtp_analyze.c:210-220, 291-524, src/rtp_analyze.h:43-70,
    src/rtpp_analyzer.c:94-135. Not modelled: the jitter values (update_jitter_stats, get_jitter_stats) and the
    base_ts/base_rtime fields, which feed only a log message; logging. *)
From Verif Require Import Base.

(** struct rtpp_session_stat_last, src/rtp_analyze.h:43-55 *)
Record last := mkLast {
  l_pcount : Z; l_min : Z; l_max : Z; l_off : Z; l_ssrc : Z; l_seen : list Z; l_dups : Z; l_seq : Z }.
(** struct rtpp_session_stat, src/rtp_analyze.h:59-68; [t_jd]: the SSRCs of the per-SSRC jitter data, in
    list order, without the one that is not yet initialised *)
Record stat := mkStat {
  t_chg : Z; t_psent : Z; t_precvd : Z; t_dups : Z; t_desync : Z; t_resets : Z; t_last : last; t_jd : list Z }.

Definition zeroes (n : Z) : list Z := repeat 0 (Z.to_nat n).
(** rtpp_stats_init, src/rtp_analyze.c:210-221 *)
Definition stat0 : stat := mkStat 0 0 0 0 0 0 (mkLast 0 0 0 0 0 (zeroes 4096) 0 0) [].

(** What is used of a parsed packet; [p_mem]: whether memory can be allocated *)
Record pkt := mkPkt { p_ssrc : Z; p_seq : Z; p_mark : bool; p_mem : bool }.

Definition JDATA_MAX : nat := 10.
(** jdata_by_ssrc, src/rtp_analyze.c:291-344; [None]: no memory *)
Definition jdata_by_ssrc (jd : list Z) (ssrc : Z) (mem : bool) : option (list Z) :=
  match jd with
  | [] => Some [ssrc]
  | _ => if existsb (Z.eqb ssrc) jd then Some jd
         else if Nat.eqb (length jd) JDATA_MAX then Some (ssrc :: removelast jd)
         else if mem then Some (ssrc :: jd) else None
  end.

(** lines 371, 399, 420, 467, 473 *)
Definition idx (seq : Z) : nat := Z.to_nat (Z.shiftr (seq mod 131072) 5).
(** lines 372, 400, 421, 468, 482: the word comes from seq, the bit from rinfo->seq *)
Definition mark (seen : list Z) (seq rseq : Z) : list Z :=
  upd seen (idx seq) (Z.lor (nth (idx seq) seen 0) (Z.shiftl 1 (Z.land rseq 31))).
(** lines 474-475 *)
Definition marked (seen : list Z) (seq : Z) : bool :=
  negb (Z.land (Z.shiftr (nth (idx seq) seen 0) (Z.land seq 31)) 1 =? 0).
(** lines 452-456 *)
Definition clear_half (seen : list Z) (off : Z) : list Z :=
  if off mod 131072 =? 65536 then firstn (Z.to_nat 2048) seen ++ zeroes 2048
  else zeroes 2048 ++ skipn (Z.to_nat 2048) seen.

(** update_rtpp_totals, src/rtp_analyze.c:510-524 *)
Definition totals (s : stat) : Z * Z * Z :=
  let l := t_last s in
  if l_pcount l =? 0 then (t_psent s, t_precvd s, t_dups s)
  else (u32 (t_psent s + u32 (l_max l - l_min l + 1)), u32 (t_precvd s + l_pcount l), u32 (t_dups s + l_dups l)).

Inductive rval := UPDATE_OK | UPDATE_SSRC_CHG | UPDATE_ERR.

(** The common part of lines 412-422, 461-469: totals are taken, a new run of packets starts at seq *)
Definition restart (s : stat) (chg desync resets ssrc seq rseq : Z) (jd : list Z) : stat :=
  let '(ps, pr, pd) := totals s in
  mkStat chg ps pr pd desync resets
    (mkLast 1 seq seq (l_off (t_last s)) ssrc (mark (zeroes 4096) seq rseq) 0 rseq) jd.

(** update_rtpp_stats, src/rtp_analyze.c:346-508 *)
Definition update (s : stat) (p : pkt) : stat * rval :=
  match jdata_by_ssrc (t_jd s) (p_ssrc p) (p_mem p) with
  | None => (s, UPDATE_ERR)
  | Some jd =>
      let l := t_last s in
      if t_chg s =? 0 then
        (mkStat 1 (t_psent s) (t_precvd s) (t_dups s) (t_desync s) (t_resets s)
           (mkLast 1 (p_seq p) (p_seq p) (l_off l) (p_ssrc p) (mark (l_seen l) (p_seq p) (p_seq p)) (l_dups l) (p_seq p)) jd, UPDATE_OK)
      else if negb (l_ssrc l =? p_ssrc p) then
        (restart s (u32 (t_chg s + 1)) (t_desync s) (t_resets s) (p_ssrc p) (p_seq p) (p_seq p) jd, UPDATE_SSRC_CHG)
      else
        let seq := u32 (p_seq p + l_off l) in
        if p_mark p && ((seq <? l_max l) && negb (Z.land (l_max l) 65535 =? 65535)) then
          (restart s (t_chg s) (t_desync s) (u32 (t_resets s + 1)) (l_ssrc l) seq (p_seq p) jd, UPDATE_OK)
        else
          let go (seq off : Z) (seen : list Z) :=
            let upd_last pc mn mx dups seen :=
              mkStat (t_chg s) (t_psent s) (t_precvd s) (t_dups s) (t_desync s) (t_resets s)
                (mkLast pc mn mx off (l_ssrc l) seen dups (p_seq p)) jd in
            if marked seen seq then (upd_last (l_pcount l) (l_min l) (l_max l) (u32 (l_dups l + 1)) seen, UPDATE_OK)
            else
              let seen := mark seen seq (p_seq p) in
              if l_max l <=? seq then (upd_last (l_pcount l + 1) (l_min l) seq (l_dups l) seen, UPDATE_OK)
              else if l_min l <=? seq then (upd_last (l_pcount l + 1) (l_min l) (l_max l) (l_dups l) seen, UPDATE_OK)
              else if (off =? 0) && (seq <? l_min l) then (upd_last (l_pcount l + 1) seq (l_max l) (l_dups l) seen, UPDATE_OK)
              else (upd_last (l_pcount l) (l_min l) (l_max l) (l_dups l) seen, UPDATE_ERR) in
          if (l_max l mod 65536 <? 536) && (65000 <? p_seq p) then go (u32 (seq - 65536)) (l_off l) (l_seen l)
          else if (65000 <? l_max l) && (seq <? u32 (l_max l - 65000)) then
            let off := u32 (l_off l + 65536) in
            go (u32 (seq + 65536)) off (clear_half (l_seen l) off)
          else if (u32 (seq + 536) <? l_max l) || (u32 (l_max l + 536) <? seq) then
            (restart s (t_chg s) (u32 (t_desync s + 1)) (t_resets s) (l_ssrc l) seq (p_seq p) jd, UPDATE_OK)
          else go seq (l_off l) (l_seen l)
  end.

(** struct rtpp_analyzer_priv and rtpp_analyzer_update, src/rtpp_analyzer.c:49-55, 93-111; [None]: a packet
    that does not parse *)
Record ana := mkAna { a_stat : stat; a_pecount : Z; a_aecount : Z }.
Definition ana0 : ana := mkAna stat0 0 0.
Definition ana_update (a : ana) (p : option pkt) : ana :=
  match p with
  | None => mkAna (a_stat a) (u32 (a_pecount a + 1)) (a_aecount a)
  | Some p => match update (a_stat a) p with
              | (s, UPDATE_ERR) => mkAna s (a_pecount a) (u32 (a_aecount a + 1))
              | (s, _) => mkAna s (a_pecount a) (a_aecount a)
              end
  end.
Definition ana_run (a : ana) (ps : list (option pkt)) : ana := fold_left ana_update ps a.

(** rtpp_analyzer_get_stats, src/rtpp_analyzer.c:113-135 *)
Record report := mkRep { r_psent : Z; r_precvd : Z; r_plost : Z; r_pdups : Z; r_chg : Z; r_pecount : Z; r_aecount : Z }.
Definition get_stats (a : ana) : report :=
  let '(ps, pr, pd) := totals (a_stat a) in
  mkRep ps pr (u32 (ps - pr)) pd (t_chg (a_stat a)) (a_pecount a) (a_aecount a).
