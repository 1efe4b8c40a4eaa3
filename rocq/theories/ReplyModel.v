(** Model of the reply object, src/rtpp_command_reply.c:61-299, and of the code that builds replies.
    printf() is modelled for %d, %lu and %s; a %f conversion is given as its text. *)
From Verif Require Import Base Str.

(** Access outside of the buffer, failed assert(), normal return. *)
Inductive out (A : Type) := Oob | Abort | Ret (a : A).
Arguments Oob {A}. Arguments Abort {A}. Arguments Ret {A}.
Definition bind {A C} (x : out A) (f : A -> out C) : out C :=
  match x with Oob => Oob | Abort => Abort | Ret a => f a end.
Notation "'do' p <- x ; k" := (bind x (fun p => k)) (at level 200, p pattern, x at level 100, k at level 200).

(** struct rtpc_reply_priv, src/rtpp_command_reply.c:61-70. [rp_sent]: the replies handed to the
    network so far, each with the error flag that selects the statistics counter. *)
Definition RLEN : Z := 1024.
Record rep := mkRep { rp_buf : list Z; rp_ulen : Z; rp_clen : Z; rp_rlen : Z; rp_sent : list (list Z * bool) }.

(** rtpc_reply_ctor, src/rtpp_command_reply.c:109-127: zeroed memory. *)
Definition rep_ctor : rep := mkRep (repeat 0 1024) 0 0 0 [].

(** CBRL, src/rtpp_command_reply.c:104-105, in size_t arithmetic *)
Definition cbrl (s : rep) (fin : bool) : Z := u64 (RLEN - rp_ulen s - (if fin then 0 else rp_rlen s)).

(** Store of [bs] at CBP. *)
Definition put (s : rep) (bs : list Z) : out rep :=
  let o := rp_ulen s in
  if (0 <=? o) && (o + Z.of_nat (length bs) <=? Z.of_nat (length (rp_buf s))) then
    Ret (mkRep (firstn (Z.to_nat o) (rp_buf s) ++ bs ++ skipn (Z.to_nat o + length bs) (rp_buf s))
               (rp_ulen s) (rp_clen s) (rp_rlen s) (rp_sent s))
  else Oob.
Definition set_ulen (s : rep) (n : Z) : rep := mkRep (rp_buf s) n (rp_clen s) (rp_rlen s) (rp_sent s).

(** rtpc_reply_append, src/rtpp_command_reply.c:243-258. [bs]: the [len] bytes at buf. *)
Definition append (s : rep) (bs : list Z) (final : bool) : out (rep * Z) :=
  if cbrl s final <? Z.of_nat (length bs) then Ret (s, -1)
  else
    do s1 <- put s bs;
    match bs with
    | [] => Oob (* buf[len - 1] *)
    | _ => let len := if last bs 1 =? 0 then Z.of_nat (length bs) - 1 else Z.of_nat (length bs) in
           Ret (set_ulen s1 (rp_ulen s1 + len), 0)
    end.

(** rtpc_reply_appendf, src/rtpp_command_reply.c:260-277. [txt]: the complete formatted text. *)
Definition appendf (s : rep) (txt : list Z) : out (rep * Z) :=
  let n := cbrl s false in
  do s1 <- (if n =? 0 then Ret s else put s (firstn (Z.to_nat (n - 1)) txt ++ [0]));
  if Z.of_nat (length txt) >=? n then Ret (s1, -1)
  else Ret (set_ulen s1 (rp_ulen s1 + Z.of_nat (length txt)), 0).

(** rtpc_reply_commit, src/rtpp_command_reply.c:279-287 *)
Definition commit (s : rep) : rep := mkRep (rp_buf s) (rp_ulen s) (rp_ulen s) (rp_rlen s) (rp_sent s).

(** rtpc_reply_reserve, src/rtpp_command_reply.c:289-299 *)
Definition reserve (s : rep) (n : Z) : rep * Z :=
  if cbrl s true <? n then (s, -1) else (mkRep (rp_buf s) (rp_ulen s) (rp_clen s) n (rp_sent s), 0).

(** rtpc_reply_deliver, src/rtpp_command_reply.c:129-167: the first clen bytes are sent. *)
Definition deliver (s : rep) (errd : bool) : out rep :=
  if (0 <=? rp_clen s) && (rp_clen s <=? Z.of_nat (length (rp_buf s))) then
    Ret (mkRep (rp_buf s) (rp_ulen s) (rp_clen s) (rp_rlen s)
               (rp_sent s ++ [(firstn (Z.to_nat (rp_clen s)) (rp_buf s), errd)]))
  else Oob.

(** assert(x == 0) *)
Definition must (x : out (rep * Z)) : out rep := do (s, r) <- x; if r =? 0 then Ret s else Abort.

(** rtpc_reply_deliver_number / deliver_ok / deliver_error, src/rtpp_command_reply.c:169-179, 224-241 *)
Definition deliver_text (s : rep) (txt : list Z) (errd : bool) : out rep :=
  do s1 <- must (appendf (set_ulen s (rp_clen s)) txt);
  deliver (commit s1) errd.
Definition deliver_number (s : rep) (n : Z) : out rep := deliver_text s (fmt_d n ++ [10]) false.
Definition deliver_ok (s : rep) : out rep := deliver_number s 0.
Definition deliver_error (s : rep) (ecode : Z) : out rep := deliver_text s (B "E" ++ fmt_d ecode ++ [10]) true.

(** rtpc_reply_append_port_addr_s, src/rtpp_command_reply.c:181-187. [v6]: pf != AF_INET *)
Definition port_addr_text (addr : list Z) (port : Z) (v6 : bool) : list Z :=
  fmt_d port ++ B " " ++ addr ++ (if v6 then B " 6" else []).
Definition append_port_addr (s : rep) (addr : list Z) (port : Z) (v6 : bool) : out (rep * Z) :=
  appendf s (port_addr_text addr port v6).

(** rtpc_reply_deliver_port_addr, src/rtpp_command_reply.c:204-222 *)
Definition deliver_port_addr (s : rep) (addr : list Z) (port : Z) (v6 : bool) : out (rep * Z) :=
  do (s1, r) <- append_port_addr s addr port v6;
  if negb (r =? 0) then Ret (s1, r)
  else do (s2, r) <- append s1 [10; 0] true;
       if negb (r =? 0) then Ret (s2, r)
       else do s3 <- deliver (commit s2) false; Ret (s3, 0).

(** src/rtpp_command.c:419-420, for a cookie *)
Definition put_cookie (s : rep) (cookie : list Z) : out rep :=
  do s1 <- must (appendf s (cookie ++ B " ")); Ret (commit s1).

(** ** Query: src/commands/rpcpv1_query.c *)

(** The values a query can report: struct rtpps_pcount, rtpp_pcnts_strm, rtpa_stats and
    rtpa_stats_jitter, the latter and longest_ipi as printed by %f. *)
Record qstats := mkQstats {
  q_ttl : Z; q_ina : Z; q_ino : Z; q_relayed : Z; q_dropped : Z;
  q_nsent : Z; q_nrcvd : Z; q_ndups : Z; q_nlost : Z; q_perrs : Z;
  q_lipi : list Z; q_jlast : list Z; q_jmax : list Z; q_javg : list Z }.

(** handle_query_simple, src/commands/rpcpv1_query.c:67-88 *)
Definition query_simple_text (st : qstats) (verbose : bool) : list Z :=
  if verbose then
    B "ttl=" ++ fmt_d (q_ttl st) ++ B " npkts_ina=" ++ fmt_u (q_ina st) ++ B " npkts_ino=" ++ fmt_u (q_ino st) ++
    B " nrelayed=" ++ fmt_u (q_relayed st) ++ B " ndropped=" ++ fmt_u (q_dropped st)
  else
    fmt_d (q_ttl st) ++ B " " ++ fmt_u (q_ina st) ++ B " " ++ fmt_u (q_ino st) ++ B " " ++
    fmt_u (q_relayed st) ++ B " " ++ fmt_u (q_dropped st).

(** The comparisons of src/commands/rpcpv1_query.c:161-244, in order. *)
Definition query_field (st : qstats) (name : list Z) : option (list Z) :=
  if beq name (B "ttl") then Some (fmt_d (q_ttl st))
  else if beq name (B "npkts_ina") then Some (fmt_u (q_ina st))
  else if beq name (B "npkts_ino") then Some (fmt_u (q_ino st))
  else if beq name (B "longest_ipi") then Some (q_lipi st)
  else if beq name (B "rtpa_jlast") then Some (q_jlast st)
  else if beq name (B "rtpa_jmax") then Some (q_jmax st)
  else if beq name (B "rtpa_javg") then Some (q_javg st)
  else if beq name (B "nrelayed") then Some (fmt_u (q_relayed st))
  else if beq name (B "ndropped") then Some (fmt_u (q_dropped st))
  else if beq name (B "rtpa_nsent") then Some (fmt_u (q_nsent st))
  else if beq name (B "rtpa_nrcvd") then Some (fmt_u (q_nrcvd st))
  else if beq name (B "rtpa_ndups") then Some (fmt_u (q_ndups st))
  else if beq name (B "rtpa_nlost") then Some (fmt_u (q_nlost st))
  else if beq name (B "rtpa_perrs") then Some (fmt_u (q_perrs st))
  else None.

(** The loop common to handle_query (src/commands/rpcpv1_query.c:150-250) and handle_get_stats
    (src/commands/rpcpv1_stats.c:59-75). [lookup] gives the text of a counter, [first] is i == 4
    (or 1). Result: 0 or the error code: [ebig] when a text did not fit, [eunk] for an unknown name.
    handle_get_stats reports [eunk] also when the value does not fit ([vfail]). *)
Fixpoint field_loop (lookup : list Z -> option (list Z)) (verbose : bool) (ebig eunk vfail : Z)
         (names : list (list Z)) (first : bool) (s : rep) : out (rep * Z) :=
  match names with
  | [] => Ret (s, 0)
  | name :: names' =>
      do (s1, r) <- (if first then Ret (s, 0) else appendf s (B " "));
      if negb (r =? 0) then Ret (s1, ebig)
      else
        do (s2, r) <- (if verbose then appendf s1 (name ++ B "=") else Ret (s1, 0));
        if negb (r =? 0) then Ret (s2, ebig)
        else match lookup name with
             | None => Ret (s2, eunk)
             | Some v =>
                 do (s3, r) <- appendf s2 v;
                 if negb (r =? 0) then Ret (s3, vfail)
                 else field_loop lookup verbose ebig eunk vfail names' false s3
             end
  end.

Definition ECODE_PARSE_8 : Z := 19.
Definition ECODE_RTOOBIG_1 : Z := 25.
Definition ECODE_RTOOBIG_2 : Z := 26.
Definition ECODE_QRYFAIL : Z := 62.
Definition ECODE_STSFAIL : Z := 68.

(** The modifiers of a query or statistics command, src/commands/rpcpv1_query.c:131-144 and
    src/rtpp_command.c:566-580: [None]: unknown modifier. *)
Fixpoint verbose_mods (mods : list Z) (verbose : bool) : option bool :=
  match mods with
  | [] => Some verbose
  | c :: t => if (c =? 118) || (c =? 86) then verbose_mods t true else None
  end.

(** Outcome of a sub-command: struct rtpp_subc_resp, src/rtpp_command_sub.h:35-38 *)
Record subres := mkSubres { sr_result : Z; sr_text : list Z }.

(** src/commands/rpcpv1_query.c:272-278: "while (skipped >= 0)". [rs]: the results from the oldest
    skipped one to the failed one. Second component: aerr. *)
Fixpoint put_results (rs : list subres) (s : rep) : out (rep * Z) :=
  match rs with
  | [] => Ret (s, 0)
  | r :: rs' =>
      do (s1, e) <- appendf s (B " && " ++ fmt_d (sr_result r));
      if negb (e =? 0) then Ret (s1, e) else put_results rs' s1
  end.
(** src/commands/rpcpv1_query.c:282-287: "while (skipped > 0)". Second component: skipped. *)
Fixpoint put_oks (n : nat) (s : rep) : out (rep * nat) :=
  match n with
  | O => Ret (s, O)
  | S n' => do (s1, e) <- appendf s (B " && 0"); if negb (e =? 0) then Ret (s1, n) else put_oks n' s1
  end.

(** src/commands/rpcpv1_query.c:261-295. [past]: the results before [results]; [skipped]: how many of
    the last ones have not been put in the reply. *)
Fixpoint query_subc (past results : list subres) (skipped : nat) (s : rep) : out (rep * Z) :=
  match results with
  | [] => Ret (s, 0)
  | r :: rest =>
      let s0 := commit s in
      if negb (sr_result r =? 0) then put_results (skipn (length past - skipped) past ++ [r]) s0
      else match sr_text r with
           | [] => query_subc (past ++ [r]) rest (S skipped) s0
           | _ =>
               do (s1, rem) <- put_oks skipped s0;
               do (s2, e) <- appendf s1 (B " && " ++ sr_text r);
               if negb (e =? 0) then Ret (s2, e) else query_subc (past ++ [r]) rest rem s2
           end
  end.

(** handle_query, src/commands/rpcpv1_query.c:119-302. [names]: args.v[4..]; [few]: args.c <= 4.
    Second component: the return value; it is 0 when the reply has been delivered. *)
Definition handle_query (s : rep) (mods : list Z) (few : bool) (names : list (list Z)) (st : qstats)
           (subc : list subres) : out (rep * Z) :=
  match verbose_mods mods false with
  | None => Ret (s, ECODE_PARSE_8)
  | Some verbose =>
      do (s1, e) <- (if few then do (s1, _) <- appendf s (query_simple_text st verbose); Ret (s1, 0)
                     else field_loop (query_field st) verbose ECODE_RTOOBIG_2 ECODE_QRYFAIL ECODE_RTOOBIG_2 names true s);
      if negb (e =? 0) then Ret (s1, e)
      else
        do s2 <- (match subc with [] => Ret s1 | _ => must (Ret (reserve s1 7)) end);
        do (s3, aerr) <- query_subc [] subc 0 s2;
        do s4 <- (if negb (aerr =? 0) then must (append s3 (B " && -1") true) else Ret s3);
        do s5 <- must (append s4 [10; 0] true);
        do s6 <- deliver (commit s5) false;
        Ret (s6, 0)
  end.

(** The query branch of handle_command, src/rtpp_command.c:689-694 *)
Definition run_query (s : rep) (mods : list Z) (few : bool) (names : list (list Z)) (st : qstats) (subc : list subres) : out rep :=
  do (s1, rval) <- handle_query s mods few names st subc;
  if negb (rval =? 0) then deliver_error s1 rval else Ret s1.

(** handle_get_stats, src/commands/rpcpv1_stats.c:54-80, and its caller, src/rtpp_command.c:565-585.
    [lookup]: rtpp_stats_nstr, src/rtpp_stats.c:337-362. *)
Definition run_get_stats (s : rep) (mods : list Z) (names : list (list Z)) (lookup : list Z -> option (list Z)) : out rep :=
  match verbose_mods mods false with
  | None => deliver_error s 9
  | Some verbose =>
      do (s1, e) <- field_loop lookup verbose ECODE_RTOOBIG_1 ECODE_STSFAIL ECODE_STSFAIL names true s;
      if negb (e =? 0) then deliver_error s1 e
      else do s2 <- must (append s1 [10; 0] true); deliver (commit s2) false
  end.

(** ** Update/lookup: ul_reply_port, src/commands/rpcpv1_ul.c:132-179. [main]: the text of the port
    (and address). *)
Fixpoint ul_oks (n : nat) (s : rep) : out (rep * Z) :=
  match n with
  | O => Ret (s, 0)
  | S n' => do (s1, e) <- append s (B " && 0") false; if negb (e =? 0) then Ret (s1, e) else ul_oks n' s1
  end.
Fixpoint ul_subc (results : list subres) (skipped : nat) (s : rep) : out (rep * Z) :=
  match results with
  | [] => Ret (s, 0)
  | r :: rest =>
      if negb (sr_result r =? 0) then
        do (s1, e) <- ul_oks skipped s;
        if negb (e =? 0) then Ret (s1, e)
        else do (s2, e) <- appendf s1 (B " && " ++ fmt_d (sr_result r));
             if negb (e =? 0) then Ret (s2, e) else ul_subc rest 0 s2
      else match sr_text r with
           | [] => ul_subc rest (S skipped) s
           | _ =>
               do (s1, e) <- ul_oks skipped s;
               if negb (e =? 0) then Ret (s1, e)
               else do (s2, e) <- appendf s1 (B " && " ++ sr_text r);
                    if negb (e =? 0) then Ret (s2, e) else ul_subc rest 0 s2
           end
  end.
Definition ul_reply_port (s : rep) (main : list Z) (subc : list subres) (errd : bool) : out rep :=
  do s1 <- must (Ret (reserve s 2));
  do s2 <- must (appendf s1 main);
  do s3 <- (match subc with [] => Ret s2 | _ => must (Ret (reserve s2 8)) end);
  do (s4, e) <- ul_subc subc 0 s3;
  do s5 <- (if negb (e =? 0) then must (append s4 (B " && -1") true) else Ret s4);
  do s6 <- must (append s5 [10; 0] true);
  deliver (commit s6) errd.

(** handle_info, src/rtpp_command.c:710-815 (the part that is compiled). The numbers: sessions
    created, active sessions, active streams, packets received, packets transmitted; [load] is the
    text of the average load. *)
Fixpoint info_mods (mods : list Z) (load : bool) : option bool :=
  match mods with
  | [] => Some load
  | c :: t => if (c =? 98) || (c =? 66) then info_mods t load
              else if (c =? 108) || (c =? 76) then info_mods t true else None
  end.
Definition info_text (created active streams rcvd sent : Z) : list Z :=
  B "sessions created: " ++ fmt_u created ++ [10] ++ B "active sessions: " ++ fmt_d active ++ [10] ++
  B "active streams: " ++ fmt_d streams ++ [10] ++ B "packets received: " ++ fmt_u rcvd ++ [10] ++
  B "packets transmitted: " ++ fmt_u sent ++ [10].
Definition handle_info (s : rep) (mods : list Z) (created active streams rcvd sent : Z) (load : list Z) : out rep :=
  match info_mods mods false with
  | None => deliver_error s 18
  | Some l =>
      do (s1, e) <- appendf s (info_text created active streams rcvd sent);
      do (s2, e) <- (if l && (e =? 0) then appendf s1 (B "average load: " ++ load ++ [10]) else Ret (s1, e));
      if e =? 0 then deliver (commit s2) false else deliver_error s2 86
  end.

(** The end of handle_copy, src/commands/rpcpv1_copy.c:163-168, and its caller,
    src/rtpp_command.c:681-685 *)
Definition copy_reply (s : rep) (addr : list Z) (port : Z) (v6 : bool) : out rep :=
  do (s1, r) <- deliver_port_addr s addr port v6;
  if negb (r =? 0) then deliver_error s1 65 else Ret s1.

(** ** Everything that answers a command *)
Inductive handler :=
| HNumber (n : Z)                                                       (* deliver_number, deliver_ok *)
| HError (ecode : Z)
| HCopy (addr : list Z) (port : Z) (v6 : bool)
| HQuery (mods : list Z) (few : bool) (names : list (list Z)) (st : qstats) (subc : list subres)
| HStats (mods : list Z) (names : list (list Z)) (lookup : list Z -> option (list Z))
| HUl (main : list Z) (subc : list subres) (errd : bool)
| HInfo (mods : list Z) (created active streams rcvd sent : Z) (load : list Z).
Definition answer (h : handler) (s : rep) : out rep :=
  match h with
  | HNumber n => deliver_number s n
  | HError e => deliver_error s e
  | HCopy a p v => copy_reply s a p v
  | HQuery m f n st sub => run_query s m f n st sub
  | HStats m n l => run_get_stats s m n l
  | HUl m sub e => ul_reply_port s m sub e
  | HInfo m c a st r se l => handle_info s m c a st r se l
  end.
(** A command with or without a cookie: src/rtpp_command.c:406-422, then the handler. *)
Definition exec_reply (cookie : option (list Z)) (h : handler) : out rep :=
  do s <- (match cookie with Some c => put_cookie rep_ctor c | None => Ret rep_ctor end); answer h s.
