(** Model of the session table and of the commands that change it: compare_session_tags, find_stream
    (src/rtpp_session.c:341-431), delete (src/commands/rpcpv1_delete.c:75-164), update and lookup
    (src/rtpp_command.c:591-698, src/commands/rpcpv1_ul.c:648-994), delete all (src/rtpp_command.c:489-495) and the
    removal of a timed out session (src/rtpp_proc_ttl.c:82-109).
    Simplified: the hash table is the list of its entries in insertion order (justified by
    hash_table_is_multimap, HashThm.v); rtpp_create_listener is an oracle for the port found (the search
    itself: PortModel.v); library mode (packet ports), time-to-live values, notification, prefilled
    addresses, codecs and sub-commands are left out. *)
From Verif Require Import Base.

(** memcmp() *)
Fixpoint beq (a b : list Z) : bool :=
  match a, b with
  | [], [] => true
  | x :: a, y :: b => (x =? y) && beq a b
  | _, _ => false
  end.
Definition SEMI : Z := 59.

(** compare_session_tags, src/rtpp_session.c:341-359, without the media number (it is only logged) *)
Definition compare_session_tags (tag1 tag0 : list Z) : Z :=
  if (length tag1 <? length tag0)%nat then 0
  else if beq (firstn (length tag0) tag1) tag0 then
    if (length tag1 =? length tag0)%nat then 1
    else if nth (length tag0) tag1 0 =? SEMI then 2 else 0
  else 0.

(** strrchr(s, ';') *)
Fixpoint strrchr (s : list Z) : option (list Z) :=
  match s with
  | [] => None
  | c :: t => match strrchr t with
              | Some r => Some r
              | None => if c =? SEMI then Some (c :: t) else None
              end
  end.

(** struct rtpp_stream: port, has a socket, weak flag, local address *)
Record strm := mkStrm { st_port : Z; st_skt : bool; st_weak : bool; st_laddr : Z }.
(** struct rtpp_session: seuid, call_id, from_tag, strong, complete, rtp->stream[0], [1]; the RTCP streams
    have port + 1. *)
Record sess := mkSess { s_uid : Z; s_call : list Z; s_tag : list Z; s_strong : bool; s_complete : bool; s_st0 : strm; s_st1 : strm }.

(** rtpp_session_ematch, src/rtpp_session.c:368-412: the side, [None]: continue *)
Definition ematch (from : list Z) (to : option (list Z)) (s : sess) : option Z :=
  if beq (s_tag s) from then Some 0
  else match to with
       | None => None
       | Some to =>
           let c := compare_session_tags (s_tag s) to in
           if c =? 1 then Some 1
           else if c =? 2 then
             match strrchr (s_tag s), strrchr from with
             | Some cp1, Some cp2 => if beq cp1 cp2 then Some 1 else None
             | _, _ => None
             end
           else None
       end.

(** find_stream, src/rtpp_session.c:414-431, with the walk of the table: first entry of the call *)
Fixpoint find_stream (ht : list sess) (call from : list Z) (to : option (list Z)) : option (sess * Z) :=
  match ht with
  | [] => None
  | s :: t => if beq (s_call s) call then
                match ematch from to s with Some i => Some (s, i) | None => find_stream t call from to end
              else find_stream t call from to
  end.

(** Tables: sessions_ht, the uids in sessions_wrt, the next uid *)
Record table := mkTab { t_ht : list sess; t_wrt : list Z; t_next : Z }.
Definition table0 : table := mkTab [] [] 0.

Definition set_weak (x : strm) (w : bool) : strm := mkStrm (st_port x) (st_skt x) w (st_laddr x).
(** flags change of rtpp_cmd_delete_ematch, lines 98-101 *)
Definition clear_flag (s : sess) (weak : bool) (idx : Z) : sess :=
  if weak then
    if idx =? 0 then mkSess (s_uid s) (s_call s) (s_tag s) (s_strong s) (s_complete s) (set_weak (s_st0 s) false) (s_st1 s)
    else mkSess (s_uid s) (s_call s) (s_tag s) (s_strong s) (s_complete s) (s_st0 s) (set_weak (s_st1 s) false)
  else mkSess (s_uid s) (s_call s) (s_tag s) false (s_complete s) (s_st0 s) (s_st1 s).
Definition held (s : sess) : bool := s_strong s || st_weak (s_st0 s) || st_weak (s_st1 s).

(** rtpp_cmd_delete_ematch, src/commands/rpcpv1_delete.c:75-123: idx and cmpr *)
Definition del_match (from : list Z) (to : option (list Z)) (s : sess) : option (Z * Z) :=
  let c1 := compare_session_tags (s_tag s) from in
  if negb (c1 =? 0) then Some (1, c1)
  else match to with
       | None => None
       | Some to => let c2 := compare_session_tags (s_tag s) to in if negb (c2 =? 0) then Some (0, c2) else None
       end.

(** one foreach_key_str pass: the table, how many flags were removed, the deleted session with cmpr *)
Fixpoint del_pass (ht : list sess) (call from : list Z) (to : option (list Z)) (weak : bool) : list sess * Z * option (sess * Z) :=
  match ht with
  | [] => ([], 0, None)
  | s :: t =>
      if beq (s_call s) call then
        match del_match from to s with
        | None => let '(t', n, d) := del_pass t call from to weak in (s :: t', n, d)
        | Some (idx, cmpr) =>
            let s' := clear_flag s weak idx in
            if held s' then let '(t', n, d) := del_pass t call from to weak in (s' :: t', n + 1, d)
            else (t, 0, Some (s', cmpr))
        end
      else let '(t', n, d) := del_pass t call from to weak in (s :: t', n, d)
  end.

(** do_delete, src/commands/rpcpv1_delete.c:130-148; each pass but the last removes a session.
    [None]: out of fuel *)
Definition mem (x : Z) (l : list Z) : bool := existsb (Z.eqb x) l.
Definition unreg (x : Z) (l : list Z) : list Z := filter (fun y => negb (y =? x)) l.
Fixpoint do_delete (fuel : nat) (tb : table) (call from : list Z) (to : option (list Z)) (weak : bool) (ndeleted : Z) : option (table * Z) :=
  match fuel with
  | O => None
  | S fuel =>
      match del_pass (t_ht tb) call from to weak with
      | (ht, n, None) => let nd := ndeleted + n in
          Some (mkTab ht (t_wrt tb) (t_next tb), if nd =? 0 then -1 else 0)
      | (ht, n, Some (s, cmpr)) =>
          let nd := ndeleted + n + (if mem (s_uid s) (t_wrt tb) then 1 else 0) in
          let tb' := mkTab ht (unreg (s_uid s) (t_wrt tb)) (t_next tb) in
          if cmpr =? 2 then do_delete fuel tb' call from to weak nd
          else Some (tb', if nd =? 0 then -1 else 0)
      end
  end.

(** struct ul_opts: weak, new_port, local_addr, lidx == -1, lia[0], lia[1] *)
Record ulopts := mkUl { o_weak : bool; o_new : bool; o_local : option Z; o_nolidx : bool; o_lia0 : Z; o_lia1 : Z }.
Inductive reply := RPort (port addr : Z) | RZero | RErr | ROk.

(** replace the session object with the same uid *)
Definition put (ht : list sess) (s : sess) : list sess := map (fun x => if s_uid x =? s_uid s then s else x) ht.
Definition stream (s : sess) (i : Z) : strm := if i =? 0 then s_st0 s else s_st1 s.
Definition set_stream (s : sess) (i : Z) (x : strm) (strong complete : bool) : sess :=
  if i =? 0 then mkSess (s_uid s) (s_call s) (s_tag s) strong complete x (s_st1 s)
  else mkSess (s_uid s) (s_call s) (s_tag s) strong complete (s_st0 s) x.

(** rtpp_command_ul_handle_impl for an existing session, src/commands/rpcpv1_ul.c:683-777, sidx = i;
    [listen]: the port that rtpp_create_listener finds *)
Definition ul_existing (tb : table) (is_update : bool) (o : ulopts) (listen : option Z) (s : sess) (i : Z) : table * reply :=
  let x := stream s i in
  let finish x complete :=
    let x' := if o_weak o then set_weak x true else x in
    let strong := if negb (o_weak o) && is_update then true else s_strong s in
    (mkTab (put (t_ht tb) (set_stream s i x' strong complete)) (t_wrt tb) (t_next tb), RPort (st_port x') (st_laddr x')) in
  if negb (st_skt x) || (st_port x =? 0) || o_new o then
    let la := match o_local o with
              | Some a => a
              | None => if o_new o && o_nolidx o then o_lia0 o else st_laddr x
              end in
    match listen with
    | None => (mkTab (put (t_ht tb) (set_stream s i (mkStrm (st_port x) (st_skt x) (st_weak x) la) (s_strong s) (s_complete s))) (t_wrt tb) (t_next tb), RErr)
    | Some p => finish (mkStrm p true (st_weak x) la) true
    end
  else finish x (s_complete s).

(** rtpp_session_ctor and lines 778-882: [listen] as above; [refuse]: slow shutdown, overload or lack of memory *)
Definition ul_new (tb : table) (call from : list Z) (o : ulopts) (listen : option Z) (refuse : bool) : table * reply :=
  let la0 := match o_local o with Some a => a | None => o_lia0 o end in
  let la1 := match o_local o with Some a => a | None => o_lia1 o end in
  if refuse then (tb, RErr)
  else match listen with
       | None => (tb, RErr)
       | Some p =>
           let s := mkSess (t_next tb) call from (negb (o_weak o)) false (mkStrm p true (o_weak o) la0) (mkStrm 0 false false la1) in
           (mkTab (t_ht tb ++ [s]) (t_next tb :: t_wrt tb) (t_next tb + 1), RPort p la0)
       end.

Inductive cmd :=
| Update (call from : list Z) (to : option (list Z)) (o : ulopts)
| Lookup (call from : list Z) (to : option (list Z)) (o : ulopts)
| Delete (call from : list Z) (to : list Z) (weak : bool)
| DeleteAll
| Timeout (uid : Z).

(** handle_command, src/rtpp_command.c:605-698, and the other events. A missing to_tag of a delete
    command is the empty string (src/rtpp_command.c pre_parse). *)
Definition step (tb : table) (c : cmd) (listen : option Z) (refuse : bool) : option (table * reply) :=
  match c with
  | Update call from to o =>
      match find_stream (t_ht tb) call from to with
      | Some (s, i) => Some (ul_existing tb true o listen s i)
      | None => Some (ul_new tb call from o listen refuse)
      end
  | Lookup call from to o =>
      match find_stream (t_ht tb) call from to with
      | Some (s, i) => Some (ul_existing tb false o listen s (1 - i))
      | None => Some (tb, RZero)
      end
  | Delete call from to weak =>
      match do_delete (S (length (t_ht tb))) tb call from (Some to) weak 0 with
      | Some (tb', r) => Some (tb', if r =? -1 then RErr else ROk)
      | None => None
      end
  | DeleteAll => Some (mkTab [] [] (t_next tb), ROk)
  | Timeout uid => Some (mkTab (filter (fun s => negb (s_uid s =? uid)) (t_ht tb)) (unreg uid (t_wrt tb)) (t_next tb), ROk)
  end.

(** A history of commands, each with what the environment does to it. *)
Definition event := (cmd * option Z * bool)%type.
Fixpoint run (tb : table) (es : list event) : option (table * list (event * reply)) :=
  match es with
  | [] => Some (tb, [])
  | (c, l, r) :: t =>
      match step tb c l r with
      | None => None
      | Some (tb1, rep) => match run tb1 t with Some (tb2, tr) => Some (tb2, ((c, l, r), rep) :: tr) | None => None end
      end
  end.
