(** Model of commands with sub-commands: U and L (src/commands/rpcpv1_ul.c:648-994) and Q (src/commands/rpcpv1_query.c:252-302) followed by L, D and S
    sub-commands (src/commands/rpcpv1_ul_subc.c:91-119, src/commands/rpcpv1_delete.c:166-180, src/commands/rpcpv1_ul_subc_set.c:55-121), on top of the session table of SessModel.v.
    Added to a session: the time to live of its streams and the type of service of its sockets. Simplified: what a U or L
    command sets on the other stream (remote addresses, codecs, packet size, asymmetric) is one value; C and M sub-commands are results only. *)
From Verif Require Import Base SessModel.
From Verif Require TtlModel.
Import TtlModel (ttl, mkTtl, max_ttl, cur_ttl, ttl_ctor, pipe_ttl, Shared, Indep, SideO, SideA, pipe_reset, pipe_reset_with, pipe_decr_ttl).

(** A stream beyond SessModel.strm: stream_ttl, tos, tos of the RTCP stream, laddr of the RTCP stream, the two sockets (IPv4; type of service of the RTP one and of the RTCP one, 0
    if it was not set), what the last U or L command for it has set *)
Record sx := mkSx { sx_sttl : Z; sx_tos : Z; sx_ctos : Z; sx_claddr : Z; sx_sock : option (bool * Z * Z); sx_media : Z }.
Record ext := mkExt { x_ttl : pipe_ttl; x_0 : sx; x_1 : sx }.
Definition xside (e : ext) (i : Z) : sx := if i =? 0 then x_0 e else x_1 e.
Definition xset (e : ext) (i : Z) (x : sx) : ext := if i =? 0 then mkExt (x_ttl e) x (x_1 e) else mkExt (x_ttl e) (x_0 e) x.
Definition with_ttl (e : ext) (t : pipe_ttl) : ext := mkExt t (x_0 e) (x_1 e).
Definition with_sttl (x : sx) (v : Z) : sx := mkSx v (sx_tos x) (sx_ctos x) (sx_claddr x) (sx_sock x) (sx_media x).
Definition with_sock (x : sx) (k : option (bool * Z * Z)) : sx := mkSx (sx_sttl x) (sx_tos x) (sx_ctos x) (sx_claddr x) k (sx_media x).
Definition with_media (x : sx) (m : Z) : sx := mkSx (sx_sttl x) (sx_tos x) (sx_ctos x) (sx_claddr x) (sx_sock x) m.
Definition with_tos (x : sx) (v : Z) : sx :=
  mkSx (sx_sttl x) v (sx_ctos x) (sx_claddr x) (match sx_sock x with Some (f, _, b) => Some (f, v, b) | None => None end) (sx_media x).
Definition with_ctos (x : sx) (v : Z) : sx :=
  mkSx (sx_sttl x) (sx_tos x) v (sx_claddr x) (match sx_sock x with Some (f, a, _) => Some (f, a, v) | None => None end) (sx_media x).

(** The session table and the extended sessions *)
Record sys := mkSys { y_tb : table; y_ext : Z -> ext }.
Definition fset (f : Z -> ext) (i : Z) (x : ext) : Z -> ext := fun j => if j =? i then x else f j.
Definition tside (i : Z) : TtlModel.side := if i =? 0 then SideO else SideA.

(** struct ul_opts *)
Record uopts := mkU { u_o : ulopts; u_media : Z }.
(** Sub-commands, with what the system answers: the port that is found; whether setsockopt fails for the two sockets; C and M: the result *)
Inductive sub :=
| SubL (u : uopts) (listen : option Z) | SubD (weak : bool) | SubTtl (rev : bool) (v : Z) | SubTos (rev : bool) (v : Z) (f0 f1 : bool) | SubOther (r : Z).
(** What was set on which stream of which session, and with which result *)
Inductive done := DTtl (uid side v : Z) | DTos (uid side v r : Z).
(** struct rtpp_subc_env, src/rtpp_command_sub.h:40-44: the session and the index of strmp_in *)
Record cursor := mkCur { k_s : sess; k_in : Z }.

Section chain.
  (** ttl_mode is not TTL_INDEPENDENT; max_setup_ttl, max_ttl, tos of the configuration; whether an address is an IPv4 one *)
  Context (c_shared : bool) (c_setup c_max c_tos : Z) (v4 : Z -> bool).

  (** create_twinlistener, src/rtpp_command.c:133-135: the type of service of new sockets *)
  Definition fresh (la tos : Z) : option (bool * Z * Z) := if v4 la && (tos >=? 0) then Some (v4 la, tos, tos) else Some (v4 la, 0, 0).

  (** rtpp_stream_ctor, src/rtpp_stream.c:352-356; rtpp_session_ctor, src/rtpp_session.c:114-190 *)
  Definition ext_new (la0 la1 media : Z) : ext :=
    mkExt (if c_shared then Shared (ttl_ctor c_setup) else Indep (ttl_ctor c_setup) (ttl_ctor c_setup))
      (mkSx c_max c_tos c_tos la0 (fresh la0 c_tos) 0) (mkSx c_max c_tos c_tos la1 None media).

  (** A listener is needed, src/commands/rpcpv1_ul.c:689-690 *)
  Definition listens (o : ulopts) (s : sess) (i : Z) : bool := negb (st_skt (stream s i)) || (st_port (stream s i) =? 0) || o_new o.
  (** The session after a command on an existing one, src/commands/rpcpv1_ul.c:683-764, as SessModel.ul_existing *)
  Definition ul_sess (is_update : bool) (o : ulopts) (listen : option Z) (s : sess) (i : Z) : sess * reply :=
    let x := stream s i in
    let finish x complete :=
      let x' := if o_weak o then set_weak x true else x in
      let strong := if negb (o_weak o) && is_update then true else s_strong s in
      (set_stream s i x' strong complete, RPort (st_port x') (st_laddr x')) in
    if listens o s i then
      let la := match o_local o with Some a => a | None => if o_new o && o_nolidx o then o_lia0 o else st_laddr x end in
      match listen with
      | None => (set_stream s i (mkStrm (st_port x) (st_skt x) (st_weak x) la) (s_strong s) (s_complete s), RErr)
      | Some p => finish (mkStrm p true (st_weak x) la) true
      end
    else finish x (s_complete s).
  (** Lines 714-754, 773-774, 917-964: sockets, times to live, what is set on the other stream. [s]: before, [la]: the local address after *)
  Definition ext_ul (e : ext) (s : sess) (i la : Z) (listened : bool) (media : Z) : ext :=
    let e1 := if listened then xset e i (with_sock (xside e i) (fresh la (sx_tos (xside e i)))) else e in
    let e2 := if listened && negb (s_complete s)
              then with_ttl e1 (pipe_reset_with (pipe_reset_with (x_ttl e1) SideO (sx_sttl (x_0 e1))) SideA (sx_sttl (x_1 e1))) else e1 in
    let e3 := with_ttl e2 (pipe_reset (pipe_reset (x_ttl e2) SideO) SideA) in
    xset e3 (1 - i) (with_media (xside e3 (1 - i)) media).
  (** rtpp_command_ul_handle_impl with sidx = i, without the sub-commands *)
  Definition ul_one (y : sys) (is_update : bool) (u : uopts) (listen : option Z) (s : sess) (i : Z) : sys * sess * reply :=
    let '(s', rep) := ul_sess is_update (u_o u) listen s i in
    let tb' := mkTab (put (t_ht (y_tb y)) s') (t_wrt (y_tb y)) (t_next (y_tb y)) in
    match rep with
    | RPort _ _ => (mkSys tb' (fset (y_ext y) (s_uid s) (ext_ul (y_ext y (s_uid s)) s i (st_laddr (stream s' i)) (listens (u_o u) s i) (u_media u))), s', rep)
    | _ => (mkSys tb' (y_ext y), s', rep)
    end.

  (** The session of the cursor after a delete: as it is in the table, or without the flag *)
  Definition refetch (ht : list sess) (s : sess) (weak : bool) : sess :=
    match find (fun x => s_uid x =? s_uid s) ht with Some x => x | None => clear_flag s weak 1 end.

  (** SET_PRM_TTL, src/commands/rpcpv1_ul_subc_set.c:99-104 *)
  Definition set_ttl (e : ext) (d v : Z) : ext :=
    let e1 := xset e d (with_sttl (xside e d) v) in
    let e2 := match x_ttl e with Shared _ => xset e1 (1 - d) (with_sttl (xside e1 (1 - d)) v) | Indep _ _ => e1 end in
    with_ttl e2 (pipe_reset_with (x_ttl e2) (tside d) v).
  (** SET_PRM_TOS, lines 106-116, with strmp_settos, lines 55-72 *)
  Definition set_tos (s : sess) (e : ext) (d v : Z) (f0 f1 : bool) : ext * Z :=
    let x := xside e d in
    let skt := match sx_sock x with Some _ => true | None => false end in
    if negb (v4 (st_laddr (stream s d))) || (skt && f0) then (e, -1)
    else
      let x1 := with_tos x v in
      if negb (v4 (sx_claddr x)) || (skt && f1) then (xset e d x1, -1)
      else (xset e d (with_ctos x1 v), 0).

  (** One sub-command: the state, the cursor, the result with the answer of a lookup, and what was set. [None]: no end *)
  Definition run_sub (y : sys) (k : cursor) (b : sub) : option (sys * cursor * (Z * option reply) * list done) :=
    match b with
    | SubL u listen =>
        let '(y', s', rep) := ul_one y false u listen (k_s k) (k_in k) in
        match rep with
        | RPort _ _ => Some (y', mkCur s' (1 - k_in k), (0, Some rep), [])
        | _ => Some (y', mkCur s' (k_in k), (-1, None), [])
        end
    | SubD weak =>
        match do_delete (S (length (t_ht (y_tb y)))) (y_tb y) (s_call (k_s k)) (s_tag (k_s k)) None weak 0 with
        | Some (tb', r) => Some (mkSys tb' (y_ext y), mkCur (refetch (t_ht tb') (k_s k) weak) (k_in k), (r, None), [])
        | None => None
        end
    | SubTtl rev v =>
        let d := if rev then 1 - k_in k else k_in k in let uid := s_uid (k_s k) in
        Some (mkSys (y_tb y) (fset (y_ext y) uid (set_ttl (y_ext y uid) d v)), k, (0, None), [DTtl uid d v])
    | SubTos rev v f0 f1 =>
        let d := if rev then 1 - k_in k else k_in k in let uid := s_uid (k_s k) in
        let '(e, r) := set_tos (k_s k) (y_ext y uid) d v f0 f1 in
        Some (mkSys (y_tb y) (fset (y_ext y) uid e), k, (r, None), [DTos uid d v r])
    | SubOther r => Some (y, k, (r, None), [])
    end.
  (** The loops of src/commands/rpcpv1_ul.c:975-986 and src/commands/rpcpv1_query.c:261-297 *)
  Fixpoint run_subs (y : sys) (k : cursor) (bs : list sub) : option (sys * list (Z * option reply) * list done) :=
    match bs with
    | [] => Some (y, [], [])
    | b :: t =>
        match run_sub y k b with
        | None => None
        | Some (y1, k1, r, d1) =>
            if negb (fst r =? 0) then Some (y1, [r], d1)
            else match run_subs y1 k1 t with None => None | Some (y2, rs, d2) => Some (y2, r :: rs, d1 ++ d2) end
        end
    end.

  Inductive cmd :=
  | CUpdate (call from : list Z) (to : option (list Z)) (u : uopts) (listen : option Z) (refuse : bool) (subs : list sub)
  | CLookup (call from : list Z) (to : option (list Z)) (u : uopts) (listen : option Z) (subs : list sub)
  | CQuery (call from : list Z) (to : option (list Z)) (ok : bool) (subs : list sub)
  | CDelete (call from to : list Z) (weak : bool) | CDeleteAll | CTimeout (uid : Z)
  | CTick | CMedia (uid side : Z).
  (** The answer: of the command and of the sub-commands that were run *)
  Definition answer := (reply * list (Z * option reply))%type.
  Definition then_subs (y : sys) (rep : reply) (k : cursor) (bs : list sub) : option (sys * answer * list done) :=
    match run_subs y k bs with None => None | Some (y', rs, d) => Some (y', (rep, rs), d) end.
  (** handle_command, src/rtpp_command.c:605-698; the other events of SessModel.v; a second passes (src/rtpp_proc_ttl.c:82-109); a packet comes in (src/rtpp_proc_async.c:275) *)
  Definition step (y : sys) (c : cmd) : option (sys * answer * list done) :=
    match c with
    | CUpdate call from to u listen refuse subs =>
        match find_stream (t_ht (y_tb y)) call from to with
        | Some (s, i) =>
            let '(y', s', rep) := ul_one y true u listen s i in
            match rep with RPort _ _ => then_subs y' rep (mkCur s' (1 - i)) subs | _ => Some (y', (rep, []), []) end
        | None =>
            let o := u_o u in
            let la0 := match o_local o with Some a => a | None => o_lia0 o end in
            let la1 := match o_local o with Some a => a | None => o_lia1 o end in
            match ul_new (y_tb y) call from o listen refuse with
            | (tb', RPort p a) =>
                let uid := t_next (y_tb y) in
                let s := mkSess uid call from (negb (o_weak o)) false (mkStrm p true (o_weak o) la0) (mkStrm 0 false false la1) in
                then_subs (mkSys tb' (fset (y_ext y) uid (ext_new la0 la1 (u_media u)))) (RPort p a) (mkCur s 1) subs
            | (tb', rep) => Some (mkSys tb' (y_ext y), (rep, []), [])
            end
        end
    | CLookup call from to u listen subs =>
        match find_stream (t_ht (y_tb y)) call from to with
        | Some (s, i) =>
            let '(y', s', rep) := ul_one y false u listen s (1 - i) in
            match rep with RPort _ _ => then_subs y' rep (mkCur s' i) subs | _ => Some (y', (rep, []), []) end
        | None => Some (y, (RZero, []), [])
        end
    | CQuery call from to ok subs =>
        match find_stream (t_ht (y_tb y)) call from to with
        | Some (s, i) => if ok then then_subs y ROk (mkCur s (1 - i)) subs else Some (y, (RErr, []), [])
        | None => Some (y, (RErr, []), [])
        end
    | CDelete call from to weak =>
        match do_delete (S (length (t_ht (y_tb y)))) (y_tb y) call from (Some to) weak 0 with
        | Some (tb', r) => Some (mkSys tb' (y_ext y), (if r =? -1 then RErr else ROk, []), [])
        | None => None
        end
    | CDeleteAll => Some (mkSys (mkTab [] [] (t_next (y_tb y))) (y_ext y), (ROk, []), [])
    | CTimeout uid =>
        Some (mkSys (mkTab (filter (fun s => negb (s_uid s =? uid)) (t_ht (y_tb y))) (unreg uid (t_wrt (y_tb y))) (t_next (y_tb y))) (y_ext y), (ROk, []), [])
    | CTick => Some (mkSys (y_tb y) (fun i => with_ttl (y_ext y i) (pipe_decr_ttl (x_ttl (y_ext y i)))), (ROk, []), [])
    | CMedia uid d => Some (mkSys (y_tb y) (fset (y_ext y) uid (with_ttl (y_ext y uid) (pipe_reset (x_ttl (y_ext y uid)) (tside d)))), (ROk, []), [])
    end.
  Definition sys0 : sys := mkSys table0 (fun _ => ext_new 0 0 0).
  (** A history: the answers and what was set *)
  Fixpoint run (y : sys) (cs : list cmd) : option (sys * list answer * list done) :=
    match cs with
    | [] => Some (y, [], [])
    | c :: t =>
        match step y c with
        | None => None
        | Some (y1, a, d1) => match run y1 t with None => None | Some (y2, l, d2) => Some (y2, a :: l, d1 ++ d2) end
        end
    end.
End chain.
