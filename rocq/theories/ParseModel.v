(** Model of command recognition: src/rtpp_command_parse.c:62-291 and the parsing parts of
    handle_command, src/rtpp_command.c:465-600. Arguments are the strings found by the tokenizer;
    reading an argument that was not given is a distinct outcome [Null] (the entry is a NULL pointer
    of length 0). Allocation failures are not modelled. *)
From Verif Require Import Base Str NumModel.

Inductive res (A : Type) := Null | Err (ecode : Z) | Ok (a : A).
Arguments Null {A}. Arguments Err {A}. Arguments Ok {A}.
Definition rbind {A C} (x : res A) (f : A -> res C) : res C := match x with Null => Null | Err e => Err e | Ok a => f a end.
Notation "'get' p <- x ; k" := (rbind x (fun p => k)) (at level 200, p pattern, x at level 100, k at level 200).

Definition args := list (list Z).
Definition arg (a : args) (i : nat) : res (list Z) := match nth_error a i with Some x => Ok x | None => Null end.
(** An argument of which only the address and length are taken. *)
Definition argp (a : args) (i : nat) : option (list Z) := nth_error a i.

(** enum rtpp_cmd_op, src/rtpp_command_private.h:38-39 *)
Inductive op := DELETE | RECORD | PLAY | NOPLAY | COPY | UPDATE | LOOKUP | INFO | QUERY | VER_FEATURE | GET_VER | DELETE_ALL | GET_STATS | NORECORD.

(** struct cmd_props, src/rtpp_command_parse.c:50-60 *)
Record props := mkProps { pr_op : op; pr_max : Z; pr_min : Z; pr_cmods : bool; pr_mods : list Z;
                          pr_cid : bool; pr_subc : bool; pr_fpos : option nat; pr_tpos : option nat }.

Definition is_letter (c upper : Z) : bool := (c =? upper + 32) || (c =? upper).

(** fill_cmd_props, src/rtpp_command_parse.c:62-250. [nstats]: getnstats. *)
Definition fill_cmd_props (nstats : Z) (w : list Z) : option props :=
  let c := head0 w in
  let m := tl w in
  if is_letter c 85 (* U *) then Some (mkProps UPDATE 8 5 true m true true (Some 4%nat) (Some 5%nat))
  else if is_letter c 76 (* L *) then Some (mkProps LOOKUP 6 5 true m true true (Some 4%nat) (Some 5%nat))
  else if is_letter c 68 (* D *) then Some (mkProps DELETE 4 3 true m true false (Some 2%nat) (Some 3%nat))
  else if is_letter c 80 (* P *) then Some (mkProps PLAY 6 5 true m true false (Some 4%nat) (Some 5%nat))
  else if is_letter c 82 (* R *) then Some (mkProps RECORD 4 3 true m true false (Some 2%nat) (Some 3%nat))
  else if is_letter c 67 (* C *) then Some (mkProps COPY 5 4 true m true false (Some 3%nat) (Some 4%nat))
  else if is_letter c 83 (* S *) then Some (mkProps NOPLAY 4 3 false m true false (Some 2%nat) (Some 3%nat))
  else if is_letter c 78 (* N *) then Some (mkProps NORECORD 4 3 true m true false (Some 2%nat) (Some 3%nat))
  else if is_letter c 86 (* V *) then
    if is_letter (head0 m) 70 (* F *) then Some (mkProps VER_FEATURE 2 2 false (tl m) false false None None)
    else Some (mkProps GET_VER 1 1 false m false false None None)
  else if is_letter c 73 (* I *) then Some (mkProps INFO 1 1 true m false false None None)
  else if is_letter c 81 (* Q *) then Some (mkProps QUERY (4 + 11) 3 true m true true (Some 2%nat) (Some 3%nat))
  else if is_letter c 88 (* X *) then Some (mkProps DELETE_ALL 1 1 false m false false None None)
  else if is_letter c 71 (* G *) then Some (mkProps GET_STATS (nstats + 1) 1 true m false false None None)
  else None.

(** rtpp_command_pre_parse, src/rtpp_command_parse.c:252-291. Result: op, modifiers, call_id,
    from_tag, to_tag; of the last three the entry is only looked at when it is used. *)
Record cca := mkCca { cc_op : op; cc_mods : list Z; cc_cid : option (list Z); cc_from : option (list Z); cc_to : option (list Z) }.
Definition pre_parse (nstats : Z) (a : args) (nsub : nat) : res cca :=
  get w <- arg a 0;
  match fill_cmd_props nstats w with
  | None => Err 0
  | Some p =>
      let c := Z.of_nat (length a) in
      if (c <? pr_min p) || (c >? pr_max p) then Err 1
      else if negb (pr_cmods p) && negb (head0 (pr_mods p) =? 0) then Err 2
      else if negb (pr_subc p) && (0 <? Z.of_nat nsub) then Err 3
      else Ok (mkCca (pr_op p) (tl w)
                     (if pr_cid p then argp a 1 else None)
                     (match pr_fpos p with Some i => argp a i | None => None end)
                     (match pr_tpos p with Some i => argp a i | None => None end))
  end.
Definition deref (x : option (list Z)) : res (list Z) := match x with Some s => Ok s | None => Null end.

(** What a command asks for. An absent to_tag is [None]: for update and lookup the pointer is NULL
    (src/commands/rpcpv1_ul.c:540-570), for the others it points to an empty string. *)
Inductive subreq :=
| SModule (mod_id inst_id : Z)
| SDelete (weak : bool)
| SSet (reverse : bool) (tos : bool) (val : Z)
| SLookup (mods addr port : list Z)
| SCopy (cid from to : list Z).
Inductive request :=
| RVersion
| RFeature (date : list Z)
| RDeleteAll
| RInfo (mods : list Z)
| RStats (mods : list Z) (names : list (list Z))
| RPlay (count : Z) (cid pname codecs from : list Z) (to : option (list Z))
| RCopy (single reply_port : bool) (cid name from : list Z) (to : option (list Z))
| RRecord (single : bool) (cid from : list Z) (to : option (list Z))
| RNorecord (all : bool) (cid from : list Z) (to : option (list Z))
| RDelete (weak : bool) (cid from : list Z) (to : option (list Z))
| RNoplay (cid from : list Z) (to : option (list Z))
| RQuery (mods cid from : list Z) (to : option (list Z)) (names : list (list Z)) (subs : list subreq)
| RUpdate (mods cid addr port from : list Z) (to : option (list Z)) (notify : option (list Z * list Z)) (subs : list subreq)
| RLookup (mods cid addr port from : list Z) (to : option (list Z)) (subs : list subreq).

(** What the parser asks the rest of the program: number of statistics, whether a module instance
    exists (get_ul_subc_h), and rtpp_command_ul_opts_parse_inner (src/commands/rpcpv1_ul.c:261-519)
    as its error code (0: success) from the modifiers, address and port. *)
Record env := mkEnv { e_nstats : Z; e_module : Z -> Z -> bool; e_ulopts : op -> list Z -> list Z -> list Z -> option (list Z * list Z) -> Z }.

(** rtpp_command_play_opts_parse, src/commands/rpcpv1_play.c:69-80 *)
Definition play_count (m : list Z) : res Z :=
  match m with
  | [] => Ok 1
  | _ => let '(v, cp, _) := strtol m in
         match cp with Some rest => if head0 rest =? 0 then Ok (s32 v) else Err 17 | None => Err 17 end
  end.
(** rtpp_command_record_opts_parse, src/commands/rpcpv1_record.c:120-145 *)
Fixpoint record_opts (is_record : bool) (m : list Z) (single rport : bool) : res (bool * bool) :=
  match m with
  | [] => Ok (single, rport)
  | c :: t => if is_letter c 83 then record_opts is_record t true rport
              else if is_letter c 80 then if is_record then Err 6 else record_opts is_record t single true
              else Err 7
  end.
(** src/rtpp_command.c:529-543 *)
Definition norecord_opts (m : list Z) : res bool :=
  if is_letter (head0 m) 65 then if negb (head0 (tl m) =? 0) then Err 6 else Ok true
  else if negb (head0 m =? 0) then Err 7 else Ok false.
(** rtpp_command_del_opts_parse, src/commands/rpcpv1_delete.c:194-209 *)
Fixpoint del_opts (m : list Z) (weak : bool) : res bool :=
  match m with [] => Ok weak | c :: t => if is_letter c 87 then del_opts t true else Err 8 end.

(** handle_set_subc_parse, src/commands/rpcpv1_ul_subc_set.c:123-157; memcmp as a prefix test *)
Definition set_subc (m v : list Z) : res subreq :=
  let reverse := is_letter (head0 m) 82 in
  if Z.of_nat (length v) <? 5 then Err 3
  else
    match (if beq (firstn 4 v) (B "ttl=") then Some false else if beq (firstn 4 v) (B "tos=") then Some true else None) with
    | None => Err 3
    | Some tos => match atoi_safe (skipn 4 v) with
                  | ATOI_OK x => if x <=? 0 then Err 3 else Ok (SSet reverse tos x)
                  | _ => Err 3
                  end
    end.
(** rtpp_subcommand_ul_opts_parse, src/commands/rpcpv1_ul_subc.c:193-254, with lines 65-89, 133-145,
    174-190 and src/commands/rpcpv1_ul_subc_copy.c:136-155. Every failure is answered with error 3
    (src/rtpp_command.c:591-598). *)
Definition parse_subc (e : env) (o : op) (cid from to : option (list Z)) (sa : args) : res subreq :=
  get w <- arg sa 0;
  let c := head0 w in
  let m := tl w in
  if is_letter c 77 (* M *) then
    match atoi_safe_sep m 58 with
    | ATOI_OK (mod_id, cp) =>
        match atoi_safe cp with
        | ATOI_OK inst_id => if (mod_id <? 1) || (inst_id <? 1) then Err 3
                             else if e_module e mod_id inst_id then Ok (SModule mod_id inst_id) else Err 3
        | _ => Err 3
        end
    | _ => Err 3
    end
  else if is_letter c 68 (* D *) then
    if negb (Z.of_nat (length sa) =? 1) then Err 3
    else match del_opts m false with Ok weak => Ok (SDelete weak) | Err _ => Err 3 | Null => Null end
  else if is_letter c 83 (* S *) then
    if negb (Z.of_nat (length sa) =? 2) || (Z.of_nat (length w) <? 1) || (Z.of_nat (length w) >? 2) then Err 3
    else get v <- arg sa 1; set_subc m v
  else if is_letter c 76 (* L *) then
    match o, cid, from, to with
    | UPDATE, Some _, Some _, Some _ =>
        if negb (Z.of_nat (length sa) =? 3) then Err 3
        else get addr <- arg sa 1; get port <- arg sa 2;
             if e_ulopts e LOOKUP m addr port None =? 0 then Ok (SLookup m addr port) else Err 3
    | _, _, _, _ => Err 3
    end
  else if is_letter c 67 (* C *) then
    match o, to with
    | UPDATE, Some _ =>
        if negb (Z.of_nat (length sa) =? 4) || negb (Z.of_nat (length w) =? 1) then Err 3
        else get v1 <- arg sa 1; get v2 <- arg sa 2; get v3 <- arg sa 3;
             if (Z.of_nat (length v1) <? 1) || (Z.of_nat (length v2) <? 1) || (Z.of_nat (length v3) <? 1) then Err 3
             else Ok (SCopy v1 v2 v3)
    | _, _ => Err 3
    end
  else Err 3.
(** src/rtpp_command.c:591-600 *)
Fixpoint parse_subcs (e : env) (o : op) (cid from to : option (list Z)) (subs : list args) : res (list subreq) :=
  match subs with
  | [] => Ok []
  | sa :: rest => get r <- parse_subc e o cid from to sa; get rs <- parse_subcs e o cid from to rest; Ok (r :: rs)
  end.

(** rtpp_command_ul_pre_parse, src/commands/rpcpv1_ul.c:521-586: to_tag and the notification target *)
Definition ul_pre_parse (o : op) (a : args) (to : option (list Z)) : res (option (list Z) * option (list Z * list Z)) :=
  match o with
  | UPDATE =>
      match length a with
      | 5%nat => Ok (None, None)
      | 6%nat => Ok (to, None)
      | 7%nat => get s <- arg a 5; get t <- arg a 6; Ok (None, Some (s, t))
      | 8%nat => get s <- arg a 6; get t <- arg a 7; Ok (to, Some (s, t))
      | _ => Err 1
      end
  | LOOKUP =>
      match length a with
      | 5%nat => Ok (None, None)
      | 6%nat => Ok (to, None)
      | _ => Err 1
      end
  | _ => Err 1
  end.

(** handle_command, src/rtpp_command.c:465-600, up to the point where the command is carried out.
    The query and statistics names are args.v[4..] and args.v[1..]
    (src/commands/rpcpv1_query.c:150, src/commands/rpcpv1_stats.c:59). *)
Definition parse_command (e : env) (a : args) (subs : list args) : res request :=
  get cc <- pre_parse (e_nstats e) a (length subs);
  let m := cc_mods cc in
  match cc_op cc with
  | VER_FEATURE => get d <- arg a 1; Ok (RFeature d)
  | GET_VER => Ok RVersion
  | DELETE_ALL => Ok RDeleteAll
  | INFO => Ok (RInfo m)
  | GET_STATS => Ok (RStats m (skipn 1 a))
  | PLAY =>
      get pname <- arg a 2; get codecs <- arg a 3; get n <- play_count m;
      get cid <- deref (cc_cid cc); get from <- deref (cc_from cc); Ok (RPlay n cid pname codecs from (cc_to cc))
  | COPY =>
      get name <- arg a 2; get o <- record_opts false m false false;
      get cid <- deref (cc_cid cc); get from <- deref (cc_from cc); Ok (RCopy (fst o) (snd o) cid name from (cc_to cc))
  | RECORD =>
      get o <- record_opts true m false false;
      get cid <- deref (cc_cid cc); get from <- deref (cc_from cc); Ok (RRecord (fst o) cid from (cc_to cc))
  | NORECORD =>
      get all <- norecord_opts m;
      get cid <- deref (cc_cid cc); get from <- deref (cc_from cc); Ok (RNorecord all cid from (cc_to cc))
  | DELETE =>
      get weak <- del_opts m false;
      get cid <- deref (cc_cid cc); get from <- deref (cc_from cc); Ok (RDelete weak cid from (cc_to cc))
  | NOPLAY => get cid <- deref (cc_cid cc); get from <- deref (cc_from cc); Ok (RNoplay cid from (cc_to cc))
  | QUERY =>
      get rs <- parse_subcs e QUERY (cc_cid cc) (cc_from cc) (Some []) subs;
      get cid <- deref (cc_cid cc); get from <- deref (cc_from cc); Ok (RQuery m cid from (cc_to cc) (skipn 4 a) rs)
  | UPDATE =>
      get addr <- arg a 2; get port <- arg a 3;
      get (to, notify) <- ul_pre_parse UPDATE a (cc_to cc);
      let ecode := e_ulopts e UPDATE m addr port notify in
      if negb (ecode =? 0) then Err ecode
      else get rs <- parse_subcs e UPDATE (cc_cid cc) (cc_from cc) to subs;
           get cid <- deref (cc_cid cc); get from <- deref (cc_from cc); Ok (RUpdate m cid addr port from to notify rs)
  | LOOKUP =>
      get addr <- arg a 2; get port <- arg a 3;
      get (to, _) <- ul_pre_parse LOOKUP a (cc_to cc);
      let ecode := e_ulopts e LOOKUP m addr port None in
      if negb (ecode =? 0) then Err ecode
      else get rs <- parse_subcs e LOOKUP (cc_cid cc) (cc_from cc) to subs;
           get cid <- deref (cc_cid cc); get from <- deref (cc_from cc); Ok (RLookup m cid addr port from to rs)
  end.

(** handle_ver_feature, src/commands/rpcpv1_ver.c:47-105: the number that is answered.
    [notify]: the notification targets are enabled. *)
Definition proto_caps : list (list Z) :=
  [B "20040107"; B "20050322"; B "20060704"; B "20071116"; B "20071218"; B "20080403"; B "20081102"; B "20081224";
   B "20090810"; B "20140323"; B "20140617"; B "20141004"; B "20150330"; B "20150420"; B "20150617"; B "20191015";
   B "20200226"; B "20230205"; B "20230314"; B "20230424"; B "20250523"; B "20251015"; B "20260306"; B "20260308";
   B "20260309"].
Fixpoint in_caps (d : list Z) (caps : list (list Z)) : bool :=
  match caps with [] => false | c :: t => if beq d c then true else in_caps d t end.
Definition ver_feature (notify : bool) (d : list Z) : Z :=
  if beq d (B "20081224") && negb notify then 0 else if in_caps d proto_caps then 1 else 0.
