(** Model of src/rtpp_tnotify_set.c: the set of timeout notification targets. A C string is the
    list of its bytes before the NUL. *)
From Verif Require Import Base AddrModel NumModel.

Definition COLON : Z := 58.
(** "unix:", "tcp:", "fd:" and CC_SELF_STR (line 62) *)
Definition S_UNIX : list Z := [117; 110; 105; 120; 58].
Definition S_TCP : list Z := [116; 99; 112; 58].
Definition S_FD : list Z := [102; 100; 58].
Definition S_SELF : list Z := [37; 37; 67; 67; 95; 83; 69; 76; 70; 37; 37].

Definition TARGETS_MAX : nat := 64.
Definition WILDCARDS_MAX : nat := 2.

(** strncmp(p, s, strlen(p)) == 0: what follows the prefix. *)
Fixpoint strip (p s : list Z) : option (list Z) :=
  match p, s with
  | [], _ => Some s
  | x :: p', y :: s' => if x =? y then strip p' s' else None
  | _, _ => None
  end.

(** strrchr(s, ':'): what is before and after the last colon. *)
Fixpoint rsplit (s : list Z) : option (list Z * list Z) :=
  match s with
  | [] => None
  | c :: t => match rsplit t with
              | Some (a, b) => Some (c :: a, b)
              | None => if c =? COLON then Some ([], t) else None
              end
  end.

Definition has_colon (s : list Z) : bool := existsb (fun c => c =? COLON) s.

(** atoi of the C library: strtol cut to an int. *)
Definition atoi (s : list Z) : Z := let '(v, _, _) := strtol s in s32 v.

(** parse_hostport, lines 134-164, called with testonly == 0, a host buffer of 512 bytes and a
    port buffer of 10. The port is returned as a number: line 162 prints it in decimal, and both
    readers of the text (lines 219 and 225) read it back. *)
Definition parse_hostport (s : list Z) : option (list Z * Z) :=
  match rsplit s with
  | None => None
  | Some (h, p) =>
      if (length p =? 0)%nat || (length h =? 0)%nat then None
      else let port := atoi p in
           if (port <=? 0) || (port >? 65535) then None
           else if Z.of_nat (length h) + 1 >? 512 then None
           else Some (h, port)
  end.

(** enum rtpp_tnotify_stype, src/rtpp_tnotify_tgt.h:28-32 *)
Inductive stype := TNS_LOCAL | TNS_INET | TNS_FD.
Definition stype_eqb (a b : stype) : bool :=
  match a, b with
  | TNS_LOCAL, TNS_LOCAL => true | TNS_INET, TNS_INET => true | TNS_FD, TNS_FD => true
  | _, _ => false
  end.
(** RTPP_TNT_STYPE, src/rtpp_tnotify_tgt.h:34-44; AF_LOCAL is 1. *)
Definition AF_LOCAL : Z := 1.
Definition tnt_stype (t : stype) : Z := match t with TNS_INET => AF_INET | _ => AF_LOCAL end.

(** Where a target is: a path, an IPv4 address, or a descriptor of the caller. *)
Inductive tplace := PPath (p : list Z) | PInet (a : sockaddr) | PFd (fd : Z).

(** struct rtpp_tnotify_target, src/rtpp_tnotify_tgt.h:46-54, without the connection state *)
Record target := { t_name : option (list Z); t_type : stype; t_place : tplace; t_local : option sockaddr }.
(** struct rtpp_tnotify_wildcard, lines 64-68. Its type is always TNS_INET (line 218). *)
Record wildcard := { w_name : list Z; w_type : stype; w_port : Z }.

(** struct rtpp_tnotify_set_priv, lines 75-81. Targets are never removed, so the index of a target
    is its identity. *)
Record tset := { ts_tp : list target; ts_wp : list wildcard }.
Definition ts_empty : tset := {| ts_tp := []; ts_wp := [] |}.

(** union rtpp_tnotify_entry, lines 70-73, with the return value of parse_timeout_sock. *)
Inductive parsed := PTarget (t : target) | PWild (w : wildcard) | PError.

(** sizeof(sun_path) - 1 *)
Definition SUN_PATH : nat := 107.

(** parse_timeout_sock, lines 166-251. [lib]: rtpp_is_lib. [rslv] is what resolve() of line 225
    finds for the host, [None] when it fails. *)
Definition parse_timeout_sock (lib : bool) (rslv : option Z) (n : list Z) : parsed :=
  let local sn path :=
    match path with
    | [] => PError
    | _ => PTarget {| t_name := Some sn; t_type := TNS_LOCAL; t_place := PPath (firstn SUN_PATH path);
                      t_local := None |}
    end in
  match strip S_UNIX n with
  | Some path => local n path
  | None =>
    match strip S_TCP n with
    | Some hp =>
        match parse_hostport hp with
        | None => PError
        | Some (h, port) =>
            if bytes_eqb h S_SELF then PWild {| w_name := n; w_type := TNS_INET; w_port := port |}
            else match rslv with
                 | None => PError
                 | Some a => PTarget {| t_name := Some n; t_type := TNS_INET;
                                        t_place := PInet (SaIn a port); t_local := None |}
                 end
        end
    | None =>
        match (if lib then strip S_FD n else None) with
        | Some d =>
            match atoi_safe d with
            | ATOI_OK fd => if fd <? 0 then PError
                            else PTarget {| t_name := Some n; t_type := TNS_FD; t_place := PFd fd;
                                            t_local := None |}
            | _ => PError
            end
        | None => local (S_UNIX ++ n) n
        end
    end
  end.

(** rtpp_tnotify_set_append, lines 253-314. [ok]: the allocation succeeds. *)
Definition tn_append (lib : bool) (s : tset) (n : list Z) (rslv : option Z) (ok : bool) : tset * bool :=
  match parse_timeout_sock lib rslv n with
  | PError => (s, false)
  | PTarget t =>
      if (length (ts_tp s) =? TARGETS_MAX)%nat then (s, false)
      else if negb ok then (s, false)
      else ({| ts_tp := ts_tp s ++ [t]; ts_wp := ts_wp s |}, true)
  | PWild w =>
      if (length (ts_wp s) =? WILDCARDS_MAX)%nat then (s, false)
      else if negb ok then (s, false)
      else ({| ts_tp := ts_tp s; ts_wp := ts_wp s ++ [w] |}, true)
  end.

(** What a lookup returns: a target, NULL, or the process died in abort() or a failed assert. *)
Inductive tres := TObj (i : nat) | TNull | TAbort.

(** The first target from index [i] on that satisfies [f] (the search loops of lines 331-345,
    385-391 and 398-405). [f] answers [None] when it aborts. *)
Fixpoint tsearch (f : target -> option bool) (i : nat) (l : list target) : tres :=
  match l with
  | [] => TNull
  | t :: r => match f t with
              | None => TAbort
              | Some true => TObj i
              | Some false => tsearch f (S i) r
              end
  end.

(** "127.0.0.1" *)
Definition LOCALHOST : Z := 2130706433.

(** Lines 324-330: requests that did not come over IPv4 count as local. *)
Definition cc_of (cc : option sockaddr) : sockaddr :=
  match cc with
  | Some (SaIn h p) => SaIn h p
  | _ => SaIn LOCALHOST 0
  end.

(** The match of lines 333-344 *)
Definition auto_match (w : wildcard) (cc : sockaddr) (t : target) : option bool :=
  match t_name t with
  | Some _ => Some false
  | None =>
      if negb (stype_eqb (t_type t) (w_type w)) then Some false
      else match t_place t with
           | PInet a =>
               match ishostseq cc a with
               | None => None
               | Some false => Some false
               | Some true => match getport a with
                              | None => None
                              | Some p => Some (p =? w_port w)
                              end
               end
           | _ => None
           end
  end.

(** get_tp4wp, lines 316-373. [ok]: the allocations succeed. *)
Definition get_tp4wp (s : tset) (w : wildcard) (cc laddr : option sockaddr) (ok : bool) : tset * tres :=
  let cca := cc_of cc in
  match tsearch (auto_match w cca) 0 (ts_tp s) with
  | TObj i => (s, TObj i)
  | TAbort => (s, TAbort)
  | TNull =>
      if stype_eqb (w_type w) TNS_FD then (s, TAbort)
      else if (length (ts_tp s) =? TARGETS_MAX)%nat then (s, TNull)
      else if negb ok then (s, TNull)
      else
        let local :=
          match laddr with
          | Some la => if family la =? family cca
                       then match setanyport la with Some x => Some (Some x) | None => None end
                       else Some None
          | None => Some None
          end in
        match local, setport cca (w_port w) with
        | Some lo, Some a =>
            ({| ts_tp := ts_tp s ++ [{| t_name := None; t_type := w_type w; t_place := PInet a; t_local := lo |}];
                ts_wp := ts_wp s |}, TObj (length (ts_tp s)))
        | _, _ => (s, TAbort)
        end
  end.

(** The first wildcard that satisfies [f] (lines 412-425) *)
Definition wsearch (f : wildcard -> bool) (l : list wildcard) : option wildcard := find f l.

(** rtpp_tnotify_set_lookup, lines 375-427 *)
Definition tn_lookup (s : tset) (n : list Z) (cc laddr : option sockaddr) (ok : bool) : tset * tres :=
  match tsearch (fun t => match t_name t with
                          | None => Some false
                          | Some m => Some (bytes_eqb m n)
                          end) 0 (ts_tp s) with
  | TObj i => (s, TObj i)
  | TAbort => (s, TAbort)
  | TNull =>
      if negb (has_colon n) then
        (s, tsearch (fun t => match t_name t with
                              | None => Some false
                              | Some m => Some (stype_eqb (t_type t) TNS_LOCAL && bytes_eqb (skipn 5 m) n)
                              end) 0 (ts_tp s))
      else match strip S_FD n with
           | Some _ => (s, TNull)
           | None =>
               match wsearch (fun w => bytes_eqb (w_name w) n &&
                                match cc with
                                | Some a => tnt_stype (w_type w) =? family a
                                | None => true
                                end) (ts_wp s) with
               | Some w => get_tp4wp s w cc laddr ok
               | None =>
                   match wsearch (fun w => bytes_eqb (w_name w) n) (ts_wp s) with
                   | Some w => get_tp4wp s w cc laddr ok
                   | None => (s, TNull)
                   end
               end
           end
  end.

(** rtpp_tnotify_set_isenabled, lines 429-436 *)
Definition tn_isenabled (s : tset) : bool :=
  (0 <? Z.of_nat (length (ts_wp s))) || (0 <? Z.of_nat (length (ts_tp s))).

(** Histories *)
Inductive tcall :=
| TAppend (n : list Z) (rslv : option Z) (ok : bool)
| TLookup (n : list Z) (cc laddr : option sockaddr) (ok : bool).
Inductive tans := AAdded (b : bool) | AFound (r : tres).

Definition tstep (lib : bool) (s : tset) (c : tcall) : tset * tans :=
  match c with
  | TAppend n rslv ok => let '(s', b) := tn_append lib s n rslv ok in (s', AAdded b)
  | TLookup n cc la ok => let '(s', r) := tn_lookup s n cc la ok in (s', AFound r)
  end.

Fixpoint trun (lib : bool) (s : tset) (cs : list tcall) : tset * list tans :=
  match cs with
  | [] => (s, [])
  | c :: t => let '(s1, r) := tstep lib s c in
              let '(s2, rs) := trun lib s1 t in (s2, r :: rs)
  end.
