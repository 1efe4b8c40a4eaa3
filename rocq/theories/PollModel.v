(* The log by which the command threads tell the polling thread which sockets
   to poll, and its replay on the poll table (/repo/src/rtpp_sessinfo.c).

   Simplifications
   - There are two logs and two tables, one for RTP and one for RTCP, worked
     by the same code.  The model is of one of them; what the other one
     contributes to an operation, namely whether its own allocation failed, is
     an argument of the operation ([other]).
   - [append], [update], [remove] and the first half of the synchronisation
     run under the log's lock, and are one step each.  The replay runs without
     the lock: it is one step per entry, so that log operations fall between
     any two of them.
   - A stream is known by its unique id, a socket by its identity; a socket's
     descriptor belongs to it alone while it is open, so the kernel's polled
     set is a list of sockets too.
   - [held] lists the sockets on which the log and the table hold a reference,
     once for each reference.  The references held by streams are not listed.
   - [realloc] of the log when full, and of the table when short: the outcome
     is an argument.
   - The table's revision number and weak reference table pointer are left
     out. *)
From Coq Require Import List Arith Lia Bool.
Import ListNotations.

(* rtpp_sessinfo.c:55-61 *)
Inductive entry :=
| EAdd (u k : nat)
| EDel (u : nat)
| EUpd (u k : nat).

(* struct rtpp_polltbl_hst_part, rtpp_sessinfo.c:63-66: how many entries the code
   takes to fit in the array, and how many it was allocated for *)
Record part := mkpart { p_len : nat; p_cap : nat }.

(* rtpp_sessinfo.c:63-81, rtpp_proc_async.h's struct rtpp_polltbl, and the
   socket of each stream (rtpp_stream.c, pvt->fd) *)
Record st := mkst {
  skts : list (nat * nat);      (* stream, its socket *)
  log : list entry;             (* main.clog, ulen of them *)
  alen : part;                  (* main *)
  shlen : part;                 (* shadow *)
  cur : list entry;             (* what is left to replay *)
  tbl : list (nat * nat);       (* ptbl->mds, curlen of them *)
  taloc : nat;                  (* ptbl->aloclen *)
  polled : list nat;            (* the descriptors in the epoll set *)
  held : list nat               (* references held by log and table *)
}.

Inductive res (A : Type) :=
| Ok (a : A)
| Overrun                       (* write past an allocated array *)
| Assert                        (* assert() fails *)
| EpErr.                        (* epoll_ctl refuses: EEXIST or ENOENT *)
Arguments Ok {A} a.
Arguments Overrun {A}.
Arguments Assert {A}.
Arguments EpErr {A}.

Definition bindr {A B} (r : res A) (f : A -> res B) : res B :=
  match r with Ok a => f a | Overrun => Overrun | Assert => Assert | EpErr => EpErr end.

(* rtpp_sessinfo.c:186-191: room for ten entries *)
Definition ilen : nat := 10.

Definition init : st := mkst [] [] (mkpart ilen ilen) (mkpart ilen ilen) [] [] 0 [] [].

(* rtpp_stream.c:964-979 *)
Fixpoint get_skt (l : list (nat * nat)) (u : nat) : option nat :=
  match l with
  | [] => None
  | (v, k) :: r => if v =? u then Some k else get_skt r u
  end.

Definition drop_skt (l : list (nat * nat)) (u : nat) : list (nat * nat) :=
  filter (fun p => negb (fst p =? u)) l.

(* rtpp_stream.c:955-958, 1061-1064 *)
Definition put_skt (l : list (nat * nat)) (u k : nat) : list (nat * nat) :=
  drop_skt l u ++ [(u, k)].

(* rtpp_sessinfo.c:223-227 and 143-157: the log, with its room, when there is
   need to extend it; None: the allocation failed *)
Definition room (s : st) (ok : bool) : option part :=
  if length (log s) =? p_len (alen s) then
    if ok then Some (mkpart (p_len (alen s) + ilen) (p_len (alen s) + ilen)) else None
  else Some (alen s).

Definition esock (e : entry) : list nat :=
  match e with EAdd _ k => [k] | EDel _ => [] | EUpd _ k => [k] end.

(* rtpp_sessinfo.c:159-173 *)
Definition record (s : st) (al : part) (sk : list (nat * nat)) (e : entry) : res st :=
  if length (log s) <? p_cap al then
    Ok (mkst sk (log s ++ [e]) al (shlen s) (cur s) (tbl s) (taloc s) (polled s)
          (held s ++ esock e))
  else Overrun.

(* the log extended, and nothing else done: lines 247-249 after the other
   log's allocation failed *)
Definition with_room (s : st) (al : part) : st :=
  mkst (skts s) (log s) al (shlen s) (cur s) (tbl s) (taloc s) (polled s) (held s).

(* rtpp_sessinfo.c:214-250.  Result: the new state, and whether it worked. *)
Definition append (s : st) (u k : nat) (ok other : bool) : res (st * bool) :=
  match room s ok with
  | None => Ok (s, false)
  | Some al =>
      if other then
        bindr (record s al (put_skt (skts s) u k) (EAdd u k)) (fun s' => Ok (s', true))
      else Ok (with_room s al, false)
  end.

(* rtpp_sessinfo.c:270-317 *)
Definition update (s : st) (u k : nat) (ok other : bool) : res (st * bool) :=
  match room s ok with
  | None => Ok (s, false)
  | Some al =>
      if other then
        let e := match get_skt (skts s) u with Some _ => EUpd u k | None => EAdd u k end in
        bindr (record s al (put_skt (skts s) u k) e) (fun s' => Ok (s', true))
      else Ok (with_room s al, false)
  end.

(* rtpp_sessinfo.c:319-367, followed by what its callers do to the stream's
   socket: rpcpv1_ul.c:708-709 sets it to NULL, rtpp_session.c:300 destroys
   the stream *)
Definition remove (s : st) (u : nat) (ok other : bool) : res (st * bool) :=
  match get_skt (skts s) u with
  | None => Ok (s, true)
  | Some _ =>
      let sk := drop_skt (skts s) u in
      match room s ok with
      | None => Ok (mkst sk (log s) (alen s) (shlen s) (cur s) (tbl s) (taloc s)
                      (polled s) (held s), false)
      | Some al =>
          if other then bindr (record s al sk (EDel u)) (fun s' => Ok (s', true))
          else Ok (mkst sk (log s) al (shlen s) (cur s) (tbl s) (taloc s)
                     (polled s) (held s), false)
      end
  end.

Fixpoint rem1 (l : list nat) (k : nat) : list nat :=
  match l with
  | [] => []
  | x :: r => if x =? k then r else x :: rem1 r k
  end.

Definition rems (l ks : list nat) : list nat := fold_left rem1 ks l.

(* rtpp_sessinfo.c:400-424, and 474-485 when the table cannot grow: every
   entry of the log is thrown away.  Result: the return value is -1 (None),
   0 (Some false) or 1 (Some true). *)
Definition sync_start (s : st) (ok : bool) : st * option bool :=
  match log s with
  | [] => (s, Some false)
  | _ =>
      let swap ta :=
        (mkst (skts s) [] (shlen s) (alen s) (log s) (tbl s) ta (polled s) (held s),
         Some true) in
      if taloc s - length (tbl s) <? length (log s) then
        if ok then swap (length (log s) + length (tbl s))
        else (mkst (skts s) [] (alen s) (shlen s) (cur s) (tbl s) (taloc s) (polled s)
                (rems (held s) (flat_map esock (log s))), None)
      else swap (taloc s)
  end.

(* rtpp_sessinfo.c:252-268 *)
Fixpoint find_idx (l : list (nat * nat)) (u : nat) : option nat :=
  match l with
  | [] => None
  | (v, _) :: r => if v =? u then Some 0 else option_map S (find_idx r u)
  end.

(* rtpp_epoll.c:58-..., epoll_ctl(2) *)
Definition ep_add (l : list nat) (k : nat) : res (list nat) :=
  if existsb (Nat.eqb k) l then EpErr else Ok (l ++ [k]).
Definition ep_del (l : list nat) (k : nat) : res (list nat) :=
  if existsb (Nat.eqb k) l then Ok (rem1 l k) else EpErr.

Definition remove_at {A} (l : list A) (i : nat) : list A := firstn i l ++ skipn (S i) l.
Definition set_at {A} (l : list A) (i : nat) (a : A) : list A := firstn i l ++ a :: skipn (S i) l.

(* rtpp_sessinfo.c:426-470, one entry.  The assertion of line 435 is compiled
   in debug builds only; it is kept. *)
Definition replay1 (s : st) : res st :=
  match cur s with
  | [] => Ok s
  | e :: r =>
      let upd t p h := Ok (mkst (skts s) (log s) (alen s) (shlen s) r t (taloc s) p h) in
      match e with
      | EAdd u k =>
          match find_idx (tbl s) u with
          | Some _ => Assert
          | None =>
              bindr (ep_add (polled s) k) (fun p =>
              if length (tbl s) <? taloc s then upd (tbl s ++ [(u, k)]) p (held s)
              else Overrun)
          end
      | EDel u =>
          match find_idx (tbl s) u with
          | None => Assert
          | Some i =>
              let old := snd (nth i (tbl s) (0, 0)) in
              bindr (ep_del (polled s) old) (fun p =>
              upd (remove_at (tbl s) i) p (rem1 (held s) old))
          end
      | EUpd u k =>
          match find_idx (tbl s) u with
          | None => Assert
          | Some i =>
              let old := snd (nth i (tbl s) (0, 0)) in
              bindr (ep_del (polled s) old) (fun p =>
              bindr (ep_add p k) (fun p' =>
              upd (set_at (tbl s) i (fst (nth i (tbl s) (0, 0)), k)) p' (rem1 (held s) old)))
          end
      end
  end.

(* What can happen, one step at a time.  [PSync] and [PReplay] are steps of
   the polling thread (rtpp_proc_async.c:158), the others of the threads
   that run commands or destroy sessions. *)
Inductive op :=
| PAppend (u k : nat) (ok other : bool)
| PUpdate (u k : nat) (ok other : bool)
| PRemove (u : nat) (ok other : bool)
| PSync (ok : bool)
| PReplay.

Definition step (s : st) (o : op) : res st :=
  match o with
  | PAppend u k ok other => bindr (append s u k ok other) (fun r => Ok (fst r))
  | PUpdate u k ok other => bindr (update s u k ok other) (fun r => Ok (fst r))
  | PRemove u ok other => bindr (remove s u ok other) (fun r => Ok (fst r))
  | PSync ok => Ok (fst (sync_start s ok))
  | PReplay => replay1 s
  end.

Fixpoint run (s : st) (os : list op) : res st :=
  match os with
  | [] => Ok s
  | o :: r => bindr (step s o) (fun s' => run s' r)
  end.
