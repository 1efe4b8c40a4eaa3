(** Model of the reply cache: src/rtpp_command_rcache.c, rtpp_command_guard_retrans
    (src/rtpp_command.c:335-360), rtpc_reply_deliver (src/rtpp_command_reply.c:129-168) and the
    worker thread that runs them (src/rtpp_command_async.c:177-222). Times are integers (in the code:
    double seconds); the lifetime of the cached objects is the subject of RefcntModel. The executed
    command is an oracle for its reply. *)
From Verif Require Import Base HashModel.

(** struct rtpp_cmd_rcache_entry_pvt, src/rtpp_command_rcache.c:58-63 *)
Record rentry := mkRe { re_reply : list Z; re_etime : Z }.
(** struct rtpp_cmd_rcache_pvt, src/rtpp_command_rcache.c:50-56; [rc_ents]: the entry objects, a table
    value is an index of it; [rc_pend]: cookie and receive time of the command that the only worker
    thread is executing. *)
Record rcache := mkRc { rc_ht : htab (list Z); rc_ents : list rentry; rc_pend : option (list Z * Z) }.

(** memcmp() of the keys *)
Fixpoint keq (a b : list Z) : bool :=
  match a, b with
  | [], [] => true
  | x :: a, y :: b => (x =? y) && keq a b
  | _, _ => false
  end.

(** rtpp_command_async.c:684-685: 32.0 + 3.0 s, here in ms *)
Definition MIN_TTL : Z := 32000 + 3000.

(** rtpp_cmd_rcache_ctor, src/rtpp_command_rcache.c:72-109; [debug] is RTPP_DEBUG *)
Definition rc_ctor (debug : bool) : rcache := mkRc (ht_ctor true debug) [] None.

Section Rc.
  Context (hash : list Z -> Z).

  (** rtpp_cmd_rcache_lookup, src/rtpp_command_rcache.c:148-166 *)
  Definition rc_lookup (s : rcache) (c : list Z) : option rentry :=
    match ht_find keq true hash (rc_ht s) c with
    | Some v => nth_error (rc_ents s) (Z.to_nat v)
    | None => None
    end.

  (** rtpp_cmd_rcache_insert, src/rtpp_command_rcache.c:120-146; [alloc]: the allocations of the entry
      and of its table node succeed; [mem]: that of a larger table. [None]: abort. *)
  Definition rc_insert (s : rcache) (c r : list Z) (ctime : Z) (alloc mem : bool) : option rcache :=
    if negb alloc then Some s
    else
      let n := Z.of_nat (length (rc_ents s)) in
      match ht_append keq true hash (rc_ht s) n c n mem with
      | HRet t _ => Some (mkRc t (rc_ents s ++ [mkRe r (ctime + MIN_TTL)]) (rc_pend s))
      | _ => None
      end.

  (** rtpp_cmd_rcache_ematch, src/rtpp_command_rcache.c:188-204 *)
  Definition rc_ematch (s : rcache) (ctime : Z) : matchf := fun _ v =>
    (match nth_error (rc_ents s) (Z.to_nat v) with Some e => re_etime e <? ctime | None => false end, false).

  (** rtpp_cmd_rcache_cleanup, src/rtpp_command_rcache.c:206-214 *)
  Definition rc_cleanup (s : rcache) (ctime : Z) : option rcache :=
    match ht_foreach (rc_ht s) (rc_ematch s ctime) with
    | HRet t _ => Some (mkRc t (rc_ents s) (rc_pend s))
    | _ => None
    end.

  (** What happens: a datagram with a cookie is taken from the socket at time [t] by the idle worker;
      the command being executed delivers its reply (with the results of the allocations), or ends
      without one; the timer thread runs the clean-up. *)
  Inductive event := Recv (c : list Z) (t : Z) | Finish (r : list Z) (alloc mem : bool) | NoReply | Tick (t : Z).
  (** What is observed: the command is executed, a cached reply is sent, a reply is sent, nothing. *)
  Inductive out := Execute | Resend (r : list Z) | Sent (r : list Z) | Quiet | NotIdle | Abort.

  Definition step (s : rcache) (e : event) : rcache * out :=
    match e, rc_pend s with
    | Recv c t, None =>
        match rc_lookup s c with
        | Some e => (s, Resend (re_reply e))
        | None => (mkRc (rc_ht s) (rc_ents s) (Some (c, t)), Execute)
        end
    | Finish r alloc mem, Some (c, t) =>
        match rc_insert (mkRc (rc_ht s) (rc_ents s) None) c r t alloc mem with
        | Some s' => (s', Sent r)
        | None => (s, Abort)
        end
    | NoReply, Some _ => (mkRc (rc_ht s) (rc_ents s) None, Quiet)
    | Tick t, _ => match rc_cleanup s t with Some s' => (s', Quiet) | None => (s, Abort) end
    | _, _ => (s, NotIdle)
    end.

  (** A history: the final state and each event with what was observed. Events that cannot happen in
      the current state (a second command while one is being executed by the only worker, a reply
      without a command) are skipped. *)
  Fixpoint run (s : rcache) (es : list event) : rcache * list (event * out) :=
    match es with
    | [] => (s, [])
    | e :: t => match step s e with
                | (_, NotIdle) => run s t
                | (s1, o) => let (s2, os) := run s1 t in (s2, (e, o) :: os)
                end
    end.
End Rc.
