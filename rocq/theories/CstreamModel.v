(** Model of a stream control connection: src/rtpp_command_stream.c:56-168 and
    process_commands_stream, src/rtpp_command_async.c:224-264. The command itself (handle_command)
    always returns 0; it is represented by an entry in the trace. A failed allocation of the command
    object is decided by an oracle on the number of lines seen so far. *)
From Verif Require Import Base.

(** struct rtpp_cmd_connection, src/rtpp_command_stream.h:30-41: inbuf[8192], inbuf_ppos, inbuf_epos *)
Record conn := mkConn { inbuf : list Z; ppos : nat; epos : nat }.
Definition BUFLEN : nat := Z.to_nat 8192.
(** rtpp_cmd_connection_ctor (zmalloc), src/rtpp_command_async.c:266-284 *)
Definition conn_ctor : conn := mkConn (repeat 0 BUFLEN) 0 0.

(** rtpp_command_stream_compact, src/rtpp_command_stream.c:56-74 *)
Definition compact (c : conn) : option conn :=
  if ((ppos c =? 0) || (epos c =? 0))%nat then Some c
  else if (ppos c =? epos c)%nat then Some (mkConn (inbuf c) 0 0)
  else let clen := (epos c - ppos c)%nat in
       match store (inbuf c) 0 (firstn clen (skipn (ppos c) (inbuf c))) with
       | Some b => Some (mkConn b 0 clen)
       | None => None
       end.

(** read(): at most [blen] bytes of what has arrived, and at most [n] (a short read); no bytes when
    the peer has closed the connection or when no room is left. *)
Definition read (sock : list Z) (blen n : nat) : list Z := firstn (Nat.min blen n) sock.

(** rtpp_command_stream_doio, src/rtpp_command_stream.c:76-98. Result: the connection, the number of
    bytes read; [None]: a store outside of the buffer. *)
Definition doio (c : conn) (sock : list Z) (n : nat) : option (conn * nat) :=
  match compact c with
  | None => None
  | Some c1 =>
      let bs := read sock (BUFLEN - epos c1) n in
      match store (inbuf c1) (epos c1) bs with
      | Some b => Some (mkConn b (ppos c1) (epos c1 + length bs), length bs)
      | None => None
      end
  end.

(** memchr() *)
Fixpoint memchr (l : list Z) (ch : Z) : option nat :=
  match l with
  | [] => None
  | x :: t => if x =? ch then Some O else option_map S (memchr t ch)
  end.

(** rtpp_command_stream_get, src/rtpp_command_stream.c:121-168: the line that becomes a command, with
    [true] when the command object could be allocated. cmd->buf has 8192 bytes. *)
Inductive got := Again | Line (l : list Z) (ok : bool) (c : conn) | GOob.
Definition get (c : conn) (ok : bool) : got :=
  if (epos c =? ppos c)%nat then Again
  else
    let len := (epos c - ppos c)%nat in
    let w := firstn len (skipn (ppos c) (inbuf c)) in
    match memchr w 10 with
    | None => Again
    | Some n =>
        let c' := mkConn (inbuf c) (ppos c + (n + 1)) (epos c) in
        if negb ok then Line (firstn n w) false c'
        else match store (repeat 0 BUFLEN) 0 (firstn n w ++ [0]) with
             | Some _ => Line (firstn n w) true c'
             | None => GOob
             end
    end.

(** The loop of process_commands_stream, src/rtpp_command_async.c:235-263; one step consumes at least
    the newline, so epos - ppos + 1 steps are enough. *)
Record world := mkWorld { w_conn : conn; w_sock : list Z; w_seen : list (list Z * bool); w_closed : bool }.
Fixpoint loop (fuel : nat) (alloc : nat -> bool) (c : conn) (seen : list (list Z * bool)) : option (conn * list (list Z * bool)) :=
  match fuel with
  | O => None
  | S fuel =>
      match get c (alloc (length seen)) with
      | Again => Some (c, seen)
      | Line l ok c' => loop fuel alloc c' (seen ++ [(l, ok)])
      | GOob => None
      end
  end.

(** What happens to a connection: bytes arrive; poll() reports it readable and it is served, where the
    kernel may return fewer bytes than there are. [None]: a store outside of a buffer. *)
Inductive event := Arrive (bs : list Z) | Serve (n : nat).
Definition world0 : world := mkWorld conn_ctor [] [] false.
Definition step (alloc : nat -> bool) (w : world) (e : event) : option world :=
  if w_closed w then Some w
  else
    match e with
    | Arrive bs => Some (mkWorld (w_conn w) (w_sock w ++ bs) (w_seen w) false)
    | Serve n =>
        match doio (w_conn w) (w_sock w) (S n) with
        | None => None
        | Some (c, O) => Some (mkWorld c (w_sock w) (w_seen w) true)
        | Some (c, k) =>
            match loop (S (epos c - ppos c)) alloc c (w_seen w) with
            | None => None
            | Some (c', seen) => Some (mkWorld c' (skipn k (w_sock w)) seen false)
            end
        end
    end.
Fixpoint run (alloc : nat -> bool) (w : world) (es : list event) : option world :=
  match es with
  | [] => Some w
  | e :: t => match step alloc w e with Some w' => run alloc w' t | None => None end
  end.
