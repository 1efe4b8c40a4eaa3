(** Model of lines logged to the standard error stream: the lock that keeps them whole, and their levels.
    Code: src/rtpp_log_stand.c. *)
From Verif Require Import Base Str.

(** A thread: idle; waiting with a ticket to write a line, which is a list of pieces; or writing, with the pieces
    written and those left *)
Inductive tst := TIdle | TWait (ticket : Z) (l : list Z) | TIn (written left : list Z).

(** _log_lock (rtpp_log_stand.c:59-62), the threads and the stream; [asked] is a history of the lines in the order in
    which tickets are taken, which no step reads *)
Record tl := Tl { next_ticket : Z; now_serving : Z; th : nat -> tst; strm : list Z; asked : list (list Z) }.
Definition set_th (f : nat -> tst) (t : nat) (v : tst) : nat -> tst := fun u => if (t =? u)%nat then v else f u.

(** the counters are unsigned int: [m] is 2^32 *)
Definition uint_mod : Z := 2 ^ 32.
Definition tl_init (start : Z) : tl := Tl start start (fun _ => TIdle) [] [].

(** Steps: the ticket is taken, the counter is looked at, a piece is written, the lock is released *)
Inductive top := OTicket (t : nat) (l : list Z) | OLook (t : nat) | OPiece (t : nat) | ORelease (t : nat).

Section M.
  Context (m : Z).
  Definition tstep (s : tl) (o : top) : tl :=
    match o with
    (** _rtpp_log_lock (rtpp_log_stand.c:227-238): fetch and add *)
    | OTicket t l =>
        match th s t with
        | TIdle => Tl ((next_ticket s + 1) mod m) (now_serving s) (set_th (th s) t (TWait (next_ticket s) l)) (strm s) (asked s ++ [l])
        | _ => s
        end
    (** one turn of its loop (234-237) *)
    | OLook t =>
        match th s t with
        | TWait k l => if now_serving s =? k then Tl (next_ticket s) (now_serving s) (set_th (th s) t (TIn [] l)) (strm s) (asked s) else s
        | _ => s
        end
    (** the calls of fprintf() of _rtpp_log_write_va and _rtpp_log_ewrite_va (281-287, 334-340): a piece of the line
        reaches the stream.  Simplification: writes do not fail *)
    | OPiece t =>
        match th s t with
        | TIn w (x :: l) => Tl (next_ticket s) (now_serving s) (set_th (th s) t (TIn (w ++ [x]) l)) (strm s ++ [x]) (asked s)
        | _ => s
        end
    (** _rtpp_log_unlock (240-246), after the whole line *)
    | ORelease t =>
        match th s t with
        | TIn w [] => Tl (next_ticket s) ((now_serving s + 1) mod m) (set_th (th s) t TIdle) (strm s) (asked s)
        | _ => s
        end
    end.
  Definition trun (s : tl) (l : list top) : tl := fold_left tstep l s.
End M.

(** the errno that _rtpp_log_ewrite_va reports (rtpp_log_stand.c:333-338): it is read after the lock, where each
    usleep() (236) may set it *)
Definition reported (e : Z) (sleeps : list (option Z)) : Z :=
  fold_left (fun e r => match r with Some e' => e' | None => e end) sleeps e.

(** RTPP_LOG_*: the priorities of syslog (rtpp_log_stand.h:44-48) *)
Definition L_DBUG : Z := 7. Definition L_INFO : Z := 6. Definition L_WARN : Z := 4. Definition L_ERR : Z := 3. Definition L_CRIT : Z := 2.
Definition low (c : Z) : Z := if (65 <=? c) && (c <=? 90) then c + 32 else c.
Definition caseeq (a b : list Z) : bool := beq (map low a) (map low b).
(** strlvl (rtpp_log_stand.c:143-170); None is abort() *)
Definition strlvl (l : Z) : option (list Z) :=
  if l =? L_DBUG then Some (B "DBUG") else if l =? L_INFO then Some (B "INFO") else if l =? L_WARN then Some (B "WARN")
  else if l =? L_ERR then Some (B "ERR") else if l =? L_CRIT then Some (B "CRIT") else None.
(** rtpp_log_str2lvl (rtpp_log_stand.c:172-192) *)
Definition str2lvl (s : list Z) : Z :=
  if caseeq s (B "DBUG") then L_DBUG else if caseeq s (B "INFO") then L_INFO else if caseeq s (B "WARN") then L_WARN
  else if caseeq s (B "ERR") then L_ERR else if caseeq s (B "CRIT") then L_CRIT else -1.
(** check_level (rtpp_log_stand.c:194-199) *)
Definition shown (set level : Z) : bool := level <=? set.
