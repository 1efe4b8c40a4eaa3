(** Model of the control connection table: init_pollset, rtpp_cmd_acceptor_run and
    rtpp_cmd_queue_run, src/rtpp_command_async.c:73-80, 299-472, 543-595. Serving a connection
    (process_commands_stream / process_commands) is an oracle for its result. Every access to the
    two arrays is checked; [None] is an access outside of them. *)
From Verif Require Import Base.

(** enum rtpp_ctrl_type, src/rtpp_controlfd.h:29-30 *)
Inductive ctype := IFSUN | UDP4 | UDP6 | SYSD | STDIO | CFD | IFSUN_C | TCP4 | TCP6.
(** src/rtpp_controlfd.h:47-53 *)
Definition isdg t := match t with UDP4 | UDP6 => true | _ => false end.
Definition isstream t := match t with IFSUN_C | STDIO | TCP4 | TCP6 | CFD | SYSD => true | _ => false end.
Definition acceptable t := match t with IFSUN | IFSUN_C | TCP4 | TCP6 | SYSD => true | _ => false end.

(** A connection: who it is, the type of its control socket and exit_on_close of it. *)
Record cconn := mkCc { cc_id : nat; cc_type : ctype; cc_eoc : bool }.
(** struct pollfd: whose descriptor, POLLIN, POLLERR or POLLHUP *)
Record pfd := mkPfd { pf_id : nat; pf_in : bool; pf_err : bool }.
Definition MAXC : nat := 100.
(** struct rtpp_cmd_pollset. Entry 0 belongs to the wake-up pipe, rccs[0] is NULL. *)
Record pset := mkPset { pfds : list pfd; rccs : list (option cconn); used : nat }.

Inductive act := Wake | Served (id : nat) | Closed (id : nat) | Shutdown.

(** memmove(&a[i], &a[i + 1], n * sizeof a[0]) *)
Definition memmove {A} (a : list A) (i n : nat) : option (list A) :=
  if (i + 1 + n <=? length a)%nat then Some (firstn i a ++ firstn n (skipn (i + 1) a) ++ skipn (i + n) a) else None.

(** The loop over the entries, src/rtpp_command_async.c:417-464, from index i; [goto again] is a step
    with the same index. Each step serves one index or removes one entry. *)
Fixpoint round (fuel : nat) (rv : nat -> Z) (i : nat) (p : pset) (tr : list act) : option (pset * list act) :=
  match fuel with
  | O => None
  | S fuel =>
      if (i <? used p)%nat then
        match nth_error (pfds p) i with
        | None => None
        | Some f =>
            if (i =? 0)%nat then round fuel rv 1 p (if pf_in f then tr ++ [Wake] else tr)
            else
              match nth_error (rccs p) i with
              | Some (Some c) =>
                  let closefd tr :=
                    let tr := if (match cc_type c with STDIO => true | _ => false end) && cc_eoc c then tr ++ [Shutdown] else tr in
                    let tr := tr ++ [Closed (cc_id c)] in
                    let u := (used p - 1)%nat in
                    if (0 <? u)%nat && (i <? u)%nat then
                      match memmove (pfds p) i (u - i), memmove (rccs p) i (u - i) with
                      | Some a, Some b => round fuel rv i (mkPset a b u) tr
                      | _, _ => None
                      end
                    else round fuel rv (S i) (mkPset (pfds p) (rccs p) u) tr
                  in
                  if pf_err f && (acceptable (cc_type c) || ((match cc_type c with STDIO => true | _ => false end) && negb (pf_in f))) then closefd tr
                  else if negb (pf_in f) then round fuel rv (S i) p tr
                  else
                    let tr := tr ++ [Served (cc_id c)] in
                    if negb (isdg (cc_type c)) && ((rv (cc_id c) =? -1) || negb (isstream (cc_type c))) then closefd tr
                    else round fuel rv (S i) p tr
              | _ => None
              end
        end
      else Some (p, tr)
  end.

(** realloc() to n entries; new ones are indeterminate, here copies of [d] *)
Definition realloc {A} (a : list A) (n : nat) (d : A) : list A := firstn n a ++ repeat d (n - length a).
Definition set {A} (a : list A) (i : nat) (x : A) : option (list A) := if (i <? length a)%nat then Some (upd a i x) else None.
(** rtpp_cmd_acceptor_run, src/rtpp_command_async.c:351-377: a new connection; [false]: refused *)
Definition accept (p : pset) (c : cconn) : option (pset * bool) :=
  if (MAXC <=? used p)%nat then Some (p, false)
  else
    match set (realloc (pfds p) (used p + 1) (mkPfd 0 false false)) (used p) (mkPfd (cc_id c) false false), set (rccs p) (used p) (Some c) with
    | Some a, Some b => Some (mkPset a b (used p + 1), true)
    | _, _ => None
    end.

(** init_pollset, src/rtpp_command_async.c:543-595; cs: the control sockets that are not accepted on.
    exit_on_close of a single stream socket is part of the given connection. *)
Fixpoint init_fill (p : pset) (i : nat) (cs : list cconn) : option pset :=
  match cs with
  | [] => Some p
  | c :: t => match set (pfds p) i (mkPfd (cc_id c) false false), set (rccs p) i (Some c) with
              | Some a, Some b => init_fill (mkPset a b (used p)) (S i) t
              | _, _ => None
              end
  end.
Definition init_pollset (cs : list cconn) : option pset :=
  let n := S (length cs) in
  init_fill (mkPset (repeat (mkPfd 0 false false) n) (repeat None (MAXC + 1)) n) 1 cs.

(** poll(): revents of the used entries *)
Definition poll (p : pset) (ev : nat -> bool * bool) : pset :=
  mkPset (map (fun f => mkPfd (pf_id f) (fst (ev (pf_id f))) (snd (ev (pf_id f)))) (pfds p)) (rccs p) (used p).

Inductive event := Accept (c : cconn) | Round (ev : nat -> bool * bool) (rv : nat -> Z).
Definition step (p : pset) (e : event) : option (pset * list act) :=
  match e with
  | Accept c => match accept p c with Some (p', true) => Some (p', []) | Some (p', false) => Some (p', [Closed (cc_id c)]) | None => None end
  | Round ev rv => round (S (used p)) rv 0 (poll p ev) []
  end.
