(** Model of src/rtpp_port_table.c and of the listener creation in src/rtpp_command.c. *)
From Verif Require Import Base.

(** enum rtpp_ptu_rval, src/rtpp_port_table.h:32 *)
Inductive ptu := PtuOk | PtuOneMore | PtuBrkErr.

(** struct rtpp_ptbl_priv, src/rtpp_port_table.c:40-48 (lock: every allocation runs under it, so
    an allocation is one step). [port_table_len] is [length pt_tab]. *)
Record ptbl := mkPt { pt_tab : list Z; pt_idx : Z; pt_ctl : Z; pt_seq : bool }.

(** main.c:779-793: the user's range [-m]/[-M] made even; [None] is the start-up error. *)
Definition norm_ports (m M : Z) : option (Z * Z) :=
  let mn := if Z.eqb (m mod 2) 0 then m else m + 1 in
  let mx := if Z.eqb (M mod 2) 0 then M - 2 else M - 1 in
  if mx <? mn then None else Some (mn, mx).

(** Generate linear table, src/rtpp_port_table.c:76-81; [portnum] is a uint16_t. *)
Fixpoint gen_linear (n : nat) (portnum : Z) : list Z :=
  match n with
  | O => []
  | S n' => portnum :: gen_linear n' (u16 (portnum + 2))
  end.

(** Exchange of two elements, [None] is an out of bounds access. *)
Definition swap_at (tab : list Z) (i j : nat) : option (list Z) :=
  match nth_error tab i, nth_error tab j with
  | Some x, Some y => Some (upd (upd tab i y) j x)
  | _, _ => None
  end.

Section World.
  (** [W] is the rest of the world: sockets, random generator. [rnd] is random(3), which
      returns a non-negative number; nothing else is assumed about it. *)
  Context {W : Type} (rnd : W -> nat * W).

  (** Shuffle loop of the constructor, src/rtpp_port_table.c:82-90: [k] rounds left, index [i]. *)
  Fixpoint shuffle (k i : nat) (tab : list Z) (w : W) : option (list Z * W) :=
    match k with
    | O => Some (tab, w)
    | S k' =>
        let (r, w') := rnd w in
        match swap_at tab i (r mod length tab) with
        | None => None
        | Some tab' => shuffle k' (S i) tab' w'
        end
    end.

  (** rtpp_port_table_ctor, src/rtpp_port_table.c:54-107 (allocation succeeds) *)
  Definition pt_ctor (mn mx : Z) (sq : bool) (ctl : Z) (w : W) : option (ptbl * W) :=
    let len := Z.quot (mx - mn) 2 + 1 in
    let tab := gen_linear (Z.to_nat len) (u16 mn) in
    match (if sq then Some (tab, w) else shuffle (length tab) 0 tab w) with
    | None => None
    | Some (tab', w') => Some (mkPt tab' (len - 1) (u16 ctl) sq, w')
    end.

  (** Loop of rtpp_ptbl_get_port, src/rtpp_port_table.c:126-147: [k] iterations left, loop
      variable [i]. [use] is the use_port callback. The result lists the (port, answer) pairs
      offered, a ghost output, and the return value. [None] is an out of bounds access. *)
  Fixpoint gp_loop (use : W -> Z -> ptu * W) (k : nat) (i : Z) (pt : ptbl) (w : W)
    : option (ptbl * W * list (Z * ptu) * Z) :=
    match k with
    | O => Some (pt, w, [], -1)
    | S k' =>
        let len := Z.of_nat (length (pt_tab pt)) in
        let idx := Z.rem (pt_idx pt + i) len in
        match nth_error (pt_tab pt) (Z.to_nat idx) with
        | None => None
        | Some port =>
            if (port =? pt_ctl pt) || (port =? pt_ctl pt - 1) then gp_loop use k' (i + 1) pt w
            else
              let (rval, w1) := use w port in
              match (if pt_seq pt then Some (pt_tab pt, w1)
                     else let (r, w2) := rnd w1 in
                          match swap_at (pt_tab pt) (Z.to_nat idx) (r mod length (pt_tab pt)) with
                          | None => None
                          | Some t => Some (t, w2)
                          end) with
              | None => None
              | Some (tab', w2) =>
                  match rval with
                  | PtuOk => Some (mkPt tab' idx (pt_ctl pt) (pt_seq pt), w2, [(port, rval)], 0)
                  | PtuBrkErr => Some (mkPt tab' idx (pt_ctl pt) (pt_seq pt), w2, [(port, rval)], -1)
                  | PtuOneMore =>
                      match gp_loop use k' (i + 1) (mkPt tab' (pt_idx pt) (pt_ctl pt) (pt_seq pt)) w2 with
                      | None => None
                      | Some (pt', w', offs, rc) => Some (pt', w', (port, rval) :: offs, rc)
                      end
                  end
              end
        end
    end.

  (** rtpp_ptbl_get_port, src/rtpp_port_table.c:116-150 *)
  Definition get_port (use : W -> Z -> ptu * W) (pt : ptbl) (w : W) :=
    gp_loop use (length (pt_tab pt) - 1) 1 pt w.

  (** A history of allocations, each with its own callback. *)
  Fixpoint gp_hist (uses : list (W -> Z -> ptu * W)) (pt : ptbl) (w : W)
    : option (ptbl * W * list (list (Z * ptu) * Z)) :=
    match uses with
    | [] => Some (pt, w, [])
    | use :: t =>
        match get_port use pt w with
        | None => None
        | Some (pt', w', offs, rc) =>
            match gp_hist t pt' w' with
            | None => None
            | Some (pt'', w'', outs) => Some (pt'', w'', (offs, rc) :: outs)
            end
        end
    end.
End World.

(** ** Listener sockets *)

(** What the operating system does to one socket()/bind()/fcntl() sequence. *)
Inductive os_outcome :=
| OsNoSocket     (* socket() or an allocation failed *)
| OsBindInUse    (* bind(): EADDRINUSE or EACCES *)
| OsBindOther    (* bind(): any other error *)
| OsNonblockFail (* setnonblock failed *)
| OsOk.

(** Open datagram sockets as (socket, port bound to; -1 before bind). [os] is an arbitrary
    oracle for the outcome of the n-th attempt, [rn] one for random(). *)
Record net := mkNet {
  n_open : list (Z * Z);
  n_next : Z;
  n_os : nat -> os_outcome; n_ok : nat;
  n_rn : nat -> nat; n_rk : nat }.

Definition net_rnd (w : net) : nat * net :=
  (n_rn w (n_rk w), mkNet (n_open w) (n_next w) (n_os w) (n_ok w) (n_rn w) (S (n_rk w))).

Definition net_close (fd : Z) (w : net) : net :=
  mkNet (filter (fun e => negb (fst e =? fd)) (n_open w)) (n_next w) (n_os w) (n_ok w) (n_rn w) (n_rk w).

(** rtpp_socket_ctor, src/rtpp_socket.c:124-163 *)
Definition sock_ctor (w : net) : net * Z :=
  (mkNet (n_open w ++ [(n_next w, -1)]) (n_next w + 1) (n_os w) (n_ok w) (n_rn w) (n_rk w), n_next w).

Definition net_bind (fd port : Z) (w : net) : net :=
  mkNet (map (fun e => if fst e =? fd then (fd, port) else e) (n_open w)) (n_next w)
        (n_os w) (n_ok w) (n_rn w) (n_rk w).

Definition net_tick (w : net) : os_outcome * net :=
  (n_os w (n_ok w), mkNet (n_open w) (n_next w) (n_os w) (S (n_ok w)) (n_rn w) (n_rk w)).

(** create_listener, src/rtpp_command.c:107-148. TOS, receive buffer and timestamp options only
    log on failure and are not modelled. *)
Definition create_listener (w : net) (port : Z) : ptu * option Z * net :=
  let (o, w0) := net_tick w in
  match o with
  | OsNoSocket => (PtuBrkErr, None, w0)
  | _ =>
      let (w1, fd) := sock_ctor w0 in
      match o with
      | OsBindInUse => (PtuOneMore, None, net_close fd w1)
      | OsBindOther => (PtuBrkErr, None, net_close fd w1)
      | OsNonblockFail => (PtuBrkErr, None, net_close fd (net_bind fd port w1))
      | _ => (PtuOk, Some fd, net_bind fd port w1)
      end
  end.

(** The caller's variables: fds[2] and *port. *)
Record lst_out := mkLo { lo_fd0 : option Z; lo_fd1 : option Z; lo_port : Z }.
Definition wnet := (net * lst_out)%type.

(** create_twinlistener, src/rtpp_command.c:150-178 *)
Definition twinlistener (w : wnet) (port : Z) : ptu * wnet :=
  let (n, lo) := w in
  match create_listener n port with
  | (PtuOk, Some fd0, n1) =>
      match create_listener n1 (port + 1) with
      | (PtuOk, Some fd1, n2) => (PtuOk, (n2, mkLo (Some fd0) (Some fd1) (port + 2 - 2)))
      | (r, _, n2) => (r, (net_close fd0 n2, mkLo None None (lo_port lo)))
      end
  | (r, _, n1) => (r, (n1, mkLo None None (lo_port lo)))
  end.

Definition wnet_rnd (w : wnet) : nat * wnet :=
  let (r, n) := net_rnd (fst w) in (r, (n, snd w)).

(** rtpp_create_listener, src/rtpp_command.c:180-201, over the table of the address family;
    [p0] is the value of *port before the call. *)
Definition rtpp_create_listener (pt : ptbl) (n : net) (p0 : Z) :=
  get_port wnet_rnd twinlistener pt (n, mkLo None None p0).
