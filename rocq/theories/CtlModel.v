(** Model of the control sockets: the argument of -s, opening and removing them.
    Code: src/rtpp_controlfd.c, src/main.c. *)
From Verif Require Import Base Str.

(** enum rtpp_ctrl_type (rtpp_controlfd.h) *)
Inductive ckind := KUnix | KCunix | KUdp4 | KUdp6 | KTcp4 | KTcp6 | KSysd | KStdio | KFd.
(** struct rtpp_ctrl_sock: type, exit_on_close, cmd_sock *)
Record csock := CSock { cs_kind : ckind; cs_exit : bool; cs_text : list Z }.

(** strncmp(p, s, strlen(p)) == 0, and what follows *)
Fixpoint after (p s : list Z) : option (list Z) :=
  match p, s with
  | [], _ => Some s
  | a :: p, b :: s => if a =? b then after p s else None
  | _ :: _, [] => None
  end.

(** rtpp_ctrl_sock_parse (rtpp_controlfd.c:326-371); [lib] is rtpp_is_lib.  Simplification: malloc succeeds *)
Definition ctrl_parse (lib : bool) (s : list Z) : csock :=
  match after (B "udp:") s with Some t => CSock KUdp4 false t | None =>
  match after (B "udp6:") s with Some t => CSock KUdp6 false t | None =>
  match after (B "unix:") s with Some t => CSock KUnix false t | None =>
  match after (B "cunix:") s with Some t => CSock KCunix false t | None =>
  match after (B "systemd:") s with Some t => CSock KSysd false t | None =>
  match after (B "stdio:") s with Some t => CSock KStdio false t | None =>
  match after (B "stdioc:") s with Some t => CSock KStdio true t | None =>
  match (if lib then after (B "fd:") s else None) with Some t => CSock KFd false t | None =>
  match after (B "tcp:") s with Some t => CSock KTcp4 false t | None =>
  match after (B "tcp6:") s with Some t => CSock KTcp6 false t | None =>
  CSock KUnix false s end end end end end end end end end end.

(** strrchr(cmd_sock, ':') and CPORT (rtpp_controlfd.c:143-150, 185-192; rtpp_defines.h:44) *)
Fixpoint last_colon (s : list Z) : option (list Z * list Z) :=
  match s with
  | [] => None
  | c :: s =>
      match last_colon s with
      | Some (h, p) => Some (c :: h, p)
      | None => if c =? 58 then Some ([], s) else None
      end
  end.
Definition host_port (s : list Z) : list Z * list Z :=
  match last_colon s with
  | None => (s, B "22222")
  | Some (h, p) => (h, match p with [] => B "22222" | _ => p end)
  end.

(** What is at a path: a socket with its descriptor, a file, or a directory, which unlink() does not remove *)
Inductive node := NSock (fd : Z) | NFile | NDir.
Definition fsys := list Z -> option node.
Definition fset (f : fsys) (p : list Z) (v : option node) : fsys := fun q => if beq p q then v else f q.
Definition unlink (f : fsys) (p : list Z) : fsys := match f p with Some NDir => f | _ => fset f p None end.

(** The system: files, the next descriptor and the answers of the system calls that are still to come (all
    succeed at the end of the list) *)
Record csys := CSys { y_fs : fsys; y_fd : Z; y_ans : list bool }.
Definition ask (y : csys) : csys * bool :=
  match y_ans y with [] => (y, true) | b :: l => (CSys (y_fs y) (y_fd y) l, b) end.
Definition set_fs (y : csys) (f : fsys) : csys := CSys f (y_fd y) (y_ans y).
Definition new_fd (y : csys) : csys * option Z :=
  let (y, ok) := ask y in if ok then (CSys (y_fs y) (y_fd y + 1) (y_ans y), Some (y_fd y)) else (y, None).

Section Init.
  (** runcreds: whether the owner and the mode are to be changed; setbindhost (the resolver); sd_listen_fds;
      atoi_safe (C46) *)
  Context (own mode : bool) (resolves : ckind -> list Z -> list Z -> bool) (sysd_fd : option Z) (fdnum : list Z -> option Z).

  (** controlfd_init_ifsun (rtpp_controlfd.c:85-134); sizeof(sun_path) is 108.  Simplifications: a file that
      unlink() may not remove is as one that it may, where bind() fails; the empty path, which Linux takes as the name
      of an abstract socket, is a path like others; a descriptor that is closed on failure is not given again *)
  Definition init_ifsun (y : csys) (path : list Z) : csys * option Z :=
    if 108 <=? Z.of_nat (length path) then (y, None)
    else
      let y := set_fs y (unlink (y_fs y) path) in
      match new_fd y with
      | (y, None) => (y, None)
      | (y, Some fd) =>
          let (y, ok) := ask y in
          if match y_fs y path with None => ok | Some _ => false end then
            let y := set_fs y (fset (y_fs y) path (Some (NSock fd))) in
            let (y, ok1) := if own then ask y else (y, true) in
            if negb ok1 then (y, None)
            else
              let (y, ok2) := if mode then ask y else (y, true) in
              if negb ok2 then (y, None)
              else let (y, ok3) := ask y in if ok3 then (y, Some fd) else (y, None)
          else (y, None)
      end.

  (** controlfd_init_udp and controlfd_init_tcp (rtpp_controlfd.c:136-224): resolver, socket(), bind(), and for
      TCP listen() *)
  Definition init_inet (y : csys) (k : ckind) (s : list Z) : csys * option Z :=
    let (h, p) := host_port s in
    if negb (resolves k h p) then (y, None)
    else
      match new_fd y with
      | (y, None) => (y, None)
      | (y, Some fd) =>
          let (y, ok) := ask y in
          if negb ok then (y, None)
          else
            match k with
            | KTcp4 | KTcp6 => let (y, ok) := ask y in if ok then (y, Some fd) else (y, None)
            | _ => (y, Some fd)
            end
      end.

  (** the switch of rtpp_controlfd_init (rtpp_controlfd.c:234-273): the descriptors for reading and writing *)
  Definition open_sock (y : csys) (c : csock) : csys * option (Z * Z) :=
    let both (a : csys * option Z) : csys * option (Z * Z) :=
      (fst a, match snd a with Some fd => if fd <? 0 then None else Some (fd, fd) | None => None end) in
    match cs_kind c with
    | KSysd => both (y, sysd_fd)
    | KUnix | KCunix => both (init_ifsun y (cs_text c))
    | KUdp4 | KUdp6 | KTcp4 | KTcp6 => both (init_inet y (cs_kind c) (cs_text c))
    | KStdio => (y, Some (0, 1))
    | KFd => both (y, fdnum (cs_text c))
    end.

  (** rtpp_controlfd_init (rtpp_controlfd.c:226-284): the loop; fcntl() for O_NONBLOCK *)
  Fixpoint controlfd_init (y : csys) (l : list csock) : csys * option (list (Z * Z)) :=
    match l with
    | [] => (y, Some [])
    | c :: l =>
        match open_sock y c with
        | (y, None) => (y, None)
        | (y, Some fds) =>
            let (y, ok) := ask y in
            if negb ok then (y, None)
            else let (y, r) := controlfd_init y l in (y, match r with Some r => Some (fds :: r) | None => None end)
        end
    end.
End Init.

(** RTPP_CTRL_ISUNIX (rtpp_controlfd.h:48) *)
Definition is_unix (c : csock) : bool := match cs_kind c with KUnix | KCunix => true | _ => false end.

(** rtpp_controlfd_cleanup (rtpp_controlfd.c:313-324) *)
Fixpoint cleanup (f : fsys) (l : list csock) : fsys :=
  match l with [] => f | c :: l => cleanup (if is_unix c then unlink f (cs_text c) else f) l end.

(** the control port given to the port table (main.c:356, 1020-1021): cfsp->port_ctl, which is set to 0 and never
    after; the port table leaves out this port and the one before it (rtpp_port_table.c:129) *)
Definition cfg_port_ctl (l : list csock) : Z := 0.
Definition left_out (ctl port : Z) : bool := (port =? ctl) || (port =? ctl - 1).
