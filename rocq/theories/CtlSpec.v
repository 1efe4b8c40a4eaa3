(** The forms of a control socket, as the manual has them. *)
From Verif Require Import Base Str CtlModel.

Definition forms (lib : bool) : list (list Z * (ckind * bool)) :=
  [(B "unix:", (KUnix, false)); (B "cunix:", (KCunix, false)); (B "udp:", (KUdp4, false)); (B "udp6:", (KUdp6, false));
   (B "tcp:", (KTcp4, false)); (B "tcp6:", (KTcp6, false)); (B "systemd:", (KSysd, false)); (B "stdio:", (KStdio, false));
   (B "stdioc:", (KStdio, true))] ++ if lib then [(B "fd:", (KFd, false))] else [].

(** [s] is the text of [c]: a form followed by the rest, or else the path of a UNIX socket *)
Definition denotes (lib : bool) (s : list Z) (c : csock) : Prop :=
  (exists p, In (p, (cs_kind c, cs_exit c)) (forms lib) /\ s = p ++ cs_text c)
  \/ ((forall p k t, In (p, k) (forms lib) -> s <> p ++ t) /\ c = CSock KUnix false s).

(** host and port: what is before and after the last colon; 22222 when there is no port *)
Definition host_port_is (s h p : list Z) : Prop :=
  (p <> [] /\ ~ In 58 p /\ s = h ++ 58 :: p) \/ (p = B "22222" /\ (s = h ++ [58] \/ (s = h /\ ~ In 58 h))).

Definition unix_path (l : list csock) (p : list Z) : Prop := exists c, In c l /\ (cs_kind c = KUnix \/ cs_kind c = KCunix) /\ cs_text c = p.
