(** What a user of the timeout notification targets relies on. *)
From Verif Require Import Base AddrModel NumModel TnotModel.

(** The answer to a call made after the calls [cs]. *)
Definition tanswer (lib : bool) (cs : list tcall) (c : tcall) : tans :=
  snd (tstep lib (fst (trun lib ts_empty cs)) c).
Definition found (lib : bool) (cs : list tcall) (n : list Z) (cc la : option sockaddr) (ok : bool) (i : nat) : Prop :=
  tanswer lib cs (TLookup n cc la ok) = AFound (TObj i).
(** The target behind an answer, after the calls [cs]. *)
Definition target_of (lib : bool) (cs : list tcall) (i : nat) : option target :=
  nth_error (ts_tp (fst (trun lib ts_empty cs))) i.

(** The name [m] was configured, successfully, when the resolver answered [rslv]. *)
Definition configured (lib : bool) (cs : list tcall) (m : list Z) (rslv : option Z) : Prop :=
  exists pre mid ok, cs = pre ++ TAppend m rslv ok :: mid /\
    tanswer lib pre (TAppend m rslv ok) = AAdded true.

(** The syntax of names. *)
Definition no_prefix (lib : bool) (m : list Z) : Prop :=
  (forall x, m <> S_UNIX ++ x) /\ (forall x, m <> S_TCP ++ x) /\
  (lib = true -> forall x, m <> S_FD ++ x).
Definition host_port (x h : list Z) (port : Z) : Prop :=
  exists p, x = h ++ [COLON] ++ p /\ ~ In COLON p /\ p <> [] /\ h <> [] /\
            Z.of_nat (length h) < 512 /\ port = atoi p /\ 1 <= port <= 65535.

(** [m] names a unix socket path, [m] names an IPv4 host and port, [m] names a descriptor, and [m]
    stands for a port of whoever makes the request. *)
Definition names_path (lib : bool) (m path : list Z) : Prop :=
  path <> [] /\ (m = S_UNIX ++ path \/ (no_prefix lib m /\ m = path)).
Definition names_host (m h : list Z) (port : Z) : Prop :=
  exists x, m = S_TCP ++ x /\ host_port x h port /\ h <> S_SELF.
Definition names_self (m : list Z) (port : Z) : Prop :=
  exists x, m = S_TCP ++ x /\ host_port x S_SELF port.
Definition names_fd (lib : bool) (m : list Z) (fd : Z) : Prop :=
  lib = true /\ exists x, m = S_FD ++ x /\ atoi_safe x = ATOI_OK fd /\ 0 <= fd.

(** Where the target configured as [m] is; a path longer than a socket address can hold is cut. *)
Definition place (lib : bool) (m : list Z) (rslv : option Z) (p : tplace) : Prop :=
  (exists path, names_path lib m path /\ p = PPath (firstn SUN_PATH path)) \/
  (exists h port a, names_host m h port /\ rslv = Some a /\ p = PInet (SaIn a port)) \/
  (exists fd, names_fd lib m fd /\ p = PFd fd).

(** The full form of a configured name: the prefix "unix:" may have been left out. *)
Definition full_name (lib : bool) (m n : list Z) : Prop :=
  (no_prefix lib m /\ n = S_UNIX ++ m) \/ (~ no_prefix lib m /\ n = m).

(** [n] in a command refers to the target configured as [m]: it is its full name, or its full name
    without "unix:" when there is no other colon in it. *)
Definition refers (lib : bool) (n m : list Z) : Prop :=
  full_name lib m n \/ (~ In COLON n /\ full_name lib m (S_UNIX ++ n)).

(** Who makes the request, for the purpose of the wildcards. *)
Definition requester (cc : option sockaddr) : Z :=
  match cc with Some (SaIn h _) => h | _ => LOCALHOST end.

(** An address of another family than IPv4 and IPv6 does not say it is one of them. *)
Definition wf_sa (a : option sockaddr) : Prop :=
  match a with Some (SaOther f) => f <> AF_INET /\ f <> AF_INET6 | _ => True end.
Definition wf_call (c : tcall) : Prop :=
  match c with TLookup _ cc la _ => wf_sa cc /\ wf_sa la | _ => True end.
