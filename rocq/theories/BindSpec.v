(** What the users of the local address list rely on. *)
From Verif Require Import Base AddrModel BindModel.

(** The same host: the same family and the same host part, whatever the port. *)
Definition same_host (a b : sockaddr) : Prop :=
  match a, b with
  | SaIn h1 _, SaIn h2 _ => h1 = h2
  | SaIn6 h1 _, SaIn6 h2 _ => h1 = h2
  | _, _ => False
  end.

(** A call that is made with IPv4 and IPv6 addresses only. *)
Definition inet_call (c : bcall) : Prop :=
  match c with
  | CAddr a _ => inet a = true
  | CHost (Some a) _ _ => inet a = true
  | _ => True
  end.

(** The address a call asks for, and the label it wants, if any. *)
Definition asks (c : bcall) (a : sockaddr) : Prop :=
  match c with
  | CAddr b _ => b = a
  | CHost (Some b) _ _ => b = a
  | _ => False
  end.
(** Asking for any object of that address. *)
Definition asks_any (c : bcall) (a : sockaddr) : Prop :=
  match c with
  | CAddr b _ => same_host a b
  | CHost (Some b) None _ => same_host a b
  | _ => False
  end.
(** Asking for the object of that address that carries no label. *)
Definition asks_plain (c : bcall) (a : sockaddr) : Prop :=
  match c with
  | CHost (Some b) (Some None) _ => same_host a b
  | _ => False
  end.
(** Configuring an address with this label. *)
Definition labels (c : bcall) (a : sockaddr) (l : list Z) : Prop :=
  match c with
  | CHost (Some b) (Some (Some l')) _ => b = a /\ l' = l
  | _ => False
  end.
(** A call that configures (as opposed to merely asks for) this address. *)
Definition configures (c : bcall) (a : sockaddr) : Prop :=
  match c with
  | CHost (Some b) (Some _) _ => same_host a b
  | _ => False
  end.

(** The answer to the call [c] when it is made after the calls [cs]. *)
Definition answer (cs : list bcall) (c : bcall) : bres := snd (bstep (fst (brun b_empty cs)) c).

(** The address behind an object, as seen after the calls [cs]. *)
Definition addr_of (cs : list bcall) (p : nat) : option sockaddr :=
  match find (fun b => (b_id b =? p)%nat) (b_list (fst (brun b_empty cs))) with
  | Some b => Some (b_addr b)
  | None => None
  end.
