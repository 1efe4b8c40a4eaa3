(** Model of socket addresses and of their comparison, src/rtpp_network.c:52-173. *)
From Verif Require Import Base.

(** struct sockaddr_storage: IPv4 (host as a 32-bit number), IPv6 (16 host bytes), or any other
    family. IPv6 flow label and scope are not modelled: no function here reads them. *)
Inductive sockaddr :=
| SaIn (host : Z) (port : Z)
| SaIn6 (host : list Z) (port : Z)
| SaOther (af : Z).

Definition AF_INET : Z := 2.
Definition AF_INET6 : Z := 10.

Definition family (a : sockaddr) : Z :=
  match a with SaIn _ _ => AF_INET | SaIn6 _ _ => AF_INET6 | SaOther f => f end.

Fixpoint bytes_eqb (a b : list Z) : bool :=
  match a, b with
  | [], [] => true
  | x :: a', y :: b' => (x =? y) && bytes_eqb a' b'
  | _, _ => false
  end.

Lemma bytes_eqb_eq a b : bytes_eqb a b = true <-> a = b.
Proof.
  revert b; induction a as [|x a IH]; intros [|y b]; cbn; split; intros H; try discriminate; auto.
  - apply andb_true_iff in H as [H1 H2]. apply IH in H2. f_equal; auto. lia.
  - injection H as -> ->. rewrite Z.eqb_refl. cbn. apply IH; auto.
Qed.

Lemma bytes_eqb_refl a : bytes_eqb a a = true.
Proof. apply bytes_eqb_eq; auto. Qed.

(** ishostseq, src/rtpp_network.c:52-74. [None] is the abort() of line 73, reached when both
    addresses have the same family and it is neither IPv4 nor IPv6. *)
Definition ishostseq (a b : sockaddr) : option bool :=
  if negb (family a =? family b) then Some false
  else match a, b with
       | SaIn h1 _, SaIn h2 _ => Some (h1 =? h2)
       | SaIn6 h1 _, SaIn6 h2 _ => Some (bytes_eqb h1 h2)
       | _, _ => None
       end.

(** getport, src/rtpp_network.c:99-122 *)
Definition getport (a : sockaddr) : option Z :=
  match a with SaIn _ p => Some p | SaIn6 _ p => Some p | SaOther _ => None end.

(** isaddrseq, src/rtpp_network.c:124-131 *)
Definition isaddrseq (a b : sockaddr) : option bool :=
  match ishostseq a b with
  | None => None
  | Some false => Some false
  | Some true => match getport a, getport b with
                 | Some p, Some q => Some (p =? q)
                 | _, _ => None
                 end
  end.

(** setport, src/rtpp_network.c:133-153: the assert is IS_VALID_PORT, 1..65535
    (src/rtpp_network.h:96). *)
Definition setport (a : sockaddr) (p : Z) : option sockaddr :=
  if (p <=? 0) || (p >? 65535) then None
  else match a with
       | SaIn h _ => Some (SaIn h p)
       | SaIn6 h _ => Some (SaIn6 h p)
       | SaOther _ => None
       end.

(** setanyport, src/rtpp_network.c:155-173 *)
Definition setanyport (a : sockaddr) : option sockaddr :=
  match a with
  | SaIn h _ => Some (SaIn h 0)
  | SaIn6 h _ => Some (SaIn6 h 0)
  | SaOther _ => None
  end.

Definition inet (a : sockaddr) : bool := match a with SaOther _ => false | _ => true end.
