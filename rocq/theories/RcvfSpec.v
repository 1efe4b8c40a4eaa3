(** What a packet read from a socket is to be. *)
From Verif Require Import Base RcvfModel.

(** the messages before the first address *)
Fixpoint before_dst (l : list cmsg) : list cmsg :=
  match l with [] => [] | CDst _ :: _ => [] | m :: l => m :: before_dst l end.
(** the first address *)
Definition sent_to (l : list cmsg) (a : Z) : Prop := exists l1 l2, l = l1 ++ CDst a :: l2 /\ forall b, ~ In (CDst b) l1.
(** the last time *)
Definition stamped (l : list cmsg) (s u : Z) : Prop := exists l1 l2, l = l1 ++ CTime s u :: l2 /\ forall s' u', ~ In (CTime s' u') l2.

(** The packet made of the datagram [d] *)
Record packet_of (buflen : Z) (ra : rarg) (d : dgram) (p : pkt) : Prop := PacketOf {
  po_data : exists rest, d_data d = p_data p ++ rest /\ (Z.of_nat (length (d_data d)) <= buflen -> rest = []);
  po_size : p_size p = Z.of_nat (length (p_data p)) /\ p_size p <= buflen;
  po_from : p_raddr p = d_from d;
  po_port : p_lport p = a_port ra;
  po_dst : forall a, sent_to (d_cmsgs d) a -> p_laddr p = (a, a_port ra);
  po_nodst : (forall a, ~ In (CDst a) (d_cmsgs d)) -> p_laddr p = a_laddr ra;
  po_mono : p_mono p = match a_time ra with Some (_, m) => Some m | None => None end;
  po_untimed : a_time ra = None -> p_wall p = None;
  po_nostamp : forall w m, a_time ra = Some (w, m) -> (forall s u, ~ In (CTime s u) (d_cmsgs d)) -> p_wall p = Some w }.

(** The time of the packet is the one the kernel gave *)
Definition kernel_time (ra : rarg) (l : list cmsg) (p : pkt) : Prop :=
  forall s u, a_time ra <> None -> stamped l s u -> 0 < s -> 0 <= u < 1000000 -> p_wall p = Some (s * 1000000000 + u * 1000).
