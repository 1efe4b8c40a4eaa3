(** The sender thread seen from outside: requests, calls of sendto, releases. *)
From Verif Require Import Base NetioModel.

(** Requests accepted before the shut-down, in order *)
Fixpoint accepted (tr : list event) : list item :=
  match tr with [] => [] | EAccept i :: t => i :: accepted t | EStop :: _ => [] | _ :: t => accepted t end.
(** Calls of sendto and releases, in order *)
Definition works (e : event) : bool := match e with ECall _ _ _ _ | EFree _ => true | _ => false end.
Definition work (tr : list event) : list event := filter works tr.

Definition good (r : outcome) : bool := match r with Ok _ => true | _ => false end.
Definition transient (r : outcome) : bool := match r with Eperm | Enobufs => true | _ => false end.
Definition count (f : outcome -> bool) (l : list outcome) : Z := zsum (fun r => if f r then 1 else 0) l.

(** [l] is how sending one item may go so far: fewer than [n] copies are out, there were only transient errors, at most
    three of them *)
Definition under_way (n : Z) (l : list outcome) : Prop :=
  Forall (fun r => good r = true \/ transient r = true) l /\ count good l < n /\ count transient l <= 3.
(** ... and how it may end: with the last copy, with an error that is not transient, or with a fourth error *)
Definition finished (n : Z) (l : list outcome) : Prop :=
  exists l' r, l = l' ++ [r] /\ under_way n l' /\
    (good r = true /\ count good l = n \/
     good r = false /\ transient r = false \/
     transient r = true /\ count transient l = 4).
(** The calls for one item *)
Definition calls (i : item) (l : list outcome) : list event := map (fun r => ECall (i_sock i) (i_msg i) (i_to i) r) l.
(** All the work for one item: the calls, then the release *)
Definition served (i : item) (w : list event) : Prop := exists l, finished (i_nsend i) l /\ w = calls i l ++ [EFree i].

(** The number of copies asked for *)
Definition copies (dmode : bool) (msg : list Z) : Z := if dmode then if Z.of_nat (length msg) <? 128 then 2 else 1 else 1.
(** What each operation asks for *)
Definition request (o : op) : list item :=
  match o with
  | SendTo sock msg to true => [mkItem 1 sock msg to]
  | SendPkt dmode sock msg to true => [mkItem (copies dmode msg) sock msg to]
  | _ => []
  end.
Fixpoint requests (os : list op) : list item :=
  match os with [] => [] | Shutdown :: _ => [] | o :: t => request o ++ requests t end.
