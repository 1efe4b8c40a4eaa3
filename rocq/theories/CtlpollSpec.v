(** What one round does to the connections (C43). *)
From Verif Require Import Base CtlpollModel.

(** The connections in the table, in order. *)
Inductive table (p : pset) (cs : list cconn) : Prop :=
  mk_table w rest rrest : pfds p = w :: rest -> used p = S (length cs) ->
    (length cs <= length rest)%nat -> map pf_id (firstn (length cs) rest) = map cc_id cs ->
    rccs p = None :: map Some cs ++ rrest -> length (rccs p) = (MAXC + 1)%nat -> table p cs.

(** What happens to one connection: is it served, is it closed. *)
Definition hung (ev : bool * bool) (c : cconn) : bool :=
  snd ev && (acceptable (cc_type c) || (match cc_type c with STDIO => negb (fst ev) | _ => false end)).
Definition served (ev : bool * bool) (c : cconn) : bool := fst ev && negb (hung ev c).
Definition closed (ev : bool * bool) (rv : Z) (c : cconn) : bool :=
  hung ev c || (served ev c && negb (isdg (cc_type c)) && ((rv =? -1) || negb (isstream (cc_type c)))).
Definition shutdown (c : cconn) : bool := match cc_type c with STDIO => cc_eoc c | _ => false end.
Definition acts (ev : bool * bool) (rv : Z) (c : cconn) : list act :=
  (if served ev c then [Served (cc_id c)] else []) ++
  (if closed ev rv c then (if shutdown c then [Shutdown] else []) ++ [Closed (cc_id c)] else []).

(** A history, and how often a connection was closed, is present, or came up. *)
Fixpoint run (p : pset) (es : list event) : option (pset * list act) :=
  match es with
  | [] => Some (p, [])
  | e :: t => match step p e with
              | Some (p1, a) => match run p1 t with Some (p2, b) => Some (p2, a ++ b) | None => None end
              | None => None
              end
  end.
Definition closes (id : nat) (tr : list act) : nat := length (filter (fun a => match a with Closed i => (i =? id)%nat | _ => false end) tr).
Definition present (id : nat) (cs : list cconn) : nat := length (filter (fun c => (cc_id c =? id)%nat) cs).
Definition comes (id : nat) (es : list event) : nat := length (filter (fun e => match e with Accept c => (cc_id c =? id)%nat | _ => false end) es).
