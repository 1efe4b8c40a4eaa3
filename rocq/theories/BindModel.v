(** Model of src/rtpp_bindaddrs.c: the list of local addresses shared by the sessions. *)
From Verif Require Import Base AddrModel.

(** rtpp_str_const_t: [None] is a NULL pointer with length 0. *)
Definition str := option (list Z).
Definition sbytes (s : str) : list Z := match s with Some b => b | None => [] end.

(** rtpp_str_match, src/rtpp_str.h:65-66: lengths, then memcmp. *)
Definition str_match (a b : str) : bool := bytes_eqb (sbytes a) (sbytes b).

(** struct bindaddr_list, src/rtpp_bindaddrs.c:54-57 with struct rtpp_bindaddr. [b_id] is the
    address of the object: the caller sees only which object it got and its fields. The advertised
    address, the other member of the parameters, is carried along and never looked at. *)
Record baddr := { b_id : nat; b_addr : sockaddr; b_label : str }.

(** struct rtpp_bindaddrs_pvt: the list, most recent first, and the number of objects made so
    far. *)
Record bstate := { b_list : list baddr; b_next : nat }.
Definition b_empty : bstate := {| b_list := []; b_next := 0 |}.

(** What a call returns: an object, NULL, or the process died in abort(). *)
Inductive bres := BObj (p : nat) | BNull | BAbort.

(** The search loop of addr2bindaddr_i, lines 77-86. [params] is [None] for a NULL pointer. *)
Fixpoint find_addr (l : list baddr) (ia : sockaddr) (params : option str) : bres :=
  match l with
  | [] => BNull
  | b :: t =>
      match ishostseq (b_addr b) ia with
      | None => BAbort
      | Some false => find_addr t ia params
      | Some true =>
          match params with
          | Some lb => if negb (str_match lb (b_label b)) then find_addr t ia params
                       else BObj (b_id b)
          | None => BObj (b_id b)
          end
      end
  end.

(** addr2bindaddr_i, lines 67-103, one critical section. [ok]: the allocation of line 87
    succeeds. *)
Definition addr2bindaddr_i (s : bstate) (ia : sockaddr) (params : option str) (ok : bool)
  : bstate * bres :=
  match find_addr (b_list s) ia params with
  | BNull =>
      if ok then
        let b := {| b_id := b_next s; b_addr := ia;
                    b_label := match params with Some lb => lb | None => None end |} in
        ({| b_list := b :: b_list s; b_next := S (b_next s) |}, BObj (b_next s))
      else (s, BNull)
  | r => (s, r)
  end.

(** label2bindaddr, lines 113-128 *)
Fixpoint label2bindaddr (l : list baddr) (label : list Z) : bres :=
  match l with
  | [] => BNull
  | b :: t =>
      match b_label b with
      | Some _ => if str_match (b_label b) (Some label) then BObj (b_id b)
                  else label2bindaddr t label
      | None => label2bindaddr t label
      end
  end.

(** host2bindaddr, lines 130-162. [resolved] is what resolve() found for the host name, [None]
    when it failed. The label check and the insertion are two critical sections in the code
    (lines 138 and 160); they are one step here, because labels are only given by the single
    thread that parses the command line (src/rtpp_bindargs.c:146,172). *)
Definition host2bindaddr (s : bstate) (resolved : option sockaddr) (params : option str)
  (ok : bool) : bstate * bres :=
  let dup := match params with
             | Some (Some lb) =>
                 match label2bindaddr (b_list s) lb with BNull => false | _ => true end
             | _ => false
             end in
  if dup then (s, BNull)
  else match resolved with
       | None => (s, BNull)
       | Some ia => addr2bindaddr_i s ia params ok
       end.

(** bindaddr4af, lines 164-180 *)
Fixpoint bindaddr4af (l : list baddr) (af : Z) : bres :=
  match l with
  | [] => BNull
  | b :: t => if family (b_addr b) =? af then BObj (b_id b) else bindaddr4af t af
  end.

(** The calls. [CAddr] is addr2bindaddr (lines 105-111), also made by
    rtpp_bindaddrs_local4remote (lines 194-220) once it knows the local address. *)
Inductive bcall :=
| CAddr (ia : sockaddr) (ok : bool)
| CHost (resolved : option sockaddr) (params : option str) (ok : bool)
| CLabel (label : list Z)
| CFor (af : Z).

Definition bstep (s : bstate) (c : bcall) : bstate * bres :=
  match c with
  | CAddr ia ok => addr2bindaddr_i s ia None ok
  | CHost resolved params ok => host2bindaddr s resolved params ok
  | CLabel label => (s, label2bindaddr (b_list s) label)
  | CFor af => (s, bindaddr4af (b_list s) af)
  end.

(** A history: the state at the end and the answers. *)
Fixpoint brun (s : bstate) (cs : list bcall) : bstate * list bres :=
  match cs with
  | [] => (s, [])
  | c :: t => let '(s1, r) := bstep s c in
              let '(s2, rs) := brun s1 t in (s2, r :: rs)
  end.
