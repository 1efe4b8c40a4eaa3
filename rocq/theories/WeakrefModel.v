(** Model of src/rtpp_weakref.c (registry of objects by unique id) *)
From Verif Require Import Base HashModel HashSpec.

Section Weakref.
  (** XXH64 of the 8 key bytes; both registries of a move share the seed
      (src/rtpp_proc_servers.c:264). *)
  Context (hash : Z -> Z).

  (** struct rtpp_weakref_priv, src/rtpp_weakref.c:44-49: the table, whether the two callbacks
      are set, and the calls made to them so far ([true] = on_first). *)
  Record wreg := mkWr { w_ht : htab Z; w_first : bool; w_last : bool; w_ev : list bool }.

  (** rtpp_weakref_ctor, src/rtpp_weakref.c:78-102, and set_on_first/set_on_last, :280-312 *)
  Definition wr_ctor (f l : bool) : wreg := mkWr (ht_ctor true true) f l [].

  Notation "'set' w t 'ev' e" := (mkWr t (w_first w) (w_last w) (w_ev w ++ e)) (at level 0, w at level 0, t at level 0, e at level 0).

  Inductive wr_out := WInt (i : Z) | WPtr (v : option Z) | WSeen (l : list Z) | WAbort | WBad.

  (** rtpp_weakref_reg, src/rtpp_weakref.c:104-132. Registry operations that can change emptiness
      run under on_lock when the callback is set, so one call is one step. [id] is the address of
      the new table entry. *)
  Definition wr_reg (w : wreg) (id suid sp : Z) (mem : bool) : wreg * wr_out :=
    match ht_append Z.eqb false hash (w_ht w) id suid sp mem with
    | HAbort => (w, WAbort)
    | HBad => (w, WBad)
    | HRet t (ok, first) =>
        let rval := if ok then 0 else -1 in
        (set w t ev (if w_first w && ((rval =? 0) && first) then [true] else []), WInt rval)
    end.

  (** rtpp_weakref_unreg, src/rtpp_weakref.c:134-160 *)
  Definition wr_unreg (w : wreg) (suid : Z) : wreg * wr_out :=
    match ht_remove_by_key Z.eqb false hash (w_ht w) suid with
    | HAbort => (w, WAbort)
    | HBad => (w, WBad)
    | HRet t (None, _) => (set w t ev [], WPtr None)
    | HRet t (Some sp, last) => (set w t ev (if w_last w && last then [false] else []), WPtr (Some (e_val sp)))
    end.

  (** rtpp_weakref_move, src/rtpp_weakref.c:162-197 (from [w] to the distinct registry [o]) *)
  Definition wr_move (w o : wreg) (suid : Z) (mem : bool) : wreg * wreg * wr_out :=
    match ht_transfer Z.eqb false hash (w_ht w) (w_ht o) suid mem with
    | HAbort => (w, o, WAbort)
    | HBad => (w, o, WBad)
    | HRet t (ot, sp, last, first) =>
        let some := match sp with Some _ => true | None => false end in
        (set w t ev (if w_last w && (some && last) then [false] else []),
         set o ot ev (if w_first o && (some && first) then [true] else []), WPtr sp)
    end.

  (** rtpp_wrt_get_by_idx, src/rtpp_weakref.c:208-221 *)
  Definition wr_get (w : wreg) (suid : Z) : wreg * wr_out := (w, WPtr (ht_find Z.eqb false hash (w_ht w) suid)).

  (** rtpp_wrt_foreach, src/rtpp_weakref.c:223-247 *)
  Definition wr_foreach (w : wreg) (f : matchf) : wreg * wr_out :=
    match ht_foreach (w_ht w) f with
    | HAbort => (w, WAbort)
    | HBad => (w, WBad)
    | HRet t (seen, last) => (set w t ev (if w_last w && last then [false] else []), WSeen seen)
    end.

  (** rtpp_wrt_get_length, src/rtpp_weakref.c:249-256 *)
  Definition wr_length (w : wreg) : wreg * wr_out := (w, WInt (ht_length (w_ht w))).

  (** rtpp_wrt_purge, src/rtpp_weakref.c:258-278 *)
  Definition wr_purge (w : wreg) : wreg * wr_out :=
    match ht_purge (w_ht w) with
    | Some (HRet t (n, _)) => (set w t ev (if w_last w && (n >? 0) then [false] else []), WInt n)
    | Some HAbort => (w, WAbort)
    | _ => (w, WBad)
    end.

  Inductive wr_op :=
  | WReg (suid sp : Z) (mem : bool) | WUnreg (suid : Z) | WGet (suid : Z) | WForeach (f : matchf) | WLength | WPurge
  | WMove (suid : Z) (mem : bool).   (* to the other registry *)

  (** Two registries ([false]/[true]); an operation names the one it is called on. *)
  Definition wr_step (s : wreg * wreg) (nid : Z) (r : bool) (o : wr_op) : (wreg * wreg) * wr_out :=
    let w := if r then snd s else fst s in
    let other := if r then fst s else snd s in
    let put (w' : wreg) := if r then (fst s, w') else (w', snd s) in
    match o with
    | WReg suid sp mem => let (w', out) := wr_reg w nid suid sp mem in (put w', out)
    | WUnreg suid => let (w', out) := wr_unreg w suid in (put w', out)
    | WGet suid => let (w', out) := wr_get w suid in (put w', out)
    | WForeach f => let (w', out) := wr_foreach w f in (put w', out)
    | WLength => let (w', out) := wr_length w in (put w', out)
    | WPurge => let (w', out) := wr_purge w in (put w', out)
    | WMove suid mem => let '(w', o', out) := wr_move w other suid mem in (if r then (o', w') else (w', o'), out)
    end.

  Fixpoint wr_run (s : wreg * wreg) (nid : Z) (os : list (bool * wr_op)) : (wreg * wreg) * list wr_out :=
    match os with
    | [] => (s, [])
    | (r, o) :: os' =>
        match wr_step s nid r o with
        | (_, WAbort) => (s, [WAbort])
        | (_, WBad) => (s, [WBad])
        | (s', out) => let (s'', outs) := wr_run s' (nid + 1) os' in (s'', out :: outs)
        end
    end.
End Weakref.
