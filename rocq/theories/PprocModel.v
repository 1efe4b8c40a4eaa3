(** Model of the packet processor chain: src/advanced/pproc_manager.c:60-325, with any number of chains, of processors and of
    threads handling packets. A step is what happens between two points where another thread may run: a section under the
    manager's mutex, or one iteration of the loop of handleat (taste and enqueue of one processor are one step; the table they
    come from is pinned for the whole loop). Not modelled: auxp and pproc of the packet context, the debug-only recursion
    limit, and the statistics object (its update is an event). *)
From Verif Require Import Base.

(** struct pproc_handler with struct packet_processor_if (packet_processor.h:62-75): position, key, the counted object the
    callbacks live in if there is one, and whether there is a taste callback *)
Record proc := mkProc { p_ord : Z; p_key : Z; p_obj : option nat; p_taste : bool }.
(** struct pproc_handlers: its reference count, the processors, and the objects released when it is freed *)
Record table := mkTab { t_rc : Z; t_ps : list proc; t_held : list nat }.
(** A thread: outside, or in the loop of handleat (lines 202-218) with the table, the index, the actions so far, startat, the
    packet and its LGEN flag *)
Inductive thr := Idle | Busy (k i : nat) (res sa pk : Z) (lg : bool).
Inductive outcome := Ok | UseAfterFree | Aborted.
(** [refs]: reference counts of the counted objects; [own]: how many of these references belong to the users of the chain (not
    in the code); [leak]: references that nothing will ever release (not in the code); [mgrs]: the table of every manager *)
Record st := mkSt { refs : nat -> Z; own : nat -> Z; leak : nat -> Z; nobj : nat; tabs : list table; mgrs : list (option nat);
  thrs : list thr; out : outcome }.
Definition start (n : nat) : st := mkSt (fun _ => 0) (fun _ => 0) (fun _ => 0) 0 [mkTab 1 [] []] [Some 0%nat] (repeat Idle n) Ok.

Inductive event :=
| ETaste (t : nat) (p : proc) (b : bool) | ECall (t : nat) (p : proc) (a : Z) | ERelease (t : nat) (pk : Z) | ECount (t : nat)
| EReturn (t : nat) (res : Z) | EFree (o : nat) | ETable (n : nat) | EClone (ps : list proc) | EFound (p : option proc) | ENoMem.

Definition fset (f : nat -> Z) (o : nat) (v : Z) : nat -> Z := fun x => if Nat.eqb x o then v else f x.
Definition set_refs (s : st) f := mkSt f (own s) (leak s) (nobj s) (tabs s) (mgrs s) (thrs s) (out s).
Definition set_own (s : st) f := mkSt (refs s) f (leak s) (nobj s) (tabs s) (mgrs s) (thrs s) (out s).
Definition set_leak (s : st) f := mkSt (refs s) (own s) f (nobj s) (tabs s) (mgrs s) (thrs s) (out s).
Definition set_tabs (s : st) l := mkSt (refs s) (own s) (leak s) (nobj s) l (mgrs s) (thrs s) (out s).
Definition set_mgrs (s : st) l := mkSt (refs s) (own s) (leak s) (nobj s) (tabs s) l (thrs s) (out s).
Definition set_thrs (s : st) l := mkSt (refs s) (own s) (leak s) (nobj s) (tabs s) (mgrs s) l (out s).
Definition set_out (s : st) o := mkSt (refs s) (own s) (leak s) (nobj s) (tabs s) (mgrs s) (thrs s) o.

(** RTPP_OBJ_INCREF and RTPP_OBJ_DECREF of a counted object (rtpp_types.h:173-174); an object without references is freed *)
Definition incref (s : st) (o : nat) : st :=
  if refs s o <=? 0 then set_out s UseAfterFree else set_refs s (fset (refs s) o (refs s o + 1)).
Definition decref (s : st) (o : nat) : st * list event :=
  if refs s o <=? 0 then (set_out s UseAfterFree, [])
  else (set_refs s (fset (refs s) o (refs s o - 1)), if refs s o =? 1 then [EFree o] else []).
Fixpoint decref_all (s : st) (l : list nat) : st * list event :=
  match l with
  | [] => (s, [])
  | o :: l' => let (s1, e1) := decref s o in let (s2, e2) := decref_all s1 l' in (s2, e1 ++ e2)
  end.

(** rtpp_refcnt.c:192, rtpp_refcnt.h:32: number of destructors a counted object can have besides its own *)
Definition MAXHELD : nat := 23.
Definition objs (ps : list proc) : list nat :=
  flat_map (fun p => match p_obj p with Some o => [o] | None => [] end) ps.
(** pproc_handlers_alloc and the loops of lines 162-166 and 284-288: RTPP_OBJ_BORROW_s (rtpp_types.h:198-203) takes the
    reference even when there is no room left to note that it has to be released *)
Definition new_table (s : st) (ps : list proc) : st * nat * list event :=
  let s1 := fold_left incref (objs ps) s in
  let s2 := set_leak s1 (fun o => leak s1 o + Z.of_nat (count_occ Nat.eq_dec (skipn MAXHELD (objs ps)) o)) in
  (set_tabs s2 (tabs s2 ++ [mkTab 1 ps (firstn MAXHELD (objs ps))]), length (tabs s2), [ETable (length (objs ps))]).
(** RTPP_OBJ_DECREF of a table: at zero its destructors release the objects *)
Definition drop_table (s : st) (k : nat) : st * list event :=
  match nth_error (tabs s) k with
  | None => (s, [])
  | Some tb =>
      let s1 := set_tabs s (upd (tabs s) k (mkTab (t_rc tb - 1) (t_ps tb) (t_held tb))) in
      if t_rc tb - 1 =? 0 then decref_all s1 (t_held tb) else (s1, [])
  end.
(** RTPP_OBJ_INCREF of a table (line 194) *)
Definition hold_table (s : st) (k : nat) : st :=
  match nth_error (tabs s) k with
  | None => s
  | Some tb => set_tabs s (upd (tabs s) k (mkTab (t_rc tb + 1) (t_ps tb) (t_held tb)))
  end.

(** Lines 151-161: the new processor goes before the first one with a greater position *)
Fixpoint insert (p : proc) (ps : list proc) : list proc :=
  match ps with
  | [] => [p]
  | q :: ps' => if p_ord p <? p_ord q then p :: q :: ps' else q :: insert p ps'
  end.
(** Lines 268-283: the list without the first processor with this key *)
Fixpoint remove (key : Z) (ps : list proc) : option (list proc) :=
  match ps with
  | [] => None
  | q :: ps' => if p_key q =? key then Some ps'
                else match remove key ps' with Some l => Some (q :: l) | None => None end
  end.
(** Lines 244-254 *)
Definition find_key (key : Z) (ps : list proc) : option proc := find (fun p => p_key p =? key) ps.

(** Lines 317-322: the clone's processors are borrowed by the ORIGINAL's table; RTPP_OBJ_BORROW (rtpp_types.h:187-197) takes no
    reference when there is no room *)
Fixpoint borrow_to (s : st) (k : nat) (l : list nat) : st :=
  match l with
  | [] => s
  | o :: l' =>
      match nth_error (tabs s) k with
      | None => s
      | Some tb =>
          borrow_to (if (length (t_held tb) <? MAXHELD)%nat
                     then incref (set_tabs s (upd (tabs s) k (mkTab (t_rc tb) (t_ps tb) (t_held tb ++ [o])))) o
                     else s) k l'
      end
  end.

Inductive op :=
| New                                     (* a user creates a counted object *)
| Own (o : nat) | Disown (o : nat)        (* a user takes or gives back a reference to an object it has *)
| Reg (m : nat) (p : proc) (mem : bool)   (* lines 136-171; [mem]: memory is available; the user has a reference to the object *)
| Unreg (m : nat) (key : Z) (mem : bool)  (* lines 260-298 *)
| Lookup (m : nat) (key : Z)              (* lines 238-257: the reference it takes belongs to the user *)
| Clone (m : nat)                         (* lines 301-325 *)
| Destroy (m : nat)                       (* lines 102-106 *)
| Start (t m : nat) (sa pk : Z) (lg : bool)  (* lines 192-195 *)
| Step (t : nat) (taste : bool) (act : Z).   (* thread [t] moves on; what the callbacks answer if they are called *)

Definition table_of (s : st) (m : nat) : option (nat * list proc) :=
  match nth_error (mgrs s) m with
  | Some (Some k) => match nth_error (tabs s) k with Some tb => Some (k, t_ps tb) | None => None end
  | _ => None
  end.
(** the object the callbacks of a processor live in is alive *)
Definition alive (s : st) (p : proc) : bool := match p_obj p with Some o => 0 <? refs s o | None => true end.

Definition step (s : st) (x : op) : st * list event :=
  match out s with
  | Ok =>
    match x with
    | New => (mkSt (fset (refs s) (nobj s) 1) (fset (own s) (nobj s) 1) (leak s) (S (nobj s)) (tabs s) (mgrs s) (thrs s) Ok, [])
    | Own o => if own s o <=? 0 then (s, []) else (set_own (incref s o) (fset (own s) o (own s o + 1)), [])
    | Disown o => if own s o <=? 0 then (s, []) else decref (set_own s (fset (own s) o (own s o - 1))) o
    | Reg m p mem =>
        match table_of s m with
        | None => (s, [])
        | Some (k, ps) =>
            if match p_obj p with Some o => own s o <=? 0 | None => false end then (s, [])
            else if negb mem then (s, [ENoMem])
            else let '(s1, k', e1) := new_table s (insert p ps) in
                 let (s2, e2) := drop_table (set_mgrs s1 (upd (mgrs s1) m (Some k'))) k in
                 (s2, e1 ++ e2)
        end
    | Unreg m key mem =>
        match table_of s m with
        | None => (s, [])
        | Some (k, ps) =>
            match remove key ps with
            | None => (set_out s Aborted, [])
            | Some ps' =>
                if negb mem then (s, [ENoMem])
                else let '(s1, k', e1) := new_table s ps' in
                     let (s2, e2) := drop_table (set_mgrs s1 (upd (mgrs s1) m (Some k'))) k in
                     (s2, e1 ++ e2)
            end
        end
    | Lookup m key =>
        match table_of s m with
        | None => (s, [])
        | Some (k, ps) =>
            match find_key key ps with
            | None => (s, [EFound None])
            | Some p => match p_obj p with
                        | Some o => (set_own (incref s o) (fset (own s) o (own s o + 1)), [EFound (Some p)])
                        | None => (s, [EFound (Some p)])
                        end
            end
        end
    | Clone m =>
        match table_of s m with
        | None => (s, [])
        | Some (k, ps) =>
            let s1 := set_tabs s (tabs s ++ [mkTab 1 ps []]) in
            let s2 := set_mgrs s1 (mgrs s1 ++ [Some (length (tabs s))]) in
            (borrow_to s2 k (objs ps), [EClone ps])
        end
    | Destroy m =>
        match table_of s m with
        | None => (s, [])
        | Some (k, ps) => drop_table (set_mgrs s (upd (mgrs s) m None)) k
        end
    | Start t m sa pk lg =>
        match nth_error (thrs s) t, table_of s m with
        | Some Idle, Some (k, ps) => (set_thrs (hold_table s k) (upd (thrs s) t (Busy k 0 0 sa pk lg)), [])
        | _, _ => (s, [])
        end
    | Step t taste act =>
        match nth_error (thrs s) t with
        | Some (Busy k i res sa pk lg) =>
            match nth_error (tabs s) k with
            | None => (s, [])
            | Some tb =>
                match nth_error (t_ps tb) i with
                | Some p =>
                    let next := fun i' r => set_thrs s (upd (thrs s) t (Busy k i' r sa pk lg)) in
                    (* line 205 *)
                    if (0 <? sa) && (p_ord p <? sa) then (next (S i) res, [])
                    else if negb (alive s p) then (set_out s UseAfterFree, [])
                    (* line 212 *)
                    else if p_taste p && negb taste then (next (S i) res, [ETaste t p false])
                    (* lines 214-217 *)
                    else let res' := Z.lor res act in
                         (next (if Z.land res' 6 =? 0 then S i else length (t_ps tb)) res',
                          (if p_taste p then [ETaste t p true] else []) ++ [ECall t p act])
                | None =>
                    (* lines 219-234 *)
                    let (s1, e1) := drop_table (set_thrs s (upd (thrs s) t Idle)) k in
                    (s1, e1 ++ (if (Z.land res 2 =? 0) || negb (Z.land res 4 =? 0)
                                then ERelease t pk :: (if lg then [] else [ECount t]) else []) ++ [EReturn t res])
                end
            end
        | _ => (s, [])
        end
    end
  | _ => (s, [])
  end.

Fixpoint run (s : st) (os : list op) : st * list event :=
  match os with
  | [] => (s, [])
  | x :: os' => let (s1, e1) := step s x in let (s2, e2) := run s1 os' in (s2, e1 ++ e2)
  end.
