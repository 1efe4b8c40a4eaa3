(** Model of src/rtpp_wref.c (weak references) together with the tryincref / incref / decref
    accesses of src/rtpp_refcnt.c that it races with. One weak reference, already bound to one
    target by setref; any number of threads. *)
From Verif Require Import Base.

(** Position of a thread; each constructor stands before the shared access named. *)
Inductive wpc :=
| PIdle
(* rtpp_refcnt_incref, src/rtpp_refcnt.c:242-247 *)
| PIncAdd | PIncSet | PIncStore
(* rtpp_refcnt_decref, src/rtpp_refcnt.c:307-308 *)
| PDec | PDecSub
(* the destructor loop of the target: rtpp_wref_inval (src/rtpp_wref.c:116), then everything
   attached before it, ending with the release of the memory (slot 0) *)
| PInval | PFree
(* rtpp_wref_getref, src/rtpp_wref.c:131-151: [PGTry] load of the target's shared flag
   (rtpp_refcnt_tryincref, src/rtpp_refcnt.c:274), [PGSet]/[PGStore] lines 275-276, [PGAdd] line
   279, [PGUndo] line 281, [PGSub r] the fetch_sub of the weak reference's cnt before returning
   the target ([true]) or NULL. *)
| PGTry | PGSet | PGStore | PGAdd | PGUndo | PGSub (r : bool).

(** [w_own]: references to the target owned by the thread. *)
Record wthr := mkWthr { w_own : Z; w_pc : wpc }.

(** [ws_cnt]/[ws_shared]: counter and flag of the target; [ws_wcnt]: counter of the weak
    reference. The rest is history: [ws_dying] the last reference was dropped, [ws_freed] the
    target's memory was released, [ws_ret] results of getref calls, oldest first, with whether the
    target was dying at the return, [ws_overlap] two getref calls have overlapped. *)
Record wsys := mkWsys { ws_cnt : Z; ws_shared : bool; ws_wcnt : Z; ws_thr : list wthr;
                        ws_dying : bool; ws_freed : bool; ws_ret : list (bool * bool); ws_overlap : bool }.

Inductive wop := OIncref | ODecref | OGetref.

Definition in_getref (th : wthr) : bool :=
  match w_pc th with PGTry | PGSet | PGStore | PGAdd | PGUndo | PGSub _ => true | _ => false end.

Definition put (s : wsys) (t : nat) (own : Z) (pc : wpc) (cnt : Z) (sh : bool) (wcnt : Z) (dying freed : bool)
               (ret : list (bool * bool)) : wsys :=
  mkWsys cnt sh wcnt (upd (ws_thr s) t (mkWthr own pc)) dying freed (ws_ret s ++ ret)
         (ws_overlap s).

(** The next access of thread [t]; an idle one starts [op] (incref and decref only with a
    reference of its own). [spur]: a compare_exchange_weak fails spuriously. [None]: the released
    target is accessed. Counters are unbounded here (RefcntModel.v has the wrap-around). *)
Definition w_access (s : wsys) (t : nat) (th : wthr) (op : wop) (spur : bool) : option wsys :=
  let own := w_own th in
  let cnt := ws_cnt s in let sh := ws_shared s in let wcnt := ws_wcnt s in
  let dy := ws_dying s in let fr := ws_freed s in
  let target (r : wsys) := if fr then None else Some r in
  match w_pc th with
  | PIdle =>
      match op with
      | OIncref => if 0 <? own then target (put s t own (if sh then PIncAdd else PIncSet) cnt sh wcnt dy fr []) else Some s
      | ODecref => if 0 <? own then Some (put s t (own - 1) PDec cnt sh wcnt dy fr []) else Some s
      | OGetref =>
          let s' := put s t own (if wcnt =? 0 then PGSub false else PGTry) cnt sh (wcnt + 1) dy fr [] in
          Some (mkWsys (ws_cnt s') (ws_shared s') (ws_wcnt s') (ws_thr s') (ws_dying s') (ws_freed s') (ws_ret s')
                       (ws_overlap s || existsb in_getref (ws_thr s)))
      end
  | PIncAdd => target (put s t (own + 1) PIdle (cnt + 1) sh wcnt dy fr [])
  | PIncSet => target (put s t own PIncStore cnt true wcnt dy fr [])
  | PIncStore => target (put s t (own + 1) PIdle 1 sh wcnt dy fr [])
  | PDec => target (if sh then put s t own PDecSub cnt sh wcnt dy fr [] else put s t own PInval cnt sh wcnt true fr [])
  | PDecSub => target (put s t own (if cnt =? 0 then PInval else PIdle) (cnt - 1) sh wcnt (if cnt =? 0 then true else dy) fr [])
  | PInval => if (wcnt =? 1) && negb spur then Some (put s t own PFree cnt sh 0 dy fr []) else Some s
  | PFree => target (put s t own PIdle cnt sh wcnt dy true [])
  | PGTry => target (put s t own (if sh then PGAdd else PGSet) cnt sh wcnt dy fr [])
  | PGSet => target (put s t own PGStore cnt true wcnt dy fr [])
  | PGStore => target (put s t (own + 1) (PGSub true) 1 sh wcnt dy fr [])
  | PGAdd => target (if cnt <? 0 then put s t own PGUndo (cnt + 1) sh wcnt dy fr []
                     else put s t (own + 1) (PGSub true) (cnt + 1) sh wcnt dy fr [])
  | PGUndo => target (put s t own (PGSub false) (cnt - 1) sh wcnt dy fr [])
  | PGSub r => Some (put s t own PIdle cnt sh (wcnt - 1) dy fr [(r, dy)])
  end.

Definition w_step (s : wsys) (e : nat * wop * bool) : option wsys :=
  let '(t, op, spur) := e in
  match nth_error (ws_thr s) t with None => Some s | Some th => w_access s t th op spur end.

Fixpoint w_exec (s : wsys) (sched : list (nat * wop * bool)) : option wsys :=
  match sched with
  | [] => Some s
  | e :: t => match w_step s e with Some s' => w_exec s' t | None => None end
  end.

(** After rtpp_wref_setref (src/rtpp_wref.c:85-106): the threads own [owns] references; the
    target has been shared already or not (then there is one reference only). *)
Definition w_init (shared : bool) (owns : list Z) : wsys :=
  mkWsys (zsum (fun x => x) owns - 1) shared 1 (map (fun n => mkWthr n PIdle) owns) false false [] false.

Definition w_run (shared : bool) (owns : list Z) (sched : list (nat * wop * bool)) : option wsys :=
  w_exec (w_init shared owns) sched.

(** References to the target: owned, or about to be dropped. *)
Definition wt_refs (th : wthr) : Z := w_own th + match w_pc th with PDec | PDecSub => 1 | _ => 0 end.
Definition w_refs (s : wsys) : Z := zsum wt_refs (ws_thr s).
