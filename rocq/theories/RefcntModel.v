(** Model of src/rtpp_refcnt.c: reference counted objects shared by threads. *)
From Verif Require Import Base.

(** struct dtor_pair, src/rtpp_refcnt.c:67-73: a function (identified by a number; what it does is
    not modelled), the final free() of the object itself, or a reference to drop (f == NULL,
    rtpp_refcnt_attach_rc). *)
Inductive dent := DFun (id : Z) | DFree | DRc (o : nat).

(** MAX_DTORS, src/rtpp_refcnt.h:32 *)
Definition MAX_DTORS : Z := 24.

(** struct rtpp_refcnt_priv, src/rtpp_refcnt.c:75-87. [o_freed]: the memory was released.
    [o_att] and [o_run] are history variables: destructors attached and destructors run so far. *)
Record robj := mkRobj { o_cnt : Z; o_shared : bool; o_ulen : Z; o_slot : list (option dent); o_freed : bool;
                        o_att : list dent; o_run : list dent }.

(** Where a thread is; each constructor stands before the shared access named. *)
Inductive rpc :=
| RIdle
| RIncAdd (o : nat)          (* fetch_add of cnt, line 243 *)
| RIncSet (o : nat)          (* shared = 1, line 246 *)
| RIncStore (o : nat)        (* cnt = 1, line 247 *)
| RDec (o : nat)             (* entry of decref: load of shared, line 307 *)
| RDecSub (o : nat)          (* fetch_sub of cnt, line 308 *)
| RDecZero (o : nat)         (* oldcnt == 0: load of ulen, lines 328-332 *)
| RAttStore (o : nat) (i : Z) (d : dent)   (* store of dtors[ulen], lines 196, 219 *)
| RAttFail (o : nat).        (* fetch_sub of ulen, lines 193, 216 *)

(** A thread: the references it owns (one list element each), its position, and the destructor
    loops (lines 333-353) it is in, innermost first: object and index of the next slot. *)
Record rthr := mkRthr { t_hold : list nat; t_pc : rpc; t_stk : list (nat * Z) }.

Record rsys := mkRsys { r_obj : list robj; r_thr : list rthr }.

(** Constructors: rtpp_refcnt_ctor(data, dtor) / (data, NULL), rtpp_refcnt_ctor(NULL, NULL),
    rtpp_refcnt_ctor_pa(pap, data), rtpp_refcnt_ctor_pa(pap, NULL). *)
Inductive rkind := KDtor (d : Z) | KPlain | KPa | KEmbedded.

(** rtpp_refcnt_ctor, src/rtpp_refcnt.c:132-161, rtpp_refcnt_ctor_pa, :163-182 *)
Definition rnew (k : rkind) : robj :=
  let mk l := mkRobj 0 false (Z.of_nat (length l) - 1) (map Some l ++ repeat None (24 - length l)) false l [] in
  match k with
  | KDtor d => mk [DFree; DFun d]
  | KPlain | KPa => mk [DFree]
  | KEmbedded => mk []
  end.

(** What an idle thread may start. The rules of the API: incref, attach and decref are called by
    the owner of a reference; decref and a successful attach_rc give a reference up; a reference
    can be handed to another thread. *)
Inductive rop :=
| ONew (k : rkind)
| OIncref (o : nat)
| ODecref (o : nat)
| OAttach (o : nat) (f : Z)
| OAttachRc (o : nat) (other : nat)
| OGive (o : nat) (t : nat).

Fixpoint remove1 (o : nat) (l : list nat) : list nat :=
  match l with [] => [] | x :: t => if (x =? o)%nat then t else x :: remove1 o t end.
Definition holds (l : list nat) (o : nat) : bool := existsb (Nat.eqb o) l.

(** Access to an object: [None] when it does not exist or its memory has been released. *)
Definition robj_at (s : rsys) (o : nat) : option robj :=
  match nth_error (r_obj s) o with
  | Some x => if o_freed x then None else Some x
  | None => None
  end.
Definition set_obj (s : rsys) (o : nat) (x : robj) : rsys := mkRsys (upd (r_obj s) o x) (r_thr s).
Definition set_thr (s : rsys) (t : nat) (x : rthr) : rsys := mkRsys (r_obj s) (upd (r_thr s) t x).

Definition with_cnt (x : robj) (c : Z) (sh : bool) : robj := mkRobj c sh (o_ulen x) (o_slot x) (o_freed x) (o_att x) (o_run x).
Definition with_ulen (x : robj) (u : Z) : robj := mkRobj (o_cnt x) (o_shared x) u (o_slot x) (o_freed x) (o_att x) (o_run x).

(** rtpp_refcnt_attach / rtpp_refcnt_attach_rc, src/rtpp_refcnt.c:184-221: the fetch_add of ulen.
    ulen stays near MAX_DTORS (plus one per concurrent failing call), so it is not wrapped. The
    order of attachment is the order of these accesses. *)
Definition att_begin (s : rsys) (t : nat) (th : rthr) (o : nat) (d : dent) (hold' : list nat) : option rsys :=
  match robj_at s o with
  | None => None
  | Some x =>
      let ulen := o_ulen x + 1 in
      if ulen >=? MAX_DTORS then Some (set_thr (set_obj s o (with_ulen x ulen)) t (mkRthr (t_hold th) (RAttFail o) (t_stk th)))
      else Some (set_thr (set_obj s o (mkRobj (o_cnt x) (o_shared x) ulen (o_slot x) (o_freed x) (o_att x ++ [d]) (o_run x)))
                         t (mkRthr hold' (RAttStore o ulen d) (t_stk th)))
  end.

(** The next access of thread [t] (position [th]); an idle thread starts [op], which is ignored
    when the API rules do not allow it. [None]: access to released memory, to a slot outside the
    array, or call through an empty slot. *)
Definition rc_access (s : rsys) (t : nat) (th : rthr) (op : rop) : option rsys :=
  let goto (s' : rsys) (p : rpc) := Some (set_thr s' t (mkRthr (t_hold th) p (t_stk th))) in
  match t_pc th with
  | RIdle =>
      match t_stk th with
      | (o, i) :: stk =>
          (* the loop of rtpp_refcnt_decref, src/rtpp_refcnt.c:333-353; rtpp_refcnt_fin is a
             no-op outside of debug builds *)
          if i <? 0 then Some (set_thr s t (mkRthr (t_hold th) RIdle stk))
          else match robj_at s o with
               | None => None
               | Some x =>
                   match nth_error (o_slot x) (Z.to_nat i) with
                   | Some (Some d) =>
                       let fr := match d with DFree => true | _ => o_freed x end in
                       let pc := match d with DRc other => RDec other | _ => RIdle end in
                       Some (set_thr (set_obj s o (mkRobj (o_cnt x) (o_shared x) (o_ulen x) (o_slot x) fr (o_att x) (o_run x ++ [d])))
                                     t (mkRthr (t_hold th) pc ((o, i - 1) :: stk)))
                   | _ => None
                   end
               end
      | [] =>
          match op with
          | ONew k => Some (mkRsys (r_obj s ++ [rnew k])
                                   (upd (r_thr s) t (mkRthr (length (r_obj s) :: t_hold th) RIdle [])))
          | OIncref o =>
              (* rtpp_refcnt_incref, src/rtpp_refcnt.c:231-265: load of shared, line 242 *)
              if holds (t_hold th) o then
                match robj_at s o with
                | None => None
                | Some x => goto s (if o_shared x then RIncAdd o else RIncSet o)
                end
              else Some s
          | ODecref o =>
              if holds (t_hold th) o then Some (set_thr s t (mkRthr (remove1 o (t_hold th)) (RDec o) [])) else Some s
          | OAttach o f => if holds (t_hold th) o then att_begin s t th o (DFun f) (t_hold th) else Some s
          | OAttachRc o other =>
              if holds (t_hold th) o && holds (remove1 o (t_hold th)) other
              then att_begin s t th o (DRc other) (remove1 other (t_hold th)) else Some s
          | OGive o t2 =>
              if holds (t_hold th) o then
                let s1 := set_thr s t (mkRthr (remove1 o (t_hold th)) RIdle []) in
                match nth_error (r_thr s1) t2 with
                | Some th2 => Some (set_thr s1 t2 (mkRthr (o :: t_hold th2) (t_pc th2) (t_stk th2)))
                | None => Some s
                end
              else Some s
          end
      end
  | RIncAdd o =>
      match robj_at s o with
      | None => None
      | Some x => Some (set_thr (set_obj s o (with_cnt x (s32 (o_cnt x + 1)) (o_shared x))) t (mkRthr (o :: t_hold th) RIdle (t_stk th)))
      end
  | RIncSet o =>
      match robj_at s o with
      | None => None
      | Some x => goto (set_obj s o (with_cnt x (o_cnt x) true)) (RIncStore o)
      end
  | RIncStore o =>
      match robj_at s o with
      | None => None
      | Some x => Some (set_thr (set_obj s o (with_cnt x 1 (o_shared x))) t (mkRthr (o :: t_hold th) RIdle (t_stk th)))
      end
  | RDec o =>
      (* rtpp_refcnt_decref, src/rtpp_refcnt.c:288-332 *)
      match robj_at s o with
      | None => None
      | Some x => goto s (if o_shared x then RDecSub o else RDecZero o)
      end
  | RDecSub o =>
      match robj_at s o with
      | None => None
      | Some x => let oldcnt := o_cnt x in
          goto (set_obj s o (with_cnt x (s32 (oldcnt - 1)) (o_shared x))) (if oldcnt =? 0 then RDecZero o else RIdle)
      end
  | RDecZero o =>
      match robj_at s o with
      | None => None
      | Some x => Some (set_thr s t (mkRthr (t_hold th) RIdle ((o, o_ulen x) :: t_stk th)))
      end
  | RAttStore o i d =>
      match robj_at s o with
      | None => None
      | Some x =>
          if (0 <=? i) && (i <? Z.of_nat (length (o_slot x)))
          then goto (set_obj s o (mkRobj (o_cnt x) (o_shared x) (o_ulen x) (upd (o_slot x) (Z.to_nat i) (Some d)) (o_freed x) (o_att x) (o_run x))) RIdle
          else None
      end
  | RAttFail o =>
      match robj_at s o with
      | None => None
      | Some x => goto (set_obj s o (with_ulen x (o_ulen x - 1))) RIdle
      end
  end.

(** A schedule entry: the thread to run and what it starts if idle. *)
Definition rc_step (s : rsys) (e : nat * rop) : option rsys :=
  match nth_error (r_thr s) (fst e) with
  | None => Some s
  | Some th => rc_access s (fst e) th (snd e)
  end.

Fixpoint rc_exec (s : rsys) (sched : list (nat * rop)) : option rsys :=
  match sched with
  | [] => Some s
  | e :: t => match rc_step s e with Some s' => rc_exec s' t | None => None end
  end.

Definition rc_run (nthreads : nat) (sched : list (nat * rop)) : option rsys :=
  rc_exec (mkRsys [] (repeat (mkRthr [] RIdle []) nthreads)) sched.
