(** Model of the modules: how they are loaded, numbered, started and shut down, and how the
    accounting of ended sessions and of RTCP packets reaches them.
    Code: src/rtpp_module_if.c, src/rtpp_modman.c, src/rtpp_session.c, src/rtpp_cfile.c. *)
From Verif Require Import Base.
Open Scope nat_scope.

(** What a module brings with it (struct rtpp_minfo, src/rtpp_module.h) and how its own functions
    fare.  [d_ctor], [d_config]: None when the module has no such function, else whether it
    succeeds.  [d_go]: whether reg and pthread_create succeed when it is started. *)
Record mdesc := MD {
  d_id : nat;                 (* descr.module_id *)
  d_aapi : bool;              (* aapi != NULL *)
  d_send : bool;              (* aapi->on_session_end.func != NULL *)
  d_rcvd : bool;              (* aapi->on_rtcp_rcvd.func != NULL *)
  d_wapi : bool;              (* wapi != NULL *)
  d_ul : bool;                (* capi != NULL && capi->ul_subc_handle != NULL *)
  d_ctor : option bool; d_config : option bool; d_dtor : bool; d_go : bool }.

(** has.do_acct (rtpp_module_if.c:306-320) *)
Definition has_acct (d : mdesc) : bool := d_aapi d && d_send d.
(** on_rtcp_rcvd is registered (rtpp_module_if.c:512-522) *)
Definition has_rtcp (d : mdesc) : bool := d_aapi d && d_rcvd d.
(** a thread is started (rtpp_module_if.c:510-533) *)
Definition has_thread (d : mdesc) : bool := d_aapi d || d_wapi d.

(** Work items of the module's queue (rtpp_module_if.c:293, 438, 460) *)
Inductive item := IAcct (a : nat) | IRtcp (r : nat) | ITerm.

(** What the module's own functions see, in order *)
Inductive mev := EvCtor | EvConf | EvSess (a : nat) | EvRtcp (r : nat) | EvDtor.

Inductive thr := TNone | TRun | TEnd.

(** struct rtpp_module_if_priv.  The queue is the list of its items in order (its ring and list
    are modelled in QueueModel). *)
Record mst := MS {
  m_d : mdesc; m_inst : nat; m_idx : nat;   (* ids.instance_id, ids.module_idx *)
  m_q : list item; m_thr : thr;
  m_made : bool;                            (* mpvt != NULL *)
  m_gone : bool;                            (* the queue is destroyed *)
  m_log : list mev }.

(** A session: not there yet, there, in its destructor (next module to be told), gone.
    [hold]: pvt->module_cf != NULL *)
Inductive sess := SNone | SUp (hold : bool) | SEnd (hold : bool) (k : nat) | SGone.

(** What main is doing: reading the configuration; running; ended by a failure; in the destructor of
    the module manager, at module [k] ([wt]: in pthread_join); past it. *)
Inductive phase := PLoad | PRun | PFail | PKap (k : nat) (wt : bool) | PDone.

Record mw := MW {
  w_n : nat; w_mod : nat -> mst;            (* count.total and the list of modules *)
  w_phase : phase;
  w_cf : nat;                               (* references to the module manager *)
  w_main : bool;                            (* main still holds its own *)
  w_used : list nat; w_sess : nat -> sess;  (* sessions ever created, and their states *)
  w_reg : bool;                             (* the session table still finds sessions *)
  w_refs : nat -> nat;                      (* references to the struct rtpp_acct of a session *)
  w_freed : list nat;                       (* those destroyed *)
  w_rmade : list nat; w_rfreed : list nat;  (* struct rtpp_acct_rtcp, created and destroyed *)
  w_bad : bool }.                           (* freed memory has been used *)

Definition fupd {A} (f : nat -> A) (i : nat) (x : A) : nat -> A := fun j => if j =? i then x else f j.

Definition no_desc : mdesc := MD 0 false false false false false None None false false.
Definition no_mod : mst := MS no_desc 0 0 [] TNone false false [].

(** rtpp_modman_ctor (rtpp_modman.c:59-79) *)
Definition winit : mw :=
  MW 0 (fun _ => no_mod) PLoad 1 true [] (fun _ => SNone) true (fun _ => 0) [] [] [] false.

(** How an accounting item fared (rtpp_module_if.c:438-451) *)
Inductive put := Taken | Full | NoMem.
Inductive res := RAcct (i a : nat) (p : put) | RRtcp (i r : nat) (p : put).

(** RTPQ_SMALL_CB_LEN * 8 (rtpp_module_if.c:305, rtpp_queue.h:74) *)
Definition maxlen : nat := 16 * 8.

(** rtpp_queue_put_item (rtpp_queue.c:357-387) *)
Definition put_item (q : list item) (x : item) : option (list item) :=
  if maxlen <=? length q then None else Some (q ++ [x]).

Definition with_mod (w : mw) (i : nat) (m : mst) : mw :=
  MW (w_n w) (fupd (w_mod w) i m) (w_phase w) (w_cf w) (w_main w) (w_used w) (w_sess w) (w_reg w)
     (w_refs w) (w_freed w) (w_rmade w) (w_rfreed w) (w_bad w).
Definition with_q (m : mst) (q : list item) : mst :=
  MS (m_d m) (m_inst m) (m_idx m) q (m_thr m) (m_made m) (m_gone m) (m_log m).
Definition with_phase (w : mw) (p : phase) : mw :=
  MW (w_n w) (w_mod w) p (w_cf w) (w_main w) (w_used w) (w_sess w) (w_reg w)
     (w_refs w) (w_freed w) (w_rmade w) (w_rfreed w) (w_bad w).
Definition with_refs (w : mw) (r : nat -> nat) (f : list nat) (b : bool) : mw :=
  MW (w_n w) (w_mod w) (w_phase w) (w_cf w) (w_main w) (w_used w) (w_sess w) (w_reg w)
     r f (w_rmade w) (w_rfreed w) b.
Definition with_sess (w : mw) (a : nat) (s : sess) : mw :=
  MW (w_n w) (w_mod w) (w_phase w) (w_cf w) (w_main w) (w_used w) (fupd (w_sess w) a s) (w_reg w)
     (w_refs w) (w_freed w) (w_rmade w) (w_rfreed w) (w_bad w).
Definition with_rtcp (w : mw) (made freed : list nat) : mw :=
  MW (w_n w) (w_mod w) (w_phase w) (w_cf w) (w_main w) (w_used w) (w_sess w) (w_reg w)
     (w_refs w) (w_freed w) made freed (w_bad w).

(** RTPP_OBJ_INCREF, RTPP_OBJ_DECREF of a struct rtpp_acct; a use of one that is destroyed is noted *)
Definition incref (w : mw) (a : nat) : mw :=
  with_refs w (fupd (w_refs w) a (S (w_refs w a))) (w_freed w) (w_bad w || (w_refs w a =? 0)).
Definition decref (w : mw) (a : nat) : mw :=
  match w_refs w a with
  | 0 => with_refs w (w_refs w) (w_freed w) true
  | S k => with_refs w (fupd (w_refs w) a k) (if k =? 0 then a :: w_freed w else w_freed w) (w_bad w)
  end.

(** ** Loading *)

(** rtpp_modman_get_next_id (rtpp_modman.c:129-144) *)
Fixpoint next_id (f : nat -> mst) (n id : nat) : nat :=
  match n with
  | 0 => 1
  | S n => next_id f n id + (if d_id (m_d (f n)) =? id then 1 else 0)
  end.

(** rtpp_mif_load (rtpp_module_if.c:238-329) and rtpp_modman_insert (rtpp_modman.c:94-105), as
    parse_modules calls them (rtpp_cfile.c:195-228) *)
Definition load (w : mw) (d : mdesc) : mw :=
  MW (S (w_n w)) (fupd (w_mod w) (w_n w) (MS d (next_id (w_mod w) (w_n w) (d_id d)) (w_n w) [] TNone false false []))
     (w_phase w) (w_cf w) (w_main w) (w_used w) (w_sess w) (w_reg w) (w_refs w) (w_freed w) (w_rmade w)
     (w_rfreed w) (w_bad w).

(** The error path of parse_modules (rtpp_cfile.c:229-233): the last reference is dropped, then a
    method of the object is called *)
Definition load_failed (w : mw) : mw :=
  with_phase (with_refs w (w_refs w) (w_freed w) true) PFail.

(** count.sess_acct > 0 (rtpp_modman.c:103-104) *)
Fixpoint any_acct (f : nat -> mst) (n : nat) : bool :=
  match n with 0 => false | S n => has_acct (m_d (f n)) || any_acct f n end.

(** rtpp_modman_get_ul_subc_h (rtpp_modman.c:159-176), from module [k] on; [fuel] modules are left *)
Fixpoint lookup_from (f : nat -> mst) (fuel k id inst : nat) : option nat :=
  match fuel with
  | 0 => None
  | S fuel =>
      if negb (d_id (m_d (f k)) =? id) || negb (m_inst (f k) =? inst) then lookup_from f fuel (S k) id inst
      else if d_ul (m_d (f k)) then Some k else None
  end.
Definition lookup (w : mw) (id inst : nat) : option nat := lookup_from (w_mod w) (w_n w) 0 id inst.

(** ** Starting *)

Definition add_log (m : mst) (t : thr) (made : bool) (l : list mev) : mst :=
  MS (m_d m) (m_inst m) (m_idx m) (m_q m) t made (m_gone m) (m_log m ++ l).

(** rtpp_mif_construct (rtpp_module_if.c:477-502) then rtpp_mif_start (504-539); the second
    component says whether both succeeded *)
Definition construct_start (m : mst) : mst * bool :=
  let d := m_d m in
  match d_ctor d with
  | Some false => (m, false)
  | c =>
      let made := match c with Some _ => true | None => false end in
      let l := if made then [EvCtor] else [] in
      match d_config d with
      | Some false => (add_log m TNone made (l ++ EvConf :: if d_dtor d then [EvDtor] else []), false)
      | k =>
          let l := l ++ match k with Some _ => [EvConf] | None => [] end in
          if has_thread d
          then if d_go d then (add_log m TRun made l, true) else (add_log m TNone made l, false)
          else (add_log m TNone made l, true)
      end
  end.

(** rtpp_modman_startall (rtpp_modman.c:107-127), from module [k] on *)
Fixpoint startall (f : nat -> mst) (fuel k : nat) : (nat -> mst) * bool :=
  match fuel with
  | 0 => (f, true)
  | S fuel =>
      let (m, ok) := construct_start (f k) in
      if ok then startall (fupd f k m) fuel (S k) else (fupd f k m, false)
  end.

(** main (main.c:1143-1150): a failure ends the program, by exit() *)
Definition start (w : mw) : mw :=
  let (f, ok) := startall (w_mod w) (w_n w) 0 in
  MW (w_n w) f (if ok then PRun else PFail) (w_cf w) (w_main w) (w_used w) (w_sess w) (w_reg w)
     (w_refs w) (w_freed w) (w_rmade w) (w_rfreed w) (w_bad w).

(** ** Sessions *)

(** rtpp_session_ctor (rtpp_session.c:199-204), with its struct rtpp_acct *)
Definition sess_new (w : mw) (a : nat) : mw :=
  let h := any_acct (w_mod w) (w_n w) in
  MW (w_n w) (w_mod w) (w_phase w) (w_cf w + if h then 1 else 0) (w_main w) (a :: w_used w)
     (fupd (w_sess w) a (SUp h)) (w_reg w) (fupd (w_refs w) a 1) (w_freed w) (w_rmade w) (w_rfreed w) (w_bad w).

(** RTPP_OBJ_DECREF of the module manager; the last one starts rtpp_modman_dtor *)
Definition release (w : mw) : mw :=
  let cf := w_cf w - 1 in
  MW (w_n w) (w_mod w) (if cf =? 0 then PKap 0 false else w_phase w) cf (w_main w) (w_used w) (w_sess w) (w_reg w)
     (w_refs w) (w_freed w) (w_rmade w) (w_rfreed w) (w_bad w).

(** rtpp_mif_do_acct (rtpp_module_if.c:431-451); [mem]: rtpp_wi_malloc_apis succeeds *)
Definition do_acct (w : mw) (i a : nat) (mem : bool) : mw * list res :=
  if negb mem then (w, [RAcct i a NoMem])
  else
    let w1 := incref w a in
    match put_item (m_q (w_mod w i)) (IAcct a) with
    | Some q => (with_mod w1 i (with_q (w_mod w i) q), [RAcct i a Taken])
    | None => (decref w1 a, [RAcct i a Full])
    end.

(** One turn of the loop of rtpp_modman_do_acct (rtpp_modman.c:146-157) for session [a], or, past
    its last turn, what is left of the session's destructor (rtpp_session.c:320-323) *)
Definition sess_step (w : mw) (a : nat) (mem : bool) : mw * list res :=
  match w_sess w a with
  | SEnd true k =>
      if k <? w_n w then
        let w1 := with_sess w a (SEnd true (S k)) in
        if has_acct (m_d (w_mod w k)) then do_acct w1 k a mem else (w1, [])
      else (decref (release (with_sess w a SGone)) a, [])
  | SEnd false _ => (decref (with_sess w a SGone) a, [])
  | _ => (w, [])
  end.

(** acct_rtcp_enqueue (rtpp_module_if.c:182-200) and rtpp_mif_do_acct_rtcp (453-473) *)
Definition do_rtcp (w : mw) (i r : nat) (mem : bool) : mw * list res :=
  if negb mem then (with_rtcp w (r :: w_rmade w) (r :: w_rfreed w), [RRtcp i r NoMem])
  else
    match put_item (m_q (w_mod w i)) (IRtcp r) with
    | Some q => (with_rtcp (with_mod w i (with_q (w_mod w i) q)) (r :: w_rmade w) (w_rfreed w), [RRtcp i r Taken])
    | None => (with_rtcp w (r :: w_rmade w) (r :: w_rfreed w), [RRtcp i r Full])
    end.

(** ** The threads of the modules *)

Definition after_item (m : mst) (t : thr) (q : list item) (l : list mev) : mst :=
  MS (m_d m) (m_inst m) (m_idx m) q t (m_made m) (m_gone m) (m_log m ++ l).

(** One turn of the loop of rtpp_mif_run_acct (rtpp_module_if.c:389-429).  Simplification: the
    thread of a module that has only a wapi is taken to obey SIGTERM in the same way. *)
Definition work (w : mw) (i : nat) : mw :=
  let m := w_mod w i in
  match m_thr m, m_q m with
  | TRun, ITerm :: q => with_mod w i (after_item m TEnd q [])
  | TRun, IAcct a :: q =>
      let w1 := with_refs w (w_refs w) (w_freed w) (w_bad w || (w_refs w a =? 0)) in
      decref (with_mod w1 i (after_item m TRun q (if d_send (m_d m) then [EvSess a] else []))) a
  | TRun, IRtcp r :: q =>
      with_rtcp (with_mod w i (after_item m TRun q (if d_rcvd (m_d m) then [EvRtcp r] else [])))
                (w_rmade w) (r :: w_rfreed w)
  | _, _ => w
  end.

(** ** Shutting down *)

(** rtpp_mif_kaput past the join (rtpp_module_if.c:381-386): whatever is in the queue is dropped *)
Definition finish (m : mst) : mst :=
  MS (m_d m) (m_inst m) (m_idx m) [] (m_thr m) (m_made m) true
     (m_log m ++ if d_dtor (m_d m) && m_made m then [EvDtor] else []).

(** One step of rtpp_modman_dtor (rtpp_modman.c:81-92) and rtpp_mif_kaput (rtpp_module_if.c:361-387) *)
Definition kaput (w : mw) (k : nat) (wt : bool) : mw :=
  if k <? w_n w then
    let m := w_mod w k in
    match m_thr m, wt with
    | TRun, false =>
        match put_item (m_q m) ITerm with
        | Some q => with_phase (with_mod w k (with_q m q)) (PKap k true)
        | None => w
        end
    | TRun, true => w
    | _, _ => with_phase (with_mod w k (finish m)) (PKap (S k) false)
    end
  else with_phase w PDone.

(** main drops its reference: at the end (main.c:825-837, after the session table is emptied) or
    because the configuration is bad (main.c:317-318) *)
Definition stop (w : mw) : mw :=
  release (MW (w_n w) (w_mod w) (w_phase w) (w_cf w) false (w_used w) (w_sess w) false
              (w_refs w) (w_freed w) (w_rmade w) (w_rfreed w) (w_bad w)).

(** ** All of it *)

Inductive op :=
  | OLoad (d : mdesc) | OLoadFail | OStart
  | OSess (a : nat)                 (* a session is set up *)
  | OEnd (a : nat)                  (* its destructor is entered *)
  | OAcct (a : nat) (mem : bool)    (* the destructor goes on *)
  | ORtcp (i a r : nat) (mem : bool)(* an RTCP packet of session [a] is seen for module [i] *)
  | OWork (i : nat)                 (* the thread of module [i] takes an item *)
  | OStop                           (* main ends *)
  | OMain.                          (* the destructor of the module manager goes on *)

Definition step (w : mw) (o : op) : mw * list res :=
  match o, w_phase w with
  | _, PFail => (w, [])
  | OLoad d, PLoad => (if w_main w then load w d else w, [])
  | OLoadFail, PLoad => (load_failed w, [])
  | OStart, PLoad => (start w, [])
  | OSess a, PRun =>
      (if w_main w && negb (existsb (Nat.eqb a) (w_used w)) then sess_new w a else w, [])
  | OEnd a, _ => (match w_sess w a with SUp h => with_sess w a (SEnd h 0) | _ => w end, [])
  | OAcct a mem, _ => sess_step w a mem
  | ORtcp i a r mem, PRun =>
      if w_reg w && (i <? w_n w) && has_rtcp (m_d (w_mod w i))
         && (match w_sess w a with SUp _ => true | _ => false end)
      then do_rtcp w i r mem else (w, [])
  | OWork i, _ => (if i <? w_n w then work w i else w, [])
  | OStop, PLoad | OStop, PRun => (if w_main w then stop w else w, [])
  | OMain, PKap k wt => (kaput w k wt, [])
  | _, _ => (w, [])
  end.

Fixpoint run (w : mw) (ops : list op) : mw * list res :=
  match ops with
  | [] => (w, [])
  | o :: ops => let (w1, r1) := step w o in let (w2, r2) := run w1 ops in (w2, r1 ++ r2)
  end.
