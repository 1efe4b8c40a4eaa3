(** Model of starting, stopping and ending announcements on one stream: src/rtpp_stream.c:379-391,
    490-627 and 790-811, src/rtpp_proc_servers.c:96-147 and 283-332, src/rtpp_hash_table.c:553-576,
    src/rtpp_weakref.c:162-195, src/commands/rpcpv1_play.c:98-132.

    Three kinds of thread take part: the command thread (play and stop commands), the player thread
    (which walks the table of running players with the lock of that table held), and the threads
    that store the address or the socket of the stream (which make it able to send). They share the
    lock of the stream and the lock of the table of running players. *)
From Verif Require Import Base.

(** Where the command thread is. [play]: the command goes on to play after stopping.
    The lock of the stream is held in [CReg]. *)
Inductive cpc :=
| CIdle
| CRead (play : bool)               (* rtpp_stream.c:577-581, about to read the number of the player *)
| CUnregIn (u : nat) (play : bool)  (* rtpp_proc_servers.c:328, about to look among the waiting *)
| CUnregAct (u : nat) (play : bool) (* rtpp_proc_servers.c:330, about to look among the running *)
| CClear (u : nat) (play : bool)    (* rtpp_stream.c:583-590 *)
| CCreate                           (* rtpp_stream.c:515-546 *)
| CReg.                             (* rtpp_stream.c:547-550, about to enter the player in a table *)

(** Where the player thread is. The lock of the table of running players is held everywhere but in
    [VIdle]. *)
Inductive vpc :=
| VIdle
| VLoop                        (* rtpp_proc_servers.c:106-123, between two actions *)
| VSend (u : option nat)       (* lines 136-139, about to take the lock of the stream to send a packet of
                                  player [u], or of a player of another stream whose media is copied *)
| VEof (u : nat)               (* rtpp_stream.c:613-627, about to take the lock of the stream *)
| VDel (u : nat).              (* lines 126-128, about to delete the finished player from the table *)

(** Who holds the lock of the stream between steps. *)
Inductive lk :=
| LFree
| LPlay                        (* the command thread, in [CReg] *)
| LMove                        (* a thread in rtpp_stream.c:808, about to take the player off the
                                  table of the waiting: rtpp_hash_table.c:567 *)
| LTransit (u : nat).          (* the same thread, about to enter it among the running: line 575 *)

(** What can be seen from outside. *)
Inductive event :=
| EPacket (u : nat)            (* a packet of player [u] leaves *)
| EPlaying (u : nat)           (* a play command is answered with success *)
| EFailed                      (* a play command is answered with an error *)
| EStopped.                    (* a stop command is answered *)

(** [uid], [inact]: pvt->rtps; [sendable]: pvt->_is_sendable; [drops]: how many processors with the
    key pvt + 2, which drop the media of the other side, the reverse manager has; [nextu]: the
    number of the next player (rtpp_genuid.c); [tin], [tact]: the players of this stream in
    inact_servers and act_servers. *)
Record st := mkSt {
  uid : option nat; inact : bool; sendable : bool; drops : nat; nextu : nat;
  tin : list nat; tact : list nat; cmd : cpc; srv : vpc; slock : lk
}.

Definition init : st := mkSt None false false 0 0 [] [] CIdle VIdle LFree.

(** rtpp_stream.c:379-391: _s_rtps. The number is stored; the player is marked as waiting when the
    stream cannot send, and the mark is left as it is otherwise. *)
Definition s_rtps (s : st) (o : option nat) : st :=
  mkSt o (if sendable s then inact s else true) (sendable s) (drops s) (nextu s)
       (tin s) (tact s) (cmd s) (srv s) (slock s).

Definition set_uid s x := mkSt x (inact s) (sendable s) (drops s) (nextu s) (tin s) (tact s) (cmd s) (srv s) (slock s).
Definition set_inact s x := mkSt (uid s) x (sendable s) (drops s) (nextu s) (tin s) (tact s) (cmd s) (srv s) (slock s).
Definition set_sendable s x := mkSt (uid s) (inact s) x (drops s) (nextu s) (tin s) (tact s) (cmd s) (srv s) (slock s).
Definition set_drops s x := mkSt (uid s) (inact s) (sendable s) x (nextu s) (tin s) (tact s) (cmd s) (srv s) (slock s).
Definition set_nextu s x := mkSt (uid s) (inact s) (sendable s) (drops s) x (tin s) (tact s) (cmd s) (srv s) (slock s).
Definition set_tin s x := mkSt (uid s) (inact s) (sendable s) (drops s) (nextu s) x (tact s) (cmd s) (srv s) (slock s).
Definition set_tact s x := mkSt (uid s) (inact s) (sendable s) (drops s) (nextu s) (tin s) x (cmd s) (srv s) (slock s).
Definition set_cmd s x := mkSt (uid s) (inact s) (sendable s) (drops s) (nextu s) (tin s) (tact s) x (srv s) (slock s).
Definition set_srv s x := mkSt (uid s) (inact s) (sendable s) (drops s) (nextu s) (tin s) (tact s) (cmd s) x (slock s).
Definition set_slock s x := mkSt (uid s) (inact s) (sendable s) (drops s) (nextu s) (tin s) (tact s) (cmd s) (srv s) x.

(** src/advanced/pproc_manager.c:266-305: taking a processor off aborts the process when there is
    none with the key. *)
Definition unreg_drop (s : st) : option st :=
  match drops s with O => None | S n => Some (set_drops s n) end.

Definition mem (u : nat) (l : list nat) : bool := existsb (Nat.eqb u) l.
Definition del (u : nat) (l : list nat) : list nat := filter (fun v => negb (Nat.eqb u v)) l.

Definition slock_free (s : st) : bool := match slock s with LFree => true | _ => false end.
Definition table_free (s : st) : bool := match srv s with VIdle => true | _ => false end.
Definition uid_is (s : st) (u : nat) : bool := match uid s with Some v => Nat.eqb v u | None => false end.

(** The steps. Each is one section under a lock, or waits: a step whose lock is taken leaves the
    state as it is. *)
Inductive op :=
| OPlay                        (* a play command comes: rpcpv1_play.c:98-132, count not 0 *)
| OStop                        (* a stop command, or a play command with count 0 *)
| OCmd (made registered : bool)(* the next step of the command thread; whether the announcement can
                                  be opened and whether there is memory to register things *)
| OTurn                        (* the player thread takes the lock of the table: run_servers *)
| OPick (u : nat)              (* it gets a packet from player [u], line 119 *)
| OPickOther                   (* it gets a packet from a player of another stream that is copied here *)
| OPickEof (u : nat)           (* player [u] has no more to play, line 121 *)
| OSrv                         (* the next step of what it picked *)
| OTurnEnd                     (* it releases the lock of the table *)
| OSendable (b : bool)         (* a thread recomputes whether the stream can send, rtpp_stream.c:798-811 *)
| OMove.                       (* the next step of that thread when it has to start the player *)

Inductive res := Go (s : st) (es : list event) | Abort.

(** What follows after stopping: rpcpv1_play.c:100-104 *)
Definition after_stop (s : st) (play : bool) : res :=
  if play then Go (set_cmd s CCreate) [] else Go (set_cmd s CIdle) [EStopped].

(** The command thread. *)
Definition step_cmd (s : st) (made registered : bool) : res :=
  match cmd s with
  | CIdle => Go s []
  | CRead play =>
      (* rtpp_stream.c:577-581 *)
      if slock_free s
      then match uid s with
           | None => after_stop s play
           | Some u => Go (set_cmd s (CUnregIn u play)) []
           end
      else Go s []
  | CUnregIn u play =>
      (* rtpp_proc_servers.c:328 *)
      if mem u (tin s) then Go (set_cmd (set_tin s (del u (tin s))) (CClear u play)) []
      else Go (set_cmd s (CUnregAct u play)) []
  | CUnregAct u play =>
      (* rtpp_proc_servers.c:329-332 and rtpp_stream.c:582 *)
      if table_free s
      then if mem u (tact s) then Go (set_cmd (set_tact s (del u (tact s))) (CClear u play)) []
           else after_stop s play
      else Go s []
  | CClear u play =>
      (* rtpp_stream.c:583-590 *)
      if slock_free s
      then match unreg_drop s with
           | None => Abort
           | Some s1 => after_stop (if uid_is s1 u then set_inact (set_uid s1 None) false else s1) play
           end
      else Go s []
  | CCreate =>
      (* rtpp_stream.c:515-546. [made]: one of the codecs has a file that can be opened;
         [registered]: the processor that drops the media of the other side is registered, line 537. *)
      if slock_free s
      then if negb made then Go (set_cmd s CIdle) [EFailed]
           else let s1 := s_rtps (set_nextu s (S (nextu s))) (Some (nextu s)) in
                if negb registered then Go (set_cmd s1 CIdle) [EFailed]
                else Go (set_slock (set_cmd (set_drops s1 (S (drops s1))) CReg) LPlay) []
      else Go s []
  | CReg =>
      (* rtpp_stream.c:544-552 and 565-570, rtpp_proc_servers.c:283-299. [registered]: there is
         memory for the entry of the table. [uid] is the player made in [CCreate]. *)
      match uid s with
      | None => Go s []
      | Some u =>
          if registered
          then if inact s
               then Go (set_slock (set_cmd (set_tin s (u :: tin s)) CIdle) LFree) [EPlaying u]
               else if table_free s
                    then Go (set_slock (set_cmd (set_tact s (u :: tact s)) CIdle) LFree) [EPlaying u]
                    else Go s []
          else if inact s || table_free s
               then match unreg_drop s with
                    | None => Abort
                    | Some s1 => Go (set_slock (set_cmd s1 CIdle) LFree) [EFailed]
                    end
               else Go s []
      end
  end.

(** The player thread. [copied]: another stream whose announcements are played has its media copied
    into the session of this stream. *)
Definition step_srv (copied : bool) (s : st) (o : op) : res :=
  match o, srv s with
  | OTurn, VIdle => Go (set_srv s VLoop) []
  | OPick u, VLoop => if mem u (tact s) then Go (set_srv s (VSend (Some u))) [] else Go s []
  | OPickOther, VLoop => if copied then Go (set_srv s (VSend None)) [] else Go s []
  | OPickEof u, VLoop => if mem u (tact s) then Go (set_srv s (VEof u)) [] else Go s []
  | OSrv, VSend None => if slock_free s then Go (set_srv s VLoop) [] else Go s []
  | OSrv, VSend (Some u) =>
      if slock_free s then Go (set_srv s VLoop) (if sendable s then [EPacket u] else []) else Go s []
  | OSrv, VEof u =>
      (* rtpp_stream.c:613-627 *)
      if slock_free s
      then if uid_is s u
           then match unreg_drop s with
                | None => Abort
                | Some s1 => Go (set_srv (s_rtps s1 None) (VDel u)) []
                end
           else Go (set_srv s (VDel u)) []
      else Go s []
  | OSrv, VDel u => Go (set_srv (set_tact s (del u (tact s))) VLoop) []
  | OTurnEnd, VLoop => Go (set_srv s VIdle) []
  | _, _ => Go s []
  end.

(** rtpp_stream.c:790-811 and rtpp_proc_servers.c:301-319. Taking the player off one table and
    entering it in the other are two steps: rtpp_hash_table.c:567 and 575. *)
Definition step_send (s : st) (o : op) : res :=
  match o, slock s with
  | OSendable b, LFree =>
      let s1 := set_sendable s b in
      if b && inact s then Go (set_slock s1 LMove) [] else Go s1 []
  | OMove, LMove =>
      match uid s with
      | Some u => if mem u (tin s) then Go (set_slock (set_tin s (del u (tin s))) (LTransit u)) []
                  else Go (set_slock (set_inact s false) LFree) []
      | None => Go (set_slock (set_inact s false) LFree) []
      end
  | OMove, LTransit u =>
      if table_free s then Go (set_slock (set_inact (set_tact s (u :: tact s)) false) LFree) [] else Go s []
  | _, _ => Go s []
  end.

Definition step (copied : bool) (s : st) (o : op) : res :=
  match o with
  | OPlay => match cmd s with CIdle => Go (set_cmd s (CRead true)) [] | _ => Go s [] end
  | OStop => match cmd s with CIdle => Go (set_cmd s (CRead false)) [] | _ => Go s [] end
  | OCmd a b => step_cmd s a b
  | OSendable _ | OMove => step_send s o
  | _ => step_srv copied s o
  end.

(** A schedule, with what is seen from outside. *)
Fixpoint run (copied : bool) (s : st) (os : list op) : res :=
  match os with
  | [] => Go s []
  | o :: os' =>
      match step copied s o with
      | Abort => Abort
      | Go s1 e1 => match run copied s1 os' with
                    | Abort => Abort
                    | Go s2 e2 => Go s2 (e1 ++ e2)
                    end
      end
  end.
