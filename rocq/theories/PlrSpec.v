(** What is said about announcements, in terms of the threads and of what is seen from outside. *)
From Verif Require Import Base PlrModel.

(** No thread is in the middle of anything. *)
Definition quiet (s : st) : Prop := cmd s = CIdle /\ srv s = VIdle /\ slock s = LFree.

(** The players of the stream, waiting or running. *)
Definition players (s : st) : list nat := tin s ++ tact s.

(** The stream counts as playing: rtpp_stream_isplayer_active, rtpp_stream.c:600-611 *)
Definition counts_as_playing (s : st) : Prop := uid s <> None.
(** The media of the other side is dropped. *)
Definition muted (s : st) : Prop := (drops s > 0)%nat.

(** A command that stops a player is looking for it in the tables ... *)
Definition stopping (s : st) : Prop :=
  match cmd s with CUnregIn _ _ | CUnregAct _ _ => True | _ => False end.
(** ... at the moment another thread carries it from one table to the other. *)
Definition carrying (s : st) : Prop := match slock s with LTransit _ => True | _ => False end.

(** No state of the schedule has both. *)
Fixpoint undisturbed (copied : bool) (s : st) (os : list op) : Prop :=
  ~ (stopping s /\ carrying s) /\
  match os with
  | [] => True
  | o :: os' => match step copied s o with Go s1 _ => undisturbed copied s1 os' | Abort => True end
  end.

(** The last command answered, if it is a play command answered with success, and the player it
    started. *)
Fixpoint last_answer (acc : option nat) (es : list event) : option nat :=
  match es with
  | [] => acc
  | EPacket _ :: t => last_answer acc t
  | EPlaying u :: t => last_answer (Some u) t
  | EFailed :: t | EStopped :: t => last_answer None t
  end.

(** Every packet is one of the player the last answered command has started. *)
Fixpoint from_latest (acc : option nat) (es : list event) : Prop :=
  match es with
  | [] => True
  | EPacket u :: t => acc = Some u /\ from_latest acc t
  | EPlaying u :: t => from_latest (Some u) t
  | EFailed :: t | EStopped :: t => from_latest None t
  end.

(** The player thread holds the lock of the table and waits for the lock of the stream; the holder
    of the lock of the stream waits for the lock of the table. Neither goes on. *)
Definition wants_stream (s : st) : Prop :=
  match srv s with VSend _ | VEof _ => True | _ => False end.
Definition wants_table (s : st) : Prop :=
  match slock s with
  | LPlay => inact s = false
  | LTransit _ => True
  | _ => False
  end.
Definition deadlocked (s : st) : Prop := wants_stream s /\ wants_table s.

(** The threads are let go on until each has done what it is at: the player thread, then a thread
    that starts a player, then the command thread. *)
Definition settle : list op :=
  [OSrv; OSrv; OTurnEnd; OMove; OMove] ++ repeat (OCmd true true) 7.
