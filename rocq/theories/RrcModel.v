(* Starting and stopping recordings: which recorder each stream has, how
   recorders are shared and when they are closed
   (/repo/src/commands/rpcpv1_copy.c, rpcpv1_record.c, rpcpv1_norecord.c,
   rtpp_record.c:167-291).

   Simplifications
   - Which sessions and directions a command applies to (rpcpv1_record.c:73-80,
     rpcpv1_norecord.c:95-102, find_stream) is the business of other parts of
     the model: here a command is the calls it makes, for any session and
     direction.
   - Whether opening a file or a remote target works, whether the local
     sockets for a remote target can be made and whether the reply can be
     delivered are arguments.
   - Strings are numbers.  The sockets of a remote target, which the recorders
     take over, are left out, and so are the log messages. *)
From Coq Require Import List Arith Lia Bool.
Import ListNotations.

(* rtpp_record.h, RECORD_RTP, RECORD_RTCP, RECORD_BOTH *)
Inductive kind := KRtp | KRtcp | KBoth.

(* the recording target named in a command: none, a file, or "udp:..." *)
Inductive target := TNone | TFile (n : nat) | TUdp (n : nat).

(* Where a recorder writes, rtpp_record.c:219-248 (local) and 132-165
   (remote).  The direction, as suffix .o or .a, is in the name of a file only
   if the name was not given and both kinds are not in one file. *)
Inductive place :=
| PAuto (call tag : nat) (orig : option bool) (k : kind)
| PFile (n : nat) (k : kind)
| PUdp (n : nat) (k : kind).

(* a recorder and its reference count; 0: closed *)
Record recorder := mkrec { r_place : place; r_refs : nat }.

(* the recorders of the streams of a session; the tag is without the media
   number (rtpp_session.c:164) *)
Record sess := mksess {
  s_call : nat; s_tag : nat;
  rtp0 : option nat; rtp1 : option nat; rtcp0 : option nat; rtcp1 : option nat
}.

Record st := mkst { ses : list sess; recs : list recorder }.

Inductive res (A : Type) := Ok (a : A) | Assert | Freed.
Arguments Ok {A} a.
Arguments Assert {A}.
Arguments Freed {A}.    (* a closed recorder was used *)

Definition bindr {A B} (r : res A) (f : A -> res B) : res B :=
  match r with Ok a => f a | Assert => Assert | Freed => Freed end.

(* sp->rtp->stream[idx]->rrc and sp->rtcp->stream[idx]->rrc *)
Definition sget (se : sess) (rtcp idx : bool) : option nat :=
  match rtcp, idx with
  | false, false => rtp0 se | false, true => rtp1 se
  | true, false => rtcp0 se | true, true => rtcp1 se
  end.
Definition sset (se : sess) (rtcp idx : bool) (v : option nat) : sess :=
  match rtcp, idx with
  | false, false => mksess (s_call se) (s_tag se) v (rtp1 se) (rtcp0 se) (rtcp1 se)
  | false, true => mksess (s_call se) (s_tag se) (rtp0 se) v (rtcp0 se) (rtcp1 se)
  | true, false => mksess (s_call se) (s_tag se) (rtp0 se) (rtp1 se) v (rtcp1 se)
  | true, true => mksess (s_call se) (s_tag se) (rtp0 se) (rtp1 se) (rtcp0 se) v
  end.

Definition nosess : sess := mksess 0 0 None None None None.
Definition getr (s : st) (i : nat) (rtcp idx : bool) : option nat :=
  sget (nth i (ses s) nosess) rtcp idx.

Fixpoint setn {A} (l : list A) (i : nat) (f : A -> A) : list A :=
  match l, i with
  | [], _ => []
  | a :: r, O => f a :: r
  | a :: r, S j => a :: setn r j f
  end.

Definition setr (s : st) (i : nat) (rtcp idx : bool) (v : option nat) : st :=
  mkst (setn (ses s) i (fun se => sset se rtcp idx v)) (recs s).

(* RTPP_OBJ_INCREF, RTPP_OBJ_DECREF on a recorder; rtpp_record_close runs when
   the count gets to 0 (rtpp_record.c:684-710) *)
Definition norec : recorder := mkrec (PFile 0 KBoth) 0.
Definition incref (s : st) (k : nat) : res st :=
  if r_refs (nth k (recs s) norec) =? 0 then Freed
  else Ok (mkst (ses s) (setn (recs s) k (fun r => mkrec (r_place r) (S (r_refs r))))).
Definition decref (s : st) (k : nat) : res st :=
  if r_refs (nth k (recs s) norec) =? 0 then Freed
  else Ok (mkst (ses s) (setn (recs s) k (fun r => mkrec (r_place r) (pred (r_refs r))))).

(* rtpp_record.c:207-248 *)
Definition place_of (se : sess) (t : target) (orig : bool) (k : kind) : place :=
  match t with
  | TUdp n => PUdp n k
  | TFile n => PFile n k
  | TNone => PAuto (s_call se) (s_tag se)
               (match k with KBoth => None | _ => Some orig end) k
  end.

(* rtpp_record.c:167-291: a new recorder with one reference *)
Definition record_ctor (s : st) (i : nat) (t : target) (orig : bool) (k : kind) (ok : bool)
  : st * option nat :=
  if ok then
    (mkst (ses s) (recs s ++ [mkrec (place_of (nth i (ses s) nosess) t orig k) 1]),
     Some (length (recs s)))
  else (s, None).

(* what a call of handle_copy meets with *)
Record env := mkenv {
  e_sock : bool;    (* get_args4remote works, rpcpv1_copy.c:139 *)
  e_rtp : bool;     (* the first recorder can be opened *)
  e_rtcp : bool;    (* the second recorder can be opened *)
  e_reply : bool    (* there is no reply to be sent, or it can be delivered *)
}.

Definition is_udp (t : target) : bool := match t with TUdp _ => true | _ => false end.

(* rpcpv1_copy.c:96-177.  [single], [port]: the modifiers `s' and `p'.  The
   result is the return value: true for 0, false for -1. *)
Definition handle_copy (rrtcp : bool) (s : st) (i : nat) (idx : bool) (t : target)
    (single port : bool) (e : env) : res (st * bool) :=
  if port && negb (is_udp t) then Ok (s, false)
  else if negb (is_udp t) && single then
    match getr s i false idx with
    | Some _ => Ok (s, false)
    | None =>
        bindr
          (match getr s i false (negb idx) with
           | Some k => bindr (incref s k) (fun s1 => Ok (setr s1 i false idx (Some k), true))
           | None =>
               let '(s1, r) := record_ctor s i t idx KBoth (e_rtp e) in
               match r with
               | None => Ok (s1, false)
               | Some k => Ok (setr s1 i false idx (Some k), true)
               end
           end)
          (fun '(s2, b) =>
           if negb b then Ok (s2, false)
           else match getr s2 i true idx with
                | Some _ => Assert
                | None =>
                    if rrtcp then
                      match getr s2 i false idx with
                      | Some k => bindr (incref s2 k) (fun s3 =>
                                    Ok (setr s3 i true idx (Some k), true))
                      | None => Freed
                      end
                    else Ok (s2, true)
                end)
    end
  else if is_udp t && negb (e_sock e) then Ok (s, false)
  else
    let '(s1, b1) :=
      match getr s i false idx with
      | Some _ => (s, true)
      | None =>
          let '(s1, r) := record_ctor s i t idx KRtp (e_rtp e) in
          match r with
          | None => (s1, false)
          | Some k => (setr s1 i false idx (Some k), true)
          end
      end in
    if negb b1 then Ok (s1, false)
    else
      bindr
        (match getr s1 i true idx with
         | None =>
             if rrtcp then
               let '(s2, r) := record_ctor s1 i t idx KRtcp (e_rtcp e) in
               match r with
               | None =>
                   match getr s2 i false idx with
                   | Some k => bindr (decref s2 k) (fun s3 =>
                                 Ok (setr s3 i false idx None, false))
                   | None => Freed
                   end
               | Some k => Ok (setr s2 i true idx (Some k), true)
               end
             else Ok (s1, true)
         | Some _ => Ok (s1, true)
         end)
        (fun '(s2, b2) =>
         if negb b2 then Ok (s2, false)
         else if port && negb (e_reply e) then Ok (s2, false)
         else Ok (s2, true)).

(* rpcpv1_norecord.c:66-83 *)
Definition handle_stop (rrtcp : bool) (s : st) (i : nat) (idx : bool) : res (st * bool) :=
  match getr s i false idx with
  | None => Ok (s, false)
  | Some k =>
      bindr
        (if rrtcp then
           match getr s i true idx with
           | None => Assert
           | Some j => bindr (decref s j) (fun s1 => Ok (setr s1 i true idx None))
           end
         else Ok s)
        (fun s1 => bindr (decref s1 k) (fun s2 => Ok (setr s2 i false idx None, true)))
  end.

(* rtpp_stream.c:457-458, for one of the four streams of a session that ends *)
Definition drop1 (s : st) (i : nat) (rtcp idx : bool) : res st :=
  match getr s i rtcp idx with
  | None => Ok s
  | Some k => bindr (decref s k) (fun s1 => Ok (setr s1 i rtcp idx None))
  end.

Definition handle_end (s : st) (i : nat) : res st :=
  bindr (drop1 s i false false) (fun s1 =>
  bindr (drop1 s1 i false true) (fun s2 =>
  bindr (drop1 s2 i true false) (fun s3 => drop1 s3 i true true))).

(* A new session (a session set up with recording on, rpcpv1_ul.c:873-877, is
   [RNew] followed by two [RCopy]); a call of handle_copy or of
   handle_stop_record; the end of a session. *)
Inductive op :=
| RNew (call tag : nat)
| RCopy (i : nat) (idx : bool) (t : target) (single port : bool) (e : env)
| RStop (i : nat) (idx : bool)
| REnd (i : nat).

Definition step (rrtcp : bool) (s : st) (o : op) : res st :=
  match o with
  | RNew c t => Ok (mkst (ses s ++ [mksess c t None None None None]) (recs s))
  | RCopy i idx t single port e =>
      if i <? length (ses s)
      then bindr (handle_copy rrtcp s i idx t single port e) (fun r => Ok (fst r))
      else Ok s
  | RStop i idx =>
      if i <? length (ses s)
      then bindr (handle_stop rrtcp s i idx) (fun r => Ok (fst r))
      else Ok s
  | REnd i => if i <? length (ses s) then handle_end s i else Ok s
  end.

Fixpoint run (rrtcp : bool) (s : st) (os : list op) : res st :=
  match os with
  | [] => Ok s
  | o :: r => bindr (step rrtcp s o) (fun s' => run rrtcp s' r)
  end.

Definition init : st := mkst [] [].

(* The relaying thread and the command thread on the recorder of one stream:
   rtpp_proc_async.c:307-309 reads the pointer twice and takes no reference,
   rpcpv1_norecord.c:80-81 gives the reference up and then clears the pointer.
   No lock is held by either. *)
Record duel := mkduel { d_ptr : option unit; d_open : bool; d_relay : nat; d_cmd : nat }.
Inductive dres := DOk (d : duel) | DNull | DFreed.
Inductive dstep := DRelay | DCmd.
Definition duel_step (d : duel) (x : dstep) : dres :=
  match x with
  | DRelay =>
      match d_relay d with
      | 0 => (* line 307 *)
          DOk (mkduel (d_ptr d) (d_open d) (match d_ptr d with Some _ => 1 | None => 2 end) (d_cmd d))
      | 1 => (* line 309 *)
          match d_ptr d with
          | None => DNull
          | Some _ => if d_open d then DOk (mkduel (d_ptr d) (d_open d) 2 (d_cmd d)) else DFreed
          end
      | _ => DOk d
      end
  | DCmd =>
      match d_cmd d with
      | 0 => DOk (mkduel (d_ptr d) false (d_relay d) 1)      (* line 80, the last reference *)
      | 1 => DOk (mkduel None (d_open d) (d_relay d) 2)      (* line 81 *)
      | _ => DOk d
      end
  end.
Fixpoint duel_run (d : duel) (l : list dstep) : dres :=
  match l with
  | [] => DOk d
  | x :: r => match duel_step d x with DOk d' => duel_run d' r | e => e end
  end.
