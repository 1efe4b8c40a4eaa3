(** Model of the accounting file of the module acct_csv: the header and the row, and the
    system calls with which several proxies append rows to one file while it is rotated.
    Code: modules/acct_csv/rtpp_acct_csv.c. *)
From Verif Require Import Base Str.

(** * The row *)

(** struct rtpp_netaddr as sip_print shows it: family, text of the address, port
    (src/rtpp_network.c:197-220) *)
Record cadr := CAdr { ca_six : bool; ca_host : list Z; ca_port : Z }.

(** What struct rtpp_acct says of one side (src/rtpp_acct.h, struct rtpp_acct_face and the
    rasta/rasto, jrasta/jrasto fields).  Simplification: the value of a %f field is given as its
    text. *)
Record cface := CFace {
  cf_first : list Z; cf_last : list Z;     (* rtp.X.ps->first_pkt_rcv, last_pkt_rcv *)
  cf_npkts : Z; cf_rtcp_npkts : Z;         (* rtp.X.ps->npkts_in, rtcp.X.ps->npkts_in *)
  cf_psent : Z; cf_precvd : Z; cf_pdups : Z; cf_plost : Z; cf_pecount : Z;
  cf_ssrc : option Z;                      (* last_ssrc: Some val when inited *)
  cf_schg : Z; cf_pt : Z;                  (* ssrc_changes, last_pt *)
  cf_jlast : list Z; cf_jmax : list Z; cf_javg : list Z;
  cf_rtp : option cadr; cf_rtcp : option cadr;  (* rem_addr, None when empty *)
  cf_held : Z; cf_hcnt : Z                 (* hld_stat.status, hld_stat.cnt *)
}.

(** struct rtpp_acct (src/rtpp_acct.h) *)
Record cacct := CAcct {
  cc_uid : Z; cc_call : option (list Z); cc_from : option (list Z);  (* None: NULL *)
  cc_init : list Z; cc_destroy : list Z;
  cc_nrel : Z; cc_ndrop : Z; cc_crel : Z; cc_cdrop : Z;
  cc_o : cface; cc_a : cface
}.

(** [head], without its last "\n" (rtpp_acct_csv.c:188-202) *)
Definition csv_names : list Z :=
  B "rec_ver,rtpp_node_id,rtpp_pid,sess_uid" ++   B ",call_id" ++ 
  B ",from_tag,setup_ts,teardown_ts,first_rtp_ts_ino,last_rtp_ts_ino" ++   B ",first_rtp_ts_ina,last_rtp_ts_ina,rtp_npkts_ina,rtp_npkts_ino" ++ 
  B ",rtp_nrelayed,rtp_ndropped,rtcp_npkts_ina,rtcp_npkts_ino" ++   B ",rtcp_nrelayed,rtcp_ndropped,rtpa_nsent_ino,rtpa_nrcvd_ino" ++ 
  B ",rtpa_ndups_ino,rtpa_nlost_ino,rtpa_perrs_ino" ++   B ",rtpa_ssrc_last_ino,rtpa_ssrc_cnt_ino,rtpa_pt_last_ino" ++ 
  B ",rtpa_nsent_ina,rtpa_nrcvd_ina,rtpa_ndups_ina,rtpa_nlost_ina" ++   B ",rtpa_perrs_ina,rtpa_ssrc_last_ina,rtpa_ssrc_cnt_ina,rtpa_pt_last_ina" ++ 
  B ",rtpa_jitter_last_ino,rtpa_jitter_max_ino,rtpa_jitter_avg_ino" ++   B ",rtpa_jitter_last_ina,rtpa_jitter_max_ina,rtpa_jitter_avg_ina" ++ 
  B ",rtpp_rtp_rmt_ip_o,rtpp_rtp_rmt_pt_o,rtpp_rtp_rmt_ip_a,rtpp_rtp_rmt_pt_a" ++   B ",rtpp_rtcp_rmt_ip_o,rtpp_rtcp_rmt_pt_o,rtpp_rtcp_rmt_ip_a,rtpp_rtcp_rmt_pt_a" ++ 
  B ",rtpp_hld_sts_o,rtpp_hld_sts_a,rtpp_hld_cnt_o,rtpp_hld_cnt_a".

(** [head] *)
Definition csv_head : list Z := csv_names ++ [10].

(** SEP *)
Definition sep (a b : list Z) : list Z := a ++ 44 :: b.
Fixpoint seps (l : list (list Z)) : list Z :=
  match l with [] => [] | [a] => a | a :: l => sep a (seps l) end.

(** "%.8X" *)
Definition hexd (d : Z) : Z := if d <? 10 then 48 + d else 55 + d.
Fixpoint hexn (n : nat) (v : Z) : list Z :=
  match n with O => [] | S n => hexd (v / 16 ^ Z.of_nat n mod 16) :: hexn n v end.
(** format_ssrc (rtpp_acct_csv.c:298-307), SSRC_FMT is "0x%.8X" (src/rtpp_ssrc.h) *)
Definition format_ssrc (s : option Z) : list Z :=
  match s with Some v => B "0x" ++ hexn 8 v | None => [] end.

(** addrport2char_r with the separator ',' (src/rtpp_network.c:197-220) *)
Definition sip_print (a : cadr) : list Z :=
  (if ca_six a then [91] ++ ca_host a ++ [93] else ca_host a) ++ [44] ++ fmt_u (ca_port a).
(** format_netaddr, for one of the two addresses (rtpp_acct_csv.c:309-326) *)
Definition format_netaddr (a : option cadr) : list Z :=
  match a with None => [44] | Some a => sip_print a end.
(** FMT_BOOL (rtpp_acct_csv.c:328) *)
Definition fmt_bool (x : Z) : list Z := if x =? 0 then B "f" else B "t".
(** ES_IF_NULL (rtpp_acct_csv.c:295) *)
Definition es_if_null (s : option (list Z)) : list Z := match s with Some s => s | None => [] end.

(** The text formatted into the buffer (rtpp_acct_csv.c:351-377).  Simplification: the buffer is
    extended until the text fits (rtpp_acct_csv.c:378-386; C10 says what the buffer holds then);
    running out of memory there is not modelled. *)
Definition csv_row (nid : list Z) (pid : Z) (c : cacct) : list Z :=
  let o := cc_o c in let a := cc_a c in
  seps
    [B "1.2"; nid; fmt_d pid; fmt_d (cc_uid c); es_if_null (cc_call c); es_if_null (cc_from c);
     cc_init c; cc_destroy c; cf_first o; cf_last o; cf_first a; cf_last a;
     fmt_u (cf_npkts a); fmt_u (cf_npkts o); fmt_u (cc_nrel c); fmt_u (cc_ndrop c);
     fmt_u (cf_rtcp_npkts a); fmt_u (cf_rtcp_npkts o); fmt_u (cc_crel c); fmt_u (cc_cdrop c);
     fmt_u (cf_psent o); fmt_u (cf_precvd o); fmt_u (cf_pdups o); fmt_u (cf_plost o);
     fmt_u (cf_pecount o); format_ssrc (cf_ssrc o); fmt_u (cf_schg o); fmt_d (cf_pt o);
     fmt_u (cf_psent a); fmt_u (cf_precvd a); fmt_u (cf_pdups a); fmt_u (cf_plost a);
     fmt_u (cf_pecount a); format_ssrc (cf_ssrc a); fmt_u (cf_schg a); fmt_d (cf_pt a);
     cf_jlast o; cf_jmax o; cf_javg o; cf_jlast a; cf_jmax a; cf_javg a;
     format_netaddr (cf_rtp o); format_netaddr (cf_rtp a);
     format_netaddr (cf_rtcp o); format_netaddr (cf_rtcp a);
     fmt_bool (cf_held o); fmt_bool (cf_held a); fmt_d (cf_hcnt o); fmt_d (cf_hcnt a)]
  ++ [10].

(** * The name of the node *)

(** node_id and next_hupd_ts of the private data; times are counted in units of which [ival]
    make HNAME_REFRESH_IVAL (rtpp_acct_csv.c:80-93) *)
Record cnid := CNid { cn_id : list Z; cn_next : Z }.
(** rtpp_acct_get_nid (rtpp_acct_csv.c:125-135); [host] is what gethostname() gives, None when it
    fails (it is then taken to leave the buffer as it was) *)
Definition get_nid (ival : Z) (n : cnid) (destroy : Z) (host : option (list Z)) : cnid :=
  if (cn_next n =? 0) || (cn_next n <? destroy) then
    match host with Some h => CNid h (destroy + ival) | None => n end
  else n.
(** A history of sessions ending at [destroy] while the host has the name [host]. *)
Fixpoint nids (ival : Z) (n : cnid) (l : list (Z * option (list Z))) : cnid :=
  match l with [] => n | (d, h) :: l => nids ival (get_nid ival n d h) l end.

(** * The file *)

(** pvt->fd: -1; open on an inode at an offset; or a number that was closed and kept *)
Inductive cfd := FNone | FOpen (i : nat) (off : Z) | FStale.

(** Where a proxy is; [k] is the row to write, None in the constructor.
    Each is the point just before a system call. *)
Inductive cpc :=
| PNew                                   (* before the constructor *)
| PIdle
| PDead                                  (* the constructor failed *)
| PStat (r : list Z)                     (* rtpp_acct_csv.c:336 *)
| POpen (k : option (list Z))            (* :210-213 *)
| POLock (k : option (list Z))           (* :219 *)
| POFstat (k : option (list Z))          (* :224 *)
| POHead (k : option (list Z)) (size : Z) (* :229-235 *)
| POUnlock (k : option (list Z)) (good : bool) (* :236 *)
| PLock (r : list Z)                     (* :346 *)
| PWrite (r : list Z)                    (* :387 *)
| PUnlock.                               (* :390 *)

(** The private data of a proxy; [cp_stt] is the inode in pvt->stt. *)
Record cproc := CProc { cp_pc : cpc; cp_fd : cfd; cp_stt : option nat }.

(** What happened, newest first. *)
Inductive cev :=
| ECall (p : nat) (r : list Z)           (* a session ended *)
| EWrote (p : nat) (r : list Z) (i : nat) (* its row was appended to the file *)
| EPart (p : nat) (r : list Z) (i : nat)  (* only a part of its row was *)
| ELost (p : nat) (r : list Z)           (* its row was not written *)
| EForeign (p : nat).                    (* a system call was made on a number closed before *)

(** The file system and the proxies.  Inodes are numbered from 0 and never go away (one that is
    open or renamed stays); [cy_name] is the inode under the name of the accounting file;
    [cy_lock] is the proxy that holds the lock of an inode.  Simplification: all locks taken reach
    from some offset to infinity, so any two of them overlap and one holder describes them; an
    unlock starts no later than the lock did, so it releases all of it. *)
Record csys := CSys {
  cy_data : list (list Z);
  cy_name : option nat;
  cy_lock : nat -> option nat;
  cy_proc : nat -> cproc;
  cy_log : list cev
}.

(** How the next system call goes: as it should; with an error; or, for write(), short. *)
Inductive cres := ROk | RErr | RShort (n : nat).

(** A step of the world. *)
Inductive cop :=
| OStart (p : nat)                       (* the module is loaded *)
| OEnd (p : nat) (r : list Z)            (* a session ends; the proxy begins rtpp_acct_csv_do *)
| ODo (p : nat) (x : cres)               (* the next system call of the proxy *)
| OAway                                  (* the file is renamed or unlinked *)
| OPut (i : nat)                         (* another file gets the name *)
| OMake                                  (* an empty file is created under the name *)
| OTrunc (i : nat).                      (* a file is truncated *)

Definition fset {A} (f : nat -> A) (k : nat) (v : A) : nat -> A :=
  fun j => if Nat.eqb j k then v else f j.
Definition sproc (s : csys) (p : nat) (v : cproc) : csys :=
  CSys (cy_data s) (cy_name s) (cy_lock s) (fset (cy_proc s) p v) (cy_log s).
Definition slock (s : csys) (i : nat) (v : option nat) : csys :=
  CSys (cy_data s) (cy_name s) (fset (cy_lock s) i v) (cy_proc s) (cy_log s).
Definition slog (s : csys) (e : list cev) : csys :=
  CSys (cy_data s) (cy_name s) (cy_lock s) (cy_proc s) (e ++ cy_log s).
Definition sdata (s : csys) (i : nat) (t : list Z) : csys :=
  CSys (upd (cy_data s) i t) (cy_name s) (cy_lock s) (cy_proc s) (cy_log s).
Definition sname (s : csys) (n : option nat) : csys :=
  CSys (cy_data s) n (cy_lock s) (cy_proc s) (cy_log s).
Definition fdata (s : csys) (i : nat) : list Z := nth i (cy_data s) [].
(** An empty file is created under the name. *)
Definition smake (s : csys) : csys :=
  CSys (cy_data s ++ [[]]) (Some (length (cy_data s))) (cy_lock s) (cy_proc s) (cy_log s).

(** The lock is free for the proxy. *)
Definition lock_free (s : csys) (p i : nat) : bool :=
  match cy_lock s i with None => true | Some q => Nat.eqb q p end.

(** close(): it also releases the locks of the process on the file.  On a number closed before it
    closes whatever has that number by now. *)
Definition sclose (s : csys) (p : nat) (fd : cfd) : csys :=
  match fd with
  | FNone => s
  | FOpen i _ => if lock_free s p i then slock s i None else s
  | FStale => slog s [EForeign p]
  end.

(** rtpp_acct_csv_open returns -1: the row is lost (rtpp_acct_csv.c:339-344), or the constructor
    fails (rtpp_acct_csv.c:272-274) *)
Definition open_failed (s : csys) (p : nat) (k : option (list Z)) (fd : cfd) (stt : option nat) : csys :=
  match k with
  | Some r => slog (sproc s p (CProc PIdle fd stt)) [ELost p r]
  | None => sproc s p (CProc PDead fd stt)
  end.

(** write() on a file opened with O_APPEND: the text goes to the end, the offset with it. *)
Definition sappend (s : csys) (i : nat) (t : list Z) : csys := sdata s i (fdata s i ++ t).
Definition fend (s : csys) (i : nat) : Z := Z.of_nat (length (fdata s i)).

(** The next system call of a proxy, and what it does up to the one after
    (rtpp_acct_csv.c:204-245, 330-391, 393-424).  The loops on EINTR are left out: such a call has
    no effect and is made again. *)
Definition do_step (s : csys) (p : nat) (x : cres) : csys :=
  let v := cy_proc s p in
  let fd := cp_fd v in let stt := cp_stt v in
  match cp_pc v with
  | PNew | PIdle | PDead => s
  | PStat r =>
      match x with
      | ROk =>
          match cy_name s with
          | Some i =>
              match stt with
              | Some j => if Nat.eqb i j then sproc s p (CProc (PLock r) fd stt)
                          else sproc s p (CProc (POpen (Some r)) fd stt)
              | None => sproc s p (CProc (POpen (Some r)) fd stt)
              end
          | None => sproc s p (CProc (POpen (Some r)) fd stt)
          end
      | _ => sproc s p (CProc (PLock r) fd stt)
      end
  | POpen k =>
      let s := sclose s p fd in
      match x with
      | ROk =>
          match cy_name s with
          | Some i => sproc s p (CProc (POLock k) (FOpen i 0) stt)
          | None => sproc (smake s) p (CProc (POLock k) (FOpen (length (cy_data s)) 0) stt)
          end
      | _ => open_failed s p k FNone stt
      end
  | POLock k =>
      match fd with
      | FOpen i off =>
          match x with
          | ROk => if lock_free s p i then slock (sproc s p (CProc (POFstat k) fd stt)) i (Some p) else s
          | _ => open_failed (sclose s p fd) p k FStale stt
          end
      | _ => s
      end
  | POFstat k =>
      match fd with
      | FOpen i off =>
          match x with
          | ROk => sproc s p (CProc (POHead k (fend s i)) fd (Some i))
          | _ => open_failed (sclose s p fd) p k FStale stt
          end
      | _ => s
      end
  | POHead k size =>
      match fd with
      | FOpen i off =>
          if size =? 0 then
            match x with
            | ROk => let s := sappend s i csv_head in
                     sproc s p (CProc (POUnlock k true) (FOpen i (fend s i)) stt)
            | RShort n => let s := sappend s i (firstn n csv_head) in
                     sproc s p (CProc (POUnlock k false) (FOpen i (fend s i)) stt)
            | RErr => sproc s p (CProc (POUnlock k false) fd stt)
            end
          else sproc s p (CProc (POUnlock k true) fd stt)
      | _ => s
      end
  | POUnlock k good =>
      match fd with
      | FOpen i off =>
          let s := slock s i None in
          if good then
            match k with
            | Some r => sproc s p (CProc (PLock r) fd stt)
            | None => sproc s p (CProc PIdle fd stt)
            end
          else open_failed s p k fd stt
      | _ => s
      end
  | PLock r =>
      match fd with
      | FOpen i off =>
          match x with
          | ROk =>
              if lock_free s p i then
                let s := slock s i (Some p) in
                (* the offset is put into an int *)
                if s32 off <? 0 then slog (sproc s p (CProc PIdle fd stt)) [ELost p r]
                else sproc s p (CProc (PWrite r) fd stt)
              else s
          | _ => slog (sproc s p (CProc PIdle fd stt)) [ELost p r]
          end
      | FNone => slog (sproc s p (CProc PIdle fd stt)) [ELost p r]
      | FStale => slog (sproc s p (CProc PIdle fd stt)) [EForeign p; ELost p r]
      end
  | PWrite r =>
      match fd with
      | FOpen i off =>
          match x with
          | ROk => let s := sappend s i r in
                   slog (sproc s p (CProc PUnlock (FOpen i (fend s i)) stt)) [EWrote p r i]
          | RShort n => let s := sappend s i (firstn n r) in
                   slog (sproc s p (CProc PUnlock (FOpen i (fend s i)) stt)) [EPart p r i]
          | RErr => slog (sproc s p (CProc PUnlock fd stt)) [ELost p r]
          end
      | _ => s
      end
  | PUnlock =>
      match fd with
      | FOpen i off => sproc (slock s i None) p (CProc PIdle fd stt)
      | _ => s
      end
  end.

(** A step of the world.  rtpp_acct_csv_ctor calls rtpp_acct_csv_open with fd -1
    (rtpp_acct_csv.c:270-274); the accounting thread of a proxy ends one session at a time. *)
Definition cstep (s : csys) (o : cop) : csys :=
  match o with
  | OStart p =>
      match cp_pc (cy_proc s p) with
      | PNew => sproc s p (CProc (POpen None) FNone None)
      | _ => s
      end
  | OEnd p r =>
      let v := cy_proc s p in
      match cp_pc v with
      | PIdle => slog (sproc s p (CProc (PStat r) (cp_fd v) (cp_stt v))) [ECall p r]
      | _ => s
      end
  | ODo p x => do_step s p x
  | OAway => sname s None
  | OPut i => if Nat.ltb i (length (cy_data s)) then sname s (Some i) else s
  | OMake => smake s
  | OTrunc i => sdata s i []
  end.
Definition crun (s : csys) (l : list cop) : csys := fold_left cstep l s.

(** Files there at the beginning, the one under the name, and no proxy. *)
Definition cinit (data : list (list Z)) (name : option nat) : csys :=
  CSys data (match name with Some i => if Nat.ltb i (length data) then Some i else None | None => None end)
       (fun _ => None) (fun _ => CProc PNew FNone None) [].
