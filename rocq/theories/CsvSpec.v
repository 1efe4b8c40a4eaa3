(** What an accounting file in CSV is, without reference to how it is written. *)
From Verif Require Import Base Str CsvModel.

(** The cells of a line: what stands between the commas. *)
Fixpoint cells (l : list Z) : list (list Z) :=
  match l with
  | [] => [[]]
  | x :: l =>
      if x =? 44 then [] :: cells l
      else match cells l with c :: t => (x :: c) :: t | [] => [[x]] end
  end.
(** A text that can stand in a cell: no comma, no end of line. *)
Definition plain (t : list Z) : Prop := ~ In 44 t /\ ~ In 10 t.
Definition plain_opt (t : option (list Z)) : Prop := match t with Some t => plain t | None => True end.

(** The digits of a number in base 16, most significant first. *)
Fixpoint hex_value (acc : Z) (l : list Z) : option Z :=
  match l with
  | [] => Some acc
  | c :: l =>
      if (48 <=? c) && (c <=? 57) then hex_value (acc * 16 + (c - 48)) l
      else if (65 <=? c) && (c <=? 70) then hex_value (acc * 16 + (c - 55)) l
      else None
  end.

Definition text (t : option (list Z)) : list Z := match t with Some t => t | None => [] end.
Definition ip_cell (a : option cadr) : list Z :=
  match a with
  | None => []
  | Some a => if ca_six a then B "[" ++ ca_host a ++ B "]" else ca_host a
  end.
Definition port_cell (a : option cadr) : list Z :=
  match a with None => [] | Some a => fmt_u (ca_port a) end.
Definition ssrc_cell (s : option Z) : list Z := match s with None => [] | Some v => B "0x" ++ hexn 8 v end.
Definition flag_cell (x : Z) : list Z := match x with 0 => B "f" | _ => B "t" end.

(** What each column of a record says, by the name of the column. *)
Definition record_of (nid : list Z) (pid : Z) (c : cacct) : list (list Z * list Z) :=
  let o := cc_o c in let a := cc_a c in
  [(B "rec_ver", B "1.2"); (B "rtpp_node_id", nid); (B "rtpp_pid", fmt_d pid);
   (B "sess_uid", fmt_d (cc_uid c));
   (B "call_id", text (cc_call c)); (B "from_tag", text (cc_from c));
   (B "setup_ts", cc_init c); (B "teardown_ts", cc_destroy c);
   (B "first_rtp_ts_ino", cf_first o); (B "last_rtp_ts_ino", cf_last o);
   (B "first_rtp_ts_ina", cf_first a); (B "last_rtp_ts_ina", cf_last a);
   (B "rtp_npkts_ina", fmt_u (cf_npkts a)); (B "rtp_npkts_ino", fmt_u (cf_npkts o));
   (B "rtp_nrelayed", fmt_u (cc_nrel c)); (B "rtp_ndropped", fmt_u (cc_ndrop c));
   (B "rtcp_npkts_ina", fmt_u (cf_rtcp_npkts a)); (B "rtcp_npkts_ino", fmt_u (cf_rtcp_npkts o));
   (B "rtcp_nrelayed", fmt_u (cc_crel c)); (B "rtcp_ndropped", fmt_u (cc_cdrop c));
   (B "rtpa_nsent_ino", fmt_u (cf_psent o)); (B "rtpa_nrcvd_ino", fmt_u (cf_precvd o));
   (B "rtpa_ndups_ino", fmt_u (cf_pdups o)); (B "rtpa_nlost_ino", fmt_u (cf_plost o));
   (B "rtpa_perrs_ino", fmt_u (cf_pecount o)); (B "rtpa_ssrc_last_ino", ssrc_cell (cf_ssrc o));
   (B "rtpa_ssrc_cnt_ino", fmt_u (cf_schg o)); (B "rtpa_pt_last_ino", fmt_d (cf_pt o));
   (B "rtpa_nsent_ina", fmt_u (cf_psent a)); (B "rtpa_nrcvd_ina", fmt_u (cf_precvd a));
   (B "rtpa_ndups_ina", fmt_u (cf_pdups a)); (B "rtpa_nlost_ina", fmt_u (cf_plost a));
   (B "rtpa_perrs_ina", fmt_u (cf_pecount a)); (B "rtpa_ssrc_last_ina", ssrc_cell (cf_ssrc a));
   (B "rtpa_ssrc_cnt_ina", fmt_u (cf_schg a)); (B "rtpa_pt_last_ina", fmt_d (cf_pt a));
   (B "rtpa_jitter_last_ino", cf_jlast o); (B "rtpa_jitter_max_ino", cf_jmax o);
   (B "rtpa_jitter_avg_ino", cf_javg o);
   (B "rtpa_jitter_last_ina", cf_jlast a); (B "rtpa_jitter_max_ina", cf_jmax a);
   (B "rtpa_jitter_avg_ina", cf_javg a);
   (B "rtpp_rtp_rmt_ip_o", ip_cell (cf_rtp o)); (B "rtpp_rtp_rmt_pt_o", port_cell (cf_rtp o));
   (B "rtpp_rtp_rmt_ip_a", ip_cell (cf_rtp a)); (B "rtpp_rtp_rmt_pt_a", port_cell (cf_rtp a));
   (B "rtpp_rtcp_rmt_ip_o", ip_cell (cf_rtcp o)); (B "rtpp_rtcp_rmt_pt_o", port_cell (cf_rtcp o));
   (B "rtpp_rtcp_rmt_ip_a", ip_cell (cf_rtcp a)); (B "rtpp_rtcp_rmt_pt_a", port_cell (cf_rtcp a));
   (B "rtpp_hld_sts_o", flag_cell (cf_held o)); (B "rtpp_hld_sts_a", flag_cell (cf_held a));
   (B "rtpp_hld_cnt_o", fmt_d (cf_hcnt o)); (B "rtpp_hld_cnt_a", fmt_d (cf_hcnt a))].

(** Counters fit their types; the texts of numbers and addresses hold no comma and no end of
    line, as printf("%f") in the C locale and inet_ntop() give them. *)
Definition adr_ok (a : option cadr) : Prop :=
  match a with Some a => plain (ca_host a) /\ 0 <= ca_port a < 65536 | None => True end.
Definition u64_ok (x : Z) : Prop := 0 <= x < 2 ^ 64.
Definition face_ok (f : cface) : Prop :=
  (plain (cf_first f) /\ plain (cf_last f) /\ plain (cf_jlast f) /\ plain (cf_jmax f) /\ plain (cf_javg f))
  /\ (u64_ok (cf_npkts f) /\ u64_ok (cf_rtcp_npkts f) /\ u64_ok (cf_psent f) /\ u64_ok (cf_precvd f)
      /\ u64_ok (cf_pdups f) /\ u64_ok (cf_plost f) /\ u64_ok (cf_pecount f) /\ u64_ok (cf_schg f))
  /\ adr_ok (cf_rtp f) /\ adr_ok (cf_rtcp f).
Definition acct_ok (c : cacct) : Prop :=
  (plain (cc_init c) /\ plain (cc_destroy c))
  /\ (u64_ok (cc_nrel c) /\ u64_ok (cc_ndrop c) /\ u64_ok (cc_crel c) /\ u64_ok (cc_cdrop c))
  /\ face_ok (cc_o c) /\ face_ok (cc_a c).

(** * Histories *)

(** The rows appended to a file, oldest first. *)
Fixpoint rows_of (i : nat) (log : list cev) : list (list Z) :=
  match log with
  | [] => []
  | EWrote _ r j :: log => if Nat.eqb j i then rows_of i log ++ [r] else rows_of i log
  | _ :: log => rows_of i log
  end.
(** The rows of the sessions that ended on a proxy, oldest first. *)
Fixpoint ended (p : nat) (log : list cev) : list (list Z) :=
  match log with
  | [] => []
  | ECall q r :: log => if Nat.eqb q p then ended p log ++ [r] else ended p log
  | _ :: log => ended p log
  end.
(** What became of them: written whole to a file, in part, or not at all. *)
Inductive fate := Whole (i : nat) | Part (i : nat) | Gone.
Fixpoint fates (p : nat) (log : list cev) : list (list Z * fate) :=
  match log with
  | [] => []
  | EWrote q r i :: log => if Nat.eqb q p then fates p log ++ [(r, Whole i)] else fates p log
  | EPart q r i :: log => if Nat.eqb q p then fates p log ++ [(r, Part i)] else fates p log
  | ELost q r :: log => if Nat.eqb q p then fates p log ++ [(r, Gone)] else fates p log
  | _ :: log => fates p log
  end.
(** The row a proxy is still busy with. *)
Definition in_hand (v : cproc) : list (list Z) :=
  match cp_pc v with
  | PStat r | PLock r | PWrite r => [r]
  | POpen k | POLock k | POFstat k | POHead k _ | POUnlock k _ =>
      match k with Some r => [r] | None => [] end
  | _ => []
  end.
Definition at_rest (v : cproc) : Prop := cp_pc v = PNew \/ cp_pc v = PIdle \/ cp_pc v = PDead.

(** No file is truncated and every write() takes the whole text; other calls may fail. *)
Definition writes_whole (o : cop) : Prop :=
  match o with
  | OTrunc _ => False
  | ODo _ (RShort _) => False
  | _ => True
  end.
(** No write() of a header fails. *)
Definition about_to_head (s : csys) (p : nat) : bool :=
  match cp_pc (cy_proc s p) with POHead _ size => size =? 0 | _ => false end.
Fixpoint heads_written (s : csys) (l : list cop) : Prop :=
  match l with
  | [] => True
  | o :: l =>
      match o with ODo p RErr => about_to_head s p = false | _ => True end
      /\ heads_written (cstep s o) l
  end.
(** No system call fails at all, and no file is truncated. *)
Definition all_good (o : cop) : Prop :=
  match o with OTrunc _ => False | ODo _ ROk => True | ODo _ _ => False | _ => True end.
Definition small (s : csys) : Prop := Forall (fun t => Z.of_nat (length t) < 2 ^ 31) (cy_data s).

(** How many system calls the proxy has yet to make at most. *)
Definition calls_left (v : cproc) : nat :=
  match cp_pc v with
  | PNew | PIdle | PDead => 0
  | PStat _ => 9
  | POpen _ => 8
  | POLock _ => 7
  | POFstat _ => 6
  | POHead _ _ => 5
  | POUnlock _ _ => 4
  | PLock _ => 3
  | PWrite _ => 2
  | PUnlock => 1
  end.
