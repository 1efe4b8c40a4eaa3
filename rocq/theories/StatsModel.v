(** Model of the statistics counters: src/rtpp_pearson.c:35-59 (table and hash), src/rtpp_pearson_perfect.c:57-114 (the perfect
    hash), src/rtpp_stats.c:83-114 (the counters), 152-163 and 264-335 (lookup, update, value). A string is its bytes without the
    terminating NUL. random() is a stream of inputs; a constructor that is still waiting for a good table is [None]. Every
    update is one atomic step (an atomic add or a section under the counter's mutex), so a history of all threads is a list.
    Not modelled: printing a value, derived counters (391-421), destruction. *)
From Coq Require Import String Ascii.
From Verif Require Import Base.

(** rtpp_pearson_shuffle, lines 41-47: [i] runs from 1 to 255, a value is drawn until it hits a free place *)
Fixpoint fill (rs : list Z) (i : Z) (tb : list Z) : option (list Z * list Z) :=
  if i =? 256 then Some (tb, rs)
  else match rs with
       | [] => None
       | r :: rs' => let v := Z.to_nat (r mod 256) in
                     if nth v tb 0 =? 0 then fill rs' (i + 1) (upd tb v i) else fill rs' i tb
       end.
Definition zero256 : list Z := repeat 0 256.
Definition shuffle (rs : list Z) : option (list Z * list Z) := fill rs 1 zero256.
(** rtpp_pearson_hash8 with ep = NULL, lines 55-58 *)
Definition hash8 (tb : list Z) (s : list Z) : Z :=
  fold_left (fun res c => nth (Z.to_nat (Z.lxor res c)) tb 0) s (nth 0 tb 0).

(** compute_perfect_hash, lines 66-75; [None]: collision; the table is of uint8_t *)
Fixpoint place (tb : list Z) (names : list (list Z)) (i : Z) (omap : list Z) : option (list Z) :=
  match names with
  | [] => Some omap
  | s :: names' => let h := Z.to_nat (hash8 tb s) in
                   if nth h omap 0 =? 0 then place tb names' (i + 1) (upd omap h ((i + 1) mod 256)) else None
  end.
Record rppp := mkRppp { rp : list Z; omap : list Z; gv : list (list Z) }.
(** lines 64-76: [tries] bounds how many tables are tried *)
Fixpoint ctor (tries : nat) (rs : list Z) (names : list (list Z)) : option rppp :=
  match tries with
  | O => None
  | S tries' =>
      match shuffle rs with
      | None => None
      | Some (tb, rs') => match place tb names 0 zero256 with
                          | Some om => Some (mkRppp tb om names)
                          | None => ctor tries' rs' names
                          end
      end
  end.
Definition streq (a b : list Z) : bool := if list_eq_dec Z.eq_dec a b then true else false.
(** rtpp_pearson_perfect_hash, lines 105-113 *)
Definition lookup (r : rppp) (s : list Z) : Z :=
  let rval := nth (Z.to_nat (hash8 (rp r) s)) (omap r) 0 - 1 in
  if rval =? -1 then -1
  else if streq s (nth (Z.to_nat rval) (gv r) []) then rval else -1.

Section Stats.
(** Addition of two doubles given by their bit patterns *)
Context (dadd : Z -> Z -> Z).
(** union rtpp_stat_cnt (rtpp_stats.c:63-66): 64 bits; both kinds of counters start with all zero *)
Definition st := list Z.
Inductive op :=
| UpdIdx (idx incr : Z)          (* updatebyidx *)
| UpdName (s : list Z) (incr : Z)   (* updatebyname *)
| UpdNameD (s : list Z) (incr : Z). (* updatebyname_d *)
(** rtpp_stats_updatebyidx_internal, lines 281-291 *)
Definition upd_int (s : st) (idx : Z) (f : Z -> Z) : st * Z :=
  if (idx <? 0) || (Z.of_nat (length s) <=? idx) then (s, -1)
  else (upd s (Z.to_nat idx) (f (nth (Z.to_nat idx) s 0)), 0).
Definition step (r : rppp) (s : st) (x : op) : st * Z :=
  match x with
  | UpdIdx idx n => upd_int s idx (fun c => u64 (c + n))
  | UpdName nm n => upd_int s (lookup r nm) (fun c => u64 (c + n))
  | UpdNameD nm d => upd_int s (lookup r nm) (fun c => dadd c d)
  end.
Fixpoint run (r : rppp) (s : st) (xs : list op) : st :=
  match xs with [] => s | x :: xs' => run r (fst (step r s x)) xs' end.
(** rtpp_stats_getlvalbyname, lines 327-334: an int64_t *)
Definition getlval (r : rppp) (s : st) (nm : list Z) : Z :=
  let idx := lookup r nm in
  if idx <? 0 then -1 else (nth (Z.to_nat idx) s 0 + 9223372036854775808) mod 18446744073709551616 - 9223372036854775808.
Definition init (names : list (list Z)) : st := map (fun _ => 0) names.
End Stats.

(** default_stats, rtpp_stats.c:83-114: name and whether it is a double *)
Definition bytes (s : string) : list Z := map (fun c => Z.of_nat (nat_of_ascii c)) (list_ascii_of_string s).
Definition default_stats : list (list Z * bool) :=
  map (fun p => (bytes (fst p), snd p))
  [("nsess_created", false); ("nsess_destroyed", false); ("nsess_timeout", false); ("nsess_complete", false);
   ("nsess_nortp", false); ("nsess_owrtp", false); ("nsess_nortcp", false); ("nsess_owrtcp", false);
   ("nplrs_created", false); ("nplrs_destroyed", false); ("npkts_rcvd", false); ("npkts_played", false);
   ("npkts_relayed", false); ("npkts_resizer_in", false); ("npkts_resizer_out", false); ("npkts_resizer_discard", false);
   ("npkts_discard", false); ("total_duration", true); ("ncmds_rcvd", false); ("ncmds_rcvd_ndups", false);
   ("ncmds_succd", false); ("ncmds_errs", false); ("ncmds_repld", false); ("rtpa_nsent", false); ("rtpa_nrcvd", false);
   ("rtpa_ndups", false); ("rtpa_nlost", false); ("rtpa_perrs", false); ("pps_in", true)]%string.
