(** What replies look like (C24, C31). *)
From Verif Require Import Base Str NumSpec StrSpec ReplyModel.

(** The documented counters of the query command. *)
Inductive counter (st : qstats) : list Z -> list Z -> Prop :=
| c_ttl v : dec (q_ttl st) v -> counter st (B "ttl") v
| c_ina v : dec (q_ina st) v -> counter st (B "npkts_ina") v
| c_ino v : dec (q_ino st) v -> counter st (B "npkts_ino") v
| c_relayed v : dec (q_relayed st) v -> counter st (B "nrelayed") v
| c_dropped v : dec (q_dropped st) v -> counter st (B "ndropped") v
| c_nsent v : dec (q_nsent st) v -> counter st (B "rtpa_nsent") v
| c_nrcvd v : dec (q_nrcvd st) v -> counter st (B "rtpa_nrcvd") v
| c_ndups v : dec (q_ndups st) v -> counter st (B "rtpa_ndups") v
| c_nlost v : dec (q_nlost st) v -> counter st (B "rtpa_nlost") v
| c_perrs v : dec (q_perrs st) v -> counter st (B "rtpa_perrs") v
| c_lipi : counter st (B "longest_ipi") (q_lipi st)
| c_jlast : counter st (B "rtpa_jlast") (q_jlast st)
| c_jmax : counter st (B "rtpa_jmax") (q_jmax st)
| c_javg : counter st (B "rtpa_javg") (q_javg st).

(** int and unsigned long values *)
Definition st_ok (st : qstats) : Prop :=
  is_int (q_ttl st) /\
  Forall (fun n => 0 <= n < 18446744073709551616)
    [q_ina st; q_ino st; q_relayed st; q_dropped st; q_nsent st; q_nrcvd st; q_ndups st; q_nlost st; q_perrs st].

(** One field per requested name, in the requested order, separated by single spaces. *)
Definition field (verbose : bool) (name v : list Z) : list Z := if verbose then name ++ B "=" ++ v else v.
Inductive fields (val : list Z -> list Z -> Prop) (verbose : bool) : list (list Z) -> list Z -> Prop :=
| f_none : fields val verbose [] []
| f_one n v : val n v -> fields val verbose [n] (field verbose n v)
| f_more n v ns t : ns <> [] -> val n v -> fields val verbose ns t -> fields val verbose (n :: ns) (field verbose n v ++ B " " ++ t).

(** The default fields. *)
Definition default_names : list (list Z) := [B "ttl"; B "npkts_ina"; B "npkts_ino"; B "nrelayed"; B "ndropped"].

(** Text of the sub-command results: a field " && x" for each, where x is the result code of a
    failed one, else its own text, else 0; those that have nothing to say at the end are left out. *)
Definition silent (r : subres) : Prop := sr_result r = 0 /\ sr_text r = [].
Inductive sub_field (r : subres) : list Z -> Prop :=
| sf_failed v : sr_result r <> 0 -> dec (sr_result r) v -> sub_field r v
| sf_text : sr_result r = 0 -> sr_text r <> [] -> sub_field r (sr_text r)
| sf_silent : silent r -> sub_field r (B "0").
Inductive sub_text : list subres -> list Z -> Prop :=
| st_silent rs : Forall silent rs -> sub_text rs []
| st_field r rs f t : ~ Forall silent (r :: rs) -> sub_field r f -> sub_text rs t -> sub_text (r :: rs) (B " && " ++ f ++ t).
Definition subs_ok (rs : list subres) : Prop := Forall (fun r => is_int (sr_result r)) rs.

(** A query stops at the first sub-command that fails. *)
Fixpoint executed (rs : list subres) : list subres :=
  match rs with [] => [] | r :: t => if sr_result r =? 0 then r :: executed t else [r] end.

(** A modifier string of "v" and "V" only. *)
Definition verbose_only (mods : list Z) (verbose : bool) : Prop :=
  Forall (fun c => c = 118 \/ c = 86) mods /\ (verbose = true <-> mods <> []).

(** What must hold of the sizes for a handler not to run into an assertion; [n]: length of the cookie
    and the space that follows it. *)
Definition values_of (lookup : list Z -> option (list Z)) (n v : list Z) : Prop := lookup n = Some v.
Definition roomy (n : Z) (h : handler) : Prop :=
  match h with
  | HNumber x | HError x => is_int x
  | HCopy _ _ _ | HInfo _ _ _ _ _ _ _ => True
  | HQuery mods few names st subc =>
      st_ok st /\ (few = true <-> names = []) /\
      forall verbose t, fields (counter st) verbose (match names with [] => default_names | _ => names end) t ->
        let l := n + Z.of_nat (length t) in
        match subc with [] => l <> 1023 | _ => ~ (1017 <= l <= 1023) end
  | HStats mods names lookup =>
      forall verbose t, fields (values_of lookup) verbose names t -> n + Z.of_nat (length t) <> 1023
  | HUl main subc _ => n + Z.of_nat (length main) <= match subc with [] => 1021 | _ => 1016 end
  end.

(** The remaining replies: a number, an error, the port and address of a copy target, and the
    information text. [v]: the decimal form. *)
Inductive simple_reply : handler -> list Z -> bool -> Prop :=
| sr_number n v : is_int n -> dec n v -> simple_reply (HNumber n) v false
| sr_error n v : is_int n -> dec n v -> simple_reply (HError n) (B "E" ++ v) true
| sr_copy4 addr port v : is_int port -> dec port v -> simple_reply (HCopy addr port false) (v ++ B " " ++ addr) false
| sr_copy6 addr port v : is_int port -> dec port v -> simple_reply (HCopy addr port true) (v ++ B " " ++ addr ++ B " 6") false
| sr_info mods c a st r s l vc va vs vr vt : Forall (fun x => In x (B "bB")) mods ->
    is_int a -> is_int st -> Forall (fun n => 0 <= n < 18446744073709551616) [c; r; s] ->
    dec c vc -> dec a va -> dec st vs -> dec r vr -> dec s vt ->
    simple_reply (HInfo mods c a st r s l)
      (B "sessions created: " ++ vc ++ B "
active sessions: " ++ va ++ B "
active streams: " ++ vs ++ B "
packets received: " ++ vr ++ B "
packets transmitted: " ++ vt) false
| sr_load mods c a st r s l vc va vs vr vt : Forall (fun x => In x (B "bBlL")) mods -> Exists (fun x => In x (B "lL")) mods ->
    is_int a -> is_int st -> Forall (fun n => 0 <= n < 18446744073709551616) [c; r; s] ->
    dec c vc -> dec a va -> dec st vs -> dec r vr -> dec s vt ->
    simple_reply (HInfo mods c a st r s l)
      (B "sessions created: " ++ vc ++ B "
active sessions: " ++ va ++ B "
active streams: " ++ vs ++ B "
packets received: " ++ vr ++ B "
packets transmitted: " ++ vt ++ B "
average load: " ++ l) false.
