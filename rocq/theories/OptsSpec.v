(** The language of the modifiers, after the description of the protocol, and what they mean. *)
From Verif Require Import Base NumModel NumSpec OptsModel.

Inductive mod_ :=
| Asym | Sym | External | Internal | Six | Weak | NewPort | Ptime (v : Z) | Codecs (l : list Z)
| Local (f : family) (a : list Z) | Label (l : list Z) | Remote (f : family) (a : list Z).

(** Capital or small letter *)
Definition either (c up : Z) : Prop := c = up \/ c = up + 32.
Definition addr4 (c : Z) : Prop := digit c \/ c = 46.
Definition addr6 (c : Z) : Prop := digit c \/ 65 <= c <= 70 \/ 97 <= c <= 102 \/ c = 58.
Definition codec_char (c : Z) : Prop := digit c \/ c = 44.
Definition not_next (P : Z -> Prop) (s : list Z) : Prop := forall c t, s = c :: t -> ~ P c.
(** [s] goes on with the address [a], which is as long as it can be *)
Inductive address : list Z -> family -> list Z -> list Z -> Prop :=
| address4 a rest : a <> [] -> Forall addr4 a -> not_next addr4 rest -> address (a ++ rest) INET a rest
| address6 a rest : a <> [] -> Forall addr6 a -> address (91 :: a ++ 93 :: rest) INET6 a rest.

(** [s] goes on with a modifier and then with [rest] *)
Inductive one : list Z -> mod_ -> list Z -> Prop :=
| one_a c s : either c 65 -> one (c :: s) Asym s
| one_s c s : either c 83 -> one (c :: s) Sym s
| one_e c s : either c 69 -> one (c :: s) External s
| one_i c s : either c 73 -> one (c :: s) Internal s
| one_6 s : one (54 :: s) Six s
| one_w c s : either c 87 -> one (c :: s) Weak s
| one_n c s : either c 78 -> one (c :: s) NewPort s
| one_z c s v rest : either c 90 -> numeral s v rest -> one (c :: s) (Ptime v) rest
| one_c c l rest : either c 67 -> l <> [] -> Forall codec_char l -> not_next codec_char rest -> one (c :: l ++ rest) (Codecs l) rest
| one_l c s f a rest : either c 76 -> address s f a rest -> one (c :: s) (Local f a) rest
| one_ll c l rest : either c 76 -> l <> [] -> ~ In 125 l -> one (c :: 123 :: l ++ 125 :: rest) (Label l) rest
| one_r c s f a rest : either c 82 -> address s f a rest -> one (c :: s) (Remote f a) rest.

Inductive many : list Z -> list mod_ -> list Z -> Prop :=
| many_nil s : many s [] s
| many_cons s m s1 ms s2 : one s m s1 -> many s1 ms s2 -> many s (m :: ms) s2.

Definition is_dir (m : mod_) : bool := match m with External | Internal => true | _ => false end.
Definition is_codecs (m : mod_) : bool := match m with Codecs _ => true | _ => false end.

(** The object a modifier chooses to listen on *)
Definition chosen (e : env) (m : mod_) : option nat :=
  match m with Local f a => host2 e a f | Label l => label2 e l | Remote f a => local4remote e a f | _ => None end.

(** A number as it is after the conversion to long and to int *)
Definition stored (v : Z) : Z := s32 (Z.max (-9223372036854775808) (Z.min 9223372036854775807 v)).

(** A modifier is good after those [before] it. The packet time is stored in 32 bits. *)
Definition good_after (e : env) (before : list mod_) (m : mod_) : Prop :=
  match m with
  | External | Internal => bind1 e <> None /\ (length (filter is_dir before) < 2)%nat
  | Ptime v => 0 < stored v < 1000
  | Codecs _ => filter is_codecs before = [] /\ mem2 e = true
  | Local _ _ | Label _ | Remote _ _ => chosen e m <> None
  | _ => True
  end.
Fixpoint all_good (e : env) (before ms : list mod_) : Prop :=
  match ms with [] => True | m :: t => good_after e before m /\ all_good e (before ++ [m]) t end.

(** What the options are after good modifiers *)
Fixpoint last_of {A} (f : mod_ -> option A) (ms : list mod_) (d : A) : A :=
  match ms with [] => d | m :: t => last_of f t (match f m with Some x => x | None => d end) end.
Definition asym_of (m : mod_) := match m with Asym => Some true | Sym => Some false | _ => None end.
Definition ptime_of (m : mod_) := match m with Ptime v => Some (stored v) | _ => None end.
Definition codecs_of (m : mod_) := match m with Codecs l => Some (Some l) | _ => None end.
Definition local_of (e : env) (m : mod_) : option (option nat) := match chosen e m with Some a => Some (Some a) | None => None end.
Definition dirs (e : env) (ms : list mod_) : list nat :=
  flat_map (fun m => match m, bind1 e with External, Some a => [a] | Internal, _ => [bind0 e] | _, _ => [] end) ms.
Definition has (m : mod_ -> bool) (ms : list mod_) : bool := existsb m ms.

Definition meaning (e : env) (ms : list mod_) (o : opts) : Prop :=
  asymmetric o = last_of asym_of ms (aforce e) /\
  weak o = has (fun m => match m with Weak => true | _ => false end) ms /\
  new_port o = has (fun m => match m with NewPort => true | _ => false end) ms /\
  pf o = (if has (fun m => match m with Six => true | _ => false end) ms then INET6 else INET) /\
  requested_ptime o = last_of ptime_of ms (-1) /\
  codecs o = last_of codecs_of ms None /\
  lia1 o = nth 0 (dirs e ms) (bind0 e) /\ lia0 o = nth 1 (dirs e ms) (bind0 e) /\
  lidx o = 1 - Z.of_nat (length (dirs e ms)).

(** The local address: the last one asked for, or else, when no direction is given, one of the family of the stream *)
Definition asked (e : env) (ms : list mod_) : option nat := last_of (local_of e) ms None.
Definition needs_family (e : env) (ms : list mod_) (o : opts) : Prop :=
  asked e ms = None /\ filter is_dir ms = [] /\ pf o <> fam_of e (bind0 e).

(** The remote address is looked at when its length is that of an address of the family *)
Definition plausible (f : family) (a : list Z) : Prop :=
  match f with INET => (7 <= length a <= 15)%nat | INET6 => (2 <= length a <= 45)%nat end.

(** The modifier at the beginning of [s] cannot be accepted after those [before], and the error code for that *)
Inductive offends (e : env) (before : list mod_) : list Z -> Z -> Prop :=
| off_e c s : either c 69 -> ~ good_after e before External -> offends e before (c :: s) 11
| off_i c s : either c 73 -> ~ good_after e before Internal -> offends e before (c :: s) 12
| off_z c s : either c 90 -> (forall v rest, numeral s v rest -> ~ 0 < stored v < 1000) -> offends e before (c :: s) 13
| off_c c s : either c 67 -> not_next codec_char s \/ filter is_codecs before <> [] -> offends e before (c :: s) 14
| off_cm c s l rest : either c 67 -> one (c :: s) (Codecs l) rest -> filter is_codecs before = [] -> mem2 e = false -> offends e before (c :: s) 82
| off_l c s : either c 76 -> (forall m rest, ~ one (c :: s) m rest) -> offends e before (c :: s) 15
| off_ll c s m rest : either c 76 -> one (c :: s) m rest -> chosen e m = None -> offends e before (c :: s) 31
| off_r c s : either c 82 -> (forall m rest, ~ one (c :: s) m rest) -> offends e before (c :: s) 16
| off_rr c s m rest : either c 82 -> one (c :: s) m rest -> chosen e m = None -> offends e before (c :: s) 32
| off_u c s : c <> 54 -> Forall (fun up => ~ either c up) [65; 67; 69; 73; 76; 78; 82; 83; 87; 90] -> offends e before (c :: s) 35.

(** The options that an accepted command has *)
Definition accepted (e : env) (ms : list mod_) (addr : option (list Z * list Z)) (o : opts) : Prop :=
  meaning e ms o /\
  (needs_family e ms o -> exists a, foraf e (pf o) = Some a /\ local_addr o = Some a) /\
  (~ needs_family e ms o -> local_addr o = asked e ms) /\
  match addr with
  | None => ia o = None /\ onhold o = false
  | Some (a, p) =>
      (plausible (pf o) a -> exists h q, resolve e (pf o) a p = Some (h, q) /\
         (h = 0 -> ia o = None /\ onhold o = true) /\
         (h <> 0 -> mem3 e = true /\ ia o = Some ((h, q), (h, (q + 1) mod 65536)) /\ onhold o = false)) /\
      (~ plausible (pf o) a -> ia o = None /\ onhold o = false)
  end.

(** Why a command is not accepted *)
Definition unacceptable (e : env) (s : list Z) (addr : option (list Z * list Z)) (x : Z) : Prop :=
  (mem1 e = false /\ x = 81) \/
  (exists ms rest, many s ms rest /\ all_good e [] ms /\ offends e ms rest x) \/
  (exists ms o, many s ms [] /\ all_good e [] ms /\ meaning e ms o /\
     ((x = 36 /\ needs_family e ms o /\ foraf e (pf o) = None) \/
      (exists a p, addr = Some (a, p) /\ plausible (pf o) a /\
         ((x = 37 /\ resolve e (pf o) a p = None) \/
          (x = 83 /\ mem3 e = false /\ exists h q, resolve e (pf o) a p = Some (h, q) /\ h <> 0))))).
