(** Specification of the options for the addresses to listen on. Constants: 47 is '/', 61 is '=', 64 is '@'. *)
From Verif Require Import Base Str AddrModel BindModel ConfModel.
From Verif Require OptsModel OptsSpec.

(** ** What is written *)

(** [label@]host[=advertised] *)
Inductive arg_text : list Z -> option (list Z) -> list Z -> option (list Z) -> Prop :=
| at_host h : ~ In 64 h -> ~ In 61 h -> arg_text h None h None
| at_adv h a : ~ In 64 (h ++ 61 :: a) -> ~ In 61 h -> arg_text (h ++ 61 :: a) None h (Some a)
| at_label l h : ~ In 64 l -> ~ In 61 h -> arg_text (l ++ 64 :: h) (Some l) h None
| at_both l h a : ~ In 64 l -> ~ In 61 h -> arg_text (l ++ 64 :: h ++ 61 :: a) (Some l) h (Some a).

(** An argument of -l or -6 *)
Record given := mkGiven { v6 : bool; label : option (list Z); host : list Z; adv : option (list Z) }.
Definition listens (os : list copt) : list (bool * list Z) :=
  flat_map (fun o => match o with OptL s => [(false, s)] | Opt6 s => [(true, s)] | OptA _ => [] end) os.
Definition understood (os : list copt) (gs : list given) : Prop :=
  Forall2 (fun p g => v6 g = fst p /\ arg_text (snd p) (label g) (host g) (adv g)) (listens os) gs.

(** The addresses of -A: first[/second], the last ones count *)
Inductive advertises : list copt -> option (list Z) -> option (list Z) -> Prop :=
| adv_none : advertises [] None None
| adv_l os s a0 a1 : advertises os a0 a1 -> advertises (os ++ [OptL s]) a0 a1
| adv_6 os s a0 a1 : advertises os a0 a1 -> advertises (os ++ [Opt6 s]) a0 a1
| adv_one os p a0 a1 : advertises os a0 a1 -> p <> [] -> ~ In 47 p -> advertises (os ++ [OptA p]) (Some p) a1
| adv_two os p q a0 a1 : advertises os a0 a1 -> ~ In 47 p -> q <> [] -> advertises (os ++ [OptA (p ++ 47 :: q)]) (Some p) (Some q).

(** ** What it means *)

Definition any_address (h : list Z) (f : bool) : Prop :=
  h = B "*" \/ (f = false /\ h = B "0.0.0.0") \/ (f = true /\ h = B "::").
Definition numeric (h : list Z) (f : bool) : Prop :=
  Forall (fun c => In c (if f then B "0123456789abcdefABCDEF:" else B "0123456789.")) h.
(** The name service is asked for the host, and is kept to numbers when the host is one or names are not wanted *)
Definition resolves (rs : resolver) (nr f : bool) (h : list Z) (a : sockaddr) : Prop :=
  (any_address h f /\ rs None f nr false = Some a) \/
  (~ any_address h f /\ exists num, (num = true <-> nr = true \/ numeric h f) /\ rs (Some h) f num true = Some a).

(** An answer has the family asked for *)
Definition families (rs : resolver) : Prop :=
  forall h f n c a, rs h f n c = Some a -> match a with SaIn _ _ => f = false | SaIn6 _ _ => f = true | SaOther _ => False end.

Definition first_of (f : bool) (gs : list given) : option given := find (fun g => Bool.eqb (v6 g) f) gs.
Fixpoint drop_first (f : bool) (gs : list given) : list given :=
  match gs with [] => [] | g :: t => if Bool.eqb (v6 g) f then t else g :: drop_first f t end.

(** Bridging: the first IPv4 or the first IPv6 argument has a '/'. Both interfaces come from it, or the internal one from the first
    argument of the other family. *)
Definition no_bridge (gs : list given) : Prop := forall f g, first_of f gs = Some g -> ~ In 47 (host g).
Definition bare (g : given) : Prop := label g = None /\ adv g = None.
Inductive bridge (gs : list given) : bool -> list Z -> bool -> list Z -> Prop :=
| bridge_one g hi he : first_of (v6 g) gs = Some g -> first_of (negb (v6 g)) gs = None -> bare g ->
    host g = hi ++ 47 :: he -> hi <> [] -> ~ In 47 hi -> bridge gs (v6 g) hi (v6 g) he
| bridge_two g g' he : first_of (v6 g) gs = Some g -> first_of (negb (v6 g)) gs = Some g' -> bare g -> bare g' ->
    host g = 47 :: he -> ~ In 47 (host g') -> bridge gs (v6 g') (host g') (v6 g) he.

(** An address to listen on *)
Record entry := mkEnt { e_addr : sockaddr; e_label : option (list Z); e_adv : option (list Z) }.
(** The entry of an argument, and the one of an argument that must have a label *)
Definition entry_of (rs : resolver) (nr : bool) (g : given) (e : entry) : Prop :=
  ~ In 47 (host g) /\ resolves rs nr (v6 g) (host g) (e_addr e) /\ e_label e = label g /\ e_adv e = adv g.
Definition labelled_entry (rs : resolver) (nr : bool) (g : given) (e : entry) : Prop :=
  label g <> None /\ entry_of rs nr g e.
Definition labels_of (es : list entry) : list (list Z) :=
  flat_map (fun e => match e_label e with Some l => [l] | None => [] end) es.

Definition same_host (a b : sockaddr) : Prop :=
  match a, b with SaIn h1 _, SaIn h2 _ => h1 = h2 | SaIn6 h1 _, SaIn6 h2 _ => h1 = h2 | _, _ => False end.

(** The entries, in order, and the number of the external one in bridging mode. The default, or internal, one is the first. *)
Inductive setup (rs : resolver) (nr : bool) (os : list copt) : list entry -> option nat -> Prop :=
| setup_default a : listens os = [] -> resolves rs nr false (B "*") a -> setup rs nr os [mkEnt a None None] None
| setup_plain g gs e es : understood os (g :: gs) -> no_bridge (g :: gs) ->
    entry_of rs nr g e -> Forall2 (labelled_entry rs nr) gs es -> NoDup (labels_of (e :: es)) ->
    setup rs nr os (e :: es) None
| setup_bridge gs fi hi fe he ai ae a0 a1 es : understood os gs -> bridge gs fi hi fe he -> advertises os a0 a1 ->
    (a0 <> None -> a1 <> None) -> resolves rs nr fi hi ai -> resolves rs nr fe he ae ->
    Forall2 (labelled_entry rs nr) (drop_first false (drop_first true gs)) es -> NoDup (labels_of es) ->
    ~ same_host ai ae -> setup rs nr os (mkEnt ai None a0 :: mkEnt ae None a1 :: es) (Some 1%nat)
| setup_bridge_same gs fi hi fe he ai ae a0 a1 es : understood os gs -> bridge gs fi hi fe he -> advertises os a0 a1 ->
    (a0 <> None -> a1 <> None) -> resolves rs nr fi hi ai -> resolves rs nr fe he ae ->
    Forall2 (labelled_entry rs nr) (drop_first false (drop_first true gs)) es -> NoDup (labels_of es) ->
    same_host ai ae -> setup rs nr os (mkEnt ai None a0 :: es) (Some 0%nat).

(** At most 16 addresses, all of -A well formed *)
Definition within_limits (os : list copt) : Prop :=
  (length (listens os) <= 16)%nat /\ exists a0 a1, advertises os a0 a1.
(** Labels are not empty *)
Definition labels_not_empty (os : list copt) : Prop := forall gs, understood os gs -> Forall (fun g => label g <> Some []) gs.

(** ** What is observed *)

(** The [i]-th object of the configuration *)
Definition object (c : conf) (i : nat) : option entry :=
  match find (fun b => (b_id b =? i)%nat) (b_list (h_bs (c_h c))) with
  | Some b => Some (mkEnt (b_addr b) (b_label b) (nth i (h_adv (c_h c)) None))
  | None => None
  end.
Definition shows (c : conf) (es : list entry) (b1 : option nat) : Prop :=
  c_b0 c = Some 0%nat /\ c_b1 c = b1 /\ forall i, object c i = nth_error es i.

(** ** Answers *)

Definition null_host (a : sockaddr) : Prop :=
  match a with SaIn h _ => h = 0 | SaIn6 h _ => Forall (fun x => x = 0) h | SaOther _ => False end.
Definition is6 (a : sockaddr) : bool := match a with SaIn6 _ _ => true | _ => false end.
(** Port, and address unless it is the null one *)
Definition says (ntop : sockaddr -> list Z) (e : entry) (port : Z) (t : list Z) : Prop :=
  (null_host (e_addr e) /\ t = fmt_d port) \/
  (~ null_host (e_addr e) /\
   t = fmt_d port ++ [32] ++ match e_adv e with Some a => a | None => ntop (e_addr e) end ++ (if is6 (e_addr e) then B " 6" else [])).

Definition label_of (m : OptsSpec.mod_) : option (list Z) := match m with OptsSpec.Label l => Some l | _ => None end.
(** The last label *)
Fixpoint last_label (ms : list OptsSpec.mod_) (d : option (list Z)) : option (list Z) :=
  match ms with [] => d | m :: t => last_label t (match label_of m with Some l => Some l | None => d end) end.
(** The directions given, true for external *)
Definition directions (ms : list OptsSpec.mod_) : list bool :=
  flat_map (fun m => match m with OptsSpec.External => [true] | OptsSpec.Internal => [false] | _ => [] end) ms.
Definition six (ms : list OptsSpec.mod_) : bool := existsb (fun m => match m with OptsSpec.Six => true | _ => false end) ms.
(** No address in the command itself *)
Definition no_address (ms : list OptsSpec.mod_) : Prop :=
  Forall (fun m => match m with OptsSpec.Local _ _ | OptsSpec.Remote _ _ => False | _ => True end) ms.

(** The last entry of a family *)
Definition last_of_family (es : list entry) (f : bool) (e : entry) : Prop :=
  exists es1 es2, es = es1 ++ e :: es2 /\ is6 (e_addr e) = f /\ Forall (fun x => is6 (e_addr x) <> f) es2.

(** The address for a new session: that of the last label; otherwise, when directions are given, the external one if the second
    direction is external and the internal one otherwise; otherwise the default one, or the last one of the family asked for. *)
Inductive wanted (es : list entry) (b1 : option nat) (ms : list OptsSpec.mod_) : entry -> Prop :=
| want_label l e : last_label ms None = Some l -> In e es -> e_label e = Some l -> wanted es b1 ms e
| want_ext e : last_label ms None = None -> nth_error (directions ms) 1 = Some true ->
    (exists i, b1 = Some i /\ nth_error es i = Some e) -> wanted es b1 ms e
| want_int e : last_label ms None = None -> directions ms <> [] -> nth_error (directions ms) 1 <> Some true ->
    nth_error es 0 = Some e -> wanted es b1 ms e
| want_first e : last_label ms None = None -> directions ms = [] -> nth_error es 0 = Some e -> is6 (e_addr e) = six ms ->
    wanted es b1 ms e
| want_other e0 e : last_label ms None = None -> directions ms = [] -> nth_error es 0 = Some e0 -> is6 (e_addr e0) <> six ms ->
    last_of_family es (six ms) e -> wanted es b1 ms e.

(** The command is not refused: directions only in bridging mode and at most two of them, labels that exist, one list of codecs, packet
    times within bounds *)
Definition acceptable (es : list entry) (b1 : option nat) (ms : list OptsSpec.mod_) : Prop :=
  (directions ms <> [] -> b1 <> None) /\ (length (directions ms) <= 2)%nat /\
  (length (filter OptsSpec.is_codecs ms) <= 1)%nat /\
  Forall (fun m => match m with
                   | OptsSpec.Ptime v => 0 < OptsSpec.stored v < 1000
                   | OptsSpec.Label l => exists e, In e es /\ e_label e = Some l
                   | _ => True end) ms.
(** There is memory, and the remote address in the command, if any, is one *)
Definition served (more : OptsModel.env) (remote : option (list Z * list Z)) : Prop :=
  OptsModel.mem1 more = true /\ OptsModel.mem2 more = true /\ OptsModel.mem3 more = true /\
  match remote with
  | Some (a, p) => forall f, OptsSpec.plausible f a -> exists x, OptsModel.resolve more f a p = Some x
  | None => True
  end.
