(** The command language (C22, C47), independent of the parser. *)
From Verif Require Import Base Str NumSpec ParseModel.

(** A command word: a letter in either case, followed by modifiers. *)
Definition word (letter : Z) (w mods : list Z) : Prop := w = letter :: mods \/ w = letter + 32 :: mods.
Definition either (letter c : Z) : Prop := c = letter \/ c = letter + 32.

(** The int made of the value of a numeral by strtol() and assignment: saturated to 64 bits, then
    reduced to 32. *)
Definition c_int (v x : Z) : Prop :=
  exists k, x = Z.max (-9223372036854775808) (Z.min 9223372036854775807 v) + k * 4294967296 /\ is_int x.

Definition opt_to (to : option (list Z)) : list (list Z) := match to with Some t => [t] | None => [] end.
Definition opt_notify (n : option (list Z * list Z)) : list (list Z) := match n with Some (s, t) => [s; t] | None => [] end.
(** [flag = true] iff the letter occurs among the modifiers *)
Definition flag (letter : Z) (mods : list Z) (b : bool) : Prop := b = true <-> Exists (either letter) mods.

Inductive subcommand (e : env) (update_with_to : Prop) : args -> subreq -> Prop :=
| sg_module w m v1 next v2 x1 x2 more : word 77 w m -> numeral m v1 (58 :: next) -> numeral next v2 [] ->
    c_int v1 x1 -> c_int v2 x2 -> 1 <= x1 -> 1 <= x2 -> e_module e x1 x2 = true ->
    subcommand e update_with_to (w :: more) (SModule x1 x2)
| sg_delete w m weak : word 68 w m -> Forall (either 87) m -> flag 87 m weak ->
    subcommand e update_with_to [w] (SDelete weak)
| sg_set w m reverse name tos text v x : word 83 w m -> (length m <= 1)%nat -> flag 82 m reverse ->
    (name = B "ttl=" /\ tos = false \/ name = B "tos=" /\ tos = true) ->
    numeral text v [] -> c_int v x -> 0 < x ->
    subcommand e update_with_to [w; name ++ text] (SSet reverse tos x)
| sg_lookup w m addr port : update_with_to -> word 76 w m -> e_ulopts e LOOKUP m addr port None = 0 ->
    subcommand e update_with_to [w; addr; port] (SLookup m addr port)
| sg_copy w cid from to : update_with_to -> word 67 w [] -> cid <> [] -> from <> [] -> to <> [] ->
    subcommand e update_with_to [w; cid; from; to] (SCopy cid from to).

Inductive command (e : env) : args -> list args -> request -> Prop :=
| g_version w : word 86 w [] -> command e [w] [] RVersion
| g_feature w f d : word 86 w [f] -> either 70 f -> command e [w; d] [] (RFeature d)
| g_delete_all w : word 88 w [] -> command e [w] [] RDeleteAll
| g_info w m : word 73 w m -> command e [w] [] (RInfo m)
| g_stats w m names : word 71 w m -> Z.of_nat (length names) <= e_nstats e -> command e (w :: names) [] (RStats m names)
| g_play w m n cid pname codecs from to : word 80 w m ->
    (m = [] /\ n = 1 \/ m <> [] /\ exists v, numeral m v [] /\ c_int v n) ->
    command e ([w; cid; pname; codecs; from] ++ opt_to to) [] (RPlay n cid pname codecs from to)
| g_copy w m s p cid name from to : word 67 w m -> Forall (fun c => either 83 c \/ either 80 c) m -> flag 83 m s -> flag 80 m p ->
    command e ([w; cid; name; from] ++ opt_to to) [] (RCopy s p cid name from to)
| g_record w m s cid from to : word 82 w m -> Forall (either 83) m -> flag 83 m s ->
    command e ([w; cid; from] ++ opt_to to) [] (RRecord s cid from to)
| g_norecord w m all cid from to : word 78 w m -> Forall (either 65) m -> (length m <= 1)%nat -> flag 65 m all ->
    command e ([w; cid; from] ++ opt_to to) [] (RNorecord all cid from to)
| g_delete w m weak cid from to : word 68 w m -> Forall (either 87) m -> flag 87 m weak ->
    command e ([w; cid; from] ++ opt_to to) [] (RDelete weak cid from to)
| g_noplay w cid from to : word 83 w [] -> command e ([w; cid; from] ++ opt_to to) [] (RNoplay cid from to)
| g_query w m cid from to names subs rs : word 81 w m -> (to = None -> names = []) -> (length names <= 11)%nat ->
    Forall2 (subcommand e False) subs rs ->
    command e ([w; cid; from] ++ opt_to to ++ names) subs (RQuery m cid from to names rs)
| g_update w m cid addr port from to notify subs rs : word 85 w m -> e_ulopts e UPDATE m addr port notify = 0 ->
    Forall2 (subcommand e (to <> None)) subs rs ->
    command e ([w; cid; addr; port; from] ++ opt_to to ++ opt_notify notify) subs (RUpdate m cid addr port from to notify rs)
| g_lookup w m cid addr port from to subs rs : word 76 w m -> e_ulopts e LOOKUP m addr port None = 0 ->
    Forall2 (subcommand e False) subs rs ->
    command e ([w; cid; addr; port; from] ++ opt_to to) subs (RLookup m cid addr port from to rs).

(** The numbers of arguments (the word included) a command takes, whether it takes modifiers and
    sub-commands; [mods] are the modifiers. *)
Inductive shape (nstats : Z) : list Z -> Z -> Z -> bool -> bool -> list Z -> Prop :=
| sh_u w m : word 85 w m -> shape nstats w 5 8 true true m
| sh_l w m : word 76 w m -> shape nstats w 5 6 true true m
| sh_d w m : word 68 w m -> shape nstats w 3 4 true false m
| sh_p w m : word 80 w m -> shape nstats w 5 6 true false m
| sh_r w m : word 82 w m -> shape nstats w 3 4 true false m
| sh_c w m : word 67 w m -> shape nstats w 4 5 true false m
| sh_s w m : word 83 w m -> shape nstats w 3 4 false false m
| sh_n w m : word 78 w m -> shape nstats w 3 4 true false m
| sh_vf w f m : word 86 w (f :: m) -> either 70 f -> shape nstats w 2 2 false false m
| sh_v w m : word 86 w m -> (forall f t, m = f :: t -> ~ either 70 f) -> shape nstats w 1 1 false false m
| sh_i w m : word 73 w m -> shape nstats w 1 1 true false m
| sh_q w m : word 81 w m -> shape nstats w 3 15 true true m
| sh_x w m : word 88 w m -> shape nstats w 1 1 false false m
| sh_g w m : word 71 w m -> shape nstats w 1 (nstats + 1) true false m.

(** Arguments as the tokenizer leaves them: at least the word, each a nonempty C string. *)
Definition tokens (a : args) : Prop := a <> [] /\ Forall (fun s => s <> [] /\ cstring s) a.

(** The published capabilities. *)
Inductive capability : Z -> Prop := cap d : In d
  [20040107; 20050322; 20060704; 20071116; 20071218; 20080403; 20081102; 20081224; 20090810; 20140323; 20140617;
   20141004; 20150330; 20150420; 20150617; 20191015; 20200226; 20230205; 20230314; 20230424; 20250523; 20251015;
   20260306; 20260308; 20260309] -> capability d.
