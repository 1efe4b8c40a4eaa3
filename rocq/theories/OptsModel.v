(** Model of the parser of the modifiers and of the address of the U and L commands: rtpp_command_ul_opts_parse_inner,
    src/commands/rpcpv1_ul.c:261-519, with ul_opts_init (lines 181-190), extractaddr and extractlabel (src/rtpp_network.c:328-375).
    Left out: the packet ports of the library build (lines 389-399 and 473-485, rtpp_is_lib is 0 otherwise); the tag for
    notifications (lines 280-292: url_unquote, QuoteModel). *)
From Verif Require Import Base NumModel.

(** Address families *)
Inductive family := INET | INET6.
Definition fam_eqb (x y : family) : bool := match x, y with INET, INET | INET6, INET6 => true | _, _ => false end.

(** What the parser asks others: [aforce], [bind0], [bind1] of the configuration (addresses to listen on are numbers, with a
    family); the objects for a label, a numeric address, and the route to an address (BindModel has these functions); the
    resolver for the remote address (resolve with AI_NUMERICHOST, src/rtpp_network.c:224-256: a host, 0 for the null one, and a
    port); and whether there is memory for what is allocated on lines 274, 362 and 492. *)
Record env := mkEnv { aforce : bool; bind0 : nat; bind1 : option nat; fam_of : nat -> family;
  label2 : list Z -> option nat; host2 : list Z -> family -> option nat; local4remote : list Z -> family -> option nat;
  foraf : family -> option nat; resolve : family -> list Z -> list Z -> option (Z * Z); mem1 : bool; mem2 : bool; mem3 : bool }.

(** struct ul_opts, lines 94-116 *)
Record opts := mkOpts { asymmetric : bool; weak : bool; requested_ptime : Z; codecs : option (list Z);
  ia : option ((Z * Z) * (Z * Z)); lia0 : nat; lia1 : nat; lidx : Z; local_addr : option nat; pf : family; new_port : bool; onhold : bool }.

(** ul_opts_init *)
Definition opts_init (e : env) : opts :=
  mkOpts (aforce e) false (-1) None None (bind0 e) (bind0 e) 1 None INET false false.

Definition set_asym (o : opts) v := mkOpts v (weak o) (requested_ptime o) (codecs o) (ia o) (lia0 o) (lia1 o) (lidx o) (local_addr o) (pf o) (new_port o) (onhold o).
Definition set_weak (o : opts) := mkOpts (asymmetric o) true (requested_ptime o) (codecs o) (ia o) (lia0 o) (lia1 o) (lidx o) (local_addr o) (pf o) (new_port o) (onhold o).
Definition set_ptime (o : opts) v := mkOpts (asymmetric o) (weak o) v (codecs o) (ia o) (lia0 o) (lia1 o) (lidx o) (local_addr o) (pf o) (new_port o) (onhold o).
Definition set_codecs (o : opts) v := mkOpts (asymmetric o) (weak o) (requested_ptime o) (Some v) (ia o) (lia0 o) (lia1 o) (lidx o) (local_addr o) (pf o) (new_port o) (onhold o).
Definition set_ia (o : opts) v := mkOpts (asymmetric o) (weak o) (requested_ptime o) (codecs o) (Some v) (lia0 o) (lia1 o) (lidx o) (local_addr o) (pf o) (new_port o) (onhold o).
(** ulop->lia[ulop->lidx] = a; ulop->lidx-- *)
Definition set_lia (o : opts) (a : nat) :=
  mkOpts (asymmetric o) (weak o) (requested_ptime o) (codecs o) (ia o) (if lidx o =? 0 then a else lia0 o) (if lidx o =? 1 then a else lia1 o)
    (lidx o - 1) (local_addr o) (pf o) (new_port o) (onhold o).
Definition set_local (o : opts) a := mkOpts (asymmetric o) (weak o) (requested_ptime o) (codecs o) (ia o) (lia0 o) (lia1 o) (lidx o) (Some a) (pf o) (new_port o) (onhold o).
Definition set_pf6 (o : opts) := mkOpts (asymmetric o) (weak o) (requested_ptime o) (codecs o) (ia o) (lia0 o) (lia1 o) (lidx o) (local_addr o) INET6 (new_port o) (onhold o).
Definition set_new (o : opts) := mkOpts (asymmetric o) (weak o) (requested_ptime o) (codecs o) (ia o) (lia0 o) (lia1 o) (lidx o) (local_addr o) (pf o) true (onhold o).
Definition set_hold (o : opts) := mkOpts (asymmetric o) (weak o) (requested_ptime o) (codecs o) (ia o) (lia0 o) (lia1 o) (lidx o) (local_addr o) (pf o) (new_port o) true.

(** Error codes, src/rtpp_command_ecodes.h *)
Definition ECODE_PARSE_11 : Z := 11. Definition ECODE_PARSE_12 : Z := 12. Definition ECODE_PARSE_13 : Z := 13.
Definition ECODE_PARSE_14 : Z := 14. Definition ECODE_PARSE_15 : Z := 15. Definition ECODE_PARSE_16 : Z := 16.
Definition ECODE_INVLARG_1 : Z := 31. Definition ECODE_INVLARG_2 : Z := 32. Definition ECODE_INVLARG_5 : Z := 35.
Definition ECODE_INVLARG_6 : Z := 36. Definition ECODE_INVLARG_7 : Z := 37.
Definition ECODE_NOMEM_1 : Z := 81. Definition ECODE_NOMEM_2 : Z := 82. Definition ECODE_NOMEM_3 : Z := 83.

(** The bytes from a position on; a block of memory ends with it. [Over]: a byte behind the block is read. *)
Inductive res (A : Type) := Over | Got (a : A).
Arguments Over {A}. Arguments Got {A}.
Definition rd (b : list Z) (i : nat) : res Z := match nth_error b i with Some c => Got c | None => Over end.
(** The loops "for (; *p != 0; p++) if (!class(*p)) break;": how far they go *)
Fixpoint span_from (cls : Z -> bool) (l : list Z) : res nat :=
  match l with
  | [] => Over
  | c :: t => if c =? 0 then Got 0%nat
              else if cls c then match span_from cls t with Got n => Got (S n) | Over => Over end
              else Got 0%nat
  end.
Definition span (cls : Z -> bool) (b : list Z) (i : nat) : res nat := span_from cls (skipn i b).
(** The C string at a position *)
Fixpoint cstr_from (l : list Z) : res (list Z) :=
  match l with
  | [] => Over
  | c :: t => if c =? 0 then Got [] else match cstr_from t with Got s => Got (c :: s) | Over => Over end
  end.

(** isxdigit() in the C locale; like is_digit, false for bytes above 127, for which the code's plain char is negative *)
Definition is_xdigit (c : Z) : bool := is_digit c || ((65 <=? c) && (c <=? 70)) || ((97 <=? c) && (c <=? 102)).

(** extractaddr: begin, length, end and family, or -1 *)
Definition extractaddr (b : list Z) (i : nat) : res (option (nat * nat * nat * family)) :=
  match rd b i with
  | Over => Over
  | Got c =>
      if negb (c =? 91) then
        match span (fun x => is_digit x || (x =? 46)) b i with
        | Over => Over
        | Got n => Got (if (n =? 0)%nat then None else Some (i, n, (i + n)%nat, INET))
        end
      else
        match span (fun x => is_xdigit x || (x =? 58)) b (i + 1) with
        | Over => Over
        | Got n =>
            match rd b (i + 1 + n) with
            | Over => Over
            | Got d => Got (if negb (d =? 93) then None
                            else if (n =? 0)%nat then None else Some ((i + 1)%nat, n, (i + 1 + n + 1)%nat, INET6))
            end
        end
  end.

(** strchr(str, '}') *)
Fixpoint strchr_from (d : Z) (l : list Z) : res (option nat) :=
  match l with
  | [] => Over
  | c :: t => if c =? d then Got (Some 0%nat) else if c =? 0 then Got None
              else match strchr_from d t with Got (Some n) => Got (Some (S n)) | x => x end
  end.

(** extractlabel: begin, length, end, or -1 *)
Definition extractlabel (b : list Z) (i : nat) : res (option (nat * nat * nat)) :=
  match rd b i with
  | Over => Over
  | Got c =>
      if negb (c =? 123) then Got None
      else match strchr_from 125 (skipn (i + 1) b) with
           | Over => Over
           | Got None => Got None
           | Got (Some n) => Got (if (n =? 0)%nat then None else Some ((i + 1)%nat, n, (i + 1 + n)%nat))
           end
  end.

(** memcpy(x, p, n) *)
Definition copy (b : list Z) (i n : nat) : res (list Z) :=
  if (i + n <=? length b)%nat then Got (firstn n (skipn i b)) else Over.

(** An iteration of the loop of lines 296-456 at position [i] with *cp == c: stop with an error, or go on with cp at a position
    (before the cp++ of the loop) *)
Inductive iter_res := IOver | IErr (ecode : Z) | INext (o : opts) (i : nat).
Definition letter (c up : Z) : bool := (c =? up) || (c =? up + 32).

Definition iter_dir (e : env) (o : opts) (i : nat) (ext : bool) (ecode : Z) : iter_res :=
  match bind1 e with
  | None => IErr ecode
  | Some a1 => if lidx o <? 0 then IErr ecode else INext (set_lia o (if ext then a1 else bind0 e)) i
  end.

Definition iter_ptime (o : opts) (b : list Z) (i : nat) : iter_res :=
  match cstr_from (skipn (i + 1) b) with
  | Over => IOver
  | Got s =>
      let '(v, rest, _) := strtol s in
      let v := s32 v in                                                    (* long to int, line 341 *)
      let cp := match rest with Some r => (i + 1 + (length s - length r))%nat | None => (i + 1)%nat end in
      if (v <=? 0) || (v >=? 1000) then IErr ECODE_PARSE_13 else INext (set_ptime o v) (cp - 1)
  end.

Definition iter_codecs (e : env) (o : opts) (b : list Z) (i : nat) : iter_res :=
  match span (fun x => is_digit x || (x =? 44)) b (i + 1) with
  | Over => IOver
  | Got n =>
      if (n =? 0)%nat || match codecs o with Some _ => true | None => false end then IErr ECODE_PARSE_14
      else if negb (mem2 e) then IErr ECODE_NOMEM_2
      else match copy b (i + 1) n with
           | Over => IOver
           | Got l => INext (set_codecs o l) (i + 1 + n - 1)
           end
  end.

Definition iter_local (e : env) (o : opts) (b : list Z) (i : nat) : iter_res :=
  match rd b (i + 1) with
  | Over => IOver
  | Got c =>
      if c =? 123 then
        match extractlabel b (i + 1) with
        | Over => IOver
        | Got None => IErr ECODE_PARSE_15
        | Got (Some (t, len, cp)) =>
            match copy b t len with
            | Over => IOver
            | Got l => match label2 e l with None => IErr ECODE_INVLARG_1 | Some a => INext (set_local o a) cp end
            end
        end
      else
        match extractaddr b (i + 1) with
        | Over => IOver
        | Got None => IErr ECODE_PARSE_15
        | Got (Some (t, len, cp, f)) =>
            match copy b t len with
            | Over => IOver
            | Got l => match host2 e l f with None => IErr ECODE_INVLARG_1 | Some a => INext (set_local o a) (cp - 1) end
            end
        end
  end.

Definition iter_remote (e : env) (o : opts) (b : list Z) (i : nat) : iter_res :=
  match extractaddr b (i + 1) with
  | Over => IOver
  | Got None => IErr ECODE_PARSE_16
  | Got (Some (t, len, cp, f)) =>
      match copy b t len with
      | Over => IOver
      | Got l => match local4remote e l f with None => IErr ECODE_INVLARG_2 | Some a => INext (set_local o a) (cp - 1) end
      end
  end.

Definition iter (e : env) (o : opts) (b : list Z) (i : nat) (c : Z) : iter_res :=
  if letter c 65 (* A *) then INext (set_asym o true) i
  else if letter c 69 (* E *) then iter_dir e o i true ECODE_PARSE_11
  else if letter c 73 (* I *) then iter_dir e o i false ECODE_PARSE_12
  else if c =? 54 (* 6 *) then INext (set_pf6 o) i
  else if letter c 83 (* S *) then INext (set_asym o false) i
  else if letter c 87 (* W *) then INext (set_weak o) i
  else if letter c 90 (* Z *) then iter_ptime o b i
  else if letter c 67 (* C *) then iter_codecs e o b i
  else if letter c 76 (* L *) then iter_local e o b i
  else if letter c 82 (* R *) then iter_remote e o b i
  else if letter c 78 (* N *) then INext (set_new o) i
  else IErr ECODE_INVLARG_5.

(** The result: over-reading, going on for ever, an error, or the options *)
Inductive outcome := OOver | OLoop | OErr (ecode : Z) | OOk (o : opts).

Fixpoint loop (fuel : nat) (e : env) (o : opts) (b : list Z) (i : nat) : outcome :=
  match rd b i with
  | Over => OOver
  | Got c =>
      if c =? 0 then OOk o
      else match fuel with
           | O => OLoop
           | S f => match iter e o b i c with
                    | IOver => OOver
                    | IErr x => OErr x
                    | INext o' i' => loop f e o' b (i' + 1)
                    end
           end
  end.

(** IS_IPSTR_VALID, lines 208-219 *)
Definition ipstr_valid (s : list Z) (f : family) : bool :=
  let n := Z.of_nat (length s) in
  match f with INET => (7 <=? n) && (n <=? 15) | INET6 => (2 <=? n) && (n <=? 45) end.

(** Lines 457-472 and 486-511; [addr]: the address and port of the command (C strings) *)
Definition finish_local (e : env) (o : opts) : outcome :=
  match local_addr o with
  | Some _ => OOk o
  | None => if (lidx o =? 1) && negb (fam_eqb (pf o) (fam_of e (lia0 o)))
            then match foraf e (pf o) with Some a => OOk (set_local o a) | None => OErr ECODE_INVLARG_6 end
            else OOk o
  end.
Definition finish_remote (e : env) (o : opts) (addr : option (list Z * list Z)) : outcome :=
  match addr with
  | None => OOk o
  | Some (a, p) =>
      if negb (ipstr_valid a (pf o)) then OOk o
      else match resolve e (pf o) a p with
           | None => OErr ECODE_INVLARG_7
           | Some (h, port) =>
               if h =? 0 then OOk (set_hold o)
               else if negb (mem3 e) then OErr ECODE_NOMEM_3
               else OOk (set_ia o ((h, port), (h, u16 (port + 1))))        (* htons(n + 1), line 501 *)
           end
  end.

(** rtpp_command_ul_opts_parse_inner. [mods]: the modifiers, as the bytes of a block up to and including the terminator *)
Definition parse (e : env) (mods : list Z) (addr : option (list Z * list Z)) : outcome :=
  if negb (mem1 e) then OErr ECODE_NOMEM_1
  else match loop (length mods) e (opts_init e) mods 0 with
       | OOk o => match finish_local e o with OOk o => finish_remote e o addr | x => x end
       | x => x
       end.
