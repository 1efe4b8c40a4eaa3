(** Model of the control command tokenizer: rtpp_strsplit, src/rtpp_util.c:545-577, and
    rtpp_command_split, src/rtpp_command.c:362-463. *)
From Verif Require Import Base.

(** Value of a 64-bit word from its bytes, least significant first, and back. *)
Definition word_of (bs : list Z) : Z := fold_right (fun b acc => b + 256 * acc) 0 bs.
Fixpoint bytes_of (n : nat) (w : Z) : list Z :=
  match n with O => [] | S n => w mod 256 :: bytes_of n (w / 256) end.

(** populate, src/rtpp_util.c:545, for uint64_t *)
Definition populate (n : Z) : Z := 18446744073709551615 / 255 * n.
Definition not64 (x : Z) : Z := 18446744073709551615 - x.
Definition p7f : Z := populate 127.

(** haszero, src/rtpp_util.c:546-547 *)
Definition haszero (v : Z) : Z := not64 (Z.lor (Z.lor (u64 (Z.land v p7f + p7f)) v) p7f).

(** sep_masks, src/rtpp_util.c:552-557 *)
Definition sep_masks : list Z := [populate 9; populate 10; populate 13; populate 32].

(** The mask of one word, src/rtpp_util.c:566-570 *)
Definition word_mask (ww : Z) : Z :=
  fold_left (fun ow m => Z.land ow (not64 (u64 (haszero (Z.lxor ww m) / 128 * 255)))) sep_masks (populate 255).

(** A byte array of the caller: read and write of 8 bytes at [i]; [None] is out of bounds. *)
Definition get8 (m : list Z) (i : nat) : option (list Z) :=
  if (i + 8 <=? length m)%nat then Some (firstn 8 (skipn i m)) else None.

(** rtpp_strsplit, src/rtpp_util.c:549-577: one word per unit of [fuel]. [big]: the machine stores
    the most significant byte first. Result: ibuf and mbuf afterwards. *)
Fixpoint strsplit_loop (fuel : nat) (big : bool) (ibuf mbuf : list Z) (i dlen : nat) : option (list Z * list Z) :=
  if (i <? dlen)%nat then
    match fuel with
    | O => None
    | S fuel' =>
        let ord := fun (l : list Z) => if big then rev l else l in
        match get8 ibuf i with
        | None => None
        | Some bs =>
            let ww := word_of (ord bs) in
            let ow := word_mask ww in
            match store mbuf i (ord (bytes_of 8 ow)), store ibuf i (ord (bytes_of 8 (Z.land ww ow))) with
            | Some mbuf', Some ibuf' => strsplit_loop fuel' big ibuf' mbuf' (i + 8) dlen
            | _, _ => None
            end
        end
    end
  else Some (ibuf, mbuf).
Definition strsplit (big : bool) (ibuf mbuf : list Z) (dlen : nat) : option (list Z * list Z) :=
  strsplit_loop dlen big ibuf mbuf 0 dlen.

(** memchr(mp, 0, n) *)
Fixpoint find0 (m : list Z) : option nat :=
  match m with [] => None | c :: t => if c =? 0 then Some O else option_map S (find0 t) end.

(** The walk over mbuf, src/rtpp_command.c:385-396: offset and length of every non-empty token.
    [m] is mbuf from [mp] to [mbuf + len]. The body of the loop does not change mbuf, so the list of
    tokens is computed first. *)
Fixpoint scan (fuel : nat) (m : list Z) (mp : nat) : list (nat * nat) :=
  match fuel, m with
  | S fuel', _ :: _ =>
      match find0 m with
      | None => [(mp, length m)]
      | Some k => (if (k =? 0)%nat then [] else [(mp, k)]) ++ scan fuel' (skipn (S k) m) (mp + S k)
      end
  | _, _ => []
  end.

(** strlen() at offset [o] of the command buffer; [None]: runs off its end. *)
Definition strlen_at (buf : list Z) (o : nat) : option nat := find0 (skipn o buf).

(** A string argument: where it is in the command buffer (rtpp_str_const_t). *)
Definition sref := (nat * nat)%type.

(** RTPC_MAX_ARGC, src/rtpp_command_args.h:32; MAX_SUBC_NUM, src/rtpp_command_private.h:57 *)
Definition RTPC_MAX_ARGC : nat := 24.
Definition MAX_SUBC_NUM : nat := 16.

(** struct rtpp_command_args, src/rtpp_command_args.h:34-37 *)
Record cargs := mkCargs { ca_c : nat; ca_v : list (option sref) }.
Definition cargs0 : cargs := mkCargs 0 (repeat None RTPC_MAX_ARGC).

(** State of the loop: the cookie, cmd->args, cmd->subc.args (with subc.n), which of them cap points
    to ([None]: cmd->args) and the index ap has in it. *)
Record spst := mkSpst { sp_cookie : option sref; sp_args : cargs; sp_subc : list cargs; sp_n : nat; sp_cap : option nat; sp_ap : nat }.

Inductive spres :=
| SpOob                                   (* access outside of an array *)
| SpAbort                                 (* assert() at line 419 *)
| SpDup (cookie : sref)                   (* gres > 0: retransmission, answered from the cache *)
| SpErr                                   (* synerr *)
| SpGo (s : spst).

Definition cur_args (s : spst) : option cargs :=
  match sp_cap s with None => Some (sp_args s) | Some i => nth_error (sp_subc s) i end.
Definition set_cur (s : spst) (a : cargs) : spst :=
  match sp_cap s with
  | None => mkSpst (sp_cookie s) a (sp_subc s) (sp_n s) (sp_cap s) (sp_ap s)
  | Some i => mkSpst (sp_cookie s) (sp_args s) (upd (sp_subc s) i a) (sp_n s) (sp_cap s) (sp_ap s)
  end.
Definition set_ap (s : spst) (n : nat) : spst := mkSpst (sp_cookie s) (sp_args s) (sp_subc s) (sp_n s) (sp_cap s) n.

(** ISAMPAMP, src/rtpp_command.c:333 *)
Definition isampamp (buf : list Z) (t : sref) : bool :=
  (snd t =? 2)%nat && (nth (fst t) buf 0 =? 38) && (nth (fst t + 1) buf 0 =? 38).

(** Body of the loop for one token, src/rtpp_command.c:397-437. [umode]: datagram mode. [cached]:
    the reply cache has an entry for the cookie (rtpp_command_guard_retrans, src/rtpp_command.c:
    335-360; its out of memory branch is not modelled). The cookie and a space are put in the reply,
    a buffer of 1024 bytes (src/rtpp_command_reply.c:68), at line 419. *)
Definition split_token (buf : list Z) (umode : bool) (cached : list Z -> bool) (s : spst) (t : sref) : spres :=
  match strlen_at buf (fst t) with
  | None => SpOob
  | Some slen =>
      if (slen <? snd t)%nat then SpErr
      else match cur_args s with
           | None => SpOob
           | Some a =>
               if (sp_ap s <? length (ca_v a))%nat then
                 let s1 := set_cur s (mkCargs (ca_c a) (upd (ca_v a) (sp_ap s) (Some t))) in
                 if match sp_cap s with None => true | _ => false end && umode && (ca_c a =? 0)%nat
                    && match sp_cookie s with None => true | _ => false end
                 then
                   if cached (firstn (snd t) (skipn (fst t) buf)) then SpDup t
                   else if (1024 <=? snd t + 1)%nat then SpAbort
                   else SpGo (mkSpst (Some t) (sp_args s1) (sp_subc s1) (sp_n s1) (sp_cap s1) (sp_ap s1))
                 else if isampamp buf t then
                   if (sp_n s =? MAX_SUBC_NUM - 1)%nat then SpErr
                   else
                     let s2 := set_cur s (mkCargs (ca_c a) (upd (ca_v a) (sp_ap s) None)) in
                     SpGo (mkSpst (sp_cookie s2) (sp_args s2) (sp_subc s2) (S (sp_n s)) (Some (sp_n s)) 0)
                 else
                   let s2 := set_cur s (mkCargs (S (ca_c a)) (upd (ca_v a) (sp_ap s) (Some t))) in
                   if (RTPC_MAX_ARGC <=? S (sp_ap s))%nat then SpErr else SpGo (set_ap s2 (S (sp_ap s)))
               else SpOob
           end
  end.

Fixpoint split_tokens (buf : list Z) (umode : bool) (cached : list Z -> bool) (s : spst) (ts : list sref) : spres :=
  match ts with
  | [] => SpGo s
  | t :: ts => match split_token buf umode cached s t with SpGo s' => split_tokens buf umode cached s' ts | r => r end
  end.

(** What rtpp_command_split leaves: cookie, arguments and sub-commands as strings. *)
Inductive split_result :=
| ROob | RAbort | RDup (cookie : list Z) | RSyntaxError
| RCommand (cookie : option (list Z)) (args : list (list Z)) (subc : list (list (list Z))).

Definition str_at (buf : list Z) (t : sref) : list Z := firstn (snd t) (skipn (fst t) buf).
Definition args_at (buf : list Z) (a : cargs) : list (list Z) :=
  map (fun o => match o with Some t => str_at buf t | None => [] end) (firstn (ca_c a) (ca_v a)).

(** rtpp_command_split, src/rtpp_command.c:362-463, without the logging, the statistics and the
    final call of rtpp_command_pre_parse. [buf] is cmd->buf, [mbuf] the uninitialised local array. *)
Definition command_split (big : bool) (buf mbuf : list Z) (len : nat) (umode : bool) (cached : list Z -> bool) : split_result :=
  match strsplit big buf mbuf len with
  | None => ROob
  | Some (buf', mbuf') =>
      let s0 := mkSpst None cargs0 (repeat cargs0 MAX_SUBC_NUM) 0 None 0 in
      match split_tokens buf' umode cached s0 (scan len (firstn len mbuf') 0) with
      | SpOob => ROob
      | SpAbort => RAbort
      | SpDup t => RDup (str_at buf' t)
      | SpErr => RSyntaxError
      | SpGo s =>
          if (ca_c (sp_args s) <? 1)%nat || (umode && match sp_cookie s with None => true | _ => false end) then RSyntaxError
          else if existsb (fun a => (ca_c a <? 1)%nat) (firstn (sp_n s) (sp_subc s)) then RSyntaxError
          else RCommand (option_map (str_at buf') (sp_cookie s)) (args_at buf' (sp_args s)) (map (args_at buf') (firstn (sp_n s) (sp_subc s)))
      end
  end.
