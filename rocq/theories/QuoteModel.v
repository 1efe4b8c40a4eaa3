(** Model of url_unquote2, url_unquote and url_quote, src/rtpp_util.c:283-361. *)
From Verif Require Import Base.

(** hex2char, src/rtpp_util.c:283-292: defined for bytes below 128, -1 for a non-digit. *)
Definition hex2char (c : Z) : Z :=
  if (48 <=? c) && (c <=? 57) then c - 48
  else if (65 <=? c) && (c <=? 70) then c - 55
  else if (97 <=? c) && (c <=? 102) then c - 87
  else -1.

(** The memory afterwards with the return value, or an access outside of it. *)
Inductive mres := MOob | MRet (rval : Z) (mem : list Z).

Definition put1 (mem : list Z) (i : nat) (b : Z) (k : list Z -> mres) : mres :=
  if (i <? length mem)%nat then k (upd mem i b) else MOob.

(** url_unquote2, src/rtpp_util.c:294-327, the loop. Both buffers are areas of one block [mem], so
    that they may coincide; [cp], [ocp] and [endp] are offsets in it. One round of the loop per
    unit of [fuel]; [url_unquote2] gives as many as there are input bytes. The store of the
    default case is skipped by the code when the two offsets are equal, where it changes nothing. *)
Fixpoint unquote_loop (fuel : nat) (mem : list Z) (cp ocp endp : nat) (outlen : Z) : mres :=
  if (cp <? endp)%nat then
    match fuel with
    | O => MOob
    | S fuel' =>
        match nth_error mem cp with
        | None => MOob
        | Some c =>
            if c =? 37 (* '%' *) then
              if (endp <? cp + 2)%nat then MRet (-1) mem
              else match nth_error mem (cp + 1) with
                   | None => MOob
                   | Some c1 =>
                       if c1 >? 127 then MRet (-1) mem
                       else match nth_error mem (cp + 2) with
                            | None => MOob
                            | Some c2 =>
                                if (c2 >? 127) || (hex2char c1 =? -1) || (hex2char c2 =? -1) then MRet (-1) mem
                                else put1 mem ocp (Z.lor (Z.shiftl (hex2char c1) 4) (hex2char c2))
                                       (fun mem' => unquote_loop fuel' mem' (cp + 3) (ocp + 1) endp (outlen - 2))
                            end
                   end
            else put1 mem ocp (if c =? 43 (* '+' *) then 32 else c)
                   (fun mem' => unquote_loop fuel' mem' (cp + 1) (ocp + 1) endp outlen)
        end
    end
  else MRet outlen mem.

(** url_unquote2(ibuf, obuf, len) for len >= 0; url_unquote (src/rtpp_util.c:329-334) is the case
    [ibuf = obuf]. *)
Definition url_unquote2 (mem : list Z) (ibuf obuf len : nat) : mres :=
  unquote_loop len mem ibuf obuf (ibuf + len) (Z.of_nat len).

(** hex[], src/rtpp_util.c:338 *)
Definition hexdig (v : Z) : Z := if v <? 10 then 48 + v else 55 + v.

Definition unreserved (c : Z) : bool :=
  ((65 <=? c) && (c <=? 90)) || ((97 <=? c) && (c <=? 122)) || ((48 <=? c) && (c <=? 57)) ||
  (c =? 45) || (c =? 95) || (c =? 46) || (c =? 126).

(** url_quote, src/rtpp_util.c:336-361. [obuf] is the output block, [outlen] the offset of ocp. *)
Fixpoint quote_loop (inp : list Z) (obuf : list Z) (outlen olen : Z) : mres :=
  match inp with
  | [] => MRet outlen obuf
  | c :: t =>
      let o := Z.to_nat outlen in
      if unreserved c then
        if olen - outlen =? 0 then MRet (-1) obuf
        else put1 obuf o c (fun b => quote_loop t b (outlen + 1) olen)
      else if olen - outlen <? 3 then MRet (-1) obuf
      else put1 obuf o 37 (fun b => put1 b (o + 1) (hexdig (Z.shiftr c 4))
             (fun b => put1 b (o + 2) (hexdig (Z.land c 15)) (fun b => quote_loop t b (outlen + 3) olen)))
  end.
Definition url_quote (inp obuf : list Z) (olen : Z) : mres := quote_loop inp obuf 0 olen.
