(** C25: URL quoting. *)
From Verif Require Import Base QuoteModel QuoteSpec QuoteProof.

(** Quoting writes exactly the quoted form when it fits the [olen] bytes given and returns its
    length; otherwise it returns -1. Nothing outside of those bytes is touched. *)
Theorem url_quote_exact : forall s q obuf olen, bytes s -> quoted s q -> 0 <= olen <= Z.of_nat (length obuf) ->
  exists obuf', url_quote s obuf olen = MRet (if Z.of_nat (length q) <=? olen then Z.of_nat (length q) else -1) obuf' /\
    length obuf' = length obuf /\ (Z.of_nat (length q) <= olen -> area obuf' 0 (length q) = q) /\
    (forall i, olen <= Z.of_nat i -> nth_error obuf' i = nth_error obuf i).
Proof.
  intros s q obuf olen B Hq Ho. destruct (quote_ok s B q Hq [] obuf olen Ho) as (r & E & L & F & Zr).
  exists r. cbn [app] in *. unfold url_quote. change (Z.of_nat (@length Z [])) with 0 in E. rewrite E.
  split; [destruct (Z.of_nat (length q) <=? olen); reflexivity|]. auto.
Qed.
Print Assumptions url_quote_exact.

(** Round trip: what was quoted is unquoted, in place, to the original string, whatever follows
    it in memory. *)
Theorem url_quote_unquote_roundtrip : forall s obuf olen n obuf', bytes s -> 0 <= olen <= Z.of_nat (length obuf) ->
  url_quote s obuf olen = MRet n obuf' -> 0 <= n ->
  exists obuf'', url_unquote2 obuf' 0 0 (Z.to_nat n) = MRet (Z.of_nat (length s)) obuf'' /\ area obuf'' 0 (length s) = s.
Proof.
  intros s obuf olen n obuf' B Ho E Hn. destruct (quoted_total s) as [q Hq].
  destruct (url_quote_exact s q obuf olen B Hq Ho) as (ob & E' & L & F & _). rewrite E in E'. injection E' as -> ->.
  destruct (Z.leb_spec (Z.of_nat (length q)) olen) as [Hf|]; [|lia]. specialize (F Hf).
  assert (Hq' : (length q <= length ob)%nat) by lia.
  rewrite Nat2Z.id. destruct (area_sub_at ob 0 (length q)) as [_ S]; [lia|]. rewrite F in S.
  pose proof (quoted_decoded s q B Hq) as D.
  destruct (unquote_ok (length q) q (le_n _) (length q) ob 0 0 (Z.of_nat (length q)) (le_n _) S) as (m & E2 & L2 & O & _); [lia|lia|left; congruence|].
  exists m. unfold url_unquote2. rewrite E2, D. split; [f_equal; lia|]. apply sub_at_area; [exact (O s D)|].
  assert (length s <= length q)%nat; [|lia]. clear - Hq. induction Hq; cbn; lia.
Qed.
Print Assumptions url_quote_unquote_roundtrip.

(** Unquoting, in place or into another area, of any string that is followed by a byte which is
    not a hexadecimal digit (such as the terminator of a C string): no access outside of the block,
    the decoded string or -1, and only the output area changes.
    Full claim: without the hypothesis on the following byte, and without it being read. *)
Theorem url_unquote_exact_partial : forall mem ibuf obuf len z,
  nth_error mem (ibuf + len) = Some z -> hexval z = None -> (obuf + len <= length mem)%nat ->
  (obuf <= ibuf)%nat \/ (ibuf + len < obuf)%nat ->
  exists mem' r, url_unquote2 mem ibuf obuf len = MRet r mem' /\ length mem' = length mem /\
    match decoded (area mem ibuf len) with
    | Some out => r = Z.of_nat (length out) /\ area mem' obuf (length out) = out
    | None => r = -1
    end /\
    (forall i, (i < obuf)%nat \/ (obuf + len <= i)%nat -> nth_error mem' i = nth_error mem i).
Proof.
  intros mem ibuf obuf len z Hz Hv Hl Ha.
  assert (Hi : (ibuf + len < length mem)%nat) by (apply nth_error_Some; congruence).
  destruct (area_sub_at mem ibuf len) as [La S]; [lia|]. set (s := area mem ibuf len) in *. rewrite <- La in Hz, Hl, Ha.
  destruct (unquote_ok (length s) s (le_n _) (length s) mem ibuf obuf (Z.of_nat (length s)) (le_n _) S Ha Hl) as (m & E & L & O & Z); [right; eauto|].
  exists m, (match decoded s with Some out => Z.of_nat (length s) + Z.of_nat (length out) - Z.of_nat (length s) | None => -1 end).
  unfold url_unquote2. rewrite La in *. rewrite E. split; [reflexivity|]. split; [exact L|]. split; [|exact Z].
  destruct (decoded s) as [out|] eqn:D; [|reflexivity]. split; [lia|]. apply sub_at_area; [exact (O out eq_refl)|].
  assert (length out <= length s)%nat; [|lia]. eapply decoded_length; eassumption.
Qed.
Print Assumptions url_unquote_exact_partial.

(** Without it: a two byte string "%4" at the end of a block is read past its end, and followed by
    another digit it yields the empty string instead of an error. *)
Theorem url_unquote_overread_refuted :
  (exists mem, url_unquote2 mem 0 0 (length mem) = MOob) /\
  (exists mem mem', decoded (area mem 0 2) = None /\ url_unquote2 mem 0 0 2 = MRet 0 mem').
Proof.
  split; [exists [37; 52]; reflexivity|]. exists [37; 52; 49], [65; 52; 49]. split; reflexivity.
Qed.
Print Assumptions url_unquote_overread_refuted.

(** "a b%/+" quoted into an area of 20 bytes and back. *)
Example url_quote_ex : exists m,
  url_quote [97; 32; 98; 37; 47; 43] (repeat 7 20) 20 = MRet 14 m /\
  area m 0 14 = [97; 37; 50; 48; 98; 37; 50; 53; 37; 50; 70; 37; 50; 66] /\
  (exists m', url_unquote2 m 0 0 14 = MRet 6 m' /\ area m' 0 6 = [97; 32; 98; 37; 47; 43]) /\
  (exists m', url_quote [97; 32; 98; 37; 47; 43] (repeat 7 20) 13 = MRet (-1) m').
Proof. eexists. split; [vm_compute; reflexivity|]. split; [reflexivity|]. split; eexists; [split|]; vm_compute; reflexivity. Qed.
