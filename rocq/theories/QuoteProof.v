From Verif Require Import Base QuoteModel QuoteSpec.

Lemma hex2char_val c : hex2char c = match hexval c with Some v => v | None => -1 end.
Proof. unfold hex2char, hexval. repeat match goal with |- context[if ?b then _ else _] => destruct b end; lia. Qed.
Lemma hexval_range c v : hexval c = Some v -> 0 <= v < 16 /\ c <= 127.
Proof. unfold hexval. repeat match goal with |- context[if ?b then _ else _] => destruct b eqn:? end; try discriminate; intros [= <-]; lia. Qed.

Lemma nibbles x y : 0 <= x < 16 -> 0 <= y < 16 -> Z.lor (Z.shiftl x 4) y = 16 * x + y.
Proof.
  intros Hx Hy.
  assert (forallb (fun a => forallb (fun b => Z.lor (Z.shiftl (Z.of_nat a) 4) (Z.of_nat b) =? 16 * Z.of_nat a + Z.of_nat b) (seq 0 16)) (seq 0 16) = true) as H by (vm_compute; reflexivity).
  rewrite forallb_forall in H. specialize (H (Z.to_nat x)). rewrite in_seq in H. specialize (H ltac:(lia)).
  rewrite forallb_forall in H. specialize (H (Z.to_nat y)). rewrite in_seq in H. specialize (H ltac:(lia)).
  rewrite !Z2Nat.id in H by lia. lia.
Qed.

Lemma decoded_eq c t : decoded (c :: t) =
  if c =? 37 then match t with
      | a :: b :: t => match hexval a, hexval b, decoded t with Some x, Some y, Some r => Some (16 * x + y :: r) | _, _, _ => None end
      | _ => None end
  else match decoded t with Some r => Some ((if c =? 43 then 32 else c) :: r) | None => None end.
Proof.
  destruct (Z.eqb_spec c 37) as [->|N]; [reflexivity|].
  cbn [decoded]. destruct c as [|p|p]; try reflexivity.
  do 7 (try (destruct p as [p|p|]; try reflexivity)). congruence.
Qed.

Definition sub_at (mem : list Z) (off : nat) (l : list Z) : Prop := forall k, (k < length l)%nat -> nth_error mem (off + k) = nth_error l k.

Lemma sub_at_cons mem off c l : sub_at mem off (c :: l) -> nth_error mem off = Some c /\ sub_at mem (S off) l.
Proof.
  intros H. split.
  - specialize (H 0%nat). cbn in H. rewrite Nat.add_0_r in H. apply H. lia.
  - intros k Hk. specialize (H (S k)). cbn [length nth_error] in H. rewrite <- H by lia. f_equal. lia.
Qed.
Lemma sub_at_upd mem off l i b : sub_at mem off l -> (i < off)%nat \/ (off + length l <= i)%nat -> sub_at (upd mem i b) off l.
Proof. intros H Hi k Hk. rewrite nth_error_upd_other by lia. apply H, Hk. Qed.

Lemma unquote_ok n : forall rem, (length rem <= n)%nat -> forall fuel mem cp ocp outlen,
  (length rem <= fuel)%nat -> sub_at mem cp rem -> (ocp <= cp)%nat \/ (cp + length rem < ocp)%nat ->
  (ocp + length rem <= length mem)%nat ->
  decoded rem <> None \/ (exists z, nth_error mem (cp + length rem) = Some z /\ hexval z = None) ->
  exists mem', unquote_loop fuel mem cp ocp (cp + length rem) outlen
      = MRet (match decoded rem with Some out => outlen + Z.of_nat (length out) - Z.of_nat (length rem) | None => -1 end) mem' /\
    length mem' = length mem /\
    (forall out, decoded rem = Some out -> sub_at mem' ocp out) /\
    (forall i, (i < ocp)%nat \/ (ocp + length rem <= i)%nat -> nth_error mem' i = nth_error mem i).
Proof.
  induction n as [|n IH]; intros rem Hn fuel mem cp ocp outlen Hf Hs Ha Hl Ht.
  { destruct rem; [|cbn in Hn; lia]. exists mem. destruct fuel; cbn [unquote_loop length]; rewrite Nat.add_0_r, Nat.ltb_irrefl;
    (split; [cbn; f_equal; lia|]); (split; [reflexivity|]); (split; [intros out [= <-] k Hk; cbn in Hk; lia|]); auto. }
  destruct rem as [|c t].
  { exists mem. destruct fuel; cbn [unquote_loop length]; rewrite Nat.add_0_r, Nat.ltb_irrefl;
    (split; [cbn; f_equal; lia|]); (split; [reflexivity|]); (split; [intros out [= <-] k Hk; cbn in Hk; lia|]); auto. }
  destruct fuel as [|fuel]; [cbn in Hf; lia|].
  destruct (sub_at_cons _ _ _ _ Hs) as [Hc Hst]. cbn [unquote_loop].
  destruct (Nat.ltb_spec cp (cp + length (c :: t))) as [_|X]; [|cbn in X; lia].
  rewrite Hc. rewrite decoded_eq. rewrite decoded_eq in Ht. cbn [length] in *.
  destruct (Z.eqb_spec c 37) as [->|Nc].
  - destruct t as [|a t]; [|destruct t as [|b t]].
    + cbn [length]. replace (cp + 1 <? cp + 2)%nat with true by lia. exists mem. repeat split; auto; discriminate.
    + cbn [length]. replace (cp + 2 <? cp + 2)%nat with false by lia.
      destruct (sub_at_cons _ _ _ _ Hst) as [H1 _]. rewrite Nat.add_1_r, H1.
      destruct Ht as [Ht|(z & Hz & Hv)]; [congruence|]. cbn [length] in Hz.
      rewrite Hz. destruct (a >? 127); [exists mem; repeat split; auto; discriminate|].
      rewrite (hex2char_val z), Hv. replace (-1 =? -1) with true by reflexivity. rewrite orb_true_r.
      exists mem; repeat split; auto; discriminate.
    + cbn [length] in *. replace (cp + S (S (S (length t))) <? cp + 2)%nat with false by lia.
      destruct (sub_at_cons _ _ _ _ Hst) as [H1 Hst2]. destruct (sub_at_cons _ _ _ _ Hst2) as [H2 Hst3].
      replace (cp + 1)%nat with (S cp) by lia. rewrite H1. replace (cp + 2)%nat with (S (S cp)) by lia. rewrite H2.
      destruct (hexval a) as [x|] eqn:Ex.
      2:{ destruct (a >? 127); [exists mem; repeat split; auto; discriminate|].
          rewrite (hex2char_val a), Ex. replace (-1 =? -1) with true by reflexivity. rewrite orb_true_r.
          exists mem; repeat split; auto; discriminate. }
      destruct (hexval_range _ _ Ex) as [Rx Ra]. replace (a >? 127) with false by lia.
      destruct (hexval b) as [y|] eqn:Ey.
      2:{ rewrite (hex2char_val b), Ey. replace (-1 =? -1) with true by reflexivity. rewrite orb_true_r.
          exists mem; repeat split; auto; discriminate. }
      destruct (hexval_range _ _ Ey) as [Ry Rb]. replace (b >? 127) with false by lia.
      rewrite (hex2char_val a), (hex2char_val b), Ex, Ey.
      replace (x =? -1) with false by lia. replace (y =? -1) with false by lia. cbn [orb].
      rewrite nibbles by assumption. unfold put1. replace (ocp <? length mem)%nat with true by lia.
      set (mem1 := upd mem ocp (16 * x + y)).
      destruct (IH t ltac:(lia) fuel mem1 (cp + 3)%nat (ocp + 1)%nat (outlen - 2)) as (mem' & E & L & O & Z).
      * lia.
      * replace (cp + 3)%nat with (S (S (S cp))) by lia. apply sub_at_upd; [assumption|lia].
      * lia.
      * unfold mem1. rewrite upd_length. lia.
      * destruct Ht as [Ht|(z & Hz & Hv)].
        -- left. destruct (decoded t); congruence.
        -- right. exists z. split; [|exact Hv]. unfold mem1. rewrite nth_error_upd_other by lia. rewrite <- Hz. f_equal. lia.
      * exists mem'. replace (cp + S (S (S (length t))))%nat with (cp + 3 + length t)%nat by lia. rewrite E.
        split; [|split; [|split]].
        -- f_equal. destruct (decoded t); cbn [length]; lia.
        -- rewrite L. apply upd_length.
        -- intros out Ho. destruct (decoded t) as [r|]; [|discriminate]. injection Ho as <-.
           intros [|k] Hk; cbn [length] in Hk.
           ++ rewrite Nat.add_0_r. rewrite Z by lia. unfold mem1. apply nth_error_upd_same. lia.
           ++ cbn [nth_error]. rewrite <- (O r eq_refl k) by lia. f_equal. lia.
        -- intros i Hi. rewrite Z by lia. unfold mem1. apply nth_error_upd_other. lia.
  - unfold put1. replace (ocp <? length mem)%nat with true by lia.
    set (v := if c =? 43 then 32 else c). set (mem1 := upd mem ocp v).
    destruct (IH t ltac:(lia) fuel mem1 (cp + 1)%nat (ocp + 1)%nat outlen) as (mem' & E & L & O & Z).
    + lia.
    + replace (cp + 1)%nat with (S cp) by lia. apply sub_at_upd; [assumption|lia].
    + lia.
    + unfold mem1. rewrite upd_length. lia.
    + destruct Ht as [Ht|(z & Hz & Hv)].
      * left. destruct (decoded t); congruence.
      * right. exists z. split; [|exact Hv]. unfold mem1. rewrite nth_error_upd_other by lia. rewrite <- Hz. f_equal. lia.
    + exists mem'. replace (cp + S (length t))%nat with (cp + 1 + length t)%nat by lia. rewrite E.
      split; [|split; [|split]].
      * f_equal. destruct (decoded t); cbn [length]; lia.
      * rewrite L. apply upd_length.
      * intros out Ho. destruct (decoded t) as [r|]; [|discriminate]. injection Ho as <-.
        intros [|k] Hk; cbn [length] in Hk.
        -- rewrite Nat.add_0_r. rewrite Z by lia. unfold mem1. apply nth_error_upd_same. lia.
        -- cbn [nth_error]. rewrite <- (O r eq_refl k) by lia. f_equal. lia.
      * intros i Hi. rewrite Z by lia. unfold mem1. apply nth_error_upd_other. lia.
Qed.

Lemma sub_at_area mem off l : sub_at mem off l -> (off + length l <= length mem)%nat -> area mem off (length l) = l.
Proof.
  intros H Hl. unfold area. revert mem off H Hl. induction l as [|c l IH]; intros mem off H Hl; [reflexivity|].
  destruct (sub_at_cons _ _ _ _ H) as [Hc Ht]. cbn [length] in *.
  assert (E : skipn off mem = c :: skipn (S off) mem).
  { clear - Hc. revert mem Hc. induction off as [|o IH]; intros [|h m] Hc; cbn in *; try discriminate; [congruence|]. apply IH, Hc. }
  rewrite E. cbn [firstn]. f_equal. apply IH; [exact Ht|lia].
Qed.
Lemma area_sub_at mem off len : (off + len <= length mem)%nat -> length (area mem off len) = len /\ sub_at mem off (area mem off len).
Proof.
  intros H. unfold area. assert (L : length (firstn len (skipn off mem)) = len) by (rewrite firstn_length, skipn_length; lia).
  split; [exact L|]. intros k Hk. rewrite L in Hk. revert off mem k len H L Hk. intros off. induction off as [|o IH]; intros mem k len H L Hk.
  - cbn [skipn Nat.add] in *. clear - Hk H. revert mem len H Hk. induction k as [|k IH]; intros [|m mem] [|len] H Hk; cbn in *; try lia; try reflexivity. apply IH; lia.
  - destruct mem as [|m mem]; [cbn in H; lia|]. cbn [skipn Nat.add nth_error]. apply IH; cbn in *; lia.
Qed.

Lemma upper_hex_dig v : 0 <= v < 16 -> hexdig v = upper_hex v /\ hexval (upper_hex v) = Some v.
Proof.
  intros H. assert (forallb (fun a => let v := Z.of_nat a in (hexdig v =? upper_hex v) && match hexval (upper_hex v) with Some w => w =? v | None => false end) (seq 0 16) = true) as X by (vm_compute; reflexivity).
  rewrite forallb_forall in X. specialize (X (Z.to_nat v)). rewrite in_seq in X. specialize (X ltac:(lia)). cbv zeta in X. rewrite Z2Nat.id in X by lia.
  apply andb_prop in X. destruct X as [X1 X2]. apply Z.eqb_eq in X1. split; [exact X1|]. destruct (hexval (upper_hex v)); [|discriminate]. f_equal. apply Z.eqb_eq, X2.
Qed.

Lemma quoted_decoded s q : bytes s -> quoted s q -> decoded q = Some s.
Proof.
  intros B H. induction H as [|c s q Hp H IH|c s q Hp H IH]; [reflexivity| |].
  - inversion B; subst. rewrite decoded_eq. unfold plain in Hp. replace (c =? 37) with false by lia. rewrite IH by assumption.
    replace (c =? 43) with false by lia. reflexivity.
  - inversion B; subst. rewrite decoded_eq. change (37 =? 37) with true. cbv iota.
    destruct (upper_hex_dig (c / 16)) as [_ ->]; [lia|]. destruct (upper_hex_dig (c mod 16)) as [_ ->]; [lia|].
    rewrite IH by assumption. f_equal. f_equal. lia.
Qed.

Lemma unreserved_plain c : unreserved c = true <-> plain c.
Proof. unfold unreserved, plain. lia. Qed.

Lemma quoted_total s : exists q, quoted s q.
Proof.
  induction s as [|c s [q IH]]; [exists []; constructor|].
  destruct (unreserved c) eqn:E.
  - exists (c :: q). constructor; [apply unreserved_plain, E|exact IH].
  - exists (37 :: upper_hex (c / 16) :: upper_hex (c mod 16) :: q). constructor; [|exact IH]. intros H. apply unreserved_plain in H. congruence.
Qed.

Lemma put1_app pre x post b k : put1 (pre ++ x :: post) (length pre) b k = k (pre ++ b :: post).
Proof.
  unfold put1. rewrite app_length. cbn [length]. replace (length pre <? length pre + S (length post))%nat with true by lia.
  rewrite upd_app_r by lia. replace (length pre - length pre)%nat with O by lia. reflexivity.
Qed.

Lemma nib_shift c : 0 <= c -> Z.shiftr c 4 = c / 16 /\ Z.land c 15 = c mod 16.
Proof. intros H. split; [rewrite Z.shiftr_div_pow2 by lia; reflexivity|]. change 15 with (Z.ones 4). rewrite Z.land_ones by lia. reflexivity. Qed.

Lemma quote_ok s : bytes s -> forall q, quoted s q -> forall done rest olen, Z.of_nat (length done) <= olen <= Z.of_nat (length (done ++ rest)) ->
  exists rest', quote_loop s (done ++ rest) (Z.of_nat (length done)) olen =
     (if Z.of_nat (length (done ++ q)) <=? olen then MRet (Z.of_nat (length (done ++ q))) (done ++ rest') else MRet (-1) (done ++ rest')) /\
    length rest' = length rest /\ (Z.of_nat (length (done ++ q)) <= olen -> firstn (length q) rest' = q) /\
    (forall i, olen <= Z.of_nat i -> nth_error (done ++ rest') i = nth_error (done ++ rest) i).
Proof.
  intros B. induction s as [|c s IH]; intros q Hq done rest olen Ho.
  - inversion Hq; subst. cbn [quote_loop]. exists rest. rewrite app_nil_r. replace (Z.of_nat (length done) <=? olen) with true by lia.
    repeat split; auto.
  - inversion B as [|? ? Hc Bs]; subst. specialize (IH Bs). cbn [quote_loop].
    inversion Hq as [|c' s' q' Hp Hq'|c' s' q' Hp Hq']; subst.
    + replace (unreserved c) with true by (symmetry; apply unreserved_plain, Hp).
      destruct (Z.eqb_spec (olen - Z.of_nat (length done)) 0).
      * exists rest. rewrite app_length in *. cbn [length]. replace (Z.of_nat (length done + S (length q')) <=? olen) with false by lia.
        repeat split; auto. lia.
      * destruct rest as [|r rest]; [rewrite app_nil_r in Ho; lia|]. rewrite Nat2Z.id, put1_app.
        replace (done ++ c :: rest) with ((done ++ [c]) ++ rest) by (rewrite <- app_assoc; reflexivity).
        replace (Z.of_nat (length done) + 1) with (Z.of_nat (length (done ++ [c]))) by (rewrite app_length; cbn; lia).
        destruct (IH q' Hq' (done ++ [c]) rest olen) as (rest' & E & L & F & Z).
        { rewrite !app_length in *. cbn [length] in *. lia. }
        exists (c :: rest'). rewrite <- !app_assoc in E. cbn [app] in E. rewrite <- app_assoc. cbn [app]. rewrite E. split; [reflexivity|]. split; [cbn; lia|]. split.
        -- intros X. cbn [length firstn]. f_equal. apply F. rewrite <- app_assoc. exact X.
        -- intros i Hi. specialize (Z i Hi). rewrite <- !app_assoc in Z. cbn [app] in Z. rewrite Z.
           rewrite !app_length in Ho. cbn [length] in Ho.
           rewrite !nth_error_app2 by lia. destruct (i - length done)%nat as [|j] eqn:Ej; [lia|reflexivity].
    + replace (unreserved c) with false by (symmetry; destruct (unreserved c) eqn:E; [exfalso; apply Hp, unreserved_plain, E|reflexivity]).
      destruct (Z.ltb_spec (olen - Z.of_nat (length done)) 3).
      * exists rest. rewrite app_length in *. cbn [length]. replace (Z.of_nat (length done + S (S (S (length q')))) <=? olen) with false by lia.
        repeat split; auto. lia.
      * rewrite app_length in Ho. destruct rest as [|r1 [|r2 [|r3 rest]]]; cbn [length] in Ho; try lia. rewrite Nat2Z.id, put1_app.
        replace (done ++ 37 :: r2 :: r3 :: rest) with ((done ++ [37]) ++ r2 :: r3 :: rest) by (rewrite <- app_assoc; reflexivity).
        replace (length done + 1)%nat with (length (done ++ [37])) by (rewrite app_length; cbn; lia). rewrite put1_app.
        destruct (nib_shift c) as [-> ->]; [lia|].
        destruct (upper_hex_dig (c / 16)) as [-> _]; [lia|]. destruct (upper_hex_dig (c mod 16)) as [-> _]; [lia|].
        replace ((done ++ [37]) ++ upper_hex (c / 16) :: r3 :: rest) with ((done ++ [37; upper_hex (c / 16)]) ++ r3 :: rest) by (rewrite <- !app_assoc; reflexivity).
        replace (length done + 2)%nat with (length (done ++ [37; upper_hex (c / 16)])) by (rewrite app_length; cbn; lia). rewrite put1_app.
        replace ((done ++ [37; upper_hex (c / 16)]) ++ upper_hex (c mod 16) :: rest) with ((done ++ [37; upper_hex (c / 16); upper_hex (c mod 16)]) ++ rest) by (rewrite <- !app_assoc; reflexivity).
        set (d3 := [37; upper_hex (c / 16); upper_hex (c mod 16)]).
        replace (Z.of_nat (length done) + 3) with (Z.of_nat (length (done ++ d3))) by (rewrite app_length; cbn; lia).
        destruct (IH q' Hq' (done ++ d3) rest olen) as (rest' & E & L & F & Z).
        { rewrite !app_length in *. cbn [length d3] in *. lia. }
        exists (d3 ++ rest'). change (37 :: upper_hex (c / 16) :: upper_hex (c mod 16) :: q') with (d3 ++ q').
        rewrite !app_assoc. rewrite E. split; [reflexivity|]. split; [cbn; lia|]. split.
        -- intros X. unfold d3. cbn [length app firstn]. do 3 f_equal. apply F. exact X.
        -- intros i Hi. specialize (Z i Hi). rewrite Z. rewrite <- app_assoc. rewrite (nth_error_app2 done (d3 ++ rest)) by lia. rewrite (nth_error_app2 done (r1 :: r2 :: r3 :: rest)) by lia.
           destruct (i - length done)%nat as [|[|[|j]]] eqn:Ej; try lia. reflexivity.
Qed.

Lemma decoded_length s out : decoded s = Some out -> (length out <= length s)%nat.
Proof.
  remember (length s) as n eqn:En. assert (Hn : (length s <= n)%nat) by lia. clear En. revert s Hn out.
  assert (G : forall s, (length s <= n)%nat -> forall out, decoded s = Some out -> (length out <= length s)%nat).
  { induction n as [|n IH]; intros s Hn out D; [destruct s; [injection D as <-; cbn; lia|cbn in Hn; lia]|].
    destruct s as [|c t]; [injection D as <-; cbn; lia|]. rewrite decoded_eq in D. cbn [length] in *. destruct (c =? 37).
    - destruct t as [|a [|b t]]; try discriminate. destruct (hexval a), (hexval b), (decoded t) as [r|] eqn:Er; try discriminate.
      injection D as <-. cbn [length] in *. specialize (IH t ltac:(lia) r Er). lia.
    - destruct (decoded t) as [r|] eqn:Er; [|discriminate]. injection D as <-. cbn [length]. specialize (IH t ltac:(lia) r Er). lia. }
  intros s Hn out D. specialize (G s Hn out D). lia.
Qed.
