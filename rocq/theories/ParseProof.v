From Verif Require Import Base Str StrSpec StrProof NumModel NumSpec NumProof ParseModel ParseSpec.

Lemma letter_spec c L : is_letter c L = true <-> either L c.
Proof. unfold is_letter, either. lia. Qed.
Lemma letter_false c L : is_letter c L = false <-> ~ either L c.
Proof. unfold is_letter, either. lia. Qed.

Lemma word_intro w L : w <> [] -> is_letter (head0 w) L = true -> word L w (tl w).
Proof. intros N H. apply letter_spec in H. destruct w as [|c t]; [congruence|]. cbn in *. unfold word. destruct H as [->| ->]; auto. Qed.

(** ** Numbers *)
Lemma c_int_of v x : c_int v x <-> x = int_of v.
Proof.
  unfold c_int, int_of, is_int, LONG_MIN, LONG_MAX, s32. set (y := Z.max _ _). split.
  - intros (k & -> & H). replace (y + 2147483648) with (y + k * 4294967296 + 2147483648 + (- k) * 4294967296) by lia.
    rewrite Z_mod_plus_full, Z.mod_small; lia.
  - intros ->. pose proof (Z.div_mod (y + 2147483648) 4294967296 ltac:(lia)). pose proof (Z.mod_pos_bound (y + 2147483648) 4294967296 ltac:(lia)).
    exists (- ((y + 2147483648) / 4294967296)). lia.
Qed.

Lemma numeral_det s v r v' r' : numeral s v r -> numeral s v' r' -> int_of v = int_of v' /\ r = r'.
Proof.
  intros H H'. apply strtol_numeral in H. apply strtol_numeral in H'. pose proof (clamp_val v r) as [C1 C2]. pose proof (clamp_val v' r') as [D1 D2].
  rewrite <- H in C1, C2. rewrite <- H' in D1, D2. unfold int_of. rewrite <- C1, <- D1. split; [reflexivity|congruence].
Qed.

Lemma cstring_suffix s v rest : cstring s -> numeral s v rest -> cstring rest.
Proof. intros C H. apply numeral_suffix in H as [p ->]. apply Forall_app in C. tauto. Qed.
Lemma cstring_head0 s : cstring s -> (head0 s = 0 <-> s = []).
Proof. intros C. destruct s; cbn; [tauto|]. inversion C; subst. split; [lia|discriminate]. Qed.

Lemma play_count_ok m n : cstring m -> play_count m = Ok n <-> (m = [] /\ n = 1 \/ m <> [] /\ exists v, numeral m v [] /\ c_int v n).
Proof.
  intros C. destruct m as [|c t] eqn:Em.
  { cbn. split; [intros [= <-]; auto|]. intros [[_ ->]|[X _]]; [reflexivity|congruence]. }
  unfold play_count. rewrite <- Em in *. replace (match m with [] => Ok 1 | _ => _ end) with
    (let '(v, cp, _) := strtol m in match cp with Some rest => if head0 rest =? 0 then Ok (s32 v) else Err 17 | None => Err 17 end) by (rewrite Em; reflexivity).
  destruct (strtol_cases m) as [(v & rest & H & E)|[N (v & e & E)]]; rewrite E.
  - destruct (clamp_val v rest) as [C1 C2]. destruct (clamp v rest) as [[a b] d] eqn:Ec. cbn in C1, C2. subst a b.
    pose proof (cstring_head0 _ (cstring_suffix _ _ _ C H)) as Z0.
    destruct (Z.eqb_spec (head0 rest) 0) as [H0|H0].
    + apply Z0 in H0. subst rest. split.
      * intros [= <-]. right. split; [congruence|]. exists v. split; [exact H|]. apply c_int_of. reflexivity.
      * intros [[X _]|[_ (v' & H' & Hc)]]; [congruence|]. apply c_int_of in Hc. subst n. destruct (numeral_det _ _ _ _ _ H H') as [X _]. unfold int_of in X at 1. f_equal. exact X.
    + split; [discriminate|]. intros [[X _]|[_ (v' & H' & _)]]; [congruence|]. destruct (numeral_det _ _ _ _ _ H H') as [_ ->]. cbn in H0. lia.
  - split; [discriminate|]. intros [[X _]|[_ (v' & H' & _)]]; [congruence|]. destruct (N _ _ H').
Qed.
Lemma play_count_nn m : play_count m <> Null.
Proof. unfold play_count. destruct m; [discriminate|]. destruct (strtol _) as [[v [r|]] e]; [destruct (head0 r =? 0)|]; discriminate. Qed.

(** ** Modifiers *)
Lemma bool_iff (b r : bool) (P : Prop) : (r = true <-> b = true \/ P) -> ~ P -> r = b.
Proof. destruct b, r; intuition congruence. Qed.
Lemma del_ok m : forall b r, del_opts m b = Ok r <-> Forall (either 87) m /\ (r = true <-> b = true \/ Exists (either 87) m).
Proof.
  induction m as [|c t IH]; intros b r; cbn [del_opts].
  - split; [intros [= <-]; split; [constructor|]; rewrite Exists_nil; tauto|]. intros [_ H]. rewrite Exists_nil in H. apply bool_iff in H; [|tauto]. subst. reflexivity.
  - rewrite Forall_cons_iff, Exists_cons. destruct (is_letter c 87) eqn:E.
    + apply letter_spec in E. rewrite IH. split; intros [A HB]; (split; [tauto|]); rewrite HB; tauto.
    + apply letter_false in E. split; [discriminate|tauto].
Qed.
Lemma del_flag m r : del_opts m false = Ok r <-> Forall (either 87) m /\ flag 87 m r.
Proof. rewrite del_ok. unfold flag. split; intros [A H]; (split; [exact A|]); rewrite H; intuition discriminate. Qed.
Lemma del_nn m : forall b, del_opts m b <> Null.
Proof. induction m as [|c t IH]; intros b; cbn; [discriminate|]. destruct (is_letter c 87); [apply IH|discriminate]. Qed.

Lemma rec_ok (q : bool) m : forall s p r, record_opts q m s p = Ok r <->
  Forall (fun c => either 83 c \/ (q = false /\ either 80 c)) m /\ (fst r = true <-> s = true \/ Exists (either 83) m) /\ (snd r = true <-> p = true \/ Exists (either 80) m).
Proof.
  induction m as [|c t IH]; intros s p r; cbn [record_opts].
  - rewrite !Exists_nil. split.
    + intros [= <-]. cbn. split; [constructor|tauto].
    + intros (_ & H1 & H2). destruct r as [r1 r2]. cbn in *. apply bool_iff in H1, H2; try tauto. subst. reflexivity.
  - rewrite Forall_cons_iff, !Exists_cons. destruct (is_letter c 83) eqn:E.
    + apply letter_spec in E. assert (~ either 80 c) by (unfold either in *; lia). rewrite IH. split; intros (A & H1 & H2); (split; [tauto|]); rewrite H1, H2; split; tauto.
    + apply letter_false in E. destruct (is_letter c 80) eqn:E2.
      * apply letter_spec in E2. destruct q; [split; [discriminate|]; intros ([[X|[X _]] _] & _); [tauto|discriminate]|]. rewrite IH. split; intros (A & H1 & H2); (split; [tauto|]); rewrite H1, H2; split; tauto.
      * apply letter_false in E2. split; [discriminate|tauto].
Qed.
Lemma rec_nn q m : forall s p, record_opts q m s p <> Null.
Proof. induction m as [|c t IH]; intros s p; cbn; [discriminate|]. destruct (is_letter c 83); [apply IH|]. destruct (is_letter c 80); [destruct q; [discriminate|apply IH]|discriminate]. Qed.
Lemma flag_or L m (r : bool) : (r = true <-> false = true \/ Exists (either L) m) <-> flag L m r.
Proof. unfold flag. split; intros H; rewrite H; intuition discriminate. Qed.

Lemma norec_ok m r : cstring m -> norecord_opts m = Ok r <-> Forall (either 65) m /\ (length m <= 1)%nat /\ flag 65 m r.
Proof.
  intros C. unfold norecord_opts, flag. destruct m as [|c [|d t]]; cbn [head0 tl length].
  - change (is_letter 0 65) with false. cbn. rewrite Exists_nil. split; [intros [= <-]; repeat split; auto; intuition discriminate|]. intros (_ & _ & H). destruct r; [exfalso; apply H; reflexivity|reflexivity].
  - inversion C; subst. destruct (is_letter c 65) eqn:E.
    + apply letter_spec in E. cbn. split; [intros [= <-]; repeat split; auto|]. intros (_ & _ & H). f_equal. symmetry. apply H. auto.
    + apply letter_false in E. replace (c =? 0) with false by lia. cbn. split; [discriminate|]. intros (F & _). inversion F; tauto.
  - inversion C as [|? ? ? C']; inversion C'; subst. replace (d =? 0) with false by lia. replace (c =? 0) with false by lia. cbn [negb].
    destruct (is_letter c 65); split; try discriminate; intros (_ & X & _); lia.
Qed.
Lemma norec_nn m : norecord_opts m <> Null.
Proof. unfold norecord_opts. destruct (is_letter _ _), (negb (head0 (tl m) =? 0)), (negb (head0 m =? 0)); discriminate. Qed.

(** ** Sub-commands *)
Lemma atoi_c s x : cstring s -> (atoi_safe s = ATOI_OK x <-> exists v, numeral s v [] /\ c_int v x).
Proof. intros C. rewrite atoi_safe_cstring by assumption. split; intros (v & H & E); exists v; (split; [exact H|]); apply c_int_of; exact E. Qed.

Lemma cstring_skipn n s : cstring s -> cstring (skipn n s).
Proof. intros C. rewrite <- (firstn_skipn n s) in C. apply Forall_app in C. tauto. Qed.
Lemma cstring_tl s : cstring s -> cstring (tl s).
Proof. intros C. destruct s; [exact C|]. inversion C; assumption. Qed.

Lemma word_inj L w m m' : word L w m -> word L w m' -> m = m'.
Proof. intros [->| ->] [H|H]; injection H; auto; lia. Qed.

Lemma flag1 L m b : (length m <= 1)%nat -> 0 < L -> flag L m b <-> b = is_letter (head0 m) L.
Proof.
  intros Hl HL. unfold flag. destruct m as [|c [|]]; cbn [head0 length] in *; [| |lia].
  - rewrite Exists_nil. replace (is_letter 0 L) with false by (unfold is_letter; lia). destruct b; intuition discriminate.
  - rewrite Exists_cons, Exists_nil. rewrite <- letter_spec. destruct (is_letter c L), b; intuition discriminate.
Qed.

Lemma set_ok w m v r : cstring v -> (length m <= 1)%nat -> word 83 w m -> (set_subc m v = Ok r <->
  exists reverse name tos text n x, v = name ++ text /\ r = SSet reverse tos x /\ flag 82 m reverse /\
    (name = B "ttl=" /\ tos = false \/ name = B "tos=" /\ tos = true) /\ numeral text n [] /\ c_int n x /\ 0 < x).
Proof.
  intros C Hl W. unfold set_subc.
  set (o := if beq (firstn 4 v) (B "ttl=") then Some false else if beq (firstn 4 v) (B "tos=") then Some true else None).
  assert (O : forall name tos text, v = name ++ text -> (name = B "ttl=" /\ tos = false \/ name = B "tos=" /\ tos = true) -> o = Some tos /\ skipn 4 v = text).
  { intros name tos text -> [[-> ->]|[-> ->]]; split; reflexivity. }
  split.
  - destruct (Z.of_nat (length v) <? 5) eqn:El; [discriminate|]. destruct o as [tos|] eqn:Eo; [|discriminate].
    destruct (atoi_safe (skipn 4 v)) as [x| |] eqn:Ea; try discriminate. destruct (x <=? 0) eqn:Ex; [discriminate|]. intros [= <-].
    apply atoi_c in Ea; [|apply cstring_skipn; exact C]. destruct Ea as (n & Hn & Hc).
    exists (is_letter (head0 m) 82), (firstn 4 v), tos, (skipn 4 v), n, x. rewrite firstn_skipn. split; [reflexivity|]. split; [reflexivity|].
    split; [apply flag1; [exact Hl|lia|reflexivity]|]. split; [|split; [exact Hn|split; [exact Hc|lia]]].
    unfold o in Eo. destruct (beq (firstn 4 v) (B "ttl=")) eqn:E1; [apply beq_eq in E1; injection Eo as <-; auto|].
    destruct (beq (firstn 4 v) (B "tos=")) eqn:E2; [apply beq_eq in E2; injection Eo as <-; auto|discriminate].
  - intros (reverse & name & tos & text & n & x & Ev & -> & Hf & Hn & Hv & Hc & Hx). destruct (O _ _ _ Ev Hn) as [-> Es]. rewrite Es.
    assert (L4 : length name = 4%nat) by (destruct Hn as [[-> _]|[-> _]]; reflexivity).
    assert (text <> []). { intros ->. destruct Hv as (ws & sg & k & ds & E & _ & _ & N & _). destruct ws, sg, ds; discriminate || congruence. }
    replace (Z.of_nat (length v) <? 5) with false by (rewrite Ev, app_length, L4; destruct text; [congruence|cbn [length]; lia]).
    assert (Ea : atoi_safe text = ATOI_OK x) by (apply atoi_c; [rewrite <- Es; apply cstring_skipn; exact C|eauto]). rewrite Ea.
    replace (x <=? 0) with false by lia. apply flag1 in Hf; [|exact Hl|lia]. subst reverse. reflexivity.
Qed.

Definition upd (o : op) (to : option (list Z)) : Prop := o = UPDATE /\ to <> None.

Lemma arg_ok a i x : arg a i = Ok x <-> nth_error a i = Some x.
Proof. unfold arg. destruct (nth_error a i); split; congruence. Qed.
Lemma arg_nn a i : (i < length a)%nat -> exists x, arg a i = Ok x.
Proof. intros H. unfold arg. destruct (nth_error a i) eqn:E; [eauto|]. apply nth_error_None in E. lia. Qed.

Lemma is_letter_excl c L M : is_letter c L = true -> L <> M -> 65 <= L <= 90 -> 65 <= M <= 90 -> is_letter c M = false.
Proof. unfold is_letter. lia. Qed.

Lemma numeral_nonempty s v r : numeral s v r -> s <> [].
Proof. intros (ws & sg & k & ds & E & _ & _ & N & _) ->. destruct ws, sg, ds; discriminate || congruence. Qed.

Lemma subc_ok e o cid from to sa r : tokens sa -> cid <> None -> from <> None ->
  (parse_subc e o cid from to sa = Ok r <-> subcommand e (upd o to) sa r).
Proof.
  intros [Na TA] Hcid Hfrom. destruct sa as [|w more]; [congruence|]. inversion TA as [|? ? [Nw Cw] TM]; subst. clear Na TA.
  unfold parse_subc. change (arg (w :: more) 0) with (Ok w). cbn [rbind].
  pose proof (cstring_tl _ Cw) as Cm.
  assert (WL : forall L m, word L w m -> tl w = m /\ is_letter (head0 w) L = true /\ (length w = S (length m))%nat).
  { intros L m [->| ->]; cbn; repeat split; unfold is_letter; lia. }
  destruct (is_letter (head0 w) 77) eqn:EM; [|destruct (is_letter (head0 w) 68) eqn:ED; [|destruct (is_letter (head0 w) 83) eqn:ES; [|destruct (is_letter (head0 w) 76) eqn:EL; [|destruct (is_letter (head0 w) 67) eqn:EC]]]].
  - (* module *) split.
    + destruct (atoi_safe_sep (tl w) 58) as [[x1 next]| |] eqn:E1; try discriminate.
      destruct (atoi_safe next) as [x2| |] eqn:E2; try discriminate. destruct ((x1 <? 1) || (x2 <? 1)) eqn:Eb; [discriminate|].
      destruct (e_module e x1 x2) eqn:Em; [|discriminate]. intros [= <-].
      apply atoi_safe_sep_ok in E1 as (v1 & rest & H1 & Hh & -> & ->).
      assert (Hr : rest = 58 :: tl rest) by (destruct rest; cbn in *; [lia|subst; reflexivity]).
      apply atoi_c in E2; [|apply cstring_tl, (cstring_suffix _ _ _ Cm H1)]. destruct E2 as (v2 & H2 & C2).
      rewrite Hr in H1. eapply sg_module; [apply word_intro; eauto|exact H1|exact H2|apply c_int_of; reflexivity|exact C2|lia|lia|exact Em].
    + inversion 1 as [? m v1 next v2 x1 x2 ? W H1 H2 C1 C2 P1 P2 Em| | | |]; subst; try (destruct (WL _ _ ltac:(eassumption)) as (_ & X & _); unfold is_letter in *; lia).
      destruct (WL _ _ W) as (<- & _ & _). assert (E1 : atoi_safe_sep (tl w) 58 = ATOI_OK (x1, next)).
      { apply atoi_safe_sep_ok. exists v1, (58 :: next). repeat split; [exact H1|]. apply c_int_of; exact C1. }
      rewrite E1. assert (E2 : atoi_safe next = ATOI_OK x2). { apply atoi_c; [pose proof (cstring_suffix _ _ _ Cm H1) as X; inversion X; assumption|eauto]. }
      rewrite E2. replace ((x1 <? 1) || (x2 <? 1)) with false by lia. rewrite Em. reflexivity.
  - (* delete *) split.
    + destruct more; [|cbn [length]; replace (negb (Z.of_nat (S (S (length more))) =? 1)) with true by lia; discriminate]. cbn [length Z.of_nat Z.eqb negb].
      change (negb (Z.pos (Pos.of_succ_nat 0) =? 1)) with false. cbv iota.
      destruct (del_opts (tl w) false) as [| |weak] eqn:E; try discriminate. intros [= <-]. apply del_flag in E as [E1 E2]. eapply sg_delete; [apply word_intro; eauto|exact E1|exact E2].
    + inversion 1 as [|? m weak W F1 F2| | |]; subst; try (destruct (WL _ _ ltac:(eassumption)) as (_ & X & _); unfold is_letter in *; lia).
      destruct (WL _ _ W) as (<- & _ & _). cbn [length]. change (negb (Z.of_nat 1 =? 1)) with false. cbv iota.
      assert (E : del_opts (tl w) false = Ok weak) by (apply del_flag; auto). rewrite E. reflexivity.
  - (* set *) pose proof (word_intro w 83 Nw ES) as W. destruct (WL _ _ W) as (_ & _ & LW). split.
    + destruct (negb _ || _ || _) eqn:Eb; [discriminate|]. cbn [length] in Eb. destruct more as [|v [|]]; cbn [length] in Eb; try lia. inversion TM as [|? ? [_ Cv] _]; subst.
      change (arg [w; v] 1) with (Ok v). cbn [rbind]. intros H. apply (set_ok w) in H as (rv & name & tos & text & n & x & -> & -> & F & N & V & C & P); [|assumption|lia|exact W].
      eapply sg_set; eauto. lia.
    + inversion 1 as [| |? m rv name tos text v x W' Lm F N V C P| |]; subst; try (destruct (WL _ _ ltac:(eassumption)) as (_ & X & _); unfold is_letter in *; lia).
      pose proof (word_inj _ _ _ _ W W'); subst m. cbn [length]. replace (negb (Z.of_nat 2 =? 2) || (Z.of_nat (length w) <? 1) || (Z.of_nat (length w) >? 2)) with false by lia.
      change (arg [w; name ++ text] 1) with (Ok (name ++ text)). cbn [rbind]. inversion TM as [|? ? [_ Cv] _]; subst.
      apply (set_ok w); [assumption|lia|exact W|]. exists rv, name, tos, text, v, x. auto 10.
  - (* lookup *) split.
    + destruct o; try discriminate. destruct cid; try discriminate. destruct from; try discriminate. destruct to as [t|]; try discriminate.
      cbn [length]. destruct more as [|addr [|port [|]]]; try (cbn [length]; match goal with |- context [negb (?z =? 3)] => replace (negb (z =? 3)) with true by lia end; discriminate).
      change (negb (Z.of_nat (S (length [addr; port])) =? 3)) with false. cbv iota. change (arg [w; addr; port] 1) with (Ok addr). change (arg [w; addr; port] 2) with (Ok port). cbn [rbind].
      destruct (e_ulopts e LOOKUP (tl w) addr port None =? 0) eqn:Eu; [|discriminate]. intros [= <-]. apply sg_lookup; [split; [reflexivity|discriminate]|apply word_intro; assumption|lia].
    + inversion 1 as [| | |? m addr port U W Eu|]; subst; try (destruct (WL _ _ ltac:(eassumption)) as (_ & X & _); unfold is_letter in *; lia).
      destruct (WL _ _ W) as (<- & _ & _). destruct U as [-> Ht]. destruct cid; [|congruence]. destruct from; [|congruence]. destruct to; [|congruence].
      cbn [length]. change (negb (Z.of_nat 3 =? 3)) with false. cbv iota. change (arg [w; addr; port] 1) with (Ok addr). change (arg [w; addr; port] 2) with (Ok port). cbn [rbind]. rewrite Eu. reflexivity.
  - (* copy *) pose proof (word_intro w 67 Nw EC) as W. destruct (WL _ _ W) as (_ & _ & LW). split.
    + destruct o; try discriminate. destruct to as [t|]; try discriminate. destruct (negb _ || negb _) eqn:Eb; [discriminate|].
      destruct more as [|v1 [|v2 [|v3 [|]]]]; cbn [length] in Eb; try lia.
      change (arg [w; v1; v2; v3] 1) with (Ok v1). change (arg [w; v1; v2; v3] 2) with (Ok v2). change (arg [w; v1; v2; v3] 3) with (Ok v3). cbn [rbind].
      repeat match goal with X : Forall _ (_ :: _) |- _ => inversion X; clear X; subst end.
      destruct ((Z.of_nat (length v1) <? 1) || (Z.of_nat (length v2) <? 1) || (Z.of_nat (length v3) <? 1)) eqn:E3; [discriminate|]. intros [= <-].
      assert (tl w = []) as Etl by (destruct (tl w); [reflexivity|cbn [length] in *; lia]). rewrite Etl in W.
      apply sg_copy; [split; [reflexivity|discriminate]|exact W|tauto|tauto|tauto].
    + inversion 1 as [| | | |? c f t U W' N1 N2 N3]; subst; try (destruct (WL _ _ ltac:(eassumption)) as (_ & X & _); unfold is_letter in *; lia).
      destruct U as [-> Ht]. destruct to; [|congruence]. destruct (WL _ _ W') as (_ & _ & L1). cbn [length] in *. replace (negb (Z.of_nat 4 =? 4) || negb (Z.of_nat (length w) =? 1)) with false by lia.
      change (arg [w; c; f; t] 1) with (Ok c). change (arg [w; c; f; t] 2) with (Ok f). change (arg [w; c; f; t] 3) with (Ok t). cbn [rbind].
      replace ((Z.of_nat (length c) <? 1) || (Z.of_nat (length f) <? 1) || (Z.of_nat (length t) <? 1)) with false; [reflexivity|].
      destruct c, f, t; cbn [length]; try congruence; lia.
  - split; [discriminate|]. inversion 1; subst; destruct (WL _ _ ltac:(eassumption)) as (_ & X & _); congruence.
Qed.

Lemma subc_nn e o cid from to sa : tokens sa -> parse_subc e o cid from to sa <> Null.
Proof.
  intros [Na _]. destruct sa as [|w more]; [congruence|]. unfold parse_subc. change (arg (w :: more) 0) with (Ok w). cbn [rbind].
  destruct (is_letter (head0 w) 77).
  { destruct (atoi_safe_sep (tl w) 58) as [[x1 next]| |]; try discriminate. destruct (atoi_safe next); try discriminate. destruct (_ || _); [discriminate|]. destruct (e_module _ _ _); discriminate. }
  destruct (is_letter (head0 w) 68).
  { destruct (negb _); [discriminate|]. pose proof (del_nn (tl w) false). destruct (del_opts (tl w) false); congruence. }
  destruct (is_letter (head0 w) 83).
  { destruct (negb _ || _ || _) eqn:Eb; [discriminate|]. destruct (arg_nn (w :: more) 1) as [v ->]; [cbn [length] in *; lia|]. cbn [rbind]. unfold set_subc.
    destruct (_ <? 5); [discriminate|]. destruct (if beq _ _ then _ else _); [|discriminate]. destruct (atoi_safe _); try discriminate. destruct (_ <=? 0); discriminate. }
  destruct (is_letter (head0 w) 76).
  { destruct o; try discriminate. destruct cid; try discriminate. destruct from; try discriminate. destruct to; try discriminate. destruct (negb _) eqn:Eb; [discriminate|].
    destruct (arg_nn (w :: more) 1) as [v ->]; [cbn [length] in *; lia|]. destruct (arg_nn (w :: more) 2) as [v2 ->]; [cbn [length] in *; lia|]. cbn [rbind]. destruct (_ =? 0); discriminate. }
  destruct (is_letter (head0 w) 67); [|discriminate].
  destruct o; try discriminate. destruct to; try discriminate. destruct (negb _ || negb _) eqn:Eb; [discriminate|].
  destruct (arg_nn (w :: more) 1) as [v ->]; [cbn [length] in *; lia|]. destruct (arg_nn (w :: more) 2) as [v2 ->]; [cbn [length] in *; lia|]. destruct (arg_nn (w :: more) 3) as [v3 ->]; [cbn [length] in *; lia|].
  cbn [rbind]. match goal with |- context [if ?b then _ else _] => destruct b end; discriminate.
Qed.

Lemma subcs_ok e o cid from to subs : cid <> None -> from <> None -> Forall tokens subs -> forall rs,
  parse_subcs e o cid from to subs = Ok rs <-> Forall2 (subcommand e (upd o to)) subs rs.
Proof.
  intros Hc Hf. induction 1 as [|sa subs T TS IH]; intros rs; cbn [parse_subcs].
  - split; [intros [= <-]; constructor|inversion 1; reflexivity].
  - split.
    + destruct (parse_subc e o cid from to sa) as [| |r] eqn:E; try discriminate. cbn [rbind]. destruct (parse_subcs e o cid from to subs) as [| |rs'] eqn:E'; try discriminate. cbn [rbind]. intros [= <-].
      constructor; [apply subc_ok in E; assumption|]. apply IH. reflexivity.
    + inversion 1 as [|? r ? rs' H1 H2]; subst. assert (E : parse_subc e o cid from to sa = Ok r) by (apply subc_ok; assumption). rewrite E. cbn [rbind]. apply IH in H2. rewrite H2. reflexivity.
Qed.
Lemma subcs_nn e o cid from to subs : Forall tokens subs -> parse_subcs e o cid from to subs <> Null.
Proof.
  induction 1 as [|sa subs T TS IH]; cbn [parse_subcs]; [discriminate|]. pose proof (subc_nn e o cid from to sa T).
  destruct (parse_subc e o cid from to sa); [congruence|discriminate|]. cbn [rbind]. destruct (parse_subcs e o cid from to subs); [congruence|discriminate|discriminate].
Qed.
Lemma subcommand_iff e (P Q : Prop) sa r : (P <-> Q) -> subcommand e P sa r -> subcommand e Q sa r.
Proof. intros H S. inversion S; subst; [eapply sg_module|eapply sg_delete|eapply sg_set|eapply sg_lookup|eapply sg_copy]; eauto; tauto. Qed.
Lemma subs_iff e (P Q : Prop) subs rs : (P <-> Q) -> Forall2 (subcommand e P) subs rs -> Forall2 (subcommand e Q) subs rs.
Proof. intros H F. induction F; constructor; [eapply subcommand_iff; eauto|assumption]. Qed.

(** ** Commands *)
Lemma word_is L w m : word L w m -> is_letter (head0 w) L = true /\ tl w = m /\ w <> [].
Proof. intros [->| ->]; cbn; repeat split; try discriminate; unfold is_letter; lia. Qed.

Lemma shape_fill n w mn mx cm sc m : w <> [] -> (shape n w mn mx cm sc m <->
  exists p, fill_cmd_props n w = Some p /\ pr_min p = mn /\ pr_max p = mx /\ pr_cmods p = cm /\ pr_subc p = sc /\ pr_mods p = m).
Proof.
  intros Nw. split.
  - intros H. inversion H; subst; match goal with X : word _ _ _ |- _ => destruct (word_is _ _ _ X) as (E & T & _) end; unfold fill_cmd_props;
      try (repeat match goal with |- context [is_letter (head0 w) ?L] => first [rewrite E | replace (is_letter (head0 w) L) with false by (unfold is_letter in *; lia)] end;
           eexists; split; [reflexivity|]; cbn [pr_min pr_max pr_cmods pr_subc pr_mods]; rewrite ?T; auto 10; fail).
    + repeat match goal with |- context [is_letter (head0 w) ?L] => first [rewrite E | replace (is_letter (head0 w) L) with false by (unfold is_letter in *; lia)] end.
      rewrite T. cbn [head0]. replace (is_letter f 70) with true by (unfold is_letter, either in *; lia). eexists; split; [reflexivity|]. cbn. auto 10.
    + repeat match goal with |- context [is_letter (head0 w) ?L] => first [rewrite E | replace (is_letter (head0 w) L) with false by (unfold is_letter in *; lia)] end.
      rewrite T. replace (is_letter (head0 m) 70) with false. { eexists; split; [reflexivity|]. cbn. auto 10. }
      destruct m as [|f t]; cbn [head0]; [reflexivity|]. pose proof (H1 f t eq_refl). unfold is_letter, either in *. lia.
  - intros (p & E & <- & <- & <- & <- & <-). unfold fill_cmd_props in E.
    repeat match type of E with (if is_letter (head0 w) ?L then _ else _) = _ => let X := fresh "X" in destruct (is_letter (head0 w) L) eqn:X; [apply (word_intro w L Nw) in X; try (injection E as <-; cbn [pr_min pr_max pr_cmods pr_subc pr_mods]; constructor; assumption)|] end; [|discriminate].
    destruct (is_letter (head0 (tl w)) 70) eqn:F; injection E as <-; cbn [pr_min pr_max pr_cmods pr_subc pr_mods].
    + destruct (tl w) as [|f t] eqn:T; [unfold is_letter in F; cbn in F; lia|]. cbn [tl head0] in *. eapply sh_vf; [eassumption|]. apply letter_spec in F. exact F.
    + apply sh_v; [assumption|]. intros f t T K. rewrite T in F. cbn [head0] in F. apply letter_spec in K. congruence.
Qed.

Lemma head0_nil m : cstring m -> negb (head0 m =? 0) = false -> m = [].
Proof. intros C H. apply cstring_head0; [exact C|lia]. Qed.


Lemma pre_fill n w more ns p : fill_cmd_props n w = Some p -> pr_min p <= Z.of_nat (S (length more)) <= pr_max p ->
  (pr_cmods p = false -> pr_mods p = []) -> (pr_subc p = false -> ns = 0%nat) ->
  pre_parse n (w :: more) ns = Ok (mkCca (pr_op p) (tl w) (if pr_cid p then argp (w :: more) 1 else None)
                     (match pr_fpos p with Some i => argp (w :: more) i | None => None end)
                     (match pr_tpos p with Some i => argp (w :: more) i | None => None end)).
Proof.
  intros F Hb Hm Hs. unfold pre_parse. change (arg (w :: more) 0) with (Ok w). cbn [rbind]. rewrite F. cbn [length].
  replace ((Z.of_nat (S (length more)) <? pr_min p) || (Z.of_nat (S (length more)) >? pr_max p)) with false by lia.
  destruct (pr_cmods p).
  - cbn [negb andb]. destruct (pr_subc p); cbn [negb andb]; [reflexivity|]. rewrite Hs by reflexivity. reflexivity.
  - rewrite Hm by reflexivity. cbn [negb andb head0 Z.eqb]. destruct (pr_subc p); cbn [negb andb]; [reflexivity|]. rewrite Hs by reflexivity. reflexivity.
Qed.

Ltac usepre W := (destruct W as [->| ->]; unfold parse_command; erewrite pre_fill by
   (try reflexivity; cbn [pr_min pr_max pr_cmods pr_mods pr_subc length opt_to opt_notify app]; try (intros; congruence); lia);
   cbn [rbind cc_op cc_mods cc_cid cc_from cc_to pr_op pr_cid pr_fpos pr_tpos tl]; cbn [arg argp nth_error rbind deref app opt_to opt_notify]).

Lemma command_parses e a subs r : tokens a -> Forall tokens subs -> command e a subs r -> parse_command e a subs = Ok r.
Proof.
  intros [_ TA] TS H.
  assert (CM : forall w m L, In w a -> word L w m -> cstring m).
  { intros w m L I W. rewrite Forall_forall in TA. destruct (TA _ I) as [_ C]. destruct (word_is _ _ _ W) as (_ & <- & _). apply cstring_tl, C. }
  inversion H as [w W|w f d W F|w W|w m W|w m names W N|w m n cid pname codecs from to W N|w m s p cid name from to W F S P|w m s cid from to W F S|w m al cid from to W F L S|w m weak cid from to W F S|w cid from to W|w m cid from to names sb rs W N L S|w m cid addr port from to notify sb rs W U S|w m cid addr port from to sb rs W U S]; subst; cbn [app] in *.
  - usepre W; reflexivity.
  - destruct F as [->| ->]; usepre W; reflexivity.
  - usepre W; reflexivity.
  - usepre W; reflexivity.
  - usepre W; reflexivity.
  - pose proof (CM w m _ (or_introl eq_refl) W) as C. apply play_count_ok in N; [|exact C].
    destruct to; usepre W; rewrite N; reflexivity.
  - assert (E : record_opts false m false false = Ok (s, p)). { apply rec_ok. cbn [fst snd]. rewrite !flag_or. split; [|auto]. eapply Forall_impl; [|exact F]. cbn. tauto. }
    destruct to; usepre W; rewrite E; reflexivity.
  - assert (E : record_opts true m false false = Ok (s, false)).
    { apply rec_ok. cbn [fst snd]. rewrite !flag_or. split; [eapply Forall_impl; [|exact F]; cbn; tauto|]. split; [exact S|]. unfold flag. split; [discriminate|].
      intros X. exfalso. apply Exists_exists in X as (c & I & Hc). rewrite Forall_forall in F. specialize (F _ I). unfold either in *. lia. }
    destruct to; usepre W; rewrite E; reflexivity.
  - pose proof (CM w m _ (or_introl eq_refl) W) as C. assert (E : norecord_opts m = Ok al) by (apply norec_ok; auto).
    destruct to; usepre W; rewrite E; reflexivity.
  - assert (E : del_opts m false = Ok weak) by (apply del_flag; auto). destruct to; usepre W; rewrite E; reflexivity.
  - destruct to; usepre W; reflexivity.
  - assert (E : forall to, parse_subcs e QUERY (Some cid) (Some from) to subs = Ok rs).
    { intros t. apply subcs_ok; try discriminate; [assumption|]. eapply subs_iff; [|exact S]. unfold upd. intuition discriminate. }
    destruct to; [|rewrite N by reflexivity]; usepre W; rewrite E; reflexivity.
  - assert (E : parse_subcs e UPDATE (Some cid) (Some from) to subs = Ok rs).
    { apply subcs_ok; try discriminate; [assumption|]. eapply subs_iff; [|exact S]. unfold upd. intuition. }
    destruct to, notify as [[s t]|]; usepre W; cbn [ul_pre_parse length arg nth_error rbind]; rewrite U; cbn [Z.eqb negb]; rewrite E; reflexivity.
  - assert (E : parse_subcs e LOOKUP (Some cid) (Some from) to subs = Ok rs).
    { apply subcs_ok; try discriminate; [assumption|]. eapply subs_iff; [|exact S]. unfold upd. intuition discriminate. }
    destruct to; usepre W; cbn [ul_pre_parse length arg nth_error rbind]; rewrite U; cbn [Z.eqb negb]; rewrite E; reflexivity.
Qed.

Lemma pre_inv n w more ns cc : pre_parse n (w :: more) ns = Ok cc -> exists p, fill_cmd_props n w = Some p /\
  pr_min p <= Z.of_nat (S (length more)) <= pr_max p /\ (pr_cmods p = false -> head0 (pr_mods p) = 0) /\ (pr_subc p = false -> ns = 0%nat).
Proof.
  unfold pre_parse. change (arg (w :: more) 0) with (Ok w). cbn [rbind]. destruct (fill_cmd_props n w) as [p|]; [|discriminate]. cbn [length].
  destruct (_ || _) eqn:E1; [discriminate|]. destruct (negb (pr_cmods p) && _) eqn:E2; [discriminate|]. destruct (negb (pr_subc p) && _) eqn:E3; [discriminate|]. intros _.
  exists p. split; [reflexivity|]. split; [lia|]. split; intros X; rewrite X in *; cbn [negb andb] in *; lia.
Qed.

Lemma parses_command e a subs r : tokens a -> Forall tokens subs -> parse_command e a subs = Ok r -> command e a subs r.
Proof.
  intros [Na TA] TS. destruct a as [|w more]; [congruence|]. clear Na. inversion TA as [|? ? [Nw Cw] TM]; subst. clear TA.
  intros H. assert (H0 := H). unfold parse_command in H0. destruct (pre_parse (e_nstats e) (w :: more) (length subs)) as [| |cc] eqn:Ep; try discriminate. clear H0.
  destruct (pre_inv _ _ _ _ _ Ep) as (p & F & Hb & Hm & Hs). clear Ep cc.
  assert (Hx : pr_subc p = false -> subs = []) by (intros X; specialize (Hs X); destruct subs; [reflexivity|discriminate]). clear Hs.
  assert (Cm : cstring (tl w)) by (apply cstring_tl; exact Cw).
  assert (WI : forall L, is_letter (head0 w) L = true -> word L w (tl w)) by (intros; apply word_intro; assumption).
  assert (HM : pr_cmods p = false -> pr_mods p = []). { intros X. apply cstring_head0; [|auto]. unfold fill_cmd_props in F.
    repeat match type of F with (if ?b then _ else _) = _ => destruct b end; try discriminate F; injection F as <-; cbn [pr_mods]; try exact Cm; apply cstring_tl, Cm. }
  assert (Hp := pre_fill (e_nstats e) w more (length subs) p F Hb HM (fun X => f_equal (@length _) (Hx X))).
  unfold parse_command in H. rewrite Hp in H. clear Hp Hm. unfold fill_cmd_props in F.
  Ltac fin F Hb Hx HM H := injection F as <-; cbn [pr_min pr_max pr_cmods pr_mods pr_subc pr_op pr_cid pr_fpos pr_tpos rbind cc_op cc_mods cc_cid cc_from cc_to] in Hb, Hx, HM, H.
  Ltac go H := cbn [arg argp nth_error rbind deref ul_pre_parse length] in H.
  destruct (is_letter (head0 w) 85) eqn:E; [|clear E; destruct (is_letter (head0 w) 76) eqn:E; [|clear E; destruct (is_letter (head0 w) 68) eqn:E; [|clear E; destruct (is_letter (head0 w) 80) eqn:E;
   [|clear E; destruct (is_letter (head0 w) 82) eqn:E; [|clear E; destruct (is_letter (head0 w) 67) eqn:E; [|clear E; destruct (is_letter (head0 w) 83) eqn:E; [|clear E; destruct (is_letter (head0 w) 78) eqn:E;
   [|clear E; destruct (is_letter (head0 w) 86) eqn:E; [|clear E; destruct (is_letter (head0 w) 73) eqn:E; [|clear E; destruct (is_letter (head0 w) 81) eqn:E; [|clear E; destruct (is_letter (head0 w) 88) eqn:E;
   [|clear E; destruct (is_letter (head0 w) 71) eqn:E; [|discriminate]]]]]]]]]]]]]; apply WI in E.
  - (* update *) fin F Hb Hx HM H.
    destruct more as [|cid [|addr [|port [|from rest]]]]; cbn [length] in Hb; try lia.
    assert (K : forall to notify, rest = opt_to to ++ opt_notify notify -> (if negb (e_ulopts e UPDATE (tl w) addr port notify =? 0) then Err (e_ulopts e UPDATE (tl w) addr port notify)
         else get rs <- parse_subcs e UPDATE (Some cid) (Some from) to subs; Ok (RUpdate (tl w) cid addr port from to notify rs)) = Ok r -> command e (w :: cid :: addr :: port :: from :: rest) subs r).
    { intros to notify -> K. destruct (negb _) eqn:U; [discriminate|]. destruct (parse_subcs e UPDATE (Some cid) (Some from) to subs) as [| |rs] eqn:P; try discriminate. injection K as <-.
      apply subcs_ok in P; [|discriminate|discriminate|assumption]. apply (g_update e w (tl w) cid addr port from to notify subs rs E ltac:(lia)). eapply subs_iff; [|exact P]. unfold upd. intuition. }
    destruct rest as [|t [|t2 [|t3 [|]]]]; cbn [length] in Hb; try lia; go H.
    + apply (K None None); [reflexivity|exact H].
    + apply (K (Some t) None); [reflexivity|exact H].
    + apply (K None (Some (t, t2))); [reflexivity|exact H].
    + apply (K (Some t) (Some (t2, t3))); [reflexivity|exact H].
  - (* lookup *) fin F Hb Hx HM H.
    destruct more as [|cid [|addr [|port [|from rest]]]]; cbn [length] in Hb; try lia.
    assert (K : forall to, rest = opt_to to -> (if negb (e_ulopts e LOOKUP (tl w) addr port None =? 0) then Err (e_ulopts e LOOKUP (tl w) addr port None)
         else get rs <- parse_subcs e LOOKUP (Some cid) (Some from) to subs; Ok (RLookup (tl w) cid addr port from to rs)) = Ok r -> command e (w :: cid :: addr :: port :: from :: rest) subs r).
    { intros to -> K. destruct (negb _) eqn:U; [discriminate|]. destruct (parse_subcs e LOOKUP (Some cid) (Some from) to subs) as [| |rs] eqn:P; try discriminate. injection K as <-.
      apply subcs_ok in P; [|discriminate|discriminate|assumption]. apply (g_lookup e w (tl w) cid addr port from to subs rs E ltac:(lia)). eapply subs_iff; [|exact P]. unfold upd. intuition discriminate. }
    destruct rest as [|t [|]]; cbn [length] in Hb; try lia; go H.
    + apply (K None); [reflexivity|exact H].
    + apply (K (Some t)); [reflexivity|exact H].
  - (* delete *) fin F Hb Hx HM H. rewrite (Hx eq_refl) in *.
    destruct more as [|cid [|from rest]]; cbn [length] in Hb; try lia.
    destruct (del_opts (tl w) false) as [| |x] eqn:O; try discriminate. apply del_flag in O as [O1 O2].
    destruct rest as [|t [|]]; cbn [length] in Hb; try lia; go H; injection H as <-.
    + apply (g_delete e w (tl w) x cid from None); assumption.
    + apply (g_delete e w (tl w) x cid from (Some t)); assumption.
  - (* play *) fin F Hb Hx HM H. rewrite (Hx eq_refl) in *.
    destruct more as [|cid [|pname [|codecs [|from rest]]]]; cbn [length] in Hb; try lia. go H.
    destruct (play_count (tl w)) as [| |x] eqn:O; try discriminate. apply play_count_ok in O; [|exact Cm].
    destruct rest as [|t [|]]; cbn [length] in Hb; try lia; go H; injection H as <-.
    + apply (g_play e w (tl w) x cid pname codecs from None); assumption.
    + apply (g_play e w (tl w) x cid pname codecs from (Some t)); assumption.
  - (* record *) fin F Hb Hx HM H. rewrite (Hx eq_refl) in *.
    destruct more as [|cid [|from rest]]; cbn [length] in Hb; try lia.
    destruct (record_opts true (tl w) false false) as [| |x] eqn:O; try discriminate. apply rec_ok in O as (O1 & O2 & _). rewrite flag_or in O2.
    assert (O3 : Forall (either 83) (tl w)) by (eapply Forall_impl; [|exact O1]; cbn; intuition discriminate).
    destruct rest as [|t [|]]; cbn [length] in Hb; try lia; go H; injection H as <-.
    + apply (g_record e w (tl w) (fst x) cid from None); assumption.
    + apply (g_record e w (tl w) (fst x) cid from (Some t)); assumption.
  - (* copy *) fin F Hb Hx HM H. rewrite (Hx eq_refl) in *.
    destruct more as [|cid [|name [|from rest]]]; cbn [length] in Hb; try lia. go H.
    destruct (record_opts false (tl w) false false) as [| |x] eqn:O; try discriminate. apply rec_ok in O as (O1 & O2 & O3). rewrite flag_or in O2, O3.
    assert (O4 : Forall (fun c => either 83 c \/ either 80 c) (tl w)) by (eapply Forall_impl; [|exact O1]; cbn; tauto).
    destruct rest as [|t [|]]; cbn [length] in Hb; try lia; go H; injection H as <-.
    + apply (g_copy e w (tl w) (fst x) (snd x) cid name from None); assumption.
    + apply (g_copy e w (tl w) (fst x) (snd x) cid name from (Some t)); assumption.
  - (* noplay *) fin F Hb Hx HM H. rewrite (Hx eq_refl) in *. rewrite (HM eq_refl) in E.
    destruct more as [|cid [|from rest]]; cbn [length] in Hb; try lia.
    destruct rest as [|t [|]]; cbn [length] in Hb; try lia; go H; injection H as <-.
    + apply (g_noplay e w cid from None); assumption.
    + apply (g_noplay e w cid from (Some t)); assumption.
  - (* norecord *) fin F Hb Hx HM H. rewrite (Hx eq_refl) in *.
    destruct more as [|cid [|from rest]]; cbn [length] in Hb; try lia.
    destruct (norecord_opts (tl w)) as [| |x] eqn:O; try discriminate. apply norec_ok in O as (O1 & O2 & O3); [|exact Cm].
    destruct rest as [|t [|]]; cbn [length] in Hb; try lia; go H; injection H as <-.
    + apply (g_norecord e w (tl w) x cid from None); assumption.
    + apply (g_norecord e w (tl w) x cid from (Some t)); assumption.
  - (* version *) destruct (is_letter (head0 (tl w)) 70) eqn:E2.
    + fin F Hb Hx HM H. rewrite (Hx eq_refl) in *. destruct more as [|d [|]]; cbn [length] in Hb; try lia. go H. injection H as <-.
      destruct (tl w) as [|f t] eqn:T; [discriminate|]. cbn [tl head0] in *. specialize (HM eq_refl). subst t. apply (g_feature e w f d E). apply letter_spec, E2.
    + fin F Hb Hx HM H. rewrite (Hx eq_refl) in *. destruct more as [|]; cbn [length] in Hb; try lia. injection H as <-. rewrite (HM eq_refl) in E. apply g_version, E.
  - (* info *) fin F Hb Hx HM H. rewrite (Hx eq_refl) in *. destruct more as [|]; cbn [length] in Hb; try lia. injection H as <-. apply g_info, E.
  - (* query *) fin F Hb Hx HM H.
    destruct more as [|cid [|from rest]]; cbn [length] in Hb; try lia. go H.
    destruct (parse_subcs e QUERY (Some cid) (Some from) (Some []) subs) as [| |rs] eqn:P; try discriminate.
    apply subcs_ok in P; [|discriminate|discriminate|assumption].
    assert (S : Forall2 (subcommand e False) subs rs) by (eapply subs_iff; [|exact P]; unfold upd; intuition discriminate).
    destruct rest as [|t names]; go H; injection H as <-.
    + apply (g_query e w (tl w) cid from None [] subs rs); auto. cbn; lia.
    + cbn [length] in Hb. apply (g_query e w (tl w) cid from (Some t) names subs rs); auto; [discriminate|lia].
  - (* delete all *) fin F Hb Hx HM H. rewrite (Hx eq_refl) in *. destruct more as [|]; cbn [length] in Hb; try lia. injection H as <-. rewrite (HM eq_refl) in E. apply g_delete_all, E.
  - (* stats *) fin F Hb Hx HM H. rewrite (Hx eq_refl) in *. injection H as <-. apply g_stats; [exact E|]. lia.
Qed.

(** ** No argument is read that was not given *)
Lemma parse_nn e a subs : tokens a -> Forall tokens subs -> parse_command e a subs <> Null.
Proof.
  intros [Na TA] TS. destruct a as [|w more]; [congruence|]. clear Na.
  intros H. assert (H0 := H). unfold parse_command in H0.
  destruct (pre_parse (e_nstats e) (w :: more) (length subs)) as [| |cc] eqn:Ep; try discriminate.
  { unfold pre_parse in Ep. change (arg (w :: more) 0) with (Ok w) in Ep. cbn [rbind] in Ep. destruct (fill_cmd_props _ _); [|discriminate].
    repeat match type of Ep with (if ?b then _ else _) = _ => destruct b; try discriminate end. }
  clear H0. destruct (pre_inv _ _ _ _ _ Ep) as (p & F & Hb & _ & _).
  unfold parse_command in H. rewrite Ep in H. cbn [rbind] in H. unfold pre_parse in Ep. change (arg (w :: more) 0) with (Ok w) in Ep. cbn [rbind] in Ep. rewrite F in Ep.
  repeat match type of Ep with (if ?b then _ else _) = _ => destruct b; try discriminate end. injection Ep as <-. unfold fill_cmd_props in F.
  pose proof (fun o c f t => subcs_nn e o c f t subs TS) as SN.
  repeat match type of F with (if ?b then _ else _) = _ => destruct b end; try discriminate; injection F as <-;
    cbn [pr_min pr_max pr_cmods pr_mods pr_subc pr_op pr_cid pr_fpos pr_tpos cc_op cc_mods cc_cid cc_from cc_to] in Hb, H;
    go H; try discriminate H;
    destruct more as [|? [|? [|? [|? [|? [|? [|? [|? ?]]]]]]]]; cbn [length] in Hb; try lia; go H; try discriminate H.
  all: cbn [ul_pre_parse arg nth_error rbind length] in H.
  all: try (match type of H with context [play_count ?m] => pose proof (play_count_nn m); destruct (play_count m) end; cbn [rbind] in H; congruence).
  all: try (match type of H with context [record_opts ?q ?m _ _] => pose proof (rec_nn q m false false); destruct (record_opts q m false false) end; cbn [rbind] in H; congruence).
  all: try (match type of H with context [norecord_opts ?m] => pose proof (norec_nn m); destruct (norecord_opts m) end; cbn [rbind] in H; congruence).
  all: try (match type of H with context [del_opts ?m _] => pose proof (del_nn m false); destruct (del_opts m false) end; cbn [rbind] in H; congruence).
  all: try (match type of H with (if ?b then _ else _) = _ => destruct b end; [discriminate|]).
  all: match type of H with context [parse_subcs ?e ?o ?c ?f ?t ?subs] => pose proof (SN o c f t); destruct (parse_subcs e o c f t subs) end; cbn [rbind] in H; congruence.
Qed.

(** ** Refusals *)
Lemma refused e w more subs p : fill_cmd_props (e_nstats e) w = Some p ->
  (~ (pr_min p <= Z.of_nat (S (length more)) <= pr_max p) -> parse_command e (w :: more) subs = Err 1) /\
  (pr_min p <= Z.of_nat (S (length more)) <= pr_max p -> pr_cmods p = false -> head0 (pr_mods p) <> 0 -> parse_command e (w :: more) subs = Err 2) /\
  (pr_min p <= Z.of_nat (S (length more)) <= pr_max p -> (pr_cmods p = false -> pr_mods p = []) -> pr_subc p = false -> subs <> [] -> parse_command e (w :: more) subs = Err 3).
Proof.
  intros F. unfold parse_command, pre_parse. change (arg (w :: more) 0) with (Ok w). cbn [rbind]. rewrite F. cbn [length]. split; [|split].
  - intros H. replace (_ || _) with true by lia. reflexivity.
  - intros Hb Hc Hm. replace (_ || _) with false by lia. rewrite Hc. replace (negb (head0 (pr_mods p) =? 0)) with true by lia. reflexivity.
  - intros Hb Hm Hc Hs. replace (_ || _) with false by lia.
    replace (negb (pr_cmods p) && negb (head0 (pr_mods p) =? 0)) with false; [|destruct (pr_cmods p); [reflexivity|rewrite Hm by reflexivity; reflexivity]].
    rewrite Hc. destruct subs; [congruence|]. reflexivity.
Qed.

(** ** Capabilities *)
Lemma in_caps_spec d caps : in_caps d caps = true <-> In d caps.
Proof.
  induction caps as [|c t IH]; cbn [in_caps In]; [intuition discriminate|]. destruct (beq d c) eqn:E.
  - apply beq_eq in E. intuition congruence.
  - rewrite IH. split; [tauto|]. intros [->|H]; [|exact H]. rewrite (proj2 (beq_eq d d) eq_refl) in E. discriminate.
Qed.
Lemma beq_false a b : beq a b = false <-> a <> b.
Proof. pose proof (beq_eq a b). destruct (beq a b); intuition congruence. Qed.
Lemma proto_caps_eq : proto_caps = map fmt_d
  [20040107; 20050322; 20060704; 20071116; 20071218; 20080403; 20081102; 20081224; 20090810; 20140323; 20140617;
   20141004; 20150330; 20150420; 20150617; 20191015; 20200226; 20230205; 20230314; 20230424; 20250523; 20251015;
   20260306; 20260308; 20260309].
Proof. vm_compute. reflexivity. Qed.
Lemma cap_iff d : In d proto_caps <-> exists v, capability v /\ d = fmt_d v.
Proof.
  rewrite proto_caps_eq, in_map_iff. split; intros (v & H); exists v.
  - split; [constructor; tauto|symmetry; tauto].
  - destruct H as [[H] ->]. auto.
Qed.
Lemma cap_printable v : capability v -> printable v.
Proof. intros [d H]. unfold printable. cbn [In] in H. lia. Qed.
Lemma cap_2008 v : capability v -> fmt_d v = fmt_d 20081224 -> v = 20081224.
Proof. intros [d H] E. cbn [In] in H. repeat (destruct H as [<-|H]; [try reflexivity; vm_compute in E; discriminate E|]). destruct H. Qed.
