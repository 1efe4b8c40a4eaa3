From Verif Require Import Base SbufModel SbufSpec.

(** Representation: the block starts with the content; if [t] the next byte is NUL. *)
Definition sb_rep (b : sbuf) (c : list Z) (cap : nat) (t : bool) : Prop :=
  exists rest, sb_mem b = c ++ rest /\ length (sb_mem b) = cap /\
    rs_ulen b = Z.of_nat (length c) /\ rest <> [] /\ (t = true -> exists r', rest = 0 :: r') /\ ~ In 0 c.

Lemma storez_at m (c rest bs : list Z) off :
  m = c ++ rest -> off = Z.of_nat (length c) -> (length bs <= length rest)%nat ->
  storez m off bs = Some (c ++ bs ++ skipn (length bs) rest).
Proof.
  intros -> -> H. unfold storez, store. replace (Z.of_nat (length c) <? 0) with false by lia.
  rewrite Nat2Z.id. rewrite app_length.
  replace (length c + length bs <=? length c + length rest)%nat with true by lia.
  rewrite firstn_app, firstn_all, Nat.sub_diag. cbn [firstn]. rewrite app_nil_r.
  rewrite skipn_app. rewrite skipn_all2 by lia. cbn [app].
  replace (length c + length bs - length c)%nat with (length bs) by lia. reflexivity.
Qed.

Lemma cstr_app c r : ~ In 0 c -> cstr (c ++ 0 :: r) = Some c.
Proof.
  induction c as [|x c IH]; cbn; intros H; [reflexivity|].
  destruct (Z.eqb_spec x 0) as [->|]; [tauto|]. rewrite IH by tauto. reflexivity.
Qed.

Lemma sbuf_step_ok b c cap t o : sb_rep b c cap t -> sb_valid cap [o] ->
  exists b' r, sbuf_step b o = SbRet (b', r) /\
    snd (sb_spec_step (c, cap) o) = r /\
    sb_rep b' (fst (fst (sb_spec_step (c, cap) o))) (snd (fst (sb_spec_step (c, cap) o))) (sb_clean t [o]).
Proof.
  intros (rest & Hm & Hl & Hu & Hne & Ht & H0) Hv.
  assert (Hlr : (length c + length rest = cap)%nat) by (rewrite <- Hl, Hm, app_length; reflexivity).
  assert (Hrpos : (0 < length rest)%nat) by (destruct rest; [congruence|cbn; lia]).
  destruct o as [[s|junk]|n more|]; cbn [sbuf_step sb_spec_step sb_clean fst snd].
  - (* successful format *)
    destruct Hv as [Hs _].
    unfold sbuf_write. rewrite Hl, Hu.
    replace (0 <? Z.of_nat cap - Z.of_nat (length c)) with true by lia.
    set (len := Z.to_nat (Z.of_nat cap - Z.of_nat (length c))).
    assert (Hlen : len = length rest) by lia.
    cbn [vsnprintf].
    rewrite (storez_at _ c rest) by (auto; rewrite app_length, firstn_length; cbn [length]; lia).
    replace (Z.of_nat (length s) <? 0) with false by lia.
    destruct (Nat.leb_spec (length c + length s + 1) cap) as [Hfit|Hno].
    + replace (Z.of_nat (length s) >=? Z.of_nat cap - Z.of_nat (length c)) with false by lia.
      eexists _, _. split; [reflexivity|]. split; [reflexivity|]. cbn [fst snd].
      rewrite firstn_all2 by lia. rewrite app_length. cbn [length].
      exists (0 :: skipn (length s + 1) rest). cbn [sb_mem sb_cp sb_bp rs_ulen].
      split; [rewrite <- !app_assoc; reflexivity|].
      split; [rewrite !app_length, skipn_length; cbn [length]; lia|].
      split; [unfold rs_ulen in *; cbn [sb_cp sb_bp]; rewrite app_length; lia|].
      split; [congruence|]. split; [intros _; eexists; reflexivity|].
      rewrite in_app_iff. tauto.
    + replace (Z.of_nat (length s) >=? Z.of_nat cap - Z.of_nat (length c)) with true by lia.
      rewrite (storez_at _ c ((firstn (len - 1) s ++ [0]) ++ skipn (length (firstn (len - 1) s ++ [0])) rest))
        by (auto; rewrite !app_length; cbn [length]; lia).
      eexists _, _. split; [reflexivity|]. split; [reflexivity|]. cbn [fst snd].
      exists (0 :: skipn 1 ((firstn (len - 1) s ++ [0]) ++ skipn (length (firstn (len - 1) s ++ [0])) rest)).
      cbn [sb_mem sb_cp sb_bp]. split; [reflexivity|].
      split. { rewrite !app_length. cbn [length]. rewrite ?skipn_length, ?app_length, ?skipn_length, ?app_length, ?firstn_length.
               cbn [length]. lia. }
      split; [exact Hu|]. split; [congruence|]. split; [intros _; eexists; reflexivity|exact H0].
  - (* failed format *)
    unfold sbuf_write. rewrite Hl, Hu.
    replace (0 <? Z.of_nat cap - Z.of_nat (length c)) with true by lia.
    cbn [vsnprintf].
    rewrite (storez_at _ c rest) by (auto; rewrite firstn_length; lia).
    replace (-1 <? 0) with true by reflexivity.
    eexists _, _. split; [reflexivity|]. split; [reflexivity|].
    eexists. cbn [sb_mem sb_cp sb_bp]. split; [reflexivity|].
    split; [rewrite !app_length, skipn_length, firstn_length; lia|].
    split; [exact Hu|].
    split.
    { intros E. apply (f_equal (@length Z)) in E. rewrite app_length, skipn_length, firstn_length in E. cbn in E. lia. }
    split; [discriminate|exact H0].
  - cbn [sb_valid] in Hv. unfold sbuf_extend. rewrite Hl.
    replace (cap <? n)%nat with true by lia.
    destruct more as [[nbp g]|].
    + destruct (Z.eqb_spec (sb_bp b) nbp) as [E|E]; cbn [negb];
        (eexists _, _; split; [reflexivity|]; split; [reflexivity|]; cbn [fst snd];
         exists (rest ++ map g (seq 0 (n - cap))); cbn [sb_mem sb_cp sb_bp];
         split; [rewrite Hm, <- app_assoc; reflexivity|];
         split; [rewrite app_length, map_length, seq_length; lia|];
         split; [unfold rs_ulen in *; cbn [sb_cp sb_bp]; lia|];
         split; [destruct rest; [congruence|discriminate]|];
         split; [intros Et; destruct (Ht Et) as [r' ->]; eexists; reflexivity|exact H0]).
    + eexists _, _. split; [reflexivity|]. split; [reflexivity|]. exists rest. auto 10.
  - unfold sbuf_reset. rewrite (storez_at _ [] (sb_mem b)) by (cbn [length]; auto; lia).
    eexists _, _. split; [reflexivity|]. split; [reflexivity|].
    exists (0 :: skipn 1 (sb_mem b)). cbn [sb_mem sb_cp sb_bp fst snd app length].
    split; [reflexivity|]. split; [rewrite skipn_length; lia|].
    split; [unfold rs_ulen; cbn [sb_cp sb_bp]; lia|].
    split; [congruence|]. split; [intros _; eexists; reflexivity|tauto].
Qed.

Lemma sb_valid_tail cap o t : sb_valid cap (o :: t) ->
  sb_valid cap [o] /\ forall c, sb_valid (snd (fst (sb_spec_step (c, cap) o))) t.
Proof.
  destruct o as [[s|junk]|n [more|]|]; cbn; intros H; try tauto.
  destruct H as [H1 H2]. split; [tauto|]. intros c. destruct (_ <=? _)%nat; exact H2.
Qed.

Lemma sb_clean_cons ok o t : sb_clean ok (o :: t) = sb_clean (sb_clean ok [o]) t.
Proof. destruct o as [[]| |]; reflexivity. Qed.

Lemma sbuf_run_ok os : forall b c cap t, sb_rep b c cap t -> sb_valid cap os ->
  exists b', sbuf_run b os = SbRet (b', snd (sb_spec (c, cap) os)) /\
    sb_rep b' (fst (fst (sb_spec (c, cap) os))) (snd (fst (sb_spec (c, cap) os))) (sb_clean t os).
Proof.
  induction os as [|o os IH]; intros b c cap t Hr Hv; [exists b; split; [reflexivity|exact Hr]|].
  destruct (sb_valid_tail _ _ _ Hv) as [Hv1 Hv2].
  destruct (sbuf_step_ok b c cap t o Hr Hv1) as (b' & r & H1 & H2 & H3).
  specialize (Hv2 c). rewrite sb_clean_cons. cbn [sbuf_run sb_spec]. rewrite H1.
  destruct (sb_spec_step (c, cap) o) as [[c' cap'] r0]. cbn [fst snd] in *.
  destruct (IH b' c' cap' _ H3 Hv2) as (b'' & H4 & H5). rewrite H4.
  destruct (sb_spec (c', cap') os) as [[c'' cap''] rs]. cbn [fst snd] in *.
  exists b''. subst. auto.
Qed.

Lemma sbuf_ctor_ok raw a : raw <> [] -> exists b, sbuf_ctor raw a = SbRet b /\ sb_rep b [] (length raw) true.
Proof.
  intros H. unfold sbuf_ctor. rewrite (storez_at _ [] raw) by (reflexivity || (destruct raw; [congruence|cbn; lia])).
  eexists; split; [reflexivity|]. destruct raw as [|x raw]; [congruence|]. cbn [app length skipn].
  exists (0 :: raw). cbn [sb_mem sb_cp sb_bp]. unfold rs_ulen; cbn [sb_mem sb_cp sb_bp app length].
  repeat split; try lia; try congruence. eexists; reflexivity. tauto.
Qed.

Lemma sbuf_main raw a os : raw <> [] -> sb_valid (length raw) os ->
  exists b0 b, sbuf_ctor raw a = SbRet b0 /\
    sbuf_run b0 os = SbRet (b, snd (sb_spec ([], length raw) os)) /\
    let '(content, cap) := fst (sb_spec ([], length raw) os) in
    length (sb_mem b) = cap /\ (length content < cap)%nat /\
    rs_ulen b = Z.of_nat (length content) /\ firstn (length content) (sb_mem b) = content /\
    (sb_clean true os = true -> cstr (sb_mem b) = Some content).
Proof.
  intros H Hv. destruct (sbuf_ctor_ok raw a H) as (b0 & H0 & Hr).
  destruct (sbuf_run_ok os _ _ _ _ Hr Hv) as (b & H1 & rest & Hm & Hl & Hu & Hne & Ht & Hz).
  exists b0, b. split; [exact H0|]. split; [exact H1|].
  destruct (fst (sb_spec ([], length raw) os)) as [content cap]. cbn [fst snd] in *.
  split; [exact Hl|]. split; [rewrite <- Hl, Hm, app_length; destruct rest; [congruence|cbn; lia]|].
  split; [exact Hu|]. split; [rewrite Hm, firstn_app, firstn_all, Nat.sub_diag; cbn; apply app_nil_r|].
  intros Hc. destruct (Ht Hc) as [r' E]. rewrite Hm, E. apply cstr_app; exact Hz.
Qed.
