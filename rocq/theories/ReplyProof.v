From Verif Require Import Base Str NumSpec StrSpec StrProof ReplyModel ReplySpec.

Record Rp (s : rep) (txt com : list Z) (r : Z) (sent : list (list Z * bool)) : Prop := {
  rp_len : length (rp_buf s) = 1024%nat;
  rp_u : rp_ulen s = Z.of_nat (length txt);
  rp_c : rp_clen s = Z.of_nat (length com);
  rp_pre : exists u, txt = com ++ u;
  rp_txt : firstn (length txt) (rp_buf s) = txt;
  rp_fit : Z.of_nat (length txt) <= 1024;
  rp_r : rp_rlen s = r;
  rp_r0 : 0 <= r <= 1024;
  rp_s : rp_sent s = sent }.

Lemma len_app {A} (a b : list A) : Z.of_nat (length (a ++ b)) = Z.of_nat (length a) + Z.of_nat (length b).
Proof. rewrite app_length. lia. Qed.

Lemma cbrl_eq s txt com r sent (fin : bool) : Rp s txt com r sent -> Z.of_nat (length txt) + (if fin then 0 else r) <= 1024 ->
  cbrl s fin = 1024 - Z.of_nat (length txt) - (if fin then 0 else r).
Proof. intros [] H. unfold cbrl, RLEN. rewrite rp_u0, rp_r1. destruct fin; rewrite u64_small; lia. Qed.

Lemma put_ok s txt com r sent bs : Rp s txt com r sent -> Z.of_nat (length txt) + Z.of_nat (length bs) <= 1024 ->
  exists s', put s bs = Ret s' /\ Rp s' txt com r sent /\ firstn (length txt + length bs) (rp_buf s') = txt ++ bs.
Proof.
  intros [] H. unfold put. rewrite rp_u0, rp_len0. replace ((0 <=? Z.of_nat (length txt)) && (Z.of_nat (length txt) + Z.of_nat (length bs) <=? Z.of_nat 1024)) with true by lia.
  eexists. split; [reflexivity|]. rewrite Nat2Z.id, rp_txt0. split.
  - constructor; cbn [rp_buf rp_ulen rp_clen rp_rlen rp_sent]; auto.
    + rewrite !app_length, skipn_length. lia.
    + rewrite firstn_app, firstn_all, Nat.sub_diag. cbn. apply app_nil_r.
  - cbn [rp_buf]. rewrite app_assoc. rewrite firstn_app, app_length, Nat.sub_diag, firstn_all2 by (rewrite app_length; lia). cbn. apply app_nil_r.
Qed.

Lemma set_ulen_ok s txt com r sent t : Rp s txt com r sent -> (exists u, t = com ++ u) -> firstn (length t) (rp_buf s) = t ->
  Z.of_nat (length t) <= 1024 -> Rp (set_ulen s (Z.of_nat (length t))) t com r sent.
Proof. intros [] P F L. constructor; cbn; auto. Qed.

Lemma firstn_prefix {A} (a b l : list A) : firstn (length (a ++ b)) l = a ++ b -> firstn (length a) l = a.
Proof.
  intros H. rewrite app_length in H. replace (length a) with (Nat.min (length a) (length a + length b)) at 1 by lia.
  rewrite <- firstn_firstn, H, firstn_app, firstn_all, Nat.sub_diag. cbn. apply app_nil_r.
Qed.

Lemma append_ok s txt com r sent bs (final : bool) : Rp s txt com r sent -> bs <> [] -> Z.of_nat (length txt) + (if final then 0 else r) <= 1024 ->
  let bs' := if last bs 1 =? 0 then removelast bs else bs in
  (Z.of_nat (length txt) + Z.of_nat (length bs) + (if final then 0 else r) <= 1024 /\ exists s', append s bs final = Ret (s', 0) /\ Rp s' (txt ++ bs') com r sent) \/
  (1024 < Z.of_nat (length txt) + Z.of_nat (length bs) + (if final then 0 else r) /\ append s bs final = Ret (s, -1)).
Proof.
  intros R N H bs'. assert (Eb' : bs' = if last bs 1 =? 0 then removelast bs else bs) by reflexivity. clearbody bs'. unfold append. rewrite (cbrl_eq _ _ _ _ _ final R H).
  destruct (Z.ltb_spec (1024 - Z.of_nat (length txt) - (if final then 0 else r)) (Z.of_nat (length bs))) as [Hl|Hl]; [right; split; [lia|reflexivity]|].
  left. split; [lia|]. destruct (put_ok s txt com r sent bs R) as (s1 & E & R1 & F); [destruct final; destruct R; lia|].
  rewrite E. cbn [bind]. destruct bs as [|b0 bt] eqn:Ebs; [congruence|]. rewrite <- Ebs in *. eexists. split; [reflexivity|].
  assert (EL : bs = bs' \/ bs = bs' ++ [0]).
  { rewrite Eb'. destruct (last bs 1 =? 0) eqn:E0; [right|left; reflexivity]. rewrite (app_removelast_last 1 N) at 1. f_equal. f_equal. lia. }
  replace (rp_ulen s1 + (if last bs 1 =? 0 then Z.of_nat (length bs) - 1 else Z.of_nat (length bs))) with (Z.of_nat (length (txt ++ bs'))).
  - apply set_ulen_ok with (txt := txt); auto.
    + destruct R1. destruct rp_pre0 as [u ->]. exists (u ++ bs'). apply app_assoc_reverse.
    + destruct EL as [EL|EL]; rewrite EL in F; [rewrite app_length; exact F|]. rewrite <- app_length, app_assoc in F. apply firstn_prefix in F. exact F.
    + rewrite len_app. assert (Z.of_nat (length bs') <= Z.of_nat (length bs)) by (destruct EL as [EL|EL]; rewrite EL; rewrite ?len_app; lia). destruct final; destruct R; lia.
  - rewrite (rp_u _ _ _ _ _ R1), len_app. destruct (last bs 1 =? 0) eqn:E0; [|rewrite Eb'; lia].
    destruct EL as [EL|EL]; [exfalso|]; [|apply (f_equal (@length Z)) in EL; rewrite app_length in EL; cbn [length] in EL; lia].
    pose proof (app_removelast_last 1 N) as X. rewrite <- Eb', <- EL in X. apply (f_equal (@length Z)) in X. rewrite app_length in X. cbn in X. lia.
Qed.

Lemma appendf_ok s txt com r sent t : Rp s txt com r sent -> Z.of_nat (length txt) + r <= 1024 ->
  (Z.of_nat (length txt) + Z.of_nat (length t) + r < 1024 /\ exists s', appendf s t = Ret (s', 0) /\ Rp s' (txt ++ t) com r sent) \/
  (1024 <= Z.of_nat (length txt) + Z.of_nat (length t) + r /\ exists s', appendf s t = Ret (s', -1) /\ Rp s' txt com r sent).
Proof.
  intros R H. unfold appendf. rewrite (cbrl_eq _ _ _ _ _ false R H).
  set (n := 1024 - Z.of_nat (length txt) - r). destruct (Z.eqb_spec n 0) as [H0|H0].
  - right. split; [lia|]. cbn [bind]. replace (Z.of_nat (length t) >=? n) with true by lia. eauto.
  - assert (Ln : (length (firstn (Z.to_nat (n - 1)) t) <= Z.to_nat (n - 1))%nat) by (rewrite firstn_length; lia).
    destruct (put_ok s txt com r sent (firstn (Z.to_nat (n - 1)) t ++ [0]) R) as (s1 & E & R1 & F).
    { rewrite len_app. cbn [length]. destruct R. lia. }
    rewrite E. cbn [bind]. rewrite Z.geb_leb. destruct (Z.leb_spec n (Z.of_nat (length t))) as [Hl|Hl]; [right; split; [lia|eauto]|].
    left. split; [lia|]. eexists. split; [reflexivity|]. rewrite (rp_u _ _ _ _ _ R1), <- len_app.
    assert (X : firstn (Z.to_nat (n - 1)) t = t) by (apply firstn_all2; lia). rewrite X in F. rewrite <- app_length, app_assoc in F. apply firstn_prefix in F.
    apply set_ulen_ok with (txt := txt); auto.
    + destruct R1. destruct rp_pre0 as [u ->]. exists (u ++ t). apply app_assoc_reverse.
    + rewrite len_app. destruct R. lia.
Qed.

Lemma commit_ok s txt com r sent : Rp s txt com r sent -> Rp (commit s) txt txt r sent.
Proof. intros []. constructor; cbn; auto. exists []. symmetry. apply app_nil_r. Qed.

Lemma reserve_ok s txt com r sent n : Rp s txt com r sent -> 0 <= n <= 1024 ->
  (Z.of_nat (length txt) + n <= 1024 /\ exists s', reserve s n = (s', 0) /\ Rp s' txt com n sent) \/
  (1024 < Z.of_nat (length txt) + n /\ reserve s n = (s, -1)).
Proof.
  intros R Hn. unfold reserve. rewrite (cbrl_eq _ _ _ _ _ true R) by (destruct R; lia).
  destruct (Z.ltb_spec (1024 - Z.of_nat (length txt) - 0) n); [right; split; [lia|reflexivity]|].
  left. split; [lia|]. eexists. split; [reflexivity|]. destruct R. constructor; cbn; auto.
Qed.

Lemma deliver_ok_ s txt com r sent (e : bool) : Rp s txt com r sent -> exists s', deliver s e = Ret s' /\ Rp s' txt com r (sent ++ [(com, e)]).
Proof.
  intros R. unfold deliver. pose proof R as []. rewrite rp_c0, rp_len0.
  destruct rp_pre0 as [u Eu]. assert (Lc : Z.of_nat (length com) <= 1024) by (rewrite Eu, len_app in rp_fit0; lia).
  replace ((0 <=? Z.of_nat (length com)) && (Z.of_nat (length com) <=? Z.of_nat 1024)) with true by lia.
  eexists. split; [reflexivity|]. constructor; cbn [rp_buf rp_ulen rp_clen rp_rlen rp_sent]; auto; [exists u; exact Eu|].
  rewrite rp_s0, Nat2Z.id. rewrite Eu in rp_txt0. apply firstn_prefix in rp_txt0. rewrite rp_txt0. reflexivity.
Qed.

Lemma reset_ok s txt com r sent : Rp s txt com r sent -> Rp (set_ulen s (rp_clen s)) com com r sent.
Proof.
  intros R. pose proof R as []. rewrite rp_c0. destruct rp_pre0 as [u Eu].
  apply set_ulen_ok with (txt := txt); auto; [exists []; symmetry; apply app_nil_r| |].
  - rewrite Eu in rp_txt0. apply firstn_prefix in rp_txt0. exact rp_txt0.
  - rewrite Eu, len_app in rp_fit0. lia.
Qed.

Lemma deliver_text_ok s txt com r sent t (e : bool) : Rp s txt com r sent -> Z.of_nat (length com) + r <= 1024 ->
  (Z.of_nat (length com) + Z.of_nat (length t) + r < 1024 /\ exists s', deliver_text s t e = Ret s' /\ Rp s' (com ++ t) (com ++ t) r (sent ++ [(com ++ t, e)])) \/
  (1024 <= Z.of_nat (length com) + Z.of_nat (length t) + r /\ deliver_text s t e = Abort).
Proof.
  intros R H. apply reset_ok in R. unfold deliver_text, must.
  destruct (appendf_ok _ _ _ _ _ t R H) as [[Hl (s1 & E & R1)]|[Hl (s1 & E & R1)]]; rewrite E; cbn [bind Z.eqb].
  - left. split; [exact Hl|]. apply commit_ok in R1. apply (deliver_ok_ _ _ _ _ _ e R1).
  - right. auto.
Qed.

(** ** Fields *)
Definition val_of (lookup : list Z -> option (list Z)) (n v : list Z) : Prop := lookup n = Some v.

Fixpoint ftext (lookup : list Z -> option (list Z)) (verbose : bool) (names : list (list Z)) (first : bool) : option (list Z) :=
  match names with
  | [] => Some []
  | n :: ns => match lookup n, ftext lookup verbose ns false with
               | Some v, Some t => Some ((if first then [] else B " ") ++ field verbose n v ++ t)
               | _, _ => None
               end
  end.

Lemma field_loop_ok lookup verbose ebig eunk vfail names : ebig <> 0 -> eunk <> 0 -> vfail <> 0 -> forall first s txt com sent, Rp s txt com 0 sent ->
  match ftext lookup verbose names first with
  | Some t => if Z.of_nat (length txt) + Z.of_nat (length t) <? 1024 then
                exists s', field_loop lookup verbose ebig eunk vfail names first s = Ret (s', 0) /\ Rp s' (txt ++ t) com 0 sent
              else t = [] \/ exists s' e txt', field_loop lookup verbose ebig eunk vfail names first s = Ret (s', e) /\ Rp s' txt' com 0 sent /\ (e = ebig \/ e = vfail)
  | None => exists s' e txt', field_loop lookup verbose ebig eunk vfail names first s = Ret (s', e) /\ Rp s' txt' com 0 sent /\ (e = ebig \/ e = vfail \/ e = eunk)
  end.
Proof.
  intros N1 N2 N3. induction names as [|n ns IH]; intros first s txt com sent R.
  - cbn [ftext field_loop length]. destruct (Z.ltb_spec (Z.of_nat (length txt) + Z.of_nat 0) 1024); [|left; reflexivity].
    exists s. rewrite app_nil_r. auto.
  - cbn [field_loop ftext]. assert (Lx : forall s txt com sent, Rp s txt com 0 sent -> Z.of_nat (length txt) + 0 <= 1024) by (intros ? ? ? ? []; lia).
    set (sep := if first then [] else B " ").
    assert (S1 : (Z.of_nat (length txt) + Z.of_nat (length sep) < 1024 \/ sep = []) /\ (exists s1, (if first then Ret (s, 0) else appendf s (B " ")) = Ret (s1, 0) /\ Rp s1 (txt ++ sep) com 0 sent) \/
                 (1024 <= Z.of_nat (length txt) + Z.of_nat (length sep) /\ sep <> [] /\ exists s1, (if first then Ret (s, 0) else appendf s (B " ")) = Ret (s1, -1) /\ Rp s1 txt com 0 sent)).
    { unfold sep. destruct first; [left; split; [auto|]; exists s; rewrite app_nil_r; auto|].
      destruct (appendf_ok _ _ _ _ _ (B " ") R (Lx _ _ _ _ R)) as [[Hl (s1 & E & R1)]|[Hl (s1 & E & R1)]]; [left|right]; rewrite E.
      - split; [left; lia|eauto].
      - split; [lia|]. split; [discriminate|eauto]. }
    assert (FAILBIG : forall s' txt', Rp s' txt' com 0 sent -> forall e, e = ebig \/ e = vfail -> forall len,
       (1024 <= Z.of_nat (length txt) + Z.of_nat (length sep) + len) -> 0 <= len ->
       (forall v t, lookup n = Some v -> ftext lookup verbose ns false = Some t -> len <= Z.of_nat (length (field verbose n v ++ t))) ->
       match match lookup n with Some v => match ftext lookup verbose ns false with Some t => Some (sep ++ field verbose n v ++ t) | None => None end | None => None end with
       | Some t => if Z.of_nat (length txt) + Z.of_nat (length t) <? 1024 then exists s'', Ret (s', e) = Ret (s'', 0) /\ Rp s'' (txt ++ t) com 0 sent
                   else t = [] \/ exists s'' e' txt', Ret (s', e) = Ret (s'', e') /\ Rp s'' txt' com 0 sent /\ (e' = ebig \/ e' = vfail)
       | None => exists s'' e' txt', Ret (s', e) = Ret (s'', e') /\ Rp s'' txt' com 0 sent /\ (e' = ebig \/ e' = vfail \/ e' = eunk) end).
    { intros s' txt' R' e He len Hb H0 Hlen.
      destruct (lookup n) as [v|]; [|exists s', e, txt'; split; [reflexivity|]; tauto].
      destruct (ftext lookup verbose ns false) as [t|]; [|exists s', e, txt'; split; [reflexivity|]; tauto].
      specialize (Hlen v t eq_refl eq_refl). rewrite len_app. destruct (Z.ltb_spec (Z.of_nat (length txt) + (Z.of_nat (length sep) + Z.of_nat (length (field verbose n v ++ t)))) 1024); [lia|].
      right. exists s', e, txt'. tauto. }
    destruct S1 as [[Hsep (s1 & E1 & R1)]|[Hb (Hsep & s1 & E1 & R1)]]; rewrite E1; cbn [bind Z.eqb negb].
    2:{ apply (FAILBIG s1 txt R1 ebig ltac:(tauto) 0); [lia|lia|intros; lia]. }
    set (nm := if verbose then n ++ B "=" else []).
    assert (S2 : (exists s2, (if verbose then appendf s1 (n ++ B "=") else Ret (s1, 0)) = Ret (s2, 0) /\ Rp s2 (txt ++ sep ++ nm) com 0 sent) \/
                 (1024 <= Z.of_nat (length txt) + Z.of_nat (length sep) + Z.of_nat (length nm) /\ exists s2, (if verbose then appendf s1 (n ++ B "=") else Ret (s1, 0)) = Ret (s2, -1) /\ Rp s2 (txt ++ sep) com 0 sent)).
    { unfold nm. destruct verbose; [|left; exists s1; rewrite app_nil_r; auto].
      destruct (appendf_ok _ _ _ _ _ (n ++ B "=") R1 (Lx _ _ _ _ R1)) as [[Hl (s2 & E & R2)]|[Hl (s2 & E & R2)]]; [left|right]; rewrite E.
      - exists s2. rewrite app_assoc. auto.
      - rewrite !len_app in *. split; [lia|eauto]. }
    destruct S2 as [(s2 & E2 & R2)|[Hb (s2 & E2 & R2)]]; rewrite E2; cbn [bind Z.eqb negb].
    2:{ apply (FAILBIG s2 _ R2 ebig ltac:(tauto) (Z.of_nat (length nm))); [lia|lia|]. intros v t _ _. unfold field, nm. destruct verbose; rewrite ?app_length; cbn [length]; lia. }
    assert (Fnm : forall v, field verbose n v = nm ++ v). { intros v. unfold field, nm. destruct verbose; [rewrite app_assoc|]; reflexivity. }
    destruct (lookup n) as [v|] eqn:El; [|exists s2, eunk, (txt ++ sep ++ nm); tauto].
    destruct (appendf_ok _ _ _ _ _ v R2 (Lx _ _ _ _ R2)) as [[Hl (s3 & E3 & R3)]|[Hl (s3 & E3 & R3)]]; rewrite E3; cbn [bind Z.eqb negb].
    + specialize (IH false s3 _ com sent R3). destruct (ftext lookup verbose ns false) as [t|].
      * rewrite Fnm. replace (Z.of_nat (length ((txt ++ sep ++ nm) ++ v)) + Z.of_nat (length t)) with (Z.of_nat (length txt) + Z.of_nat (length (sep ++ (nm ++ v) ++ t))) in IH by (rewrite !len_app; lia).
        destruct (Z.ltb_spec (Z.of_nat (length txt) + Z.of_nat (length (sep ++ (nm ++ v) ++ t))) 1024) as [Ht|Ht].
        -- destruct IH as (s' & E & R'). exists s'. split; [exact E|]. rewrite <- !app_assoc in *. exact R'.
        -- destruct IH as [->|IH]; [|right; exact IH]. exfalso. rewrite !len_app in *. cbn [length] in *. lia.
      * exact IH.
    + apply (FAILBIG s3 _ R3 vfail ltac:(tauto) (Z.of_nat (length (nm ++ v)))); [rewrite !len_app in *; lia|lia|].
      intros v' t [= ->] _. rewrite Fnm. rewrite !app_length. lia.
Qed.

(** ** Sub-command results *)
Definition oks (n : nat) : list Z := concat (repeat (B " && 0") n).
Lemma oks_S n : oks (S n) = B " && 0" ++ oks n. Proof. reflexivity. Qed.
Lemma oks_snoc n : oks (S n) = oks n ++ B " && 0".
Proof. induction n as [|n IH]; [reflexivity|]. rewrite oks_S, IH at 1. rewrite oks_S, <- app_assoc. reflexivity. Qed.

Fixpoint qsub (skipped : nat) (rs : list subres) : list Z :=
  match rs with
  | [] => []
  | r :: rest =>
      if negb (sr_result r =? 0) then oks skipped ++ B " && " ++ fmt_d (sr_result r)
      else match sr_text r with [] => qsub (S skipped) rest | t => oks skipped ++ B " && " ++ t ++ qsub 0 rest end
  end.

Lemma put_oks_ok n : forall s txt com r sent, Rp s txt com r sent -> Z.of_nat (length txt) + r <= 1024 ->
  (Z.of_nat (length txt) + Z.of_nat (length (oks n)) + r <= 1024 /\ exists s', put_oks n s = Ret (s', O) /\ Rp s' (txt ++ oks n) com r sent /\ (n = O \/ Z.of_nat (length txt) + Z.of_nat (length (oks n)) + r < 1024)) \/
  (1024 <= Z.of_nat (length txt) + Z.of_nat (length (oks n)) + r /\ exists s' m k, put_oks n s = Ret (s', S m) /\ Rp s' (txt ++ oks k) com r sent /\
     Z.of_nat (length (txt ++ oks k)) + r <= 1024 /\ 1024 <= Z.of_nat (length (txt ++ oks k)) + 5 + r /\ (k + S m = n)%nat /\ (k = O \/ Z.of_nat (length (txt ++ oks k)) + r < 1024)).
Proof.
  induction n as [|n IH]; intros s txt com r sent R H.
  - left. cbn [oks put_oks concat repeat length]. split; [lia|]. exists s. rewrite app_nil_r. auto.
  - cbn [put_oks]. destruct (appendf_ok _ _ _ _ _ (B " && 0") R H) as [[Hl (s1 & E & R1)]|[Hl (s1 & E & R1)]]; rewrite E; cbn [bind Z.eqb negb].
    + rewrite oks_S. destruct (IH s1 _ com r sent R1) as [[A (s' & E' & R' & C)]|[A (s' & m & k & E' & R' & C1 & C2 & C3 & C4)]].
      { rewrite len_app. lia. }
      * left. rewrite !len_app in *. split; [lia|]. exists s'. rewrite app_assoc. split; [exact E'|]. split; [exact R'|]. right. destruct C as [->|C]; [cbn [oks concat repeat length] in *|]; lia.
      * right. rewrite !len_app in *. split; [lia|]. exists s', m, (S k). rewrite oks_S, app_assoc. rewrite !len_app in *. split; [exact E'|]. split; [exact R'|]. split; [lia|]. split; [lia|]. split; [lia|]. right. rewrite ?len_app. destruct C4 as [->|C4]; [cbn [oks concat repeat length] in *|]; lia.
    + right. rewrite oks_S, len_app. split; [lia|]. exists s1, n, O. cbn [oks concat repeat]. rewrite app_nil_r. change (Z.of_nat (length (B " && 0"))) with 5 in Hl. split; [reflexivity|]. split; [exact R1|]. split; [exact H|]. split; [lia|]. split; [lia|]. left; reflexivity.
Qed.

Lemma prefix_refl (a : list Z) : exists u, a = a ++ u. Proof. exists []. symmetry. apply app_nil_r. Qed.
Lemma fmt_d0 : fmt_d 0 = [48]. Proof. reflexivity. Qed.

Lemma put_results_ok rs f : Forall (fun r => sr_result r = 0) rs -> forall s txt com r sent, Rp s txt com r sent -> Z.of_nat (length txt) + r <= 1024 ->
  let t := oks (length rs) ++ B " && " ++ fmt_d (sr_result f) in
  (Z.of_nat (length txt) + Z.of_nat (length t) + r < 1024 /\ exists s', put_results (rs ++ [f]) s = Ret (s', 0) /\ Rp s' (txt ++ t) com r sent) \/
  (1024 <= Z.of_nat (length txt) + Z.of_nat (length t) + r /\ exists s' d u, put_results (rs ++ [f]) s = Ret (s', -1) /\ Rp s' (txt ++ d) com r sent /\ d ++ u = t /\ Z.of_nat (length (txt ++ d)) + r <= 1024 /\ (d = [] \/ Z.of_nat (length (txt ++ d)) + r < 1024)).
Proof.
  induction 1 as [|x rs Hx F IH]; intros s txt com r sent R H t.
  - cbn [app put_results length] in *. destruct (appendf_ok _ _ _ _ _ (B " && " ++ fmt_d (sr_result f)) R H) as [[Hl (s1 & E & R1)]|[Hl (s1 & E & R1)]]; rewrite E; cbn [bind Z.eqb negb]; [left|right].
    + split; [exact Hl|]. exists s1. auto.
    + split; [exact Hl|]. exists s1, [], t. rewrite app_nil_r. auto 6.
  - cbn [app put_results length] in *. rewrite Hx. change (B " && " ++ fmt_d 0) with (B " && 0").
    destruct (appendf_ok _ _ _ _ _ (B " && 0") R H) as [[Hl (s1 & E & R1)]|[Hl (s1 & E & R1)]]; rewrite E; cbn [bind Z.eqb negb].
    + destruct (IH s1 _ com r sent R1) as [[A (s' & E' & R')]|[A (s' & d & u & E' & R' & Q & C)]]; [rewrite len_app; lia|left|right].
      * unfold t. rewrite oks_S. rewrite <- app_assoc in R'. rewrite !len_app in *. split; [lia|]. exists s'. rewrite <- app_assoc. auto.
      * assert (Et : t = B " && 0" ++ d ++ u) by (rewrite Q; reflexivity). rewrite Et. rewrite <- app_assoc in R', C. rewrite <- Q in A. rewrite !len_app in *. split; [lia|]. exists s', (B " && 0" ++ d), u. rewrite <- !app_assoc. split; [exact E'|]. split; [exact R'|]. split; [reflexivity|]. rewrite !len_app in *. split; [lia|].
        right. destruct C as [C [->|C']]; cbn [length] in *; lia.
    + right. unfold t. rewrite oks_S. rewrite !len_app in *. split; [lia|]. exists s1, [], ((B " && 0" ++ oks (length rs)) ++ B " && " ++ fmt_d (sr_result f)). rewrite app_nil_r. auto 6.
Qed.

Lemma skipn_last {A} (l : list A) n : (n <= length l)%nat -> length (skipn (length l - n) l) = n.
Proof. intros H. rewrite skipn_length. lia. Qed.
Lemma skipn_snoc {A} (l : list A) x n : (n <= length l)%nat -> skipn (length (l ++ [x]) - S n) (l ++ [x]) = skipn (length l - n) l ++ [x].
Proof.
  intros H. rewrite app_length. cbn [length]. replace (length l + 1 - S n)%nat with (length l - n)%nat by lia.
  rewrite skipn_app. replace (length l - n - length l)%nat with 0%nat by lia. reflexivity.
Qed.

Lemma query_subc_ok r sent results : forall past skipped s txt com, Rp s txt com r sent -> Z.of_nat (length txt) + r <= 1024 ->
  (skipped <= length past)%nat -> Forall (fun r => sr_result r = 0) (skipn (length past - skipped) past) ->
  (exists s' com', query_subc past results skipped s = Ret (s', 0) /\ Rp s' (txt ++ qsub skipped results) com' r sent /\
     (qsub skipped results = [] \/ Z.of_nat (length txt) + Z.of_nat (length (qsub skipped results)) + r < 1024)) \/
  (1024 <= Z.of_nat (length txt) + Z.of_nat (length (qsub skipped results)) + r /\ exists s' com' d u, query_subc past results skipped s = Ret (s', -1) /\
     Rp s' (txt ++ d) com' r sent /\ d ++ u = qsub skipped results /\ (d = [] \/ Z.of_nat (length (txt ++ d)) + r < 1024)).
Proof.
  induction results as [|x results IH]; intros past skipped s txt com R H Hs F.
  - left. exists s, com. cbn [query_subc qsub]. rewrite app_nil_r. auto.
  - cbn [query_subc qsub]. apply commit_ok in R. destruct (Z.eqb_spec (sr_result x) 0) as [E0|E0]; cbn [negb].
    + destruct (sr_text x) as [|c tx] eqn:Et.
      * specialize (IH (past ++ [x]) (S skipped) (commit s) txt txt R H). apply IH; [rewrite app_length; cbn; lia|].
        rewrite skipn_snoc by assumption. apply Forall_app. auto.
      * rewrite <- Et. assert (Htx : (1 <= length (sr_text x))%nat) by (rewrite Et; cbn; lia).
        destruct (put_oks_ok skipped _ _ _ _ _ R H) as [[A (s1 & E1 & R1 & C)]|[A (s1 & m & k & E1 & R1 & C1 & C2 & C3 & C4)]]; rewrite E1; cbn [bind].
        -- destruct (appendf_ok _ _ _ _ _ (B " && " ++ sr_text x) R1) as [[Hl (s2 & E2 & R2)]|[Hl (s2 & E2 & R2)]]; [rewrite len_app; lia| |]; rewrite E2; cbn [bind Z.eqb negb].
           ++ destruct (IH (past ++ [x]) O s2 _ _ R2) as [(s' & com' & E & R' & C')|(A' & s' & com' & d & u & E & R' & Q & C')].
              { rewrite !len_app in *. lia. } { lia. } { rewrite Nat.sub_0_r, skipn_all. constructor. }
              ** left. exists s', com'. split; [exact E|]. rewrite <- !app_assoc in *. split; [exact R'|]. right. rewrite !len_app in *. destruct C' as [C'|C']; [rewrite C' in *; cbn [length] in *|]; lia.
              ** right. rewrite <- Q in *. rewrite !len_app in *. split; [lia|]. exists s', com', (oks skipped ++ B " && " ++ sr_text x ++ d), u. split; [exact E|]. rewrite <- !app_assoc in *. split; [exact R'|].
                 split; [reflexivity|]. right. rewrite !len_app in *. destruct C' as [->|C']; cbn [length] in *; lia.
           ++ right. rewrite !len_app in *. split; [lia|]. exists s2, txt, (oks skipped), (B " && " ++ sr_text x ++ qsub 0 results). split; [reflexivity|]. split; [exact R2|]. split; [reflexivity|].
              rewrite len_app. destruct C as [->|C]; [left; reflexivity|right; lia].
        -- destruct (appendf_ok _ _ _ _ _ (B " && " ++ sr_text x) R1) as [[Hl (s2 & E2 & R2)]|[Hl (s2 & E2 & R2)]]; [rewrite len_app in *; lia| |]; rewrite E2; cbn [bind Z.eqb negb].
           ++ exfalso. rewrite !len_app in *. change (Z.of_nat (length (B " && "))) with 4 in *. lia.
           ++ right. rewrite !len_app in *. split; [lia|]. exists s2, txt, (oks k), (oks (S m) ++ B " && " ++ sr_text x ++ qsub 0 results). split; [reflexivity|]. split; [exact R2|].
              split.
              ** rewrite app_assoc. f_equal. unfold oks. rewrite <- concat_app, <- repeat_app, C3. reflexivity.
              ** destruct C4 as [->|C4]; [left; reflexivity|right; rewrite len_app; lia].
    + destruct (put_results_ok (skipn (length past - skipped) past) x F _ _ _ _ _ R H) as [[A (s' & E' & R')]|[A (s' & d & u & E' & R' & Q & C)]]; rewrite skipn_last in * by assumption; rewrite E'.
      * left. exists s', txt. split; [reflexivity|]. split; [exact R'|right; exact A].
      * right. split; [exact A|]. exists s', txt, d, u. split; [reflexivity|]. split; [exact R'|]. tauto.
Qed.

Lemma udec_len f : forall n acc, (length acc <= length (udec f n acc))%nat.
Proof. induction f as [|f IH]; intros n acc; cbn [udec]; [lia|]. destruct (n <? 10); [cbn; lia|]. etransitivity; [|apply IH]. cbn; lia. Qed.
Lemma udec_len1 f n acc : (S (length acc) <= length (udec (S f) n acc))%nat.
Proof. cbn [udec]. destruct (n <? 10); [cbn; lia|]. apply (udec_len f (n / 10) ((48 + n mod 10) :: acc)). Qed.
Lemma fmt_d_nonempty n : fmt_d n <> [].
Proof. unfold fmt_d. destruct (n <? 0); [discriminate|]. intros X. pose proof (udec_len1 19 n []) as Y. rewrite X in Y. cbn in Y. lia. Qed.

Fixpoint ulsub (skipped : nat) (rs : list subres) : list Z :=
  match rs with
  | [] => []
  | r :: rest =>
      if negb (sr_result r =? 0) then oks skipped ++ B " && " ++ fmt_d (sr_result r) ++ ulsub 0 rest
      else match sr_text r with [] => ulsub (S skipped) rest | t => oks skipped ++ B " && " ++ t ++ ulsub 0 rest end
  end.

Lemma ul_oks_ok n : forall s txt com r sent, Rp s txt com r sent -> Z.of_nat (length txt) + r <= 1024 ->
  (Z.of_nat (length txt) + Z.of_nat (length (oks n)) + r <= 1024 /\ exists s', ul_oks n s = Ret (s', 0) /\ Rp s' (txt ++ oks n) com r sent) \/
  (1024 <= Z.of_nat (length txt) + Z.of_nat (length (oks n)) + r /\ exists s' k, ul_oks n s = Ret (s', -1) /\ Rp s' (txt ++ oks k) com r sent /\
     (k <= n)%nat /\ Z.of_nat (length (txt ++ oks k)) + r <= 1024).
Proof.
  induction n as [|n IH]; intros s txt com r sent R H.
  - left. cbn [oks concat repeat length ul_oks]. split; [lia|]. exists s. rewrite app_nil_r. auto.
  - cbn [ul_oks]. assert (X : B " && 0" <> []) by discriminate.
    destruct (append_ok s txt com r sent (B " && 0") false R X H) as [[Hl (s1 & E & R1)]|[Hl E]]; rewrite E; cbn [bind Z.eqb negb].
    + change (if last (B " && 0") 1 =? 0 then removelast (B " && 0") else B " && 0") with (B " && 0") in R1. rewrite oks_S.
      destruct (IH s1 _ com r sent R1) as [[A (s' & E' & R')]|[A (s' & k & E' & R' & C1 & C2)]].
      { rewrite len_app. lia. }
      * left. rewrite !len_app in *. split; [lia|]. exists s'. rewrite app_assoc. auto.
      * right. rewrite !len_app in *. split; [lia|]. exists s', (S k). rewrite oks_S, app_assoc. split; [exact E'|]. split; [exact R'|]. rewrite !len_app in *. split; lia.
    + right. rewrite oks_S, len_app. split; [lia|]. exists s, O. cbn [oks concat repeat]. rewrite app_nil_r. split; [reflexivity|]. split; [exact R|]. split; [lia|exact H].
Qed.

Lemma oks_prefix k n : (k <= n)%nat -> exists u, oks n = oks k ++ u.
Proof. intros H. exists (oks (n - k)). unfold oks. rewrite <- concat_app, <- repeat_app. f_equal. f_equal. lia. Qed.

Lemma ul_subc_ok r sent com results : forall skipped s txt, Rp s txt com r sent -> Z.of_nat (length txt) + r <= 1024 ->
  (exists s', ul_subc results skipped s = Ret (s', 0) /\ Rp s' (txt ++ ulsub skipped results) com r sent /\
     (ulsub skipped results = [] \/ Z.of_nat (length txt) + Z.of_nat (length (ulsub skipped results)) + r < 1024)) \/
  (1024 <= Z.of_nat (length txt) + Z.of_nat (length (ulsub skipped results)) + r /\ exists s' d u, ul_subc results skipped s = Ret (s', -1) /\
     Rp s' (txt ++ d) com r sent /\ d ++ u = ulsub skipped results /\ Z.of_nat (length (txt ++ d)) + r <= 1024).
Proof.
  induction results as [|x results IH]; intros skipped s txt R H.
  - left. exists s. cbn [ul_subc ulsub]. rewrite app_nil_r. auto.
  - assert (STEP : forall f, f <> [] ->
      let t := oks skipped ++ B " && " ++ f ++ ulsub 0 results in
      let m := (do (s1, e) <- ul_oks skipped s; if negb (e =? 0) then Ret (s1, e) else
                do (s2, e) <- appendf s1 (B " && " ++ f); if negb (e =? 0) then Ret (s2, e) else ul_subc results 0 s2) in
      (exists s', m = Ret (s', 0) /\ Rp s' (txt ++ t) com r sent /\ (t = [] \/ Z.of_nat (length txt) + Z.of_nat (length t) + r < 1024)) \/
      (1024 <= Z.of_nat (length txt) + Z.of_nat (length t) + r /\ exists s' d u, m = Ret (s', -1) /\
        Rp s' (txt ++ d) com r sent /\ d ++ u = t /\ Z.of_nat (length (txt ++ d)) + r <= 1024)).
    { intros f Hf t m. unfold m. assert (Hf' : (1 <= length f)%nat) by (destruct f; [congruence|cbn; lia]).
      destruct (ul_oks_ok skipped _ _ _ _ _ R H) as [[A (s1 & E1 & R1)]|[A (s1 & k & E1 & R1 & C1 & C2)]]; rewrite E1; cbn [bind Z.eqb negb].
      - destruct (appendf_ok _ _ _ _ _ (B " && " ++ f) R1) as [[Hl (s2 & E2 & R2)]|[Hl (s2 & E2 & R2)]]; [rewrite len_app; lia| |]; rewrite E2; cbn [bind Z.eqb negb].
        + destruct (IH O s2 _ R2) as [(s' & E & R' & C')|(A' & s' & d & u & E & R' & Q & C')].
          { rewrite !len_app in *. lia. }
          * left. exists s'. split; [exact E|]. unfold t. rewrite <- !app_assoc in *. split; [exact R'|]. right. rewrite !len_app in *. destruct C' as [C'|C']; [rewrite C' in *; cbn [length] in *|]; lia.
          * right. unfold t. rewrite <- Q in *. rewrite !len_app in *. split; [lia|]. exists s', (oks skipped ++ B " && " ++ f ++ d), u. split; [exact E|]. rewrite <- !app_assoc in *. split; [exact R'|].
            split; [reflexivity|]. rewrite !len_app in *. lia.
        + right. unfold t. rewrite !len_app in *. split; [lia|]. exists s2, (oks skipped), (B " && " ++ f ++ ulsub 0 results). split; [reflexivity|]. split; [exact R2|]. split; [reflexivity|]. rewrite len_app. lia.
      - right. unfold t. rewrite !len_app in *. split; [lia|]. destruct (oks_prefix k skipped C1) as [u Hu]. exists s1, (oks k), (u ++ B " && " ++ f ++ ulsub 0 results).
        split; [reflexivity|]. split; [exact R1|]. split; [rewrite app_assoc, <- Hu; reflexivity|]. rewrite len_app. lia. }
    cbn [ul_subc ulsub]. destruct (Z.eqb_spec (sr_result x) 0) as [E0|E0]; cbn [negb].
    + destruct (sr_text x) as [|c tx] eqn:Et; [apply IH; assumption|]. rewrite <- Et. apply STEP. congruence.
    + apply STEP. apply fmt_d_nonempty.
Qed.

(** ** Whole replies *)
Definition good (p : list Z) (sent : list (list Z * bool)) (o : out rep) : Prop :=
  match o with
  | Oob => False
  | Abort => True
  | Ret s' => exists body e, rp_sent s' = sent ++ [(p ++ body ++ [10], e)] /\ Z.of_nat (length (p ++ body)) + 1 <= 1023
  end.

Lemma finish_ok s txt com r sent (e : bool) : Rp s txt com r sent -> Z.of_nat (length txt) <= 1022 ->
  exists s', (do s5 <- must (append s [10; 0] true); deliver (commit s5) e) = Ret s' /\ rp_sent s' = sent ++ [(txt ++ [10], e)].
Proof.
  intros R H. assert (X : [10; 0] <> []) by discriminate. unfold must.
  destruct (append_ok s txt com r sent [10; 0] true R X) as [[Hl (s1 & E & R1)]|[Hl E]]; [lia| |cbn [length] in Hl; lia].
  rewrite E. cbn [bind Z.eqb]. apply commit_ok in R1. cbn in R1. destruct (deliver_ok_ _ _ _ _ _ e R1) as (s' & E' & R'). exists s'. split; [exact E'|]. destruct R'. exact rp_s0.
Qed.
Lemma finish_bad s txt com r sent (e : bool) : Rp s txt com r sent -> 1022 < Z.of_nat (length txt) ->
  (do s5 <- must (append s [10; 0] true); deliver (commit s5) e) = Abort.
Proof.
  intros R H. assert (X : [10; 0] <> []) by discriminate. unfold must.
  destruct (append_ok s txt com r sent [10; 0] true R X) as [[Hl (s1 & E & R1)]|[Hl E]]; [destruct R; lia|cbn [length] in Hl; lia|].
  rewrite E. reflexivity.
Qed.
Lemma finish_good s txt com r sent (e : bool) p : Rp s txt com r sent -> (exists u, txt = p ++ u) ->
  good p sent (do s5 <- must (append s [10; 0] true); deliver (commit s5) e).
Proof.
  intros R [u Hu]. destruct (Z.le_gt_cases (Z.of_nat (length txt)) 1022) as [H|H].
  - destruct (finish_ok _ _ _ _ _ e R H) as (s' & E & Es). rewrite E. cbn [good]. exists u, e. rewrite Es, Hu, app_assoc. subst txt. split; [reflexivity|lia].
  - rewrite (finish_bad _ _ _ _ _ e R) by lia. exact I.
Qed.

Lemma text_good s txt com r sent t (e : bool) : Rp s txt com r sent -> Z.of_nat (length com) + r <= 1024 -> good com sent (deliver_text s (t ++ [10]) e).
Proof.
  intros R H. destruct (deliver_text_ok _ _ _ _ _ (t ++ [10]) e R H) as [[Hl (s' & E & R')]|[Hl E]]; rewrite E; cbn [good]; [|exact I].
  exists t, e. split; [apply R'|]. rewrite !len_app in *. cbn [length] in *. pose proof (rp_r0 _ _ _ _ _ R). lia.
Qed.
Lemma Rp_r s txt com r sent : Rp s txt com r sent -> Z.of_nat (length com) <= Z.of_nat (length txt).
Proof. intros []. destruct rp_pre0 as [u ->]. rewrite len_app. lia. Qed.
Lemma error_good s txt com sent e : Rp s txt com 0 sent -> good com sent (deliver_error s e).
Proof.
  intros R. unfold deliver_error. rewrite app_assoc. apply (text_good s txt com 0); [exact R|]. pose proof (Rp_r _ _ _ _ _ R). destruct R. lia.
Qed.

(** the text of the counters *)
Definition qtext (st : qstats) (verbose few : bool) (names : list (list Z)) : option (list Z) :=
  if few then Some (query_simple_text st verbose) else ftext (query_field st) verbose names true.

Definition query_main (s : rep) (verbose few : bool) (names : list (list Z)) (st : qstats) : out (rep * Z) :=
  if few then do (s1, _) <- appendf s (query_simple_text st verbose); Ret (s1, 0)
  else field_loop (query_field st) verbose ECODE_RTOOBIG_2 ECODE_QRYFAIL ECODE_RTOOBIG_2 names true s.
Definition query_rest (s1 : rep) (subc : list subres) : out rep :=
  do s2 <- (match subc with [] => Ret s1 | _ => must (Ret (reserve s1 7)) end);
  do (s3, aerr) <- query_subc [] subc 0 s2;
  do s4 <- (if negb (aerr =? 0) then must (append s3 (B " && -1") true) else Ret s3);
  do s5 <- must (append s4 [10; 0] true); deliver (commit s5) false.
Lemma run_query_eq s mods few names st subc : run_query s mods few names st subc =
  match verbose_mods mods false with
  | None => deliver_error s ECODE_PARSE_8
  | Some verbose => do (s1, e) <- query_main s verbose few names st; if negb (e =? 0) then deliver_error s1 e else query_rest s1 subc
  end.
Proof.
  unfold run_query, handle_query. destruct (verbose_mods mods false) as [verbose|]; [|reflexivity]. fold (query_main s verbose few names st).
  destruct (query_main s verbose few names st) as [| |[s1 e]]; cbn [bind]; try reflexivity. destruct (e =? 0) eqn:Ee; cbn [negb]; [|cbn [bind]; rewrite Ee; reflexivity].
  unfold query_rest. destruct (match subc with [] => Ret s1 | _ => must (Ret (reserve s1 7)) end) as [| |s2]; cbn [bind]; try reflexivity.
  destruct (query_subc [] subc 0 s2) as [| |[s3 aerr]]; cbn [bind]; try reflexivity.
  destruct (if negb (aerr =? 0) then must (append s3 (B " && -1") true) else Ret s3) as [| |s4]; cbn [bind]; try reflexivity.
  destruct (must (append s4 [10; 0] true)) as [| |s5]; cbn [bind]; try reflexivity.
  destruct (deliver (commit s5) false); reflexivity.
Qed.

Lemma query_rest_ok s txt p sent subc : Rp s txt p 0 sent -> Z.of_nat (length txt) <= (match subc with [] => 1022 | _ => 1016 end) ->
  exists s' t, query_rest s subc = Ret s' /\ rp_sent s' = sent ++ [(txt ++ t ++ [10], false)] /\
    (t = qsub 0 subc \/ exists d u, t = d ++ B " && -1" /\ d ++ u = qsub 0 subc /\ 1017 <= Z.of_nat (length txt) + Z.of_nat (length (qsub 0 subc))) /\
    (Z.of_nat (length txt) + Z.of_nat (length (qsub 0 subc)) < 1017 -> t = qsub 0 subc).
Proof.
  intros R H. unfold query_rest. destruct subc as [|x subc].
  { cbn [bind query_subc]. destruct (finish_ok _ _ _ _ _ false R H) as (s' & E & Es). exists s', []. cbn [Z.eqb negb bind qsub] in *. rewrite E. auto. }
  destruct (reserve_ok _ _ _ _ _ 7 R ltac:(lia)) as [[Hl (s2 & E2 & R2)]|[Hl E2]]; [|lia].
  rewrite E2. unfold must at 1. cbn [bind Z.eqb]. remember (x :: subc) as rs eqn:Hrs. clear Hrs.
  destruct (query_subc_ok 7 sent rs [] O s2 txt p R2) as [(s3 & com & E3 & R3 & C)|(A & s3 & com & d & u & E3 & R3 & Q & C)]; [lia|cbn; lia|constructor| |]; rewrite E3; cbn [bind Z.eqb negb].
  - destruct (finish_ok _ _ _ _ _ false R3) as (s' & E & Es). { rewrite len_app. destruct C as [C|C]; [rewrite C; cbn [length]|]; lia. }
    exists s', (qsub 0 rs). rewrite E. rewrite Es, app_assoc. auto.
  - assert (X : B " && -1" <> []) by discriminate. assert (L : Z.of_nat (length (txt ++ d)) <= 1016). { destruct C as [->|C]; [rewrite app_nil_r|]; lia. }
    destruct (append_ok _ _ _ _ _ (B " && -1") true R3 X) as [[Hl4 (s4 & E4 & R4)]|[Hl4 _]]; [lia| |change (Z.of_nat (length (B " && -1"))) with 6 in Hl4; lia].
    unfold must at 1. rewrite E4. cbn [bind Z.eqb]. change (if last (B " && -1") 1 =? 0 then removelast (B " && -1") else B " && -1") with (B " && -1") in R4.
    destruct (finish_ok _ _ _ _ _ false R4) as (s' & E & Es). { rewrite len_app. change (Z.of_nat (length (B " && -1"))) with 6. lia. }
    exists s', (d ++ B " && -1"). rewrite E, Es, <- !app_assoc. split; [reflexivity|]. split; [reflexivity|]. split; [right; exists d, u; repeat split; [exact Q|lia]|]. intros Y. lia.
Qed.

Lemma query_rest_good s txt p sent subc : Rp s txt p 0 sent -> good p sent (query_rest s subc).
Proof.
  intros R. unfold query_rest. pose proof (rp_pre _ _ _ _ _ R) as [w Hw]. destruct subc as [|x subc].
  { cbn [bind query_subc Z.eqb negb]. eapply finish_good; [exact R|]. eauto. }
  destruct (reserve_ok _ _ _ _ _ 7 R ltac:(lia)) as [[Hl (s2 & E2 & R2)]|[Hl E2]]; rewrite E2; unfold must at 1; cbn [bind Z.eqb]; [|exact I].
  remember (x :: subc) as rs eqn:Hrs. clear Hrs.
  destruct (query_subc_ok 7 sent rs [] O s2 txt p R2) as [(s3 & com & E3 & R3 & C)|(A & s3 & com & d & u & E3 & R3 & Q & C)]; [lia|cbn; lia|constructor| |]; rewrite E3; cbn [bind Z.eqb negb].
  - eapply finish_good; [exact R3|]. exists (w ++ qsub 0 rs). rewrite Hw, app_assoc. reflexivity.
  - assert (X : B " && -1" <> []) by discriminate.
    destruct (append_ok _ _ _ _ _ (B " && -1") true R3 X) as [[Hl4 (s4 & E4 & R4)]|[Hl4 E4]]; [destruct R3; lia| |]; rewrite E4; unfold must at 1; cbn [bind Z.eqb]; [|exact I].
    eapply finish_good; [exact R4|]. rewrite Hw. rewrite <- !app_assoc. eauto.
Qed.

Lemma big_ne : ECODE_RTOOBIG_2 <> 0 /\ ECODE_QRYFAIL <> 0. Proof. split; discriminate. Qed.
Lemma loop_good lookup verbose a b c names s p sent (k : rep -> out rep) : a <> 0 -> b <> 0 -> c <> 0 -> Rp s p p 0 sent ->
  (forall s1 t, Rp s1 (p ++ t) p 0 sent -> good p sent (k s1)) ->
  good p sent (do (s1, e) <- field_loop lookup verbose a b c names true s; if negb (e =? 0) then deliver_error s1 e else k s1).
Proof.
  intros Na Nb Nc R K. pose proof (field_loop_ok lookup verbose a b c names Na Nb Nc true s p p sent R) as F.
  destruct (ftext lookup verbose names true) as [t|] eqn:Et.
  - destruct (Z.of_nat (length p) + Z.of_nat (length t) <? 1024) eqn:El.
    + destruct F as (s' & E & R'). rewrite E. cbn [bind Z.eqb negb]. eapply K; exact R'.
    + destruct F as [->|(s' & e & txt' & E & R' & He)].
      * destruct names as [|n ns]; cbn [field_loop bind Z.eqb negb].
        { apply (K s []). rewrite app_nil_r. exact R. }
        assert (Xe : exists s' e txt', field_loop lookup verbose a b c (n :: ns) true s = Ret (s', e) /\ Rp s' txt' p 0 sent).
        { cbn [field_loop bind Z.eqb negb]. assert (Lx : Z.of_nat (length p) + 0 <= 1024) by (destruct R; lia).
          cbn [ftext] in Et. destruct (lookup n) as [v|]; [|discriminate]. destruct (ftext lookup verbose ns false) as [t|]; [|discriminate]. injection Et as Et. apply app_eq_nil in Et as [Et1 Et2].
          unfold field in Et1. destruct verbose; [destruct n; discriminate|]. cbn [bind Z.eqb negb]. rewrite Et1.
          destruct (appendf_ok _ _ _ _ _ [] R Lx) as [[Hl _]|[Hl (s' & E & R')]]; [cbn [length] in *; lia|]. rewrite E. cbn [bind Z.eqb negb]. eauto. }
        destruct Xe as (s' & e & txt' & E & R'). cbn [field_loop bind Z.eqb negb] in E. rewrite E. cbn [bind].
        destruct (e =? 0) eqn:Ee; cbn [negb]; [|eapply error_good; exact R'].
        destruct R' as []. destruct rp_pre0 as [w ->]. eapply K. constructor; eauto.
      * rewrite E. cbn [bind]. replace (e =? 0) with false by lia. cbn [negb]. eapply error_good; exact R'.
  - destruct F as (s' & e & txt' & E & R' & He). rewrite E. cbn [bind]. replace (e =? 0) with false by lia. cbn [negb]. eapply error_good; exact R'.
Qed.

Lemma answer_good h s p sent : Rp s p p 0 sent -> good p sent (answer h s).
Proof.
  intros R. assert (L : Z.of_nat (length p) + 0 <= 1024) by (destruct R; lia). assert (X10 : [10; 0] <> []) by discriminate.
  destruct h as [n|e|a port v6|mods few names st subc|mods names lookup|main subc errd|mods cr ac stm rc se load]; cbn [answer].
  - eapply text_good; [exact R|exact L].
  - eapply error_good; exact R.
  - unfold copy_reply, deliver_port_addr, append_port_addr. destruct (appendf_ok _ _ _ _ _ (port_addr_text a port v6) R L) as [[Hl (s1 & E & R1)]|[Hl (s1 & E & R1)]]; rewrite E; cbn [bind Z.eqb negb]; [|eapply error_good; exact R1].
    destruct (append_ok _ _ _ _ _ [10; 0] true R1 X10) as [[Hl2 (s2 & E2 & R2)]|[Hl2 E2]]; [rewrite len_app; lia| |]; rewrite E2; cbn [bind Z.eqb negb]; [|eapply error_good; exact R1].
    apply commit_ok in R2. cbn [last Z.eqb removelast] in R2. destruct (deliver_ok_ _ _ _ _ _ false R2) as (s' & E' & R'). rewrite E'. cbn [bind Z.eqb negb good].
    exists (port_addr_text a port v6), false. split; [rewrite (rp_s _ _ _ _ _ R'), <- app_assoc; reflexivity|]. rewrite !len_app in *. cbn [length] in *. lia.
  - rewrite run_query_eq. destruct (verbose_mods mods false) as [verbose|]; [|eapply error_good; exact R]. unfold query_main. destruct few.
    + destruct (appendf_ok _ _ _ _ _ (query_simple_text st verbose) R L) as [[Hl (s1 & E & R1)]|[Hl (s1 & E & R1)]]; rewrite E; cbn [bind Z.eqb negb]; eapply query_rest_good; exact R1.
    + apply loop_good; auto; try discriminate. intros s1 t R1. eapply query_rest_good. exact R1.
  - unfold run_get_stats. destruct (verbose_mods mods false) as [verbose|]; [|eapply error_good; exact R].
    apply (loop_good lookup verbose _ _ _ names s p sent (fun s1 => do s2 <- must (append s1 [10; 0] true); deliver (commit s2) false)); auto; try discriminate.
    intros s1 t R1. eapply finish_good; [exact R1|eauto].
  - unfold ul_reply_port. destruct (reserve_ok _ _ _ _ _ 2 R ltac:(lia)) as [[Hl (s1 & E1 & R1)]|[Hl E1]]; rewrite E1; unfold must at 1; cbn [bind Z.eqb]; [|exact I].
    destruct (appendf_ok _ _ _ _ _ main R1 Hl) as [[Hl2 (s2 & E2 & R2)]|[Hl2 (s2 & E2 & R2)]]; rewrite E2; unfold must at 1; cbn [bind Z.eqb]; [|exact I].
    destruct subc as [|x subc].
    + cbn [bind ul_subc Z.eqb negb]. eapply finish_good; [exact R2|eauto].
    + destruct (reserve_ok _ _ _ _ _ 8 R2 ltac:(lia)) as [[Hl3 (s3 & E3 & R3)]|[Hl3 E3]]; rewrite E3; unfold must at 1; cbn [bind Z.eqb]; [|exact I].
      remember (x :: subc) as rs eqn:Hrs. clear Hrs.
      destruct (ul_subc_ok 8 sent p rs O s3 _ R3 Hl3) as [(s4 & E4 & R4 & C)|(A & s4 & d & u & E4 & R4 & Q & C)]; rewrite E4; cbn [bind Z.eqb negb].
      * eapply finish_good; [exact R4|]. rewrite <- app_assoc. eauto.
      * assert (X : B " && -1" <> []) by discriminate.
        destruct (append_ok _ _ _ _ _ (B " && -1") true R4 X) as [[Hl5 (s5 & E5 & R5)]|[Hl5 E5]]; [lia| |]; rewrite E5; unfold must at 1; cbn [bind Z.eqb]; [|exact I].
        eapply finish_good; [exact R5|]. rewrite <- !app_assoc. eauto.
  - unfold handle_info. destruct (info_mods mods false) as [l|]; [|eapply error_good; exact R].
    assert (Ei : exists b, info_text cr ac stm rc se = b ++ [10]). { unfold info_text. eexists. rewrite !app_assoc. reflexivity. }
    destruct Ei as [ib Ei].
    destruct (appendf_ok _ _ _ _ _ (info_text cr ac stm rc se) R L) as [[Hl (s1 & E & R1)]|[Hl (s1 & E & R1)]]; rewrite E; cbn [bind Z.eqb].
    + rewrite andb_true_r. destruct l.
      * destruct (appendf_ok _ _ _ _ _ (B "average load: " ++ load ++ [10]) R1) as [[Hl2 (s2 & E2 & R2)]|[Hl2 (s2 & E2 & R2)]]; [rewrite len_app; lia| |]; rewrite E2; cbn [bind Z.eqb]; [|eapply error_good; exact R2].
        apply commit_ok in R2. destruct (deliver_ok_ _ _ _ _ _ false R2) as (s' & E' & R'). rewrite E'. cbn [good].
        exists (info_text cr ac stm rc se ++ B "average load: " ++ load), false. split; [rewrite (rp_s _ _ _ _ _ R'), <- !app_assoc; reflexivity|]. rewrite !len_app in *. cbn [length] in *. lia.
      * cbn [bind Z.eqb]. apply commit_ok in R1. destruct (deliver_ok_ _ _ _ _ _ false R1) as (s' & E' & R'). rewrite E'. cbn [good].
        rewrite Ei in *. exists ib, false. split; [rewrite (rp_s _ _ _ _ _ R'); reflexivity|]. rewrite !len_app in *. cbn [length] in *. lia.
    + rewrite andb_false_r. cbn [bind Z.eqb]. eapply error_good; exact R1.
Qed.

Definition prefix_of (cookie : option (list Z)) : list Z := match cookie with Some c => c ++ B " " | None => [] end.

Lemma ctor_Rp : Rp rep_ctor [] [] 0 [].
Proof. constructor; auto; try (cbn; lia). exists []. reflexivity. Qed.
Lemma cookie_Rp c : (Z.of_nat (length c) < 1023 /\ exists s, put_cookie rep_ctor c = Ret s /\ Rp s (c ++ B " ") (c ++ B " ") 0 []) \/
  (1023 <= Z.of_nat (length c) /\ put_cookie rep_ctor c = Abort).
Proof.
  unfold put_cookie, must. destruct (appendf_ok _ _ _ _ _ (c ++ B " ") ctor_Rp ltac:(cbn; lia)) as [[Hl (s1 & E & R1)]|[Hl (s1 & E & R1)]]; rewrite E; cbn [bind Z.eqb]; rewrite len_app in Hl; cbn [length B] in Hl;
    change (Z.of_nat (length (B " "))) with 1 in Hl.
  - left. split; [lia|]. eexists. split; [reflexivity|]. apply commit_ok in R1. exact R1.
  - right. split; [lia|reflexivity].
Qed.
Lemma exec_start cookie h : (exists s, exec_reply cookie h = answer h s /\ Rp s (prefix_of cookie) (prefix_of cookie) 0 []) \/
  (exec_reply cookie h = Abort /\ exists c, cookie = Some c /\ 1023 <= Z.of_nat (length c)).
Proof.
  unfold exec_reply. destruct cookie as [c|]; cbn [bind prefix_of].
  - destruct (cookie_Rp c) as [[Hl (s & E & R)]|[Hl E]]; rewrite E; cbn [bind]; eauto.
  - left. exists rep_ctor. split; [reflexivity|]. apply ctor_Rp.
Qed.

(** ** The specification *)
Lemma u64_printable n : 0 <= n < 18446744073709551616 -> printable n. Proof. unfold printable. lia. Qed.
Lemma int_printable n : is_int n -> printable n. Proof. unfold is_int, printable. lia. Qed.

Lemma counter_field st n v : st_ok st -> (counter st n v <-> query_field st n = Some v).
Proof.
  intros [Ht F]. repeat rewrite Forall_cons_iff in F. destruct F as (F1 & F2 & F3 & F4 & F5 & F6 & F7 & F8 & F9 & _).
  assert (D : forall m w, 0 <= m < 18446744073709551616 -> dec m w <-> w = fmt_u m) by (intros; apply fmt_u_dec; [lia|apply u64_printable; assumption]).
  pose proof (fun w => fmt_d_dec (q_ttl st) w (int_printable _ Ht)) as Dt.
  split.
  - destruct 1 as [v Hv|v Hv|v Hv|v Hv|v Hv|v Hv|v Hv|v Hv|v Hv|v Hv| | | |]; try (apply Dt in Hv as ->); try (apply D in Hv as ->; [|assumption]); reflexivity.
  - unfold query_field. intros H.
    repeat match type of H with (if beq n ?x then _ else _) = _ => destruct (beq n x) eqn:?En end;
      try discriminate; injection H as <-; match goal with E : beq n _ = true |- _ => apply beq_eq in E; subst n end; constructor; first [apply Dt; reflexivity|apply D; [assumption|reflexivity]].
Qed.

Lemma fields_ftext (val : list Z -> list Z -> Prop) lookup verbose : (forall n v, val n v <-> lookup n = Some v) -> forall names t,
  fields val verbose names t <-> ftext lookup verbose names true = Some t.
Proof.
  intros HV. assert (G : forall names, names <> [] -> ftext lookup verbose names false = match ftext lookup verbose names true with Some t => Some (B " " ++ t) | None => None end).
  { intros [|n ns] H; [congruence|]. cbn [ftext]. destruct (lookup n); [|reflexivity]. destruct (ftext lookup verbose ns false); reflexivity. }
  induction names as [|n ns IH]; intros t.
  - cbn [ftext]. split; [inversion 1; reflexivity|intros [= <-]; constructor].
  - cbn [ftext]. split.
    + inversion 1 as [|? v Hv|? v ? t' Hn Hv Hf]; subst.
      * apply HV in Hv. rewrite Hv. cbn [ftext]. rewrite app_nil_r. reflexivity.
      * apply HV in Hv. rewrite Hv, G by assumption. apply IH in Hf. rewrite Hf. reflexivity.
    + destruct (lookup n) as [v|] eqn:El; [|discriminate]. apply HV in El. destruct ns as [|n2 ns].
      * cbn [ftext]. rewrite app_nil_r. intros [= <-]. constructor. exact El.
      * rewrite G by discriminate. destruct (ftext lookup verbose (n2 :: ns) true) as [t'|] eqn:Ef; [|discriminate].
        intros [= <-]. constructor; [discriminate|exact El|]. apply IH. reflexivity.
Qed.

Lemma simple_fields st verbose t : st_ok st -> fields (counter st) verbose default_names t -> query_simple_text st verbose = t.
Proof.
  intros H F. apply (fields_ftext (counter st) (query_field st) verbose) in F; [|intros; apply counter_field; assumption].
  unfold default_names in F. cbn [ftext] in F.
  assert (E1 : query_field st (B "ttl") = Some (fmt_d (q_ttl st))) by reflexivity.
  assert (E2 : query_field st (B "npkts_ina") = Some (fmt_u (q_ina st))) by reflexivity.
  assert (E3 : query_field st (B "npkts_ino") = Some (fmt_u (q_ino st))) by reflexivity.
  assert (E4 : query_field st (B "nrelayed") = Some (fmt_u (q_relayed st))) by reflexivity.
  assert (E5 : query_field st (B "ndropped") = Some (fmt_u (q_dropped st))) by reflexivity.
  rewrite E1, E2, E3, E4, E5 in F. injection F as <-. unfold query_simple_text, field. destruct verbose; rewrite ?app_nil_r, <- ?app_assoc; reflexivity.
Qed.

Lemma silent_dec r : {silent r} + {~ silent r}.
Proof.
  unfold silent. destruct (Z.eq_dec (sr_result r) 0); [|right; tauto]. destruct (sr_text r); [left; auto|right; intros [_ X]; discriminate].
Qed.
Lemma sub_silent rs t : Forall silent rs -> sub_text rs t -> t = [].
Proof. intros F S. inversion S; subst; [reflexivity|tauto]. Qed.
Lemma sub_field_text r f : is_int (sr_result r) -> sub_field r f ->
  (sr_result r <> 0 /\ f = fmt_d (sr_result r)) \/ (sr_result r = 0 /\ sr_text r <> [] /\ f = sr_text r) \/ (silent r /\ f = B "0").
Proof.
  intros Hi H. inversion H; subst; auto. left. split; [assumption|]. apply fmt_d_dec; [apply int_printable; assumption|assumption].
Qed.

Lemma qsub_spec rs : subs_ok rs -> forall k t, sub_text (executed rs) t ->
  (Forall silent (executed rs) /\ qsub k rs = [] /\ t = []) \/ (~ Forall silent (executed rs) /\ qsub k rs = oks k ++ t).
Proof.
  induction 1 as [|r rs Hr Hs IH]; intros k t S.
  - left. cbn in *. repeat split; [constructor|]. eapply sub_silent; [|exact S]. constructor.
  - cbn [executed qsub] in *. destruct (Z.eqb_spec (sr_result r) 0) as [E0|E0]; cbn [negb].
    + destruct (sr_text r) as [|c tx] eqn:Et.
      * assert (Hsil : silent r) by (split; assumption). inversion S as [? F|? ? f t' NF Hf S']; subst.
        -- left. rewrite Forall_cons_iff in F. destruct (IH (Datatypes.S k) []) as [(A & E & _)|(A & _)]; [constructor; tauto|auto|tauto].
        -- right. split; [exact NF|]. destruct (IH (Datatypes.S k) t' S') as [(A & _)|(A & E)]; [exfalso; apply NF; constructor; assumption|].
           rewrite E, oks_snoc. apply (sub_field_text _ _ Hr) in Hf as [[X _]|[(_ & X & _)|[_ ->]]]; [lia|congruence|]. rewrite <- !app_assoc. reflexivity.
      * right. rewrite <- Et. assert (Nsil : ~ silent r) by (intros [_ X]; congruence). split; [rewrite Forall_cons_iff; tauto|].
        inversion S as [? F|? ? f t' NF Hf S']; subst; [rewrite Forall_cons_iff in F; tauto|].
        apply (sub_field_text _ _ Hr) in Hf as [[X _]|[(_ & _ & ->)|[X _]]]; [lia| |tauto].
        destruct (IH O t' S') as [(_ & -> & ->)|(_ & ->)]; reflexivity.
    + right. assert (Nsil : ~ silent r) by (intros [X _]; congruence). split; [rewrite Forall_cons_iff; tauto|].
      inversion S as [? F|? ? f t' NF Hf S']; subst; [rewrite Forall_cons_iff in F; tauto|].
      apply (sub_field_text _ _ Hr) in Hf as [[_ ->]|[(X & _)|[X _]]]; [|lia|tauto].
      apply sub_silent in S' as ->; [|constructor]. rewrite app_nil_r. reflexivity.
Qed.
Lemma qsub_exact rs t : subs_ok rs -> sub_text (executed rs) t -> qsub 0 rs = t.
Proof. intros H S. destruct (qsub_spec rs H O t S) as [(_ & -> & ->)|(_ & ->)]; reflexivity. Qed.

Lemma ulsub_spec rs : subs_ok rs -> forall k t, sub_text rs t ->
  (Forall silent rs /\ ulsub k rs = [] /\ t = []) \/ (~ Forall silent rs /\ ulsub k rs = oks k ++ t).
Proof.
  induction 1 as [|r rs Hr Hs IH]; intros k t S.
  - left. cbn in *. repeat split; [constructor|]. eapply sub_silent; [|exact S]. constructor.
  - cbn [ulsub] in *. destruct (Z.eqb_spec (sr_result r) 0) as [E0|E0]; cbn [negb].
    + destruct (sr_text r) as [|c tx] eqn:Et.
      * assert (Hsil : silent r) by (split; assumption). inversion S as [? F|? ? f t' NF Hf S']; subst.
        -- left. rewrite Forall_cons_iff in F. destruct (IH (Datatypes.S k) []) as [(A & E & _)|(A & _)]; [constructor; tauto|auto|tauto].
        -- right. split; [exact NF|]. destruct (IH (Datatypes.S k) t' S') as [(A & _)|(A & E)]; [exfalso; apply NF; constructor; assumption|].
           rewrite E, oks_snoc. apply (sub_field_text _ _ Hr) in Hf as [[X _]|[(_ & X & _)|[_ ->]]]; [lia|congruence|]. rewrite <- !app_assoc. reflexivity.
      * right. rewrite <- Et. assert (Nsil : ~ silent r) by (intros [_ X]; congruence). split; [rewrite Forall_cons_iff; tauto|].
        inversion S as [? F|? ? f t' NF Hf S']; subst; [rewrite Forall_cons_iff in F; tauto|].
        apply (sub_field_text _ _ Hr) in Hf as [[X _]|[(_ & _ & ->)|[X _]]]; [lia| |tauto].
        destruct (IH O t' S') as [(_ & -> & ->)|(_ & ->)]; reflexivity.
    + right. assert (Nsil : ~ silent r) by (intros [X _]; congruence). split; [rewrite Forall_cons_iff; tauto|].
      inversion S as [? F|? ? f t' NF Hf S']; subst; [rewrite Forall_cons_iff in F; tauto|].
      apply (sub_field_text _ _ Hr) in Hf as [[_ ->]|[(X & _)|[X _]]]; [|lia|tauto].
      destruct (IH O t' S') as [(_ & -> & ->)|(_ & ->)]; reflexivity.
Qed.
Lemma ulsub_exact rs t : subs_ok rs -> sub_text rs t -> ulsub 0 rs = t.
Proof. intros H S. destruct (ulsub_spec rs H O t S) as [(_ & -> & ->)|(_ & ->)]; reflexivity. Qed.

Lemma verbose_true mods : Forall (fun c => c = 118 \/ c = 86) mods -> verbose_mods mods true = Some true.
Proof. induction 1 as [|c t Hc F IH]; cbn; [reflexivity|]. replace ((c =? 118) || (c =? 86)) with true by lia. exact IH. Qed.
Lemma verbose_spec mods v : verbose_only mods v -> verbose_mods mods false = Some v.
Proof.
  intros [F Hv]. destruct mods as [|c t]; cbn.
  - f_equal. destruct v; [exfalso; apply Hv; reflexivity|reflexivity].
  - inversion F; subst. replace ((c =? 118) || (c =? 86)) with true by lia. rewrite verbose_true by assumption. f_equal. symmetry. apply Hv. discriminate.
Qed.
Lemma verbose_none mods b : ~ Forall (fun c => c = 118 \/ c = 86) mods -> verbose_mods mods b = None.
Proof.
  revert b. induction mods as [|c t IH]; intros b H; [exfalso; apply H; constructor|]. cbn. destruct ((c =? 118) || (c =? 86)) eqn:E; [|reflexivity].
  apply IH. intros F. apply H. constructor; [lia|exact F].
Qed.

Lemma field_loop_app lookup verbose a b c xs ys : a <> 0 -> b <> 0 -> c <> 0 -> forall first s, field_loop lookup verbose a b c (xs ++ ys) first s =
  do (s1, e) <- field_loop lookup verbose a b c xs first s;
  if negb (e =? 0) then Ret (s1, e) else field_loop lookup verbose a b c ys (match xs with [] => first | _ => false end) s1.
Proof.
  intros Na Nb Nc. assert (Za : a =? 0 = false) by lia. assert (Zb : b =? 0 = false) by lia. assert (Zc : c =? 0 = false) by lia.
  induction xs as [|x xs IH]; intros first s; [reflexivity|]. cbn [app field_loop].
  destruct (if first then Ret (s, 0) else appendf s (B " ")) as [| |[s1 r1]]; cbn [bind]; try reflexivity.
  destruct (negb (r1 =? 0)) eqn:E1; [cbn [bind]; rewrite Za; reflexivity|].
  destruct (if verbose then appendf s1 (x ++ B "=") else Ret (s1, 0)) as [| |[s2 r2]]; cbn [bind]; try reflexivity.
  destruct (negb (r2 =? 0)) eqn:E2; [cbn [bind]; rewrite Za; reflexivity|].
  destruct (lookup x) as [v|]; [|cbn [bind]; rewrite Zb; reflexivity].
  destruct (appendf s2 v) as [| |[s3 r3]]; cbn [bind]; try reflexivity.
  destruct (negb (r3 =? 0)) eqn:E3; [cbn [bind]; rewrite Zc; reflexivity|].
  rewrite IH. destruct xs; reflexivity.
Qed.

(** An unknown name *)
Lemma field_loop_unknown lookup verbose a b c xs bad ys t s p sent : a <> 0 -> b <> 0 -> c <> 0 -> Rp s p p 0 sent ->
  ftext lookup verbose xs true = Some t -> lookup bad = None -> Z.of_nat (length p) + Z.of_nat (length t) + Z.of_nat (length bad) + 2 < 1024 ->
  exists s' txt, field_loop lookup verbose a b c (xs ++ bad :: ys) true s = Ret (s', b) /\ Rp s' txt p 0 sent.
Proof.
  intros Na Nb Nc R Ht Hb L. rewrite field_loop_app by assumption. pose proof (field_loop_ok lookup verbose a b c xs Na Nb Nc true s p p sent R) as F. rewrite Ht in F.
  replace (Z.of_nat (length p) + Z.of_nat (length t) <? 1024) with true in F by lia. destruct F as (s1 & E & R1). rewrite E. cbn [bind Z.eqb negb field_loop].
  set (fst := match xs with [] => true | _ => false end).
  assert (S1 : exists s2, (if fst then Ret (s1, 0) else appendf s1 (B " ")) = Ret (s2, 0) /\ Rp s2 (p ++ t ++ if fst then [] else B " ") p 0 sent).
  { destruct fst; [exists s1; rewrite app_nil_r; auto|]. destruct (appendf_ok _ _ _ _ _ (B " ") R1) as [[Hl (s2 & E2 & R2)]|[Hl _]]; [rewrite len_app; lia| |rewrite len_app in Hl; change (Z.of_nat (length (B " "))) with 1 in Hl; lia].
    exists s2. rewrite app_assoc. auto. }
  destruct S1 as (s2 & E2 & R2). rewrite E2. cbn [bind Z.eqb negb]. rewrite Hb.
  assert (Lf : Z.of_nat (length (if fst then [] else B " ")) <= 1) by (destruct fst; cbn; lia).
  destruct verbose; cbn [bind Z.eqb negb]; [|eauto].
  destruct (appendf_ok _ _ _ _ _ (bad ++ B "=") R2) as [[Hl (s3 & E3 & R3)]|[Hl _]].
  - rewrite !len_app. lia.
  - rewrite E3. cbn [bind Z.eqb negb]. eauto.
  - rewrite !len_app in Hl. change (Z.of_nat (length (B "="))) with 1 in Hl. lia.
Qed.

Lemma error_ok s txt p sent e : Rp s txt p 0 sent -> is_int e -> Z.of_nat (length p) <= 1000 ->
  exists s', deliver_error s e = Ret s' /\ rp_sent s' = sent ++ [(p ++ B "E" ++ fmt_d e ++ [10], true)].
Proof.
  intros R Hi L. unfold deliver_error. pose proof (fmt_d_len e (int_printable _ Hi)).
  destruct (deliver_text_ok _ _ _ _ _ (B "E" ++ fmt_d e ++ [10]) true R) as [[Hl (s' & E & R')]|[Hl _]]; [lia| |rewrite !len_app in Hl; change (Z.of_nat (length (B "E"))) with 1 in Hl; cbn [length] in Hl; lia].
  exists s'. split; [exact E|]. apply R'.
Qed.

Lemma query_exact s p mods verbose names st T subc sub : Rp s p p 0 [] -> verbose_only mods verbose -> st_ok st -> subs_ok subc ->
  fields (counter st) verbose (match names with [] => default_names | _ => names end) T -> sub_text (executed subc) sub ->
  Z.of_nat (length (p ++ T ++ sub)) <= (match subc with [] => 1022 | _ => 1016 end) ->
  exists s', run_query s mods (match names with [] => true | _ => false end) names st subc = Ret s' /\ rp_sent s' = [(p ++ T ++ sub ++ [10], false)].
Proof.
  intros R V SO SU F S L. rewrite run_query_eq, (verbose_spec _ _ V). rewrite !len_app in L.
  assert (X : exists s1, query_main s verbose (match names with [] => true | _ => false end) names st = Ret (s1, 0) /\ Rp s1 (p ++ T) p 0 []).
  { assert (L' : Z.of_nat (length p) + Z.of_nat (length T) <= 1022) by (destruct subc; lia). unfold query_main. destruct names as [|n ns].
    - rewrite (simple_fields _ _ _ SO F). destruct (appendf_ok _ _ _ _ _ T R) as [[Hl (s1 & E & R1)]|[Hl _]]; [destruct R; lia| |lia]. rewrite E. cbn [bind]. eauto.
    - apply (fields_ftext (counter st) (query_field st) verbose) in F; [|intros; apply counter_field; assumption].
      pose proof (field_loop_ok (query_field st) verbose ECODE_RTOOBIG_2 ECODE_QRYFAIL ECODE_RTOOBIG_2 (n :: ns) ltac:(discriminate) ltac:(discriminate) ltac:(discriminate) true s p p [] R) as G.
      rewrite F in G. replace (Z.of_nat (length p) + Z.of_nat (length T) <? 1024) with true in G by lia. exact G. }
  destruct X as (s1 & E1 & R1). rewrite E1. cbn [bind Z.eqb negb].
  destruct (query_rest_ok _ _ _ _ subc R1) as (s' & t & E & Es & _ & Ht); [rewrite len_app; destruct subc; lia|].
  exists s'. split; [exact E|]. rewrite Es. cbn [app]. rewrite <- app_assoc. f_equal. f_equal. f_equal. f_equal. f_equal.
  pose proof (qsub_exact _ _ SU S) as Q. rewrite <- Q. destruct subc as [|x subc].
  - cbn [qsub] in *. unfold query_rest in E. cbn [bind query_subc Z.eqb negb] in E. destruct (finish_ok _ _ _ _ _ false R1) as (s2 & E2 & Es2); [rewrite len_app; lia|].
    rewrite E2 in E. injection E as <-. rewrite Es in Es2. cbn [app] in Es2. injection Es2 as Es2. rewrite app_assoc in Es2. apply app_inv_tail in Es2.
    apply (f_equal (@length Z)) in Es2. rewrite app_length in Es2. destruct t; [reflexivity|cbn in Es2; lia].
  - apply Ht. rewrite Q, len_app. lia.
Qed.

Lemma ul_exact s p main subc sub errd : Rp s p p 0 [] -> subs_ok subc -> sub_text subc sub ->
  Z.of_nat (length (p ++ main ++ sub)) <= (match subc with [] => 1021 | _ => 1015 end) ->
  exists s', ul_reply_port s main subc errd = Ret s' /\ rp_sent s' = [(p ++ main ++ sub ++ [10], errd)].
Proof.
  intros R SU S L. rewrite !len_app in L. unfold ul_reply_port.
  destruct (reserve_ok _ _ _ _ _ 2 R ltac:(lia)) as [[Hl (s1 & E1 & R1)]|[Hl E1]]; [|destruct subc; lia]. rewrite E1; unfold must at 1; cbn [bind Z.eqb].
  destruct (appendf_ok _ _ _ _ _ main R1 Hl) as [[Hl2 (s2 & E2 & R2)]|[Hl2 (s2 & E2 & R2)]]; [|destruct subc; lia]. rewrite E2; unfold must at 1; cbn [bind Z.eqb].
  pose proof (ulsub_exact _ _ SU S) as Q. destruct subc as [|x subc].
  - cbn [bind ul_subc Z.eqb negb ulsub] in *. subst sub. destruct (finish_ok _ _ _ _ _ errd R2) as (s' & E & Es); [rewrite len_app; lia|]. exists s'. split; [exact E|]. rewrite Es. cbn [app]. rewrite <- app_assoc. reflexivity.
  - destruct (reserve_ok _ _ _ _ _ 8 R2 ltac:(lia)) as [[Hl3 (s3 & E3 & R3)]|[Hl3 E3]]; [|rewrite len_app in Hl3; lia]. rewrite E3; unfold must at 1; cbn [bind Z.eqb].
    remember (x :: subc) as rs eqn:Hrs. clear Hrs.
    destruct (ul_subc_ok 8 [] p rs O s3 _ R3 Hl3) as [(s4 & E4 & R4 & C)|(A & s4 & d & u & E4 & R4 & _ & C)]; [|rewrite Q, !len_app in A; lia].
    rewrite E4; cbn [bind Z.eqb negb]. rewrite Q in *. destruct (finish_ok _ _ _ _ _ errd R4) as (s' & E & Es); [rewrite !len_app; lia|].
    exists s'. split; [exact E|]. rewrite Es. cbn [app]. rewrite <- !app_assoc. reflexivity.
Qed.

Lemma simple_is_fields st verbose : st_ok st -> fields (counter st) verbose default_names (query_simple_text st verbose).
Proof.
  intros H. assert (X : exists t, ftext (query_field st) verbose default_names true = Some t) by (eexists; reflexivity).
  destruct X as [t Ht]. apply (fields_ftext (counter st) (query_field st) verbose) in Ht; [|intros; apply counter_field; assumption].
  rewrite (simple_fields _ _ _ H Ht). exact Ht.
Qed.

Lemma loop_no_abort lookup verbose a b c names s p (k : rep -> out rep) : is_int a -> is_int b -> is_int c -> a <> 0 -> b <> 0 -> c <> 0 -> Rp s p p 0 [] -> Z.of_nat (length p) <= 1000 ->
  (forall s1 t, ftext lookup verbose names true = Some t -> Rp s1 (p ++ t) p 0 [] -> Z.of_nat (length p) + Z.of_nat (length t) < 1024 -> exists s', k s1 = Ret s') ->
  exists s', (do (s1, e) <- field_loop lookup verbose a b c names true s; if negb (e =? 0) then deliver_error s1 e else k s1) = Ret s'.
Proof.
  intros Ia Ib Ic Na Nb Nc R L K. pose proof (field_loop_ok lookup verbose a b c names Na Nb Nc true s p p [] R) as F.
  assert (ER : forall s' e txt', Rp s' txt' p 0 [] -> e = a \/ e = c \/ e = b -> exists s'', (do (s1, e) <- Ret (s', e); if negb (e =? 0) then deliver_error s1 e else k s1) = Ret s'').
  { intros s' e txt' R' He. cbn [bind]. replace (e =? 0) with false by lia. cbn [negb]. destruct (error_ok s' txt' p [] e R') as (s'' & E & _); [destruct He as [-> | [-> | -> ]]; assumption|exact L|]. eauto. }
  destruct (ftext lookup verbose names true) as [t|] eqn:Et.
  - destruct (Z.ltb_spec (Z.of_nat (length p) + Z.of_nat (length t)) 1024) as [Hl|Hl].
    + destruct F as (s' & E & R'). rewrite E. cbn [bind Z.eqb negb]. eapply K; eauto.
    + destruct F as [->|(s' & e & txt' & E & R' & He)]; [cbn [length] in Hl; lia|]. rewrite E. eapply ER; [exact R'|tauto].
  - destruct F as (s' & e & txt' & E & R' & He). rewrite E. eapply ER; [exact R'|tauto].
Qed.

Lemma i25 : is_int ECODE_RTOOBIG_1. Proof. unfold is_int, ECODE_RTOOBIG_1. lia. Qed.
Lemma i26 : is_int ECODE_RTOOBIG_2. Proof. unfold is_int, ECODE_RTOOBIG_2. lia. Qed.
Lemma i62 : is_int ECODE_QRYFAIL. Proof. unfold is_int, ECODE_QRYFAIL. lia. Qed.
Lemma i68 : is_int ECODE_STSFAIL. Proof. unfold is_int, ECODE_STSFAIL. lia. Qed.
Lemma answer_no_abort h s p : Rp s p p 0 [] -> Z.of_nat (length p) <= 1000 -> roomy (Z.of_nat (length p)) h -> exists s', answer h s = Ret s'.
Proof.
  intros R L H. assert (L' : Z.of_nat (length p) + 0 <= 1024) by lia. assert (X10 : [10; 0] <> []) by discriminate.
  assert (Ie : is_int 65 /\ is_int 9 /\ is_int 18 /\ is_int 86 /\ is_int ECODE_PARSE_8) by (unfold is_int, ECODE_PARSE_8; lia). destruct Ie as (I65 & I9 & I18 & I86 & I19).
  destruct h as [n|e|a port v6|mods few names st subc|mods names lookup|main subc errd|mods cr ac stm rc se load]; cbn [answer roomy] in *.
  - unfold deliver_number. pose proof (fmt_d_len n (int_printable _ H)).
    destruct (deliver_text_ok _ _ _ _ _ (fmt_d n ++ [10]) false R) as [[Hl (s' & E & R')]|[Hl _]]; [lia|eauto|rewrite !len_app in Hl; cbn [length] in Hl; lia].
  - destruct (error_ok _ _ _ _ e R H L) as (s' & E & _). eauto.
  - unfold copy_reply, deliver_port_addr, append_port_addr. destruct (appendf_ok _ _ _ _ _ (port_addr_text a port v6) R L') as [[Hl (s1 & E & R1)]|[Hl (s1 & E & R1)]]; rewrite E; cbn [bind Z.eqb negb].
    2:{ destruct (error_ok _ _ _ _ 65 R1 I65 L) as (s' & E' & _). eauto. }
    destruct (append_ok _ _ _ _ _ [10; 0] true R1 X10) as [[Hl2 (s2 & E2 & R2)]|[Hl2 E2]]; [rewrite len_app; lia| |]; rewrite E2; cbn [bind Z.eqb negb].
    2:{ destruct (error_ok _ _ _ _ 65 R1 I65 L) as (s' & E' & _). eauto. }
    apply commit_ok in R2. destruct (deliver_ok_ _ _ _ _ _ false R2) as (s' & E' & R'). rewrite E'. cbn [bind Z.eqb negb]. eauto.
  - destruct H as (SO & Hf & H). rewrite run_query_eq. destruct (verbose_mods mods false) as [verbose|].
    2:{ destruct (error_ok _ _ _ _ ECODE_PARSE_8 R I19 L) as (s' & E' & _). eauto. }
    specialize (H verbose). unfold query_main. destruct few.
    + assert (names = []) by (apply Hf; reflexivity). subst names. specialize (H _ (simple_is_fields st verbose SO)). cbv zeta in H.
      destruct (appendf_ok _ _ _ _ _ (query_simple_text st verbose) R L') as [[Hl (s1 & E & R1)]|[Hl (s1 & E & R1)]]; rewrite E; cbn [bind Z.eqb negb].
      * destruct (query_rest_ok _ _ _ _ subc R1) as (s' & t & E' & _); [rewrite len_app; destruct subc; lia|]. eauto.
      * destruct (query_rest_ok _ _ _ _ subc R1) as (s' & t & E' & _); [destruct subc; lia|]. eauto.
    + assert (Nn : names <> []) by (intros X; apply Hf in X; discriminate). apply loop_no_abort with (p := p); auto using i25, i26, i62, i68; try discriminate.
      intros s1 t Ht R1 Hl. apply (fields_ftext (counter st) (query_field st) verbose) in Ht; [|intros; apply counter_field; assumption].
      destruct names; [congruence|]. specialize (H _ Ht). cbv zeta in H.
      destruct (query_rest_ok _ _ _ _ subc R1) as (s' & t' & E' & _); [rewrite len_app; destruct subc; lia|]. eauto.
  - unfold run_get_stats. destruct (verbose_mods mods false) as [verbose|].
    2:{ destruct (error_ok _ _ _ _ 9 R I9 L) as (s' & E' & _). eauto. }
    apply (loop_no_abort lookup verbose _ _ _ names s p (fun s1 => do s2 <- must (append s1 [10; 0] true); deliver (commit s2) false)); auto using i25, i26, i62, i68; try discriminate.
    intros s1 t Ht R1 Hl. apply (fields_ftext (values_of lookup) lookup verbose) in Ht; [|intros; reflexivity]. specialize (H verbose t Ht).
    destruct (finish_ok _ _ _ _ _ false R1) as (s' & E' & _); [rewrite len_app; lia|]. eauto.
  - unfold ul_reply_port. destruct (reserve_ok _ _ _ _ _ 2 R ltac:(lia)) as [[Hl (s1 & E1 & R1)]|[Hl E1]]; [|lia]. rewrite E1; unfold must at 1; cbn [bind Z.eqb].
    destruct (appendf_ok _ _ _ _ _ main R1 Hl) as [[Hl2 (s2 & E2 & R2)]|[Hl2 (s2 & E2 & R2)]]; [|destruct subc; lia]. rewrite E2; unfold must at 1; cbn [bind Z.eqb].
    destruct subc as [|x subc].
    + cbn [bind ul_subc Z.eqb negb]. destruct (finish_ok _ _ _ _ _ errd R2) as (s' & E' & _); [rewrite len_app; lia|]. eauto.
    + destruct (reserve_ok _ _ _ _ _ 8 R2 ltac:(lia)) as [[Hl3 (s3 & E3 & R3)]|[Hl3 E3]]; [|rewrite len_app in *; lia]. rewrite E3; unfold must at 1; cbn [bind Z.eqb].
      remember (x :: subc) as rs eqn:Hrs. clear Hrs.
      destruct (ul_subc_ok 8 [] p rs O s3 _ R3 Hl3) as [(s4 & E4 & R4 & C)|(A & s4 & d & u & E4 & R4 & Q & C)]; rewrite E4; cbn [bind Z.eqb negb].
      * destruct (finish_ok _ _ _ _ _ errd R4) as (s' & E' & _); [rewrite !len_app in *; destruct C as [C|C]; [rewrite C; cbn [length]|]; lia|]. eauto.
      * assert (X : B " && -1" <> []) by discriminate.
        destruct (append_ok _ _ _ _ _ (B " && -1") true R4 X) as [[Hl5 (s5 & E5 & R5)]|[Hl5 E5]]; [lia| |change (Z.of_nat (length (B " && -1"))) with 6 in Hl5; lia]; rewrite E5; unfold must at 1; cbn [bind Z.eqb].
        change (if last (B " && -1") 1 =? 0 then removelast (B " && -1") else B " && -1") with (B " && -1") in R5.
        destruct (finish_ok _ _ _ _ _ errd R5) as (s' & E' & _); [|eauto]. rewrite (len_app _ (B " && -1")). change (Z.of_nat (length (B " && -1"))) with 6. lia.
  - unfold handle_info. destruct (info_mods mods false) as [l|].
    2:{ destruct (error_ok _ _ _ _ 18 R I18 L) as (s' & E' & _). eauto. }
    destruct (appendf_ok _ _ _ _ _ (info_text cr ac stm rc se) R L') as [[Hl (s1 & E & R1)]|[Hl (s1 & E & R1)]]; rewrite E; cbn [bind Z.eqb].
    + rewrite andb_true_r. destruct l.
      * destruct (appendf_ok _ _ _ _ _ (B "average load: " ++ load ++ [10]) R1) as [[Hl2 (s2 & E2 & R2)]|[Hl2 (s2 & E2 & R2)]]; [rewrite len_app; lia| |]; rewrite E2; cbn [bind Z.eqb].
        2:{ destruct (error_ok _ _ _ _ 86 R2 I86 L) as (s' & E' & _). eauto. }
        apply commit_ok in R2. destruct (deliver_ok_ _ _ _ _ _ false R2) as (s' & E' & R'). eauto.
      * cbn [bind Z.eqb]. apply commit_ok in R1. destruct (deliver_ok_ _ _ _ _ _ false R1) as (s' & E' & R'). eauto.
    + rewrite andb_false_r. cbn [bind Z.eqb]. destruct (error_ok _ _ _ _ 86 R1 I86 L) as (s' & E' & _). eauto.
Qed.

(** ** Simple replies *)
Lemma info_mods_none mods : Forall (fun x => In x (B "bB")) mods -> forall l, info_mods mods l = Some l.
Proof. induction 1 as [|c t H _ IH]; intros l; cbn [info_mods]; [reflexivity|]. cbn in H. replace ((c =? 98) || (c =? 66)) with true by lia. apply IH. Qed.
Lemma info_mods_load mods : Forall (fun x => In x (B "bBlL")) mods -> forall l, l = true \/ Exists (fun x => In x (B "lL")) mods -> info_mods mods l = Some true.
Proof.
  induction 1 as [|c t H _ IH]; intros l Hl; cbn [info_mods].
  - destruct Hl as [->|X]; [reflexivity|inversion X].
  - cbn in H. destruct ((c =? 98) || (c =? 66)) eqn:E1.
    + apply IH. destruct Hl as [->|X]; [auto|]. inversion X as [? ? Y|]; subst; [|auto]. cbn in Y. lia.
    + replace ((c =? 108) || (c =? 76)) with true by lia. apply IH. auto.
Qed.
Lemma simple_exact cookie h txt e : simple_reply h txt e -> Z.of_nat (length (prefix_of cookie ++ txt)) <= 1022 ->
  exists s, exec_reply cookie h = Ret s /\ rp_sent s = [(prefix_of cookie ++ txt ++ [10], e)].
Proof.
  intros H L. destruct (exec_start cookie h) as [(s & E & R)|(E & c & -> & Hc)].
  2:{ cbn [prefix_of] in L. rewrite !len_app in L. lia. }
  rewrite E. rewrite len_app in L. clear E. pose proof R as [Fit _ _ _ _ _ _].
  assert (L0 : Z.of_nat (length (prefix_of cookie)) + 0 <= 1024) by lia.
  assert (UP : forall n v, 0 <= n < 18446744073709551616 -> dec n v -> v = fmt_u n).
  { intros n v Hn Hd. apply fmt_u_dec in Hd; [exact Hd|lia|unfold printable; lia]. }
  assert (DP : forall n v, is_int n -> dec n v -> v = fmt_d n).
  { intros n v Hn Hd. apply fmt_d_dec in Hd; [exact Hd|apply int_printable; exact Hn]. }
  assert (CP : forall addr port v6 v, is_int port -> dec port v -> Z.of_nat (length (prefix_of cookie)) + Z.of_nat (length (v ++ B " " ++ addr ++ if v6 : bool then B " 6" else [])) <= 1022 ->
    exists s', copy_reply s addr port v6 = Ret s' /\ rp_sent s' = [(prefix_of cookie ++ (v ++ B " " ++ addr ++ if v6 : bool then B " 6" else []) ++ [10], false)]).
  { intros addr port v6 v Hi Hd Lc. apply DP in Hd; [|exact Hi]. subst v. unfold copy_reply, deliver_port_addr, append_port_addr.
    destruct (appendf_ok _ _ _ _ _ (port_addr_text addr port v6) R L0) as [[Hl (s1 & E1 & R1)]|[Hl _]]; [|unfold port_addr_text in Hl; lia].
    rewrite E1. cbn [bind Z.eqb negb]. fold (port_addr_text addr port v6) in *. assert (X : [10; 0] <> []) by discriminate.
    destruct (append_ok _ _ _ _ _ [10; 0] true R1 X) as [[Hl2 (s2 & E2 & R2)]|[Hl2 _]]; [rewrite len_app; lia| |rewrite len_app in Hl2; cbn [length] in Hl2; lia].
    rewrite E2. cbn [bind Z.eqb negb]. apply commit_ok in R2. destruct (deliver_ok_ _ _ _ _ _ false R2) as (s3 & E3 & R3). rewrite E3. cbn [bind Z.eqb negb].
    exists s3. split; [reflexivity|]. rewrite (rp_s _ _ _ _ _ R3). cbn [app last removelast Z.eqb]. rewrite <- app_assoc. reflexivity. }
  assert (IP : forall mods c a st r sx l v, info_mods mods false = Some v ->
     Z.of_nat (length (prefix_of cookie)) + Z.of_nat (length (info_text c a st r sx ++ if v then B "average load: " ++ l ++ [10] else [])) <= 1023 ->
     exists s', handle_info s mods c a st r sx l = Ret s' /\ rp_sent s' = [(prefix_of cookie ++ info_text c a st r sx ++ if v then B "average load: " ++ l ++ [10] else [], false)]).
  { intros mods c a st r sx l v Hm Lc. unfold handle_info. rewrite Hm. rewrite len_app in Lc.
    destruct (appendf_ok _ _ _ _ _ (info_text c a st r sx) R L0) as [[Hl (s1 & E1 & R1)]|[Hl _]]; [|lia]. rewrite E1. cbn [bind Z.eqb]. destruct v; cbn [andb].
    - destruct (appendf_ok _ _ _ _ _ (B "average load: " ++ l ++ [10]) R1) as [[Hl2 (s2 & E2 & R2)]|[Hl2 _]]; [rewrite len_app; lia| |rewrite len_app in Hl2; lia].
      rewrite E2. cbn [bind Z.eqb]. apply commit_ok in R2. destruct (deliver_ok_ _ _ _ _ _ false R2) as (s3 & E3 & R3). exists s3. split; [exact E3|].
      rewrite (rp_s _ _ _ _ _ R3), <- app_assoc. reflexivity.
    - cbn [bind Z.eqb]. apply commit_ok in R1. destruct (deliver_ok_ _ _ _ _ _ false R1) as (s3 & E3 & R3). exists s3. split; [exact E3|].
      rewrite (rp_s _ _ _ _ _ R3), app_nil_r. reflexivity. }
  destruct H; cbn [answer].
  - apply DP in H0; [|exact H]. subst v.
    destruct (deliver_text_ok _ _ _ _ _ (fmt_d n ++ [10]) false R L0) as [[_ (s' & E & R')]|[X _]]; [|rewrite len_app in X; cbn [length] in X; lia].
    exists s'. split; [exact E|exact (rp_s _ _ _ _ _ R')].
  - apply DP in H0; [|exact H]. subst v. rewrite len_app in L.
    destruct (deliver_text_ok _ _ _ _ _ (B "E" ++ fmt_d n ++ [10]) true R L0) as [[_ (s' & E & R')]|[X _]]; [|rewrite !len_app in X; cbn [length] in X; lia].
    exists s'. split; [exact E|]. rewrite (rp_s _ _ _ _ _ R'), <- app_assoc. reflexivity.
  - destruct (CP addr port false v H H0) as (s' & E & Es); [rewrite app_nil_r; exact L|]. rewrite app_nil_r in Es. eauto.
  - destruct (CP addr port true v H H0 L) as (s' & E & Es). eauto.
  - repeat match goal with X : Forall _ (_ :: _) |- _ => inversion X; clear X; subst end. apply UP in H3, H6, H7; auto. apply DP in H4, H5; auto. subst.
    pose proof (IP mods c a st r s0 l false (info_mods_none _ H false)) as Q. rewrite app_nil_r in Q. unfold info_text in Q.
    match type of Q with Z.of_nat _ + Z.of_nat (length ?q) <= _ -> _ => match type of L with _ + Z.of_nat (length ?l) <= _ => assert (Eq : q = l ++ [10]) by (rewrite <- !app_assoc; reflexivity); rewrite Eq in Q end end.
    destruct Q as (s' & E & Es); [rewrite len_app; cbn [length]; lia|]. exists s'. split; [exact E|exact Es].
  - repeat match goal with X : Forall _ (_ :: _) |- _ => inversion X; clear X; subst end. apply UP in H4, H7, H8; auto. apply DP in H5, H6; auto. subst.
    pose proof (IP mods c a st r s0 l true (info_mods_load _ H false (or_intror H0))) as Q. cbv beta iota in Q. unfold info_text in Q.
    match type of Q with Z.of_nat _ + Z.of_nat (length ?q) <= _ -> _ => match type of L with _ + Z.of_nat (length ?l) <= _ => assert (Eq : q = l ++ [10]) by (rewrite <- !app_assoc; reflexivity); rewrite Eq in Q end end.
    destruct Q as (s' & E & Es); [rewrite len_app; cbn [length]; lia|]. exists s'. split; [exact E|exact Es].
Qed.
