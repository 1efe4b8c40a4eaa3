From Verif Require Import Base Str StrSpec StrProof NumModel NumSpec NumProof QuoteModel QuoteSpec QuoteThm NumThm DtmfModel DtmfSpec.

(** ** Fields *)

Lemma field_byte p i : field p i 1 = byte p i.
Proof.
  unfold field, byte. revert i. induction p as [|b p IH]; intros [|i]; cbn -[Z.mul Z.pow]; try reflexivity.
  - cbn. lia.
  - rewrite <- IH. reflexivity.
Qed.
Lemma field_pt p : field p 1 1 mod 128 = p_pt p.
Proof. rewrite field_byte. reflexivity. Qed.

Definition tel_at (p : list Z) : tel := mkTel (p_ts p) (p_event p) (p_end p) (p_volume p) (p_duration p).
Lemma plain_tel_at p : plain_tel p -> tel_of p = Some (tel_at p) /\ 0 <= ev (tel_at p) /\ 0 <= vol (tel_at p) < 64 /\ 0 <= dur (tel_at p) < 65536.
Proof.
  intros (Hb & Hl & Hf). rewrite field_byte in Hf.
  assert (Pl : payload p = skipn 12 p).
  { unfold payload. rewrite !field_byte. replace (byte p 0 mod 16) with 0 by lia. replace ((byte p 0 / 16) mod 2 =? 1) with false by lia. reflexivity. }
  unfold tel_of. rewrite Pl.
  do 16 (destruct p as [|? p]; [cbn in Hl; lia|]).
  unfold tel_at, p_ts, p_event, p_end, p_volume, p_duration, byte. cbn [nth skipn length].
  repeat (match goal with H : Forall _ (_ :: _) |- _ => inversion_clear H end).
  split; [|cbn [ev vol dur]; lia].
  cbn [Nat.ltb Nat.leb]. f_equal. unfold payload_tel, field. cbn [firstn skipn big length].
  change (256 ^ Z.of_nat 3) with 16777216. change (256 ^ Z.of_nat 2) with 65536. change (256 ^ Z.of_nat 1) with 256. change (256 ^ Z.of_nat 0) with 1.
  f_equal; try lia.
Qed.

(** ** History as a ring *)

Definition empty : einfo := mkE false (-1) 0 0.
Definition inews (acc : list Z) (p : tel) : list Z := if existsb (Z.eqb (ts p)) acc then acc else ts p :: acc.
Definition news (l : list tel) : list Z := fold_left inews l [].
Lemma news_snoc l p : news (l ++ [p]) = inews (news l) p.
Proof. apply fold_left_app. Qed.
Lemma mem_in t l : existsb (Z.eqb t) l = true <-> In t l.
Proof. rewrite existsb_exists. split; [intros (x & H & E); apply Z.eqb_eq in E; congruence|intros H; exists t; split; [exact H|apply Z.eqb_refl]]. Qed.
Lemma mem_nin t l : existsb (Z.eqb t) l = false <-> ~ In t l.
Proof. rewrite <- mem_in. destruct (existsb (Z.eqb t) l); split; congruence. Qed.
Lemma news_in l : forall t, In t (news l) <-> In t (map ts l).
Proof.
  induction l as [|p l IH] using rev_ind; intros t; [tauto|]. rewrite news_snoc, map_app, in_app_iff. unfold inews. cbn [map In].
  destruct (existsb (Z.eqb (ts p)) (news l)) eqn:E.
  - rewrite IH. apply mem_in in E. rewrite IH in E. split; [tauto|]. intros [H|[<-|[]]]; auto.
  - cbn [In]. rewrite IH. tauto.
Qed.
Lemma news_nodup l : NoDup (news l).
Proof.
  induction l as [|p l IH] using rev_ind; [constructor|]. rewrite news_snoc. unfold inews.
  destruct (existsb (Z.eqb (ts p)) (news l)) eqn:E; [exact IH|]. constructor; [apply mem_nin, E|exact IH].
Qed.

Lemma nodup_snoc (l : list Z) t : length (nodup Z.eq_dec (l ++ [t])) = if existsb (Z.eqb t) l then length (nodup Z.eq_dec l) else S (length (nodup Z.eq_dec l)).
Proof.
  induction l as [|a l IH]; [reflexivity|]. cbn [app nodup existsb].
  destruct (in_dec Z.eq_dec a (l ++ [t])) as [H|H]; destruct (in_dec Z.eq_dec a l) as [G|G]; cbn [length]; rewrite ?IH.
  - destruct (Z.eqb_spec t a) as [->|N]; cbn [orb]; [|reflexivity]. apply mem_in in G. rewrite G. reflexivity.
  - apply in_app_or in H. destruct H as [H|[H|[]]]; [tauto|]. subst a. rewrite Z.eqb_refl. cbn [orb]. apply mem_nin in G. rewrite G. reflexivity.
  - elim H. apply in_or_app. auto.
  - destruct (Z.eqb_spec t a) as [->|N]; cbn [orb].
    + elim H. apply in_or_app. right. left. reflexivity.
    + destruct (existsb (Z.eqb t) l); reflexivity.
Qed.
Lemma news_after a x : ~ In (ts x) (map ts a) -> forall b, exists l, news (a ++ x :: b) = l ++ ts x :: news a /\ length l = length (fresh (map ts (a ++ [x])) (map ts b)) /\
  (forall t, In t l <-> In t (filter (fun t => negb (existsb (Z.eqb t) (map ts (a ++ [x])))) (map ts b))).
Proof.
  intros N b. induction b as [|p b IH] using rev_ind.
  - exists []. rewrite news_snoc. unfold inews. rewrite <- news_in in N. apply mem_nin in N. rewrite N. cbn. tauto.
  - destruct IH as (l & L1 & L2 & L3). rewrite app_comm_cons, app_assoc, news_snoc, L1. unfold inews, fresh in *. rewrite (map_app ts b [p]), filter_app. cbn [map filter].
    set (seen := map ts (a ++ [x])) in *.
    assert (Hs : forall t, In t (ts x :: news a) <-> In t seen).
    { intros t. unfold seen. rewrite map_app, in_app_iff. cbn [In map]. rewrite news_in. tauto. }
    destruct (existsb (Z.eqb (ts p)) (l ++ ts x :: news a)) eqn:E.
    + exists l. split; [reflexivity|]. apply mem_in, in_app_or in E. destruct (existsb (Z.eqb (ts p)) seen) eqn:Es; cbn [negb].
      * rewrite app_nil_r. auto.
      * rewrite nodup_snoc. destruct E as [E|E]; [|apply Hs, mem_in in E; congruence]. pose proof E as E'. apply L3, mem_in in E. rewrite E. split; [exact L2|].
        intros t. rewrite in_app_iff, <- L3. cbn. split; [auto|]. intros [H|[<-|[]]]; auto.
    + exists (ts p :: l). split; [reflexivity|]. apply mem_nin in E. rewrite in_app_iff, Hs in E.
      assert (Es : existsb (Z.eqb (ts p)) seen = false) by (apply mem_nin; tauto). rewrite Es. cbn [negb length]. rewrite nodup_snoc.
      assert (En : existsb (Z.eqb (ts p)) (filter (fun t => negb (existsb (Z.eqb t) seen)) (map ts b)) = false) by (apply mem_nin; rewrite <- L3; tauto).
      rewrite En. split; [lia|]. intros t. cbn [In]. rewrite in_app_iff, <- L3. cbn [In]. tauto.
Qed.
Lemma first_split (l : list tel) t : In t (map ts l) -> exists a x b, l = a ++ x :: b /\ ts x = t /\ ~ In t (map ts a).
Proof.
  induction l as [|p l IH]; [intros []|]. cbn [map In]. destruct (Z.eq_dec (ts p) t) as [E|N].
  - intros _. exists [], p, l. auto.
  - intros [H|H]; [tauto|]. destruct (IH H) as (a & x & b & -> & E1 & E2). exists (p :: a), x, b. split; [reflexivity|]. split; [exact E1|]. cbn. tauto.
Qed.
Lemma news_near past p : interleaved (past ++ [p]) -> In (ts p) (map ts past) -> exists k, (k < 4)%nat /\ nth_error (news past) k = Some (ts p).
Proof.
  intros I H. destruct (first_split past (ts p) H) as (a & x & b & -> & E1 & E2).
  rewrite <- E1 in E2. destruct (news_after a x E2 b) as (l & L1 & L2 & _).
  exists (length l). split.
  - rewrite L2. apply (I a x b p []); [|exact E1|exact E2]. rewrite <- app_assoc. reflexivity.
  - rewrite L1, nth_error_app2, Nat.sub_diag by lia. cbn. congruence.
Qed.

(** ** One event *)

Definition symz (e : Z) : Z := nth (Z.to_nat e) dtmf_events 0.
Lemma symz_symbol e : 0 <= e <= 16 -> symbol e (symz e).
Proof.
  intros H. assert (C : e = 0 \/ e = 1 \/ e = 2 \/ e = 3 \/ e = 4 \/ e = 5 \/ e = 6 \/ e = 7 \/ e = 8 \/ e = 9 \/ e = 10 \/ e = 11 \/ e = 12 \/ e = 13 \/ e = 14 \/ e = 15 \/ e = 16) by lia.
  repeat (destruct C as [C|C]; [subst e; vm_compute; first [apply sym_star|apply sym_pound|apply sym_flash|refine (sym_digit _ _); lia|refine (sym_letter _ _); lia]|]).
  subst e. apply sym_flash.
Qed.
Lemma symz_inj a b : 0 <= a <= 16 -> 0 <= b <= 16 -> (symz a =? symz b) = (a =? b).
Proof.
  intros Ha Hb. pose proof (symz_symbol a Ha) as A. pose proof (symz_symbol b Hb) as B'.
  destruct (Z.eqb_spec a b) as [->|N]; [apply Z.eqb_refl|]. apply Z.eqb_neq. intros E. rewrite E in A. remember (symz b) as sb; clear Heqsb; inversion A; inversion B'; subst; lia.
Qed.
Lemma symz_pos e : 0 <= e <= 16 -> symz e <> -1.
Proof. intros H E. pose proof (symz_symbol e H) as S'. rewrite E in S'. remember (-1) as m; inversion S'; subst; lia. Qed.

Definition rel (past : list tel) (T : Z) (e : einfo) : Prop :=
  ets e = T /\ exists q rest, filter (fun r => ts r =? T) past = q :: rest /\ digit e = symz (ev q) /\ 0 <= ev q <= 16 /\
    let same := filter (fun r => ev r =? ev q) rest in
    pending e = negb (existsb final same) /\ (pending e = true -> duration e = fold_right Z.max 0 (map dur (q :: same))).
Lemma rel_pos past T e : rel past T e -> digit e <> -1.
Proof. intros (_ & q & rest & _ & -> & H & _). apply symz_pos, H. Qed.

Definition slot (n : Z) (k : nat) : Z := (n - 1 - Z.of_nat k) mod 4.
Definition good (past : list tel) (h : list einfo) (n : Z) : Prop :=
  length h = 4%nat /\ 0 <= n < 4 /\
  forall k, (k < 4)%nat -> match nth_error (news past) k with Some T => rel past T (entry h (slot n k)) | None => entry h (slot n k) = empty end.

Lemma slot_eq n (k : nat) : 0 <= n < 4 -> (k < 4)%nat -> (if n - (1 + Z.of_nat k) <? 0 then 4 + (n - (1 + Z.of_nat k)) else n - (1 + Z.of_nat k)) = slot n k.
Proof.
  intros Hn Hk. unfold slot. destruct (Z.ltb_spec (n - (1 + Z.of_nat k)) 0).
  - apply Z.mod_unique with (-1); lia.
  - apply Z.mod_unique with 0; lia.
Qed.

Lemma lookup_none h n t : 0 <= n < 4 -> (forall k, (k < 4)%nat -> (ets (entry h (slot n k)) =? t) && negb (digit (entry h (slot n k)) =? -1) = false) -> lookup 4 1 h n t = None.
Proof.
  intros Hn H. assert (G : forall m i, (i + m = 4)%nat -> lookup m (1 + Z.of_nat i) h n t = None).
  { induction m as [|m IH]; intros i Hi; [reflexivity|]. cbn [lookup]. rewrite slot_eq by lia. rewrite H by lia.
    replace (1 + Z.of_nat i + 1) with (1 + Z.of_nat (S i)) by lia. apply IH. lia. }
  apply (G 4%nat 0%nat). reflexivity.
Qed.
Lemma lookup_some h n t k : 0 <= n < 4 -> (k < 4)%nat -> (ets (entry h (slot n k)) =? t) && negb (digit (entry h (slot n k)) =? -1) = true ->
  (forall j, (j < k)%nat -> (ets (entry h (slot n j)) =? t) && negb (digit (entry h (slot n j)) =? -1) = false) -> lookup 4 1 h n t = Some (slot n k).
Proof.
  intros Hn Hk Hy Hno. assert (G : forall m i, (i + m = 4)%nat -> (i <= k)%nat -> lookup m (1 + Z.of_nat i) h n t = Some (slot n k)).
  { induction m as [|m IH]; intros i Hi Hik; [lia|]. cbn [lookup]. rewrite slot_eq by lia. destruct (Nat.eq_dec i k) as [->|N]; [rewrite Hy; reflexivity|].
    rewrite Hno by lia. replace (1 + Z.of_nat i + 1) with (1 + Z.of_nat (S i)) by lia. apply IH; lia. }
  apply (G 4%nat 0%nat); lia.
Qed.
Lemma slot_range n k : 0 <= slot n k < 4.
Proof. unfold slot. lia. Qed.
Lemma slot_inj n j k : (j < 4)%nat -> (k < 4)%nat -> slot n j = slot n k -> j = k.
Proof. unfold slot. intros. zify. lia. Qed.
Lemma slot3 n : 0 <= n < 4 -> slot n 3 = n.
Proof. intros H. unfold slot. symmetry. apply Z.mod_unique with (-1); lia. Qed.
Lemma entry_upd h j e i : 0 <= i < Z.of_nat (length h) -> 0 <= j < Z.of_nat (length h) -> entry (upd h (Z.to_nat j) e) i = if i =? j then e else entry h i.
Proof.
  intros Hi Hj. unfold entry. destruct (Z.eqb_spec i j) as [->|N]; [apply nth_upd_same; lia|apply nth_upd_other; lia].
Qed.
Lemma nth_error_nodup (l : list Z) j k x : NoDup l -> nth_error l j = Some x -> nth_error l k = Some x -> j = k.
Proof. intros N A B'. apply (proj1 (NoDup_nth_error l) N); [apply nth_error_Some; congruence|congruence]. Qed.

Definition bare (caller : bool) (h : list einfo) (n : Z) : cfg := mkC 0 false [] 0 caller h n.

Lemma rel_other past T e p : ts p <> T -> rel past T e -> rel (past ++ [p]) T e.
Proof.
  intros N (A & q & rest & F & R). split; [exact A|]. exists q, rest. split; [|exact R]. rewrite filter_app, F. cbn [filter].
  replace (ts p =? T) with false by lia. apply app_nil_r.
Qed.

(** The rest of the report, once it is known that there is one. *)
Definition reported (i : nat) (tag : list Z) (tgt : nat) (caller : bool) (r : tel * Z) : list event :=
  report i tag tgt (symz (ev (fst r))) (vol (fst r)) (snd r) caller.

Lemma fold_max_app l x : fold_right Z.max 0 (l ++ [x]) = Z.max (fold_right Z.max 0 l) (Z.max x 0).
Proof. induction l as [|a l IH]; cbn; [lia|]. rewrite IH. lia. Qed.
Lemma existsb_snoc {A} (f : A -> bool) l x : existsb f (l ++ [x]) = existsb f l || f x.
Proof. rewrite existsb_app. cbn. rewrite orb_false_r. reflexivity. Qed.

Lemma one_packet i tag tgt caller past h n pk : let p := tel_at pk in
  good past h n -> 0 <= ev p <= 16 -> 0 <= dur p -> interleaved (past ++ [p]) ->
  exists h' n', work1 i (bare caller h n) pk tag tgt =
    (bare caller h' n', match trigger past p with Some d => reported i tag tgt caller (p, d) | None => [] end) /\ good (past ++ [p]) h' n'.
Proof.
  intros p (L & Hn & G) He Hd I.
  unfold work1. change (p_event pk) with (ev p). change (p_ts pk) with (ts p). change (p_end pk) with (final p). change (p_duration pk) with (dur p). change (p_volume pk) with (vol p).
  replace (17 <? ev p) with false by lia. cbn [hst hnext bare]. fold (symz (ev p)).
  assert (Hent : forall k, (k < 4)%nat -> (ets (entry h (slot n k)) =? ts p) && negb (digit (entry h (slot n k)) =? -1) =
            match nth_error (news past) k with Some T => T =? ts p | None => false end).
  { intros k Hk. specialize (G k Hk). destruct (nth_error (news past) k) as [T|].
    - pose proof (rel_pos _ _ _ G) as Q. destruct G as (-> & _). destruct (Z.eqb_spec (digit (entry h (slot n k))) (-1)); [tauto|]. cbn. apply andb_true_r.
    - rewrite G. cbn. rewrite andb_false_r. reflexivity. }
  destruct (in_dec Z.eq_dec (ts p) (map ts past)) as [Hin|Hout].
  - (* seen before *)
    destruct (news_near past p I Hin) as (k & Hk & Hnk).
    assert (Hlk : lookup 4 1 h n (ts p) = Some (slot n k)).
    { apply lookup_some; auto.
      - rewrite Hent, Hnk by lia. apply Z.eqb_refl.
      - intros j Hj. rewrite Hent by lia. destruct (nth_error (news past) j) as [T|] eqn:Ej; [|reflexivity].
        destruct (Z.eqb_spec T (ts p)) as [->|]; [|reflexivity]. pose proof (nth_error_nodup _ _ _ _ (news_nodup past) Ej Hnk). lia. }
    rewrite Hlk. set (e := entry h (slot n k)). pose proof (G k Hk) as R. rewrite Hnk in R. fold e in R. destruct R as (Rt & q & rest & Rf & Rd & Rq & Rp & Rdur).
    assert (Hnews : news (past ++ [p]) = news past).
    { rewrite news_snoc. unfold inews. apply news_in, mem_in in Hin. rewrite Hin. reflexivity. }
    assert (Hother : forall j T, (j < 4)%nat -> j <> k -> nth_error (news past) j = Some T -> T <> ts p).
    { intros j T Hj Hjk Hnj ->. apply Hjk. eapply nth_error_nodup; [apply news_nodup| |]; eassumption. }
    assert (Keep : forall h', length h' = 4%nat -> (forall j, (j < 4)%nat -> j <> k -> entry h' (slot n j) = entry h (slot n j)) -> rel (past ++ [p]) (ts p) (entry h' (slot n k)) -> good (past ++ [p]) h' n).
    { intros h' L' Ho Hr. split; [exact L'|]. split; [exact Hn|]. intros j Hj. rewrite Hnews. destruct (Nat.eq_dec j k) as [->|Njk]; [rewrite Hnk; exact Hr|].
      rewrite Ho by auto. specialize (G j Hj). destruct (nth_error (news past) j) as [T|] eqn:Ej; [|exact G]. apply rel_other; [|exact G]. intros <-. eapply Hother; eauto. }
    assert (Hf : filter (fun r => ts r =? ts p) (past ++ [p]) = q :: rest ++ [p]).
    { rewrite filter_app, Rf. cbn [filter]. rewrite Z.eqb_refl. reflexivity. }
    assert (Hset : forall e', length (upd h (Z.to_nat (slot n k)) e') = 4%nat /\ (forall j, (j < 4)%nat -> j <> k -> entry (upd h (Z.to_nat (slot n k)) e') (slot n j) = entry h (slot n j)) /\
              entry (upd h (Z.to_nat (slot n k)) e') (slot n k) = e').
    { intros e'. rewrite upd_length. split; [exact L|]. pose proof (slot_range n k). split.
      - intros j Hj Hjk. pose proof (slot_range n j). rewrite entry_upd by lia. destruct (Z.eqb_spec (slot n j) (slot n k)) as [E|]; [|reflexivity]. elim Hjk. eapply slot_inj; eauto.
      - rewrite entry_upd, Z.eqb_refl by lia. reflexivity. }
    unfold trigger. rewrite Rf.
    set (same := filter (fun r => ev r =? ev q) rest) in *.
    destruct (pending e) eqn:Ep; cbn [negb].
    + (* pending *)
      rewrite Rd. replace (symz (ev p) =? symz (ev q)) with (ev p =? ev q) by (symmetry; apply symz_inj; lia).
      destruct (Z.eqb_spec (ev p) (ev q)) as [Eq|Nq]; cbn [negb].
      * replace (ev q =? ev p) with true by lia. rewrite andb_true_r.
        assert (Hsame : filter (fun r => ev r =? ev p) rest = same) by (unfold same; rewrite Eq; reflexivity). rewrite Hsame, <- Rp, andb_true_r.
        specialize (Rdur eq_refl).
        assert (Hdur : (if duration e <? dur p then dur p else duration e) = fold_right Z.max 0 (map dur (q :: same ++ [p]))).
        { rewrite app_comm_cons, map_app. change (map dur [p]) with [dur p]. rewrite fold_max_app, <- Rdur. destruct (Z.ltb_spec (duration e) (dur p)); lia. }
        rewrite Hdur. set (d := fold_right Z.max 0 (map dur (q :: same ++ [p]))).
        assert (Hs2 : filter (fun r => ev r =? ev q) (rest ++ [p]) = same ++ [p]).
        { rewrite filter_app. cbn [filter]. replace (ev p =? ev q) with true by lia. reflexivity. }
        destruct (final p) eqn:Ef; cbn [negb].
        -- do 2 eexists. split; [reflexivity|]. destruct (Hset (mkE false (symz (ev q)) (ets e) d)) as (H1 & H2 & H3). apply Keep; auto. cbn [hst bare]. rewrite H3.
           split; [exact Rt|]. exists q, (rest ++ [p]). split; [exact Hf|]. split; [reflexivity|]. split; [exact Rq|]. cbv zeta. rewrite Hs2, existsb_snoc, Ef, orb_true_r. cbn. split; [reflexivity|discriminate].
        -- do 2 eexists. split; [reflexivity|]. destruct (Hset (mkE true (symz (ev q)) (ets e) d)) as (H1 & H2 & H3). apply Keep; auto. cbn [hst bare]. rewrite H3.
           split; [exact Rt|]. exists q, (rest ++ [p]). split; [exact Hf|]. split; [reflexivity|]. split; [exact Rq|]. cbv zeta. rewrite Hs2, existsb_snoc, Ef, orb_false_r. cbn [pending duration].
           split; [exact Rp|]. intros _. reflexivity.
      * replace (ev q =? ev p) with false by lia. rewrite andb_false_r. cbn [andb]. exists h, n. split; [reflexivity|]. apply Keep; auto.
        split; [exact Rt|]. exists q, (rest ++ [p]). split; [exact Hf|]. split; [exact Rd|]. split; [exact Rq|]. cbv zeta. rewrite filter_app. cbn [filter].
        replace (ev p =? ev q) with false by lia. rewrite app_nil_r. fold same. fold e. split; [congruence|]. intros _. apply Rdur. reflexivity.
    + (* reported already *)
      assert (Ht : final p && (ev q =? ev p) && negb (existsb final (filter (fun r => ev r =? ev p) rest)) = false).
      { destruct (Z.eqb_spec (ev q) (ev p)) as [Eq|]; [|rewrite andb_false_r; reflexivity].
        rewrite <- Eq. fold same. rewrite <- Rp. apply andb_false_r. }
      rewrite Ht. exists h, n. split; [reflexivity|]. apply Keep; auto.
      split; [exact Rt|]. exists q, (rest ++ [p]). split; [exact Hf|]. split; [exact Rd|]. split; [exact Rq|]. cbv zeta. rewrite filter_app. fold same. fold e.
      rewrite Ep. split; [|discriminate]. rewrite existsb_app. symmetry in Rp. apply negb_false_iff in Rp. rewrite Rp. reflexivity.
  - (* new *)
    assert (Hlk : lookup 4 1 h n (ts p) = None).
    { apply lookup_none; auto. intros k Hk. rewrite Hent by lia. destruct (nth_error (news past) k) as [T|] eqn:Ek; [|reflexivity].
      destruct (Z.eqb_spec T (ts p)) as [->|]; [|reflexivity]. apply nth_error_In in Ek. rewrite news_in in Ek. tauto. }
    rewrite Hlk.
    assert (Ht : trigger past p = None).
    { unfold trigger. destruct (filter (fun r => ts r =? ts p) past) as [|q rest] eqn:Ef; [reflexivity|].
      assert (Q : In q (filter (fun r => ts r =? ts p) past)) by (rewrite Ef; left; reflexivity). apply filter_In in Q. destruct Q as (Q1 & Q2). apply Z.eqb_eq in Q2.
      elim Hout. rewrite <- Q2. apply in_map, Q1. }
    rewrite Ht. do 2 eexists. split; [reflexivity|].
    assert (Hnews : news (past ++ [p]) = ts p :: news past).
    { rewrite news_snoc. unfold inews. rewrite <- news_in in Hout. apply mem_nin in Hout. rewrite Hout. reflexivity. }
    set (n' := if n + 1 =? 4 then 0 else n + 1). assert (Hn' : 0 <= n' < 4) by (unfold n'; destruct (Z.eqb_spec (n + 1) 4); lia).
    split; [cbn [hst]; rewrite upd_length; exact L|]. split; [exact Hn'|]. intros k Hk. rewrite Hnews.
    assert (Hs : slot n' k = match k with O => n | S j => slot n j end).
    { unfold slot, n'. destruct (Z.eqb_spec (n + 1) 4) as [E4|]; destruct k as [|j].
      - symmetry. apply Z.mod_unique with (-1); lia.
      - rewrite <- (Z.mod_add _ 1) by lia. f_equal. lia.
      - rewrite Z.mod_small; lia.
      - f_equal. lia. }
    rewrite Hs. cbn [hst bare]. destruct k as [|j]; cbn [nth_error].
    + rewrite entry_upd, Z.eqb_refl by lia. split; [reflexivity|]. exists p, []. rewrite filter_app. cbn [filter]. rewrite Z.eqb_refl.
      assert (Hno : filter (fun r => ts r =? ts p) past = []).
      { destruct (filter (fun r => ts r =? ts p) past) as [|q rest] eqn:Ef; [reflexivity|].
        assert (Q : In q (filter (fun r => ts r =? ts p) past)) by (rewrite Ef; left; reflexivity). apply filter_In in Q. destruct Q as (Q1 & Q2). apply Z.eqb_eq in Q2.
        elim Hout. rewrite <- Q2. apply in_map, Q1. }
      rewrite Hno. cbn [app filter map fold_right existsb negb pending duration digit]. split; [reflexivity|]. split; [reflexivity|]. split; [exact He|]. split; [reflexivity|]. intros _. lia.
    + pose proof (slot_range n j). rewrite entry_upd by lia. destruct (Z.eqb_spec (slot n j) n) as [Ej|_]; [rewrite <- (slot3 n Hn) in Ej at 2; apply slot_inj in Ej; lia|].
      specialize (G j ltac:(lia)). destruct (nth_error (news past) j) as [T|] eqn:Ej; [|exact G].
      apply rel_other; [|exact G]. intros E. apply nth_error_In in Ej. rewrite news_in in Ej. congruence.
Qed.

(** ** A list of packets *)

Fixpoint feed (i : nat) (tag : list Z) (tgt : nat) (caller : bool) (h : list einfo) (n : Z) (ps : list (list Z)) : list einfo * Z * list event :=
  match ps with
  | [] => (h, n, [])
  | p :: ps => let (c, e1) := work1 i (bare caller h n) p tag tgt in let '(h', n', e2) := feed i tag tgt caller (hst c) (hnext c) ps in (h', n', e1 ++ e2)
  end.
Lemma feed_snoc i tag tgt caller ps p : forall h n, feed i tag tgt caller h n (ps ++ [p]) =
  let '(h1, n1, e1) := feed i tag tgt caller h n ps in let (c, e2) := work1 i (bare caller h1 n1) p tag tgt in (hst c, hnext c, e1 ++ e2).
Proof.
  induction ps as [|q ps IH]; intros h n; cbn [app feed].
  - destruct (work1 i (bare caller h n) p tag tgt) as [c e]. rewrite app_nil_r. reflexivity.
  - destruct (work1 i (bare caller h n) q tag tgt) as [c e]. rewrite IH. destruct (feed i tag tgt caller (hst c) (hnext c) ps) as [[h1 n1] e1].
    destruct (work1 i (bare caller h1 n1) p tag tgt) as [c2 e2]. rewrite app_assoc. reflexivity.
Qed.
Lemma work1_bare i c p tag tgt : work1 i c p tag tgt =
  let (b, e) := work1 i (bare (c_caller c) (hst c) (hnext c)) p tag tgt in (mkC (c_pt c) (c_hide c) (c_tag c) (c_tgt c) (c_caller c) (hst b) (hnext b), e).
Proof.
  destruct c as [pt hd tg tt cl h n]. unfold work1, bare, set_entry. cbn [hst hnext c_caller c_pt c_hide c_tag c_tgt].
  destruct (17 <? p_event p); [reflexivity|]. destruct (lookup 4 1 h n (p_ts p)) as [j|]; [|reflexivity].
  destruct (negb (pending (entry h j))); [reflexivity|]. destruct (negb _); [reflexivity|]. destruct (negb (p_end p)); reflexivity.
Qed.

Lemma interleaved_pre l1 l2 : interleaved (l1 ++ l2) -> interleaved l1.
Proof. intros I a x b y c E. apply (I a x b y (c ++ l2)). rewrite E, <- !app_assoc. cbn. rewrite <- app_assoc. reflexivity. Qed.

Lemma feed_reports i tag tgt caller ps : forall past h n, good past h n -> Forall plain_tel ps -> (forall p, In p ps -> p_event p <> 17) ->
  interleaved (past ++ filter known (map tel_at ps)) ->
  snd (feed i tag tgt caller h n ps) = flat_map (reported i tag tgt caller) (reports past (filter known (map tel_at ps))).
Proof.
  induction ps as [|p ps IH]; intros past h n G P N I; [reflexivity|]. inversion P as [|? ? P1 P2]; subst.
  cbn [feed map filter] in *. destruct (plain_tel_at p P1) as (_ & E0 & V0 & D0). unfold known in *. fold known in *.
  destruct (ev (tel_at p) <=? 16) eqn:Ek.
  - change ((tel_at p :: filter known (map tel_at ps))) with ([tel_at p] ++ filter known (map tel_at ps)) in I. rewrite app_assoc in I.
    destruct (one_packet i tag tgt caller past h n p G) as (h' & n' & W & G'); [lia|lia|eapply interleaved_pre; exact I|].
    rewrite W. cbn [hst hnext bare reports]. specialize (IH (past ++ [tel_at p]) h' n' G' P2 (fun q Hq => N q (or_intror Hq)) I).
    destruct (feed i tag tgt caller h' n' ps) as [[h2 n2] e2]. cbn [snd] in *. rewrite IH. rewrite flat_map_app. f_equal.
    destruct (trigger past (tel_at p)); [cbn; rewrite app_nil_r|]; reflexivity.
  - assert (W : work1 i (bare caller h n) p tag tgt = (bare caller h n, [])).
    { unfold work1. specialize (N p (or_introl eq_refl)). change (ev (tel_at p)) with (p_event p) in *. replace (17 <? p_event p) with true by lia. reflexivity. }
    rewrite W. cbn [hst hnext bare]. specialize (IH past h n G P2 (fun q Hq => N q (or_intror Hq)) I).
    destruct (feed i tag tgt caller h n ps) as [[h2 n2] e2]. exact IH.
Qed.
Lemma good0 : good [] hst0 0.
Proof. split; [reflexivity|]. split; [lia|]. intros k Hk. destruct k as [|[|[|[|]]]]; try reflexivity. lia. Qed.

(** ** The whole *)

Fixpoint wanted (w : option (Z * bool)) (l : list event) (i : nat) : option (Z * bool) :=
  match l with
  | [] => w
  | EMod j pt hide _ _ _ :: l => wanted (if (j =? i)%nat then Some (pt, hide) else w) l i
  | _ :: l => wanted w l i
  end.
Definition own (l : list event) (i : nat) : list event := filter (fun e => match e with ENote j _ _ | EOverread j _ => (j =? i)%nat | _ => false end) l.
Lemma wanted_app a : forall w b i, wanted w (a ++ b) i = wanted (wanted w a i) b i.
Proof. induction a as [|e a IH]; intros; [reflexivity|]. destruct e; cbn [app wanted]; apply IH. Qed.
Lemma caught_app a : forall w b i, caught (option_map fst w) (a ++ b) i = caught (option_map fst w) a i ++ caught (option_map fst (wanted w a i)) b i.
Proof.
  induction a as [|e a IH]; intros w b i; [reflexivity|]. destruct e; cbn [app wanted caught]; try apply IH.
  - destruct (i0 =? i)%nat; [apply (IH (Some (pt, hide)))|apply IH].
  - rewrite IH, app_assoc. reflexivity.
Qed.
Lemma verdicts_app a : forall w b i, verdicts w (a ++ b) i <-> verdicts w a i /\ verdicts (wanted w a i) b i.
Proof.
  induction a as [|e a IH]; intros w b i; [cbn; tauto|]. destruct e; cbn [app wanted verdicts]; rewrite IH; tauto.
Qed.
Lemma own_app a b i : own (a ++ b) i = own a i ++ own b i.
Proof. apply filter_app. Qed.

Definition at_stream (s : st) (l : list event) (i : nat) : Prop :=
  verdicts None l i /\
  match cfgs s i with
  | None => wanted None l i = None /\ caught None l i = [] /\ own l i = [] /\ (forall j p g t, In (j, p, g, t) (queue s) -> j <> i)
  | Some c =>
      wanted None l i = Some (c_pt c, c_hide c) /\ (exists pt hide, In (EMod i pt hide (c_tag c) (c_tgt c) (c_caller c)) l) /\
      (forall j p g t, In (j, p, g, t) (queue s) -> j = i -> g = c_tag c /\ t = c_tgt c) /\
      exists done, caught None l i = done ++ waiting s i /\ feed i (c_tag c) (c_tgt c) (c_caller c) hst0 0 done = (hst c, hnext c, own l i)
  end.

Lemma same_stream s s' l e i : at_stream s l i -> cfgs s' i = cfgs s i -> queue s' = queue s -> wanted (wanted None l i) e i = wanted None l i ->
  caught (option_map fst (wanted None l i)) e i = [] -> own e i = [] -> verdicts (wanted None l i) e i -> at_stream s' (l ++ e) i.
Proof.
  intros (V & A) Ec Eq Ew Ecau Eo Ve. unfold at_stream. rewrite verdicts_app. split; [tauto|]. rewrite Ec, Eq, wanted_app, Ew, own_app, Eo, app_nil_r.
  change (@None Z) with (option_map fst (@None (Z * bool))). rewrite caught_app, Ecau, app_nil_r. cbn [option_map].
  destruct (cfgs s i) as [c|]; [|exact A]. destruct A as (A1 & (pt & hd & A2) & A3 & done & A4 & A5). split; [exact A1|].
  split; [exists pt, hd; apply in_or_app; auto|]. split; [exact A3|]. exists done. unfold waiting in *. rewrite Eq. auto.
Qed.

Lemma own_work1 i c p tag tgt j : own (snd (work1 i c p tag tgt)) j = if (i =? j)%nat then snd (work1 i c p tag tgt) else [].
Proof.
  unfold work1. destruct (17 <? p_event p); [cbn; destruct (i =? j)%nat; reflexivity|]. destruct (lookup _ _ _ _ _); [|cbn; destruct (i =? j)%nat; reflexivity].
  destruct (negb (pending _)); [cbn; destruct (i =? j)%nat; reflexivity|]. destruct (negb (_ =? _)); [cbn; destruct (i =? j)%nat; reflexivity|].
  destruct (negb (p_end p)); [cbn; destruct (i =? j)%nat; reflexivity|]. cbn [snd]. unfold report. destruct (512 <? _); cbn; destruct (i =? j)%nat; reflexivity.
Qed.
Lemma quiet_work1 i c p tag tgt j : (forall w, wanted w (snd (work1 i c p tag tgt)) j = w) /\ (forall w, caught w (snd (work1 i c p tag tgt)) j = []) /\ (forall w, verdicts w (snd (work1 i c p tag tgt)) j).
Proof.
  unfold work1. destruct (17 <? p_event p); [cbn; auto|]. destruct (lookup _ _ _ _ _); [|cbn; auto].
  destruct (negb (pending _)); [cbn; auto|]. destruct (negb (_ =? _)); [cbn; auto|].
  destruct (negb (p_end p)); [cbn; auto|]. cbn [snd]. unfold report. destruct (512 <? _); cbn; auto.
Qed.

Lemma exec_stream s l o i : (forall j, at_stream s l j) -> at_stream (fst (exec s o)) (l ++ snd (exec s o)) i.
Proof.
  intros A. destruct o as [j tgt caller mem args|j rtp mem p|]; cbn [exec].
  - (* command *)
    unfold command.
    assert (Ref : at_stream s (l ++ [ERefused j]) i) by (eapply same_stream; [apply A|reflexivity..|]; cbn; auto).
    destruct tgt as [tg|]; [|exact Ref]. destruct (arguments args) as [[[tag pt] hide]|]; [|exact Ref].
    destruct (Nat.eq_dec j i) as [->|Nj].
    + pose proof (A i) as (V & Ai). destruct (cfgs s i) as [c|] eqn:Ec; [|destruct mem; cbn [negb]; [|exact Ref]]; unfold at_stream; cbn [fst snd cfgs queue].
      * rewrite Nat.eqb_refl, verdicts_app. split; [cbn; tauto|]. cbn [c_tag c_tgt c_caller c_pt c_hide hst hnext].
        destruct Ai as (A1 & (pt0 & hd0 & A2) & A3 & done & A4 & A5). split; [rewrite wanted_app; cbn [wanted]; rewrite Nat.eqb_refl; reflexivity|].
        split; [exists pt0, hd0; apply in_or_app; auto|]. split; [exact A3|]. exists done.
        change (@None Z) with (option_map fst (@None (Z * bool))). rewrite caught_app. cbn [caught]. rewrite app_nil_r, own_app. cbn [own filter]. rewrite app_nil_r. auto.
      * rewrite Nat.eqb_refl, verdicts_app. split; [cbn; tauto|]. cbn [c_tag c_tgt c_caller c_pt c_hide hst hnext].
        destruct Ai as (A1 & A2 & A3 & A4). split; [rewrite wanted_app; cbn [wanted]; rewrite Nat.eqb_refl; reflexivity|].
        split; [exists pt, hide; apply in_or_app; right; left; reflexivity|]. split; [intros j p g t Hin ->; elim (A4 _ _ _ _ Hin eq_refl)|]. exists [].
        change (@None Z) with (option_map fst (@None (Z * bool))). rewrite caught_app. cbn [caught option_map]. rewrite app_nil_r, own_app. cbn [own filter feed app]. fold (own l i). rewrite A2, A3. split; [|reflexivity].
        unfold waiting. cbn [queue]. symmetry. clear - A4. induction (queue s) as [|[[[j p] g] t] q IH]; [reflexivity|]. cbn [flat_map].
        destruct (Nat.eqb_spec j i) as [->|]; [elim (A4 i p g t (or_introl eq_refl) eq_refl)|]. apply IH. intros j' p' g' t' H. apply (A4 j' p' g' t'). right. exact H.
    + apply Nat.eqb_neq in Nj. destruct (cfgs s j) as [c|]; [|destruct mem; cbn [negb]; [|exact Ref]]; (eapply same_stream; [apply A|cbn..]; rewrite ?Nj; try rewrite Nat.eqb_sym, Nj; auto).
  - (* receive *)
    unfold receive. destruct (Nat.eq_dec j i) as [->|Nj].
    + pose proof (A i) as (V & Ai). destruct (cfgs s i) as [c|] eqn:Ec.
      * pose proof Ai as (A1 & (pt0 & hd0 & A2) & A3 & done & A4 & A5). destruct rtp; cbn [negb].
        2:{ eapply same_stream; [apply A|reflexivity..| | |]; cbn [fst snd caught verdicts own filter]; rewrite ?andb_false_r; auto.
            split; [|exact Logic.I]. intros _. rewrite A1. reflexivity. }
        rewrite <- field_pt. destruct (c_pt c =? field p 1 1 mod 128) eqn:Ep; cbn [negb].
        2:{ eapply same_stream; [apply A|reflexivity..| | |]; cbn [fst snd caught verdicts own filter]; rewrite ?A1; cbn [option_map fst]; rewrite ?Ep, ?andb_false_r; cbn; auto. }
        destruct mem; cbn [negb].
        2:{ eapply same_stream; [apply A|reflexivity..| | |]; cbn [fst snd caught verdicts own filter]; rewrite ?A1; cbn [option_map fst]; rewrite ?Ep, ?andb_false_r; cbn; auto. }
        unfold at_stream. cbn [fst snd cfgs queue]. rewrite verdicts_app, Ec. split.
        { split; [exact V|]. cbn [verdicts]. split; [|exact Logic.I]. intros _. rewrite A1. cbn [andb negb orb]. rewrite Ep. destruct (c_hide c); reflexivity. }
        split; [rewrite wanted_app; exact A1|]. split; [exists pt0, hd0; apply in_or_app; auto|]. split.
        { intros j p' g t Hin ->. apply in_app_or in Hin. destruct Hin as [Hin|[Hin|[]]]; [eapply A3; eauto|]. injection Hin as <- <- <-. auto. }
        exists done. change (@None Z) with (option_map fst (@None (Z * bool))). rewrite caught_app. cbn [caught option_map]. rewrite Nat.eqb_refl, A1. cbn [option_map fst andb negb].
        rewrite own_app. cbn [own filter]. rewrite !app_nil_r. split; [|exact A5]. unfold waiting in *. cbn [queue option_map fst]. rewrite Ep. cbn [andb app]. rewrite flat_map_app. cbn [flat_map]. rewrite Nat.eqb_refl. cbn [app].
        rewrite app_assoc, <- A4. reflexivity.
      * destruct Ai as (A1 & A2 & A3 & A4). eapply same_stream; [apply A|reflexivity..| | |]; cbn [fst snd caught verdicts own filter]; rewrite ?A1; cbn [option_map]; rewrite ?andb_false_r; auto.
    + apply Nat.eqb_neq in Nj.
      assert (X : forall v lo, at_stream s (l ++ [ERecv j rtp p lo v]) i).
      { intros v lo. eapply same_stream; [apply A|reflexivity..| | |]; cbn [fst snd caught verdicts own filter]; rewrite ?Nj; auto. apply Nat.eqb_neq in Nj. split; [tauto|exact Logic.I]. }
      destruct (cfgs s j) as [c|] eqn:Ec; [|apply X]. destruct (negb rtp); [apply X|]. destruct (negb (c_pt c =? p_pt p)); [apply X|]. destruct mem; cbn [negb]; [|apply X].
      cbn [fst snd]. specialize (X (if c_hide c then Drop else Tee) false). unfold at_stream in *. cbn [cfgs queue]. destruct X as (X0 & X). split; [exact X0|].
      destruct (cfgs s i) as [c'|].
      * destruct X as (X1 & X2 & X3 & done & X4 & X5). split; [exact X1|]. split; [exact X2|]. split.
        -- intros j' p' g t Hin Hj. apply in_app_or in Hin. destruct Hin as [Hin|[Hin|[]]]; [eapply X3; eauto|]. injection Hin as <- <- <- <-. apply Nat.eqb_neq in Nj. tauto.
        -- exists done. split; [|exact X5]. rewrite X4. f_equal. unfold waiting. cbn [queue]. rewrite flat_map_app. cbn [flat_map]. rewrite Nj. cbn. rewrite app_nil_r. reflexivity.
      * destruct X as (X1 & X2 & X3 & X4). repeat split; auto. intros j' p' g t Hin. apply in_app_or in Hin. destruct Hin as [Hin|[Hin|[]]]; [eapply X4; eauto|]. injection Hin as <- <- <- <-. apply Nat.eqb_neq in Nj. exact Nj.
  - (* work *)
    unfold work. destruct (queue s) as [|[[[j p] tag] tgt] q] eqn:Eq.
    { cbn [fst snd]. rewrite app_nil_r. apply A. }
    pose proof (A j) as (Vj & Aj). destruct (cfgs s j) as [c|] eqn:Ec.
    2:{ destruct Aj as (_ & _ & _ & A4). elim (A4 j p tag tgt); [rewrite Eq; left; reflexivity|reflexivity]. }
    destruct (work1 j c p tag tgt) as [c' e] eqn:Ew. cbn [fst snd].
    pose proof (own_work1 j c p tag tgt) as Ow. pose proof (quiet_work1 j c p tag tgt) as Qw. rewrite Ew in Ow, Qw. cbn [snd] in Ow, Qw.
    pose proof (A i) as (Vi & Ai). unfold at_stream. cbn [cfgs queue]. rewrite verdicts_app. split; [split; [exact Vi|apply Qw]|].
    rewrite wanted_app. replace (wanted (wanted None l i) e i) with (wanted None l i) by (symmetry; apply Qw).
    change (@None Z) with (option_map fst (@None (Z * bool))). rewrite caught_app. replace (caught (option_map fst (wanted None l i)) e i) with (@nil (list Z)) by (symmetry; apply Qw).
    rewrite app_nil_r, own_app, Ow. cbn [option_map].
    destruct (Nat.eqb_spec i j) as [->|Nij].
    + rewrite Nat.eqb_refl. clear Ai Vi. destruct Aj as (A1 & (pt0 & hd0 & A2) & A3 & done & A4 & A5).
      destruct (A3 j p tag tgt) as (E1 & E2); [rewrite Eq; left; reflexivity|reflexivity|]. subst tag tgt.
      rewrite work1_bare in Ew. destruct (work1 j (bare (c_caller c) (hst c) (hnext c)) p (c_tag c) (c_tgt c)) as [b e'] eqn:Eb. injection Ew as <- <-.
      cbn [c_tag c_tgt c_caller c_pt c_hide hst hnext]. split; [exact A1|]. split; [exists pt0, hd0; apply in_or_app; auto|]. split.
      { intros j' p' g t Hin. apply (A3 j' p' g t). rewrite Eq. right. exact Hin. }
      exists (done ++ [p]). split.
      * rewrite A4. unfold waiting. rewrite Eq. cbn [flat_map queue]. rewrite Nat.eqb_refl, <- app_assoc. reflexivity.
      * rewrite feed_snoc, A5, Eb. reflexivity.
    + assert (Nji : (j =? i)%nat = false) by (apply Nat.eqb_neq; congruence). rewrite Nji, app_nil_r. destruct (cfgs s i) as [ci|] eqn:Eci.
      * destruct Ai as (A1 & (pt0 & hd0 & A2) & A3 & done & A4 & A5). split; [exact A1|]. split; [exists pt0, hd0; apply in_or_app; auto|]. split.
        { intros j' p' g t Hin. apply (A3 j' p' g t). rewrite Eq. right. exact Hin. }
        exists done. split; [|exact A5]. rewrite A4. unfold waiting. rewrite Eq. cbn [flat_map queue]. rewrite Nji. reflexivity.
      * destruct Ai as (A1 & A2 & A3 & A4). repeat split; auto. intros j' p' g t Hin. eapply A4. rewrite Eq. right. exact Hin.
Qed.

Lemma run_app os1 : forall s os2, run s (os1 ++ os2) = (fst (run (fst (run s os1)) os2), snd (run s os1) ++ snd (run (fst (run s os1)) os2)).
Proof.
  induction os1 as [|o os1 IH]; intros s os2; cbn [run app]; [cbn [fst snd app]; destruct (run s os2); reflexivity|].
  destruct (exec s o) as [s1 e1]. rewrite IH. destruct (run s1 os1) as [s2 e2]. cbn [fst snd]. rewrite app_assoc. reflexivity.
Qed.
Lemma run_stream os : forall i, at_stream (fst (run init os)) (snd (run init os)) i.
Proof.
  induction os as [|o os IH] using rev_ind; intros i.
  - unfold at_stream. cbn. repeat split; auto.
  - rewrite run_app. cbn [fst snd run]. destruct (exec (fst (run init os)) o) as [s1 e1] eqn:E. cbn [fst snd]. rewrite app_nil_r.
    pose proof (exec_stream (fst (run init os)) (snd (run init os)) o i IH) as X. rewrite E in X. exact X.
Qed.

(** ** The texts *)

Lemma udec_len fuel : forall k n acc, 0 <= n < 10 ^ Z.of_nat k -> (1 <= k)%nat -> (length (udec fuel n acc) <= k + length acc)%nat.
Proof.
  induction fuel as [|fuel IH]; intros k n acc Hn Hk; cbn [udec]; [lia|]. destruct (Z.ltb_spec n 10); [cbn; lia|].
  destruct k as [|[|k]]; [lia|cbn in Hn; lia|]. specialize (IH (S k) (n / 10) ((48 + n mod 10) :: acc)). cbn [length] in IH.
  rewrite Nat2Z.inj_succ, Z.pow_succ_r in Hn by lia. assert (n / 10 < 10 ^ Z.of_nat (S k)) by (apply Z.div_lt_upper_bound; lia).
  assert (0 <= n / 10) by (apply Z.div_pos; lia). specialize (IH ltac:(lia) ltac:(lia)). lia.
Qed.
Lemma upto0_id l : Forall (fun c => c <> 0) l -> upto0 l = l.
Proof. induction 1 as [|c l H _ IH]; [reflexivity|]. cbn. replace (c =? 0) with false by lia. rewrite IH. reflexivity. Qed.
Definition full_text (tag : list Z) (caller : bool) (r : tel * Z) : list Z :=
  tag ++ [32] ++ [symz (ev (fst r))] ++ [32] ++ fmt_u (vol (fst r)) ++ [32] ++ fmt_u (snd r) ++ [32] ++ (if caller then [48] else [49]).
Definition in_bounds (r : tel * Z) : Prop := 0 <= ev (fst r) <= 16 /\ 0 <= vol (fst r) < 64 /\ 0 <= snd r < 65536.
Lemma reported_text i tag tgt caller r : Forall (fun c => c <> 0) tag -> (length tag <= 498)%nat -> in_bounds r ->
  reported i tag tgt caller r = [ENote i tgt (full_text tag caller r)] /\ text_of tag caller r (full_text tag caller r).
Proof.
  intros N L (Be & Bv & Bd). unfold reported, report. rewrite upto0_id by exact N.
  replace (fmt_d (if caller then 0 else 1)) with (if caller then [48] else [49]) by (destruct caller; reflexivity).
  fold (full_text tag caller r).
  assert (Lf : (length (full_text tag caller r) <= 511)%nat).
  { unfold full_text. rewrite !app_length. pose proof (udec_len 20 2 (vol (fst r)) [] ltac:(change (10 ^ Z.of_nat 2) with 100; lia) ltac:(lia)). pose proof (udec_len 20 5 (snd r) [] ltac:(change (10 ^ Z.of_nat 5) with 100000; lia) ltac:(lia)).
    unfold fmt_u. cbn [length] in *. destruct caller; cbn [length]; lia. }
  replace (512 <? Z.of_nat (length (full_text tag caller r))) with false by lia. split.
  - rewrite (firstn_all2 (n := 511)) by lia. rewrite firstn_app, Nat.sub_diag, firstn_all. cbn [firstn]. rewrite app_nil_r. reflexivity.
  - exists (symz (ev (fst r))), (fmt_u (vol (fst r))), (fmt_u (snd r)). split; [apply symz_symbol; lia|].
    split; [apply fmt_u_dec; [lia|unfold printable; lia|reflexivity]|]. split; [apply fmt_u_dec; [lia|unfold printable; lia|reflexivity]|]. reflexivity.
Qed.

Definition tel_ok (p : tel) : Prop := 0 <= ev p <= 16 /\ 0 <= vol p < 64 /\ 0 <= dur p < 65536.
Lemma fold_max_bound l b : 0 < b -> Forall (fun d => 0 <= d < b) l -> 0 <= fold_right Z.max 0 l < b.
Proof. intros Hb. induction 1 as [|d l H _ IH]; cbn; lia. Qed.
Lemma trigger_bound past p d : Forall tel_ok past -> tel_ok p -> trigger past p = Some d -> 0 <= d < 65536.
Proof.
  intros F P. unfold trigger. destruct (filter (fun r => ts r =? ts p) past) as [|q rest] eqn:E; [discriminate|]. destruct (final p && _ && _); [|discriminate].
  intros H. injection H as <-. apply (fold_max_bound (map dur (q :: filter (fun r => ev r =? ev p) rest ++ [p]))); [lia|].
  assert (Fq : Forall tel_ok (q :: rest)). { rewrite <- E. apply Forall_forall. intros x Hx. apply filter_In in Hx. rewrite Forall_forall in F. apply F. tauto. }
  apply Forall_forall. intros x Hx. apply in_map_iff in Hx. destruct Hx as (y & <- & Hy).
  assert (tel_ok y) as (_ & _ & Y); [|exact Y]. rewrite Forall_forall in Fq. destruct Hy as [<-|Hy]; [apply Fq; left; reflexivity|]. apply in_app_or in Hy.
  destruct Hy as [Hy|[<-|[]]]; [|exact P]. apply filter_In in Hy. apply Fq. right. tauto.
Qed.
Lemma reports_bounds l : forall past, Forall tel_ok past -> Forall tel_ok l -> Forall in_bounds (reports past l).
Proof.
  induction l as [|p l IH]; intros past F Fl; cbn [reports]; [constructor|]. inversion Fl as [|? ? P1 P2]; subst. apply Forall_app. split.
  - destruct (trigger past p) as [d|] eqn:E; constructor; [|constructor]. pose proof (trigger_bound _ _ _ F P1 E). destruct P1 as (? & ? & ?). repeat split; cbn; lia.
  - apply IH; [apply Forall_app; auto|exact P2].
Qed.

Lemma notes_app a b i : notes (a ++ b) i = notes a i ++ notes b i.
Proof. apply flat_map_app. Qed.
Lemma notes_own l i : notes l i = notes (own l i) i.
Proof.
  induction l as [|e l IH]; [reflexivity|]. unfold own in *. cbn [filter]. destruct e; try exact IH.
  - unfold notes in *. cbn [flat_map]. destruct (Nat.eqb_spec i0 i) as [->|]; [cbn [flat_map]; rewrite Nat.eqb_refl, IH; reflexivity|exact IH].
  - unfold notes in *. cbn [flat_map]. destruct (i0 =? i)%nat; exact IH.
Qed.
Lemma overread_own l i n : In (EOverread i n) l -> In (EOverread i n) (own l i).
Proof. intros H. apply filter_In. rewrite Nat.eqb_refl. auto. Qed.

Lemma tels_at ps : Forall plain_tel ps -> tels ps = map tel_at ps.
Proof. induction 1 as [|p ps P _ IH]; [reflexivity|]. cbn [tels flat_map map]. fold (tels ps). destruct (plain_tel_at p P) as (-> & _). rewrite IH. reflexivity. Qed.

Lemma stream_reports os i tag tgt caller : let s := fst (run init os) in let l := snd (run init os) in
  always l i tag tgt caller -> Forall (fun c => c <> 0) tag -> (length tag <= 498)%nat ->
  Forall plain_tel (caught None l i) -> Forall (fun t => ev t <> 17) (tels (caught None l i)) -> interleaved (filter known (tels (caught None l i))) ->
  exists done, caught None l i = done ++ waiting s i /\
    Forall2 (fun r n => fst n = tgt /\ text_of tag caller r (snd n)) (reports [] (filter known (tels done))) (notes l i) /\
    (forall n, ~ In (EOverread i n) l).
Proof.
  intros s l Al N L P N17 I. destruct (run_stream os i) as (_ & A). fold s l in A. destruct (cfgs s i) as [c|].
  - destruct A as (_ & (pt & hd & A2) & _ & done & A4 & A5). exists done. split; [exact A4|].
    destruct (Al _ _ _ _ _ A2) as (E1 & E2 & E3). rewrite E1, E2, E3 in A5. rewrite A4 in *. apply Forall_app in P. destruct P as [P _].
    pose proof (feed_reports i tag tgt caller done [] hst0 0 good0 P) as FR. rewrite A5 in FR. cbn [snd app] in FR.
    assert (T : tels (done ++ waiting s i) = map tel_at done ++ tels (waiting s i)) by (unfold tels; rewrite flat_map_app; f_equal; apply (tels_at done P)).
    rewrite T in *. rewrite filter_app in I. apply Forall_app in N17. destruct N17 as [N17 _].
    specialize (FR ltac:(intros p Hp; rewrite Forall_forall in N17; apply (N17 (tel_at p)); apply in_map; exact Hp) (interleaved_pre _ _ I)).
    rewrite (tels_at done P).
    assert (Bd : Forall in_bounds (reports [] (filter known (map tel_at done)))).
    { apply reports_bounds; [constructor|]. apply Forall_forall. intros t Ht. apply filter_In in Ht. destruct Ht as [Ht Hk]. apply in_map_iff in Ht. destruct Ht as (p & <- & Hp).
      rewrite Forall_forall in P. destruct (plain_tel_at p (P p Hp)) as (_ & ? & ? & ?). unfold known in Hk. unfold tel_ok. lia. }
    assert (G : forall rs, Forall in_bounds rs -> Forall2 (fun r n => fst n = tgt /\ text_of tag caller r (snd n)) rs (notes (flat_map (reported i tag tgt caller) rs) i) /\ (forall n, ~ In (EOverread i n) (flat_map (reported i tag tgt caller) rs))).
    { induction 1 as [|r rs Hr _ (IH1 & IH2)]; [split; [constructor|intros ? []]|]. cbn [flat_map]. destruct (reported_text i tag tgt caller r N L Hr) as (-> & Ht). split.
      - cbn [app notes flat_map]. rewrite Nat.eqb_refl. cbn [app]. constructor; [split; [reflexivity|exact Ht]|exact IH1].
      - intros n [H|H]; [discriminate|]. exact (IH2 n H). }
    destruct (G _ Bd) as (G1 & G2). split; [rewrite notes_own, FR; exact G1|]. intros n Hn. apply (G2 n). rewrite <- FR. apply overread_own. exact Hn.
  - destruct A as (_ & A2 & A3 & A4). exists []. rewrite A2. split; [|split].
    + unfold waiting. symmetry. clear - A4. induction (queue s) as [|[[[j p] g] t] q IH]; [reflexivity|]. cbn [flat_map].
      destruct (Nat.eqb_spec j i) as [->|]; [elim (A4 i p g t (or_introl eq_refl) eq_refl)|]. apply IH. intros j' p' g' t' H. apply (A4 j' p' g' t'). right. exact H.
    + rewrite notes_own, A3. constructor.
    + intros n Hn. apply overread_own in Hn. rewrite A3 in Hn. exact Hn.
Qed.

(** ** Once for each event *)

Lemma reports_in l : forall past t, In t (map (fun r => ts (fst r)) (reports past l)) -> exists a p c, l = a ++ p :: c /\ ts p = t /\ trigger (past ++ a) p <> None.
Proof.
  induction l as [|p l IH]; intros past t H; [destruct H|]. cbn [reports] in H. rewrite map_app in H. apply in_app_or in H. destruct H as [H|H].
  - exists [], p, l. rewrite app_nil_r. split; [reflexivity|]. destruct (trigger past p) eqn:E; [|destruct H]. destruct H as [H|[]]. split; [exact H|discriminate].
  - destruct (IH _ _ H) as (a & q & c & -> & E & T). exists (p :: a), q, c. rewrite <- app_assoc in T. auto.
Qed.
Lemma reports_at a : forall past p c, trigger (past ++ a) p <> None -> In (ts p) (map (fun r => ts (fst r)) (reports past (a ++ p :: c))).
Proof.
  induction a as [|q a IH]; intros past p c T; cbn [app reports]; rewrite map_app; apply in_or_app.
  - left. rewrite app_nil_r in T. destruct (trigger past p); [left; reflexivity|congruence].
  - right. apply IH. rewrite <- app_assoc. exact T.
Qed.
Lemma trigger_some past p : trigger past p <> None <-> exists a q b, past = a ++ q :: b /\ ~ In (ts p) (map ts a) /\ ts q = ts p /\ ev q = ev p /\ final p = true /\
  (forall r, In r b -> ts r = ts p -> ev r = ev p -> final r = false).
Proof.
  unfold trigger. split.
  - destruct (filter (fun r => ts r =? ts p) past) as [|q rest] eqn:E; [congruence|]. destruct (final p && _ && _) eqn:C; [|congruence]. intros _.
    apply andb_prop in C. destruct C as [C C3]. apply andb_prop in C. destruct C as [C1 C2].
    assert (X : exists a b, past = a ++ q :: b /\ (forall r, In r a -> ts r <> ts p) /\ ts q = ts p /\ rest = filter (fun r => ts r =? ts p) b).
    { clear C1 C2 C3. revert E. induction past as [|x past IH]; cbn [filter]; intros E; [discriminate|]. destruct (Z.eqb_spec (ts x) (ts p)).
      - injection E as <- <-. exists [], past. split; [reflexivity|]. split; [intros ? []|]. auto.
      - destruct (IH E) as (a & b & -> & Ha & Hq & Hr). exists (x :: a), b. split; [reflexivity|]. split; [|auto]. intros r [<-|Hr']; auto. }
    destruct X as (a & b & -> & Ha & Hq & ->). exists a, q, b. split; [reflexivity|]. split.
    { intros H. apply in_map_iff in H. destruct H as (r & Hr & Hin). exact (Ha r Hin Hr). }
    split; [exact Hq|]. split; [lia|]. split; [exact C1|]. intros r Hr Ht He. destruct (final r) eqn:Ef; [|reflexivity]. exfalso.
    apply negb_true_iff in C3. rewrite <- not_true_iff_false in C3. apply C3. apply existsb_exists. exists r. split; [|exact Ef]. apply filter_In. split; [apply filter_In; split; [exact Hr|lia]|lia].
  - intros (a & q & b & -> & Ha & Hq & He & Hf & Hb). rewrite filter_app.
    assert (Ea : filter (fun r => ts r =? ts p) a = []).
    { clear - Ha. induction a as [|x a IH]; [reflexivity|]. cbn [filter]. cbn [map] in Ha. destruct (Z.eqb_spec (ts x) (ts p)) as [E|]; [elim Ha; left; exact E|]. apply IH. intros H. apply Ha. right. exact H. }
    rewrite Ea. cbn [app filter]. replace (ts q =? ts p) with true by lia.
    assert (Ex : existsb final (filter (fun r => ev r =? ev p) (filter (fun r => ts r =? ts p) b)) = false).
    { apply not_true_iff_false. intros H. apply existsb_exists in H. destruct H as (r & Hr & Hf'). apply filter_In in Hr. destruct Hr as [Hr Hev]. apply filter_In in Hr. destruct Hr as [Hr Hts].
      rewrite (Hb r) in Hf'; [discriminate|exact Hr|lia|lia]. }
    rewrite Ex, Hf. replace (ev q =? ev p) with true by lia. discriminate.
Qed.
(** A packet with its event's report behind it does not trigger another. *)
Lemma trigger_once past p c q : trigger past p <> None -> ts q = ts p -> trigger (past ++ p :: c) q = None.
Proof.
  intros T E. destruct (trigger (past ++ p :: c) q) eqn:Eq; [exfalso|reflexivity].
  assert (T2 : trigger (past ++ p :: c) q <> None) by congruence. apply trigger_some in T. apply trigger_some in T2.
  destruct T as (a & x & b & -> & Ha & Hx & He & Hf & _). destruct T2 as (a' & x' & b' & E2 & Ha' & Hx' & He' & Hf' & Hb').
  rewrite <- app_assoc in E2. cbn [app] in E2. rewrite E in *.
  assert (a = a' /\ x = x' /\ b ++ p :: c = b') as (<- & <- & <-).
  { clear - E2 Ha Ha' Hx Hx'. revert a' E2 Ha'. induction a as [|y a IH]; intros a' E2 Ha'; destruct a' as [|y' a']; cbn [app] in E2.
    - injection E2 as <- <-. auto.
    - injection E2 as <- _. elim Ha'. left. exact Hx.
    - injection E2 as -> _. elim Ha. left. exact Hx'.
    - injection E2 as <- E2. destruct (IH ltac:(intros H; apply Ha; right; exact H) a' E2 ltac:(intros H; apply Ha'; right; exact H)) as (-> & ? & ?). auto. }
  rewrite (Hb' p) in Hf; [discriminate|apply in_or_app; right; left; reflexivity|reflexivity|congruence].
Qed.
Lemma reports_once l : forall past, NoDup (map (fun r => ts (fst r)) (reports past l)) /\
  (forall p a c, past = a ++ p :: c -> trigger a p <> None -> ~ In (ts p) (map (fun r => ts (fst r)) (reports past l))).
Proof.
  induction l as [|p l IH]; intros past; cbn [reports]; [split; [constructor|intros ? ? ? _ _ []]|].
  destruct (IH (past ++ [p])) as (N & Q). split.
  - destruct (trigger past p) eqn:E; [|exact N]. cbn [app map fst]. constructor; [|exact N]. apply (Q p past [] eq_refl). congruence.
  - intros q a c -> T. rewrite map_app. intros H. apply in_app_or in H. destruct H as [H|H].
    + destruct (trigger (a ++ q :: c) p) eqn:E; [|destruct H]. destruct H as [H|[]]. cbn [fst] in H. rewrite (trigger_once a q c p T H) in E. discriminate.
    + apply (Q q a (c ++ [p]) ltac:(rewrite <- app_assoc; reflexivity) T H).
Qed.
(** An event is reported if an end packet of it comes behind its first packet. *)
Lemma reports_all l t : In t (map (fun r => ts (fst r)) (reports [] l)) <->
  exists a q b p c, l = a ++ q :: b ++ p :: c /\ ~ In t (map ts a) /\ ts q = t /\ ts p = t /\ ev p = ev q /\ final p = true.
Proof.
  split.
  - intros H. destruct (reports_in _ _ _ H) as (x & p & c & -> & E & T). cbn [app] in T. apply trigger_some in T. destruct T as (a & q & b & -> & Ha & Hq & He & Hf & _).
    exists a, q, b, p, c. rewrite <- app_assoc. subst t. auto 10.
  - intros (a & q & b & p & c & -> & Ha & Hq & Hp & He & Hf).
    assert (X : exists b1 p1 c1, b ++ p :: c = b1 ++ p1 :: c1 /\ ts p1 = t /\ ev p1 = ev q /\ final p1 = true /\ (forall r, In r b1 -> ts r = t -> ev r = ev q -> final r = false)).
    { clear - Hp He Hf. induction b as [|x b IH]; [exists [], p, c; repeat split; auto; intros ? []|].
      destruct ((ts x =? t) && (ev x =? ev q) && final x) eqn:E.
      - apply andb_prop in E. destruct E as [E E3]. apply andb_prop in E. destruct E as [E1 E2]. exists [], x, (b ++ p :: c). repeat split; auto; try lia. intros ? [].
      - destruct IH as (b1 & p1 & c1 & IH & H1 & H2 & H3 & H4). exists (x :: b1), p1, c1. cbn [app]. rewrite IH. repeat split; auto.
        intros r [<-|Hr] Ht Hev; [|auto]. destruct (final x); [|reflexivity]. exfalso. rewrite Ht, Hev, !Z.eqb_refl in E. discriminate. }
    destruct X as (b1 & p1 & c1 & -> & H1 & H2 & H3 & H4). subst t. rewrite <- H1. replace (a ++ q :: b1 ++ p1 :: c1) with ((a ++ q :: b1) ++ p1 :: c1) by (rewrite <- app_assoc; reflexivity).
    apply reports_at. cbn [app]. apply trigger_some. exists a, q, b1. rewrite H1. repeat split; auto. intros r Hr Ht Hev. apply H4; auto. congruence.
Qed.

(** ** The command *)

Lemma unquote_exact tag : unquote tag = match decoded tag with Some t => UGot t | None => UBad end.
Proof.
  unfold unquote. set (m := tag ++ 0 :: repeat 0 (S (length tag))).
  assert (L : length m = (2 * length tag + 2)%nat) by (unfold m; rewrite app_length; cbn [length]; rewrite repeat_length; lia).
  destruct (url_unquote_exact_partial m 0 (S (length tag)) (length tag) 0) as (m' & r & -> & Lm & Hd & _).
  - unfold m. cbn [Nat.add]. rewrite nth_error_app2, Nat.sub_diag by lia. reflexivity.
  - reflexivity.
  - lia.
  - right. lia.
  - assert (Ea : area m 0 (length tag) = tag) by (unfold area, m; cbn [skipn]; rewrite firstn_app, Nat.sub_diag, firstn_all; cbn [firstn]; apply app_nil_r).
    rewrite Ea in Hd. destruct (decoded tag) as [out|].
    + destruct Hd as (-> & Hd). replace (Z.of_nat (length out) =? -1) with false by lia. rewrite Nat2Z.id. f_equal. exact Hd.
    + subst r. reflexivity.
Qed.
Lemma opts_exact o : forall h r, opts o h = Some r <-> Forall (fun c => c = 104 \/ c = 72) o /\ r = match o with [] => h | _ => true end.
Proof.
  induction o as [|c o IH]; intros h r; cbn [opts].
  - split; [intros H; injection H as <-; auto|intros (_ & ->); reflexivity].
  - destruct ((c =? 104) || (c =? 72)) eqn:E.
    + rewrite IH. split; [intros (F & ->)|intros (F & ->)].
      * split; [constructor; [lia|exact F]|]. destruct o; reflexivity.
      * inversion F; subst. split; [assumption|]. destruct o; reflexivity.
    + split; [discriminate|]. intros (F & _). inversion F; subst. lia.
Qed.
Lemma arguments_exact args : (forall n q p o v, args = n :: q :: p :: o -> cstring p /\ (numeral p v [] -> is_int v)) ->
  forall tag pt hide, arguments args = Some (tag, pt, hide) <-> asked args tag pt hide.
Proof.
  intros W tag pt hide. split.
  - unfold arguments. destruct args as [|n [|q more]]; try discriminate. destruct (2 <? Z.of_nat (length more)) eqn:El; [discriminate|].
    rewrite unquote_exact. destruct (decoded q) as [t|] eqn:Eq; [|discriminate]. destruct more as [|p more].
    { intros H. injection H as <- <- <-. constructor. exact Eq. }
    assert (Cp : cstring p) by (apply (W n q p more 0 eq_refl)).
    pose proof (atoi_saferange_exact_partial p 0 127 Cp (fun v => proj2 (W n q p more v eq_refl))) as R.
    destruct (atoi_saferange p 0 127) as [v| |] eqn:Ea; try discriminate. destruct (proj1 (R v) eq_refl) as (Nv & B1 & B2). specialize (B2 ltac:(lia)).
    destruct more as [|o more]; [intros H; injection H as <- <- <-; constructor; auto|].
    destruct more; [|cbn in El; lia]. destruct (opts o false) as [h|] eqn:Eo; [|discriminate]. intros H. injection H as <- <- <-. apply opts_exact in Eo. destruct Eo as (F & ->).
    constructor; auto.
  - intros A. inversion A; subst; unfold arguments; cbn [length Z.of_nat]; rewrite unquote_exact, H.
    + reflexivity.
    + cbn. pose proof (W _ _ _ _ pt eq_refl) as (C & _). rewrite (proj2 (atoi_saferange_exact_partial p 0 127 C (fun v => proj2 (W n q p [] v eq_refl)) pt)); [reflexivity|]. split; [assumption|]. split; lia.
    + cbn. pose proof (W _ _ _ _ pt eq_refl) as (C & _). rewrite (proj2 (atoi_saferange_exact_partial p 0 127 C (fun v => proj2 (W n q p [o] v eq_refl)) pt)); [|split; [assumption|]; split; lia].
      rewrite (proj2 (opts_exact o false _) (conj H2 eq_refl)). reflexivity.
Qed.
Lemma wanted_mod l i x y z u v : forall w, In (EMod i x y z u v) l -> wanted w l i <> None.
Proof.
  induction l as [|e l IH]; intros w H; [destruct H|]. destruct H as [->|H]; [|destruct e; cbn [wanted]; apply IH; exact H]. cbn [wanted]. rewrite Nat.eqb_refl. clear.
  generalize (x, y) as k. induction l as [|e l IH]; intros k; cbn [wanted]; [discriminate|]. destruct e; try apply IH. destruct (i0 =? i)%nat; apply IH.
Qed.
Lemma command_exact os i tgt caller mem args e : (forall n q p o v, args = n :: q :: p :: o -> cstring p /\ (numeral p v [] -> is_int v)) ->
  snd (exec (fst (run init os)) (Cmd i tgt caller mem args)) = e ->
  (e = [ERefused i] \/ exists pt hide tag tg, e = [EMod i pt hide tag tg caller]) /\
  forall pt hide tag tg, e = [EMod i pt hide tag tg caller] <->
    tgt = Some tg /\ asked args tag pt hide /\ (mem = true \/ exists pt' hide' tag' tg' c', In (EMod i pt' hide' tag' tg' c') (snd (run init os))).
Proof.
  intros W <-. cbn [exec]. unfold command. pose proof (arguments_exact args W) as Ar. destruct (run_stream os i) as (_ & St).
  destruct tgt as [tg|]; [|split; [left; reflexivity|intros; split; [discriminate|intros (? & _); discriminate]]].
  destruct (arguments args) as [[[tag pt] hide]|] eqn:Ea.
  2:{ split; [left; reflexivity|]. intros pt hide tag tg'. split; [discriminate|]. intros (_ & A & _). apply Ar in A. discriminate. }
  destruct (cfgs (fst (run init os)) i) as [c|].
  - cbn [snd]. split; [right; eauto 10|]. intros pt' hide' tag' tg'. split.
    + intros H. injection H as -> -> -> ->. split; [reflexivity|]. split; [apply Ar; reflexivity|]. right. destruct St as (_ & (x & y & St) & _). eauto 10.
    + intros (H & A & _). injection H as ->. apply Ar in A. injection A as -> -> ->. reflexivity.
  - destruct mem; cbn [negb snd].
    + split; [right; eauto 10|]. intros pt' hide' tag' tg'. split.
      * intros H. injection H as -> -> -> ->. split; [reflexivity|]. split; [apply Ar; reflexivity|]. left. reflexivity.
      * intros (H & A & _). injection H as ->. apply Ar in A. injection A as -> -> ->. reflexivity.
    + split; [left; reflexivity|]. intros pt' hide' tag' tg'. split; [discriminate|]. intros (_ & _ & [H|(x & y & z & u & v & H)]); [discriminate|]. exfalso.
      destruct St as (St & _). exact (wanted_mod _ _ _ _ _ _ _ _ H St).
Qed.
