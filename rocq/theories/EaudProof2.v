From Coq Require Import Permutation Sorted.
From Verif Require Import Base EaudModel EaudSpec EaudProof.

(** ** Sorted lists *)
Lemma ss_snoc {A} (R : A -> A -> Prop) l x : StronglySorted R l -> Forall (fun y => R y x) l -> StronglySorted R (l ++ [x]).
Proof.
  induction 1 as [|y l S IH F]; intros G; cbn; [constructor; constructor|]. constructor; [apply IH, (Forall_inv_tail G)|].
  apply Forall_app. split; [exact F|]. constructor; [exact (Forall_inv G)|constructor].
Qed.
Lemma ss_rev {A} (R : A -> A -> Prop) l : StronglySorted R l -> StronglySorted (fun a b => R b a) (rev l).
Proof.
  induction 1 as [|y l S IH F]; cbn; [constructor|]. apply ss_snoc; [exact IH|]. apply Forall_rev. exact F.
Qed.
Lemma ss_filter {A} (R : A -> A -> Prop) p l : StronglySorted R l -> StronglySorted R (filter p l).
Proof.
  induction 1 as [|y l S IH F]; cbn; [constructor|]. destruct (p y); [|exact IH]. constructor; [exact IH|].
  rewrite Forall_forall in *. intros z H. apply filter_In in H as (H & _). exact (F z H).
Qed.
Lemma ss_map {A C} (R : A -> A -> Prop) (Q : C -> C -> Prop) f l : (forall a b, In a l -> In b l -> R a b -> Q (f a) (f b)) -> StronglySorted R l -> StronglySorted Q (map f l).
Proof.
  intros H S. induction S as [|y l S IH F]; cbn; [constructor|]. constructor; [apply IH; intros a b Ha Hb; apply H; right; assumption|].
  rewrite Forall_forall in *. intros z Hz. apply in_map_iff in Hz as (w & <- & Hw). apply H; [left; reflexivity|right; exact Hw|exact (F w Hw)].
Qed.
Lemma filter_map_swap {A C} (f : A -> C) p l : filter p (map f l) = map f (filter (fun x => p (f x)) l).
Proof. induction l as [|x l IH]; cbn; [reflexivity|]. destruct (p (f x)); cbn; rewrite IH; reflexivity. Qed.
Lemma map_nth_seq {A} (l : list A) d : map (fun i => nth i l d) (seq 0 (length l)) = l.
Proof.
  induction l as [|x l IH]; [reflexivity|]. cbn [length seq map nth]. f_equal. rewrite <- seq_shift, map_map. exact IH.
Qed.
Lemma without_in i l j : In j (without i l) <-> In j l /\ i <> j.
Proof. unfold without. rewrite filter_In. destruct (Nat.eqb_spec i j); cbn; intuition congruence. Qed.
Lemma without_nodup i l : NoDup l -> NoDup (without i l).
Proof. apply NoDup_filter. Qed.
Lemma without_len i l : NoDup l -> In i l -> Z.of_nat (length (without i l)) = Z.of_nat (length l) - 1.
Proof.
  unfold without. induction l as [|j l IH]; intros N H; [destruct H|]. inversion N as [|? ? Nj Nl]; subst. cbn [filter length]. destruct (Nat.eqb_spec i j) as [->|D]; cbn [negb].
  - enough (filter (fun k => negb (j =? k)%nat) l = l) as -> by lia. clear IH H N Nl. induction l as [|k l IH]; [reflexivity|]. cbn.
    destruct (Nat.eqb_spec j k) as [->|D]; [exfalso; apply Nj; left; reflexivity|]. cbn. f_equal. apply IH. intros H. apply Nj. right. exact H.
  - destruct H as [H|H]; [congruence|]. cbn [length]. rewrite Nat2Z.inj_succ, (IH Nl H). lia.
Qed.
Lemma member_in i l : member i l = true <-> In i l.
Proof. unfold member. rewrite existsb_exists. split; [intros (x & H & E); apply Nat.eqb_eq in E; subst; exact H|]. intros H. exists i. split; [exact H|apply Nat.eqb_refl]. Qed.

(** ** Mixing the samples of a moment *)
Definition values (a : bool) (k : Z) (l : list voice) : list Z := map (sample k) (filter (fun v => Bool.eqb (v_a v) a) l).
Definition blend_on (seen : bool) (m : Z) (l : list Z) : Z :=
  if seen then fold_left (fun m v => Z.quot (m + v) 2) l m else match l with [] => m | v :: r => fold_left (fun m v => Z.quot (m + v) 2) r (m + v) end.
Lemma fold_add k : forall l a,
  let r := fold_left (fun a v => add a (v_a v) (sample k v)) l a in
  a_a r = blend_on (a_sa a) (a_a a) (values true k l) /\ a_b r = blend_on (a_sb a) (a_b a) (values false k l) /\ a_neof r = a_neof a.
Proof.
  induction l as [|v l IH]; intros a; cbn [fold_left]; cbv zeta.
  - cbn. destruct (a_sa a), (a_sb a); auto.
  - destruct (IH (add a (v_a v) (sample k v))) as (E1 & E2 & E3). rewrite E1, E2, E3. clear. unfold values. cbn [filter]. destruct (v_a v); cbn [Bool.eqb add a_a a_b a_sa a_sb a_neof map].
    + split; [|split; reflexivity]. destruct (a_sa a); reflexivity.
    + split; [reflexivity|]. split; [|reflexivity]. destruct (a_sb a); reflexivity.
Qed.
Lemma fold_add_sides k l : let r := fold_left (fun a v => add a (v_a v) (sample k v)) l (mkA 0 0 false false 0) in
  a_a r = side true k l /\ a_b r = side false k l /\ a_neof r = 0.
Proof.
  destruct (fold_add k l (mkA 0 0 false false 0)) as (E1 & E2 & E3). cbv zeta. rewrite E1, E2, E3. clear. cbn [a_a a_b a_sa a_sb a_neof].
  unfold side. fold (values true k l). fold (values false k l). split; [|split; [|reflexivity]]; unfold blend_on, blend; [destruct (values true k l)|destruct (values false k l)]; reflexivity.
Qed.

Section Codecs.
  Context {X : Type} (g729_decode g722_decode gsm_decode : X -> list Z -> X * list Z) (c : cfg).
  Notation get := (decoder_get g729_decode g722_decode gsm_decode c).
  Notation visit := (visit g729_decode g722_decode gsm_decode c).
  Notation round := (round g729_decode g722_decode gsm_decode c).
  Notation rounds := (rounds g729_decode g722_decode gsm_decode c).
  Notation plays := (plays g729_decode g722_decode gsm_decode c).
  Notation chan := (@chan X).
  Notation st := (@st X).

  Definition dv : voice := mkV 0 false 0 [].
  Definition ended (vs : list voice) (k : Z) (i : nat) : Prop := v_end (nth i vs dv) <= k.
  (** a channel and its voice *)
  Record fits (vs : list voice) (i : nat) (ch : chan) : Prop := {
    f_skip : c_skip ch = v_at (nth i vs dv); f_a : c_a ch = v_a (nth i vs dv); f_first : c_btime ch = v_first (nth i vs dv) }.
  Definition rest_of (vs : list voice) (k : Z) (i : nat) : list Z := skipn (Z.to_nat (k - v_at (nth i vs dv))) (v_sound (nth i vs dv)).
  Definition heard (vs : list voice) (k : Z) (ids : list nat) : list voice := filter (sounding k) (map (fun i => nth i vs dv) ids).
  Definition count (a : bool) (l : list voice) : Z := Z.of_nat (length (filter (fun v => Bool.eqb (v_a v) a) l)).

  Lemma count_cons a v l : count a (v :: l) = (if Bool.eqb (v_a v) a then 1 else 0) + count a l.
  Proof. unfold count. cbn [filter]. destruct (Bool.eqb (v_a v) a); cbn [length]; lia. Qed.

  Lemma visit_ok vs k n : (0 < n)%nat -> forall ids (s : st) a, NoDup ids -> s_i s = k -> NoDup (s_all s) -> s_nch s = Z.of_nat (length (s_all s)) ->
    (forall i, In i ids -> exists ch, nth_error (s_obj s) i = Some ch /\ fits vs i ch /\ v_at (nth i vs dv) <= k <= v_end (nth i vs dv) /\
       plays (c_dec ch) (rest_of vs k i) /\ In i (s_all s)) ->
    exists s', visit n false ids s a = Ok (Some (s', fold_left (fun a v => add a (v_a v) (sample k v)) (heard vs k ids) a)) /\
      s_i s' = k /\ s_sync s' = s_sync s /\ s_buf s' = s_buf s /\ s_out s' = s_out s /\ s_nw s' = s_nw s /\
      s_na s' = s_na s + count true (heard vs k ids) /\ s_nb s' = s_nb s + count false (heard vs k ids) /\
      length (s_obj s') = length (s_obj s) /\
      (forall i ch, nth_error (s_obj s) i = Some ch -> exists ch', nth_error (s_obj s') i = Some ch' /\
         c_skip ch' = c_skip ch /\ c_a ch' = c_a ch /\ c_btime ch' = c_btime ch /\ (~ In i ids -> ch' = ch) /\
         (In i ids -> ~ ended vs k i -> plays (c_dec ch') (rest_of vs (k + 1) i))) /\
      NoDup (s_all s') /\ s_nch s' = Z.of_nat (length (s_all s')) /\
      (forall i, In i (s_all s') <-> In i (s_all s) /\ ~ (In i ids /\ ended vs k i)) /\
      (forall i, In i (s_act s') <-> In i (s_act s) /\ ~ (In i ids /\ ended vs k i)) /\
      (NoDup (s_act s) -> NoDup (s_act s')) /\ (forall R, StronglySorted R (s_act s) -> StronglySorted R (s_act s')).
  Proof.
    intros Hn. induction ids as [|i ids IH]; intros s a Nd Si Na Nc H.
    { exists s. cbn [EaudModel.visit]. split; [reflexivity|]. do 5 (split; [assumption || reflexivity|]). cbn. do 3 (split; [lia || reflexivity|]).
      split. { intros i ch E. exists ch. do 4 (split; [assumption || reflexivity|]). split; [reflexivity|]. intros []. }
      split; [exact Na|]. split; [exact Nc|]. split; [intros i; tauto|]. split; [intros i; tauto|]. split; auto. }
    inversion Nd as [|? ? Ni Nd']; subst. cbn [EaudModel.visit]. destruct (H i (or_introl eq_refl)) as (ch & Ec & [F1 F2 F3] & Hk & Pl & Ia). rewrite Ec.
    rewrite F1. destruct (Z.ltb_spec (s_i s) (v_at (nth i vs dv))) as [Q|_]; [lia|]. destruct n as [|n]; [lia|]. cbn [get_skip].
    assert (Il : (i < length (s_obj s))%nat) by (apply nth_error_Some; congruence).
    unfold heard. cbn [map]. set (v := nth i vs dv) in *. unfold rest_of in Pl. fold v in Pl.
    destruct (skipn (Z.to_nat (s_i s - v_at v)) (v_sound v)) as [|x t] eqn:Es.
    - (* the stream is at its end *)
      assert (Ev : v_end v <= s_i s). { apply (f_equal (@length Z)) in Es. rewrite skipn_length in Es. cbn in Es. unfold v_end in *. lia. }
      inversion Pl as [d0 d1 E1|]; subst. rewrite E1. cbn [bind]. rewrite (proj2 (member_in i (s_all s)) Ia). cbn [negb].
      cbn [filter]. replace (sounding (s_i s) v) with false by (unfold sounding; lia).
      set (s1 := mkS _ (without i (s_all s)) _ _ _ _ _ _ _ _ _).
      destruct (IH s1 a Nd') as (s' & E & I1 & I2 & I3 & I4 & I5 & I6 & I7 & I8 & I9 & I10 & I11 & I12 & I13 & I14 & I15).
      { reflexivity. } { apply without_nodup, Na. } { unfold s1; cbn [s_nch s_all]. rewrite without_len by assumption. lia. }
      { intros j Hj. destruct (H j (or_intror Hj)) as (ch' & Ec' & Fj & Hkj & Plj & Ij). exists ch'. unfold s1; cbn [s_obj s_all].
        assert (D : i <> j) by (intros ->; exact (Ni Hj)). rewrite nth_error_upd_other by exact D. split; [exact Ec'|]. split; [exact Fj|]. split; [exact Hkj|]. split; [exact Plj|].
        apply without_in. auto. }
      exists s'. split; [exact E|]. split; [exact I1|]. split; [exact I2|]. split; [exact I3|]. split; [exact I4|]. split; [exact I5|]. split; [exact I6|]. split; [exact I7|].
      split; [rewrite I8; apply upd_length|]. split.
      { intros j cj Ej. destruct (Nat.eq_dec i j) as [<-|D].
        - destruct (I9 i (with_dec ch d1)) as (ch' & E' & G1 & G2 & G3 & G4 & G5); [unfold s1; cbn [s_obj]; apply nth_error_upd_same, Il|]. exists ch'.
          rewrite Ec in Ej. injection Ej as <-. split; [exact E'|]. split; [exact G1|]. split; [exact G2|]. split; [exact G3|]. split; [intros Q; exfalso; apply Q; left; reflexivity|].
          intros _ Q. exfalso. apply Q. exact Ev.
        - destruct (I9 j cj) as (ch' & E' & G1 & G2 & G3 & G4 & G5); [unfold s1; cbn [s_obj]; rewrite nth_error_upd_other by exact D; exact Ej|]. exists ch'.
          split; [exact E'|]. split; [exact G1|]. split; [exact G2|]. split; [exact G3|]. split; [intros Q; apply G4; intros Q2; apply Q; right; exact Q2|].
          intros [Q|Q]; [congruence|exact (G5 Q)]. }
      split; [exact I10|]. split; [exact I11|].
      split. { intros j. rewrite I12. unfold s1; cbn [s_all]. rewrite without_in. cbn [In]. split; [intros ((Q1 & Q2) & Q3); split; [exact Q1|]; intros ([Q4|Q4] & Q5); [congruence|tauto]|].
        intros (Q1 & Q2). split; [split; [exact Q1|]; intros <-; apply Q2; split; [left; reflexivity|exact Ev]|]. intros (Q3 & Q4). apply Q2. auto. }
      split. { intros j. rewrite I13. unfold s1; cbn [s_act]. rewrite without_in. cbn [In]. split; [intros ((Q1 & Q2) & Q3); split; [exact Q1|]; intros ([Q4|Q4] & Q5); [congruence|tauto]|].
        intros (Q1 & Q2). split; [split; [exact Q1|]; intros <-; apply Q2; split; [left; reflexivity|exact Ev]|]. intros (Q3 & Q4). apply Q2. auto. }
      split; [intros Q; apply I14; unfold s1; cbn [s_act]; apply without_nodup, Q|]. intros R Q. apply I15. unfold s1; cbn [s_act]. apply ss_filter, Q.
    - (* it has a sample *)
      assert (Lx : (Z.to_nat (s_i s - v_at v) < length (v_sound v))%nat). { apply (f_equal (@length Z)) in Es. rewrite skipn_length in Es. cbn in Es. lia. }
      assert (Ev : s_i s < v_end v) by (unfold v_end; lia).
      assert (Ex : x = sample (s_i s) v /\ t = skipn (Z.to_nat (s_i s + 1 - v_at v)) (v_sound v)).
      { unfold sample. destruct (nth_error (v_sound v) (Z.to_nat (s_i s - v_at v))) as [w|] eqn:En; [|apply nth_error_None in En; lia].
        rewrite (nth_error_nth _ _ 0 En). rewrite (skipn_nth _ _ _ En) in Es. injection Es as <- <-. split; [reflexivity|].
        replace (Z.to_nat (s_i s + 1 - v_at v)) with (S (Z.to_nat (s_i s - v_at v))) by lia. reflexivity. }
      destruct Ex as (-> & Et). inversion Pl as [|d0 d1 w l1 E1 P1]; subst. rewrite E1. cbn [bind].
      cbn [filter]. replace (sounding (s_i s) v) with true by (unfold sounding; lia). cbn [fold_left]. rewrite F2.
      set (s1 := if v_a v then _ else _). 
      assert (A1 : s_obj s1 = upd (s_obj s) i (with_dec ch d1)) by (unfold s1; destruct (v_a v); reflexivity).
      assert (A2 : s_all s1 = s_all s) by (unfold s1; destruct (v_a v); reflexivity). assert (A3 : s_act s1 = s_act s) by (unfold s1; destruct (v_a v); reflexivity).
      assert (A4 : s_nch s1 = s_nch s) by (unfold s1; destruct (v_a v); reflexivity). assert (A5 : s_i s1 = s_i s) by (unfold s1; destruct (v_a v); reflexivity).
      assert (A6 : s_sync s1 = s_sync s /\ s_buf s1 = s_buf s /\ s_out s1 = s_out s /\ s_nw s1 = s_nw s) by (unfold s1; destruct (v_a v); repeat split).
      assert (A7 : s_na s1 = s_na s + (if Bool.eqb (v_a v) true then 1 else 0) /\ s_nb s1 = s_nb s + (if Bool.eqb (v_a v) false then 1 else 0)) by (unfold s1; destruct (v_a v); cbn; lia).
      clearbody s1. destruct A6 as (A61 & A62 & A63 & A64). destruct A7 as (A71 & A72).
      destruct (IH s1 (add a (v_a v) (sample (s_i s) v)) Nd') as (s' & E & I1 & I2 & I3 & I4 & I5 & I6 & I7 & I8 & I9 & I10 & I11 & I12 & I13 & I14 & I15).
      { exact A5. } { rewrite A2. exact Na. } { rewrite A2, A4. exact Nc. }
      { intros j Hj. destruct (H j (or_intror Hj)) as (ch' & Ec' & Fj & Hkj & Plj & Ij). exists ch'. rewrite A1, A2.
        assert (D : i <> j) by (intros ->; exact (Ni Hj)). rewrite nth_error_upd_other by exact D. auto. }
      exists s'. split; [exact E|]. split; [exact I1|]. split; [congruence|]. split; [congruence|]. split; [congruence|]. split; [congruence|].
      fold (heard vs (s_i s) ids). rewrite !count_cons. split; [rewrite I6, A71; lia|]. split; [rewrite I7, A72; lia|].
      split; [rewrite I8, A1; apply upd_length|]. split.
      { intros j cj Ej. destruct (Nat.eq_dec i j) as [<-|D].
        - destruct (I9 i (with_dec ch d1)) as (ch' & E' & G1 & G2 & G3 & G4 & G5); [rewrite A1; apply nth_error_upd_same, Il|]. exists ch'.
          rewrite Ec in Ej. injection Ej as <-. split; [exact E'|]. split; [exact G1|]. split; [exact G2|]. split; [exact G3|]. split; [intros Q; exfalso; apply Q; left; reflexivity|].
          intros _ _. rewrite (G4 Ni). exact P1.
        - destruct (I9 j cj) as (ch' & E' & G1 & G2 & G3 & G4 & G5); [rewrite A1, nth_error_upd_other by exact D; exact Ej|]. exists ch'.
          split; [exact E'|]. split; [exact G1|]. split; [exact G2|]. split; [exact G3|]. split; [intros Q; apply G4; intros Q2; apply Q; right; exact Q2|].
          intros [Q|Q]; [congruence|exact (G5 Q)]. }
      split; [exact I10|]. split; [exact I11|]. rewrite A2 in I12. rewrite A3 in I13, I14, I15.
      split. { intros j. rewrite I12. cbn [In]. split; [intros (Q1 & Q2); split; [exact Q1|]; intros ([<-|Q4] & Q5); [unfold ended in Q5; fold v in Q5; lia|tauto]|].
        intros (Q1 & Q2). split; [exact Q1|]. intros (Q3 & Q4). apply Q2. auto. }
      split. { intros j. rewrite I13. cbn [In]. split; [intros (Q1 & Q2); split; [exact Q1|]; intros ([<-|Q4] & Q5); [unfold ended in Q5; fold v in Q5; lia|tauto]|].
        intros (Q1 & Q2). split; [exact Q1|]. intros (Q3 & Q4). apply Q2. auto. }
      split; [exact I14|exact I15].
  Qed.

  Definition early (vs : list voice) (i j : nat) : Prop := v_first (nth i vs dv) <= v_first (nth j vs dv).
  Definition at_of (vs : list voice) (i : nat) : Z := v_at (nth i vs dv).
  Definition backed (vs : list voice) (obj : list chan) : Prop := forall i, (i < length vs)%nat -> exists ch, nth_error obj i = Some ch /\ fits vs i ch.

  Lemma btime_is vs obj i : backed vs obj -> (i < length vs)%nat -> btime_of obj i = v_first (nth i vs dv).
  Proof. intros H L. destruct (H i L) as (ch & E & [_ _ F]). unfold btime_of. rewrite E. exact F. Qed.

  Lemma insert_rev_perm (obj : list chan) r i : Permutation (insert_rev obj r i) (i :: r).
  Proof. induction r as [|j r IH]; cbn; [reflexivity|]. destruct (btime_of obj j <? btime_of obj i); [reflexivity|]. rewrite IH. apply perm_swap. Qed.
  Lemma insert_rev_sorted vs obj i : backed vs obj -> (i < length vs)%nat -> forall r, (forall j, In j r -> (j < length vs)%nat) ->
    StronglySorted (fun a b => early vs b a) r -> StronglySorted (fun a b => early vs b a) (insert_rev obj r i).
  Proof.
    intros H L. induction r as [|j r IH]; intros Hr S; cbn; [constructor; constructor|]. inversion S as [|? ? S' F]; subst.
    rewrite (btime_is vs obj j H (Hr j (or_introl eq_refl))), (btime_is vs obj i H L).
    destruct (Z.ltb_spec (v_first (nth j vs dv)) (v_first (nth i vs dv))) as [Q|Q].
    - constructor; [exact S|]. constructor; [unfold early; lia|]. rewrite Forall_forall in *. intros w Hw. specialize (F w Hw). unfold early in *. lia.
    - constructor; [apply IH; [intros w Hw; apply Hr; right; exact Hw|exact S']|]. rewrite Forall_forall in *. intros w Hw.
      apply (Permutation_in _ (insert_rev_perm obj r i)) in Hw as [<-|Hw]; [exact Q|exact (F w Hw)].
  Qed.
  Lemma insert_perm (obj : list chan) l i : Permutation (channel_insert obj l i) (i :: l).
  Proof. unfold channel_insert. rewrite <- Permutation_rev, insert_rev_perm. apply perm_skip. symmetry. apply Permutation_rev. Qed.
  Lemma insert_sorted vs obj l i : backed vs obj -> (i < length vs)%nat -> (forall j, In j l -> (j < length vs)%nat) ->
    StronglySorted (early vs) l -> StronglySorted (early vs) (channel_insert obj l i).
  Proof.
    intros H L Hl S. unfold channel_insert. apply (ss_rev (fun a b => early vs b a)). apply insert_rev_sorted; [exact H|exact L| |apply ss_rev, S].
    intros j Hj. apply Hl. apply in_rev. exact Hj.
  Qed.

  Lemma sync_ok vs obj now : 0 <= now -> backed vs obj -> forall all act m, (forall i, In i all -> (i < length vs)%nat) -> (forall i, In i act -> (i < length vs)%nat) ->
    NoDup act -> StronglySorted (early vs) act -> m = -1 \/ now < m ->
    exists act' m', syncactive obj all act now m = (act', m') /\
      (forall i, In i act' <-> In i act \/ (In i all /\ at_of vs i <= now)) /\ NoDup act' /\ StronglySorted (early vs) act' /\
      (now < m -> now < m' <= m) /\ (forall i, In i all -> now < at_of vs i -> now < m' <= at_of vs i).
  Proof.
    intros Hn Hb. induction all as [|i all IH]; intros act m Ha Hc Nd Ss Hm; cbn [syncactive].
    - exists act, m. split; [reflexivity|]. split; [intros i; cbn; tauto|]. split; [exact Nd|]. split; [exact Ss|]. split; [lia|]. intros i [].
    - assert (Li : (i < length vs)%nat) by (apply Ha; left; reflexivity).
      destruct (Hb i Li) as (ch & E & [F1 F2 F3]). rewrite E, F1. fold (at_of vs i).
      assert (Ha' : forall j, In j all -> (j < length vs)%nat) by (intros j Hj; apply Ha; right; exact Hj).
      destruct (Z.ltb_spec now (at_of vs i)) as [Q|Q].
      + set (m1 := if m <? 0 then _ else _). assert (Hm1 : now < m1 <= at_of vs i /\ (now < m -> m1 <= m)) by (unfold m1; destruct (Z.ltb_spec m 0), (Z.ltb_spec (at_of vs i) m); lia). clearbody m1.
        destruct (IH act m1 Ha' Hc Nd Ss (or_intror (Z.lt_le_trans _ _ _ (proj1 (proj1 Hm1)) (Z.le_refl m1)))) as (act' & m' & -> & I1 & I2 & I3 & I4 & I5). exists act', m'. split; [reflexivity|].
        split. { intros j. rewrite I1. cbn [In]. split; [tauto|]. intros [R|([<-|R] & R2)]; [tauto|lia|tauto]. }
        split; [exact I2|]. split; [exact I3|]. split; [lia|]. intros j [<-|Hj] Hj2; [lia|exact (I5 j Hj Hj2)].
      + destruct (member i act) eqn:Em.
        * apply member_in in Em. destruct (IH act m Ha' Hc Nd Ss Hm) as (act' & m' & -> & I1 & I2 & I3 & I4 & I5). exists act', m'. split; [reflexivity|].
          split. { intros j. rewrite I1. cbn [In]. split; [tauto|]. intros [R|([<-|R] & R2)]; tauto. }
          split; [exact I2|]. split; [exact I3|]. split; [exact I4|]. intros j [<-|Hj] Hj2; [lia|exact (I5 j Hj Hj2)].
        * assert (Nm : ~ In i act) by (intros R; apply member_in in R; congruence). pose proof (insert_perm obj act i) as P.
          destruct (IH (channel_insert obj act i) m Ha') as (act' & m' & -> & I1 & I2 & I3 & I4 & I5).
          { intros j Hj. apply (Permutation_in _ P) in Hj as [<-|Hj]; [exact Li|exact (Hc j Hj)]. }
          { apply (Permutation_NoDup (Permutation_sym P)). constructor; assumption. }
          { apply insert_sorted; assumption. } { exact Hm. }
          exists act', m'. split; [reflexivity|].
          split. { intros j. rewrite I1. cbn [In]. split.
            - intros [R|R]; [|tauto]. apply (Permutation_in _ P) in R as [<-|R]; tauto.
            - intros [R|([<-|R] & R2)]; [left; apply (Permutation_in _ (Permutation_sym P)); right; exact R|left; apply (Permutation_in _ (Permutation_sym P)); left; reflexivity|tauto]. }
          split; [exact I2|]. split; [exact I3|]. split; [exact I4|]. intros j [<-|Hj] Hj2; [lia|exact (I5 j Hj Hj2)].
  Qed.

  (** ** The rounds *)
  Definition last_of (vs : list voice) : Z := fold_right (fun v m => Z.max (v_end v) m) 0 vs.
  Definition given (a : bool) (k : Z) (vs : list voice) : Z :=
    fold_right (fun v n => (if Bool.eqb (v_a v) a then Z.max 0 (Z.min (k - v_at v) (Z.of_nat (length (v_sound v)))) else 0) + n) 0 vs.
  Lemma given_next a k vs : given a (k + 1) vs = given a k vs + count a (filter (sounding k) vs).
  Proof.
    induction vs as [|v vs IH]; [reflexivity|]. cbn [given fold_right filter]. fold (given a (k + 1) vs). fold (given a k vs). rewrite IH.
    destruct (sounding k v) eqn:E; unfold sounding, v_end in E; [rewrite count_cons|]; destruct (Bool.eqb (v_a v) a); lia.
  Qed.
  Lemma given_all a k vs : last_of vs <= k -> given a k vs = total a vs.
  Proof.
    induction vs as [|v vs IH]; [reflexivity|]. cbn [given last_of total fold_right]. fold (given a k vs). fold (last_of vs). fold (total a vs). intros H.
    rewrite IH by lia. unfold v_end in H. destruct (Bool.eqb (v_a v) a); lia.
  Qed.
  Lemma given_none a vs : Forall (fun v => 0 <= v_at v) vs -> given a 0 vs = 0.
  Proof. induction 1 as [|v vs H F IH]; [reflexivity|]. cbn [given fold_right]. fold (given a 0 vs). rewrite IH. destruct (Bool.eqb (v_a v) a); lia. Qed.
  Lemma last_of_ge vs i : (i < length vs)%nat -> v_end (nth i vs dv) <= last_of vs.
  Proof. revert i. induction vs as [|v vs IH]; intros i H; cbn in H; [lia|]. cbn [last_of fold_right]. fold (last_of vs). destruct i as [|i]; cbn [nth]; [lia|]. specialize (IH i ltac:(lia)). lia. Qed.
  Lemma last_of_some vs k : 0 <= k -> k < last_of vs -> exists i, (i < length vs)%nat /\ k < v_end (nth i vs dv).
  Proof.
    intros Hk. induction vs as [|v vs IH]; cbn [last_of fold_right]; [lia|]. fold (last_of vs). intros H. destruct (Z.ltb_spec k (v_end v)) as [Q|Q].
    - exists 0%nat. cbn. split; [lia|exact Q].
    - destruct IH as (i & L & E); [lia|]. exists (S i). cbn. split; [lia|exact E].
  Qed.
  Lemma count_perm a l l' : Permutation l l' -> count a l = count a l'.
  Proof.
    intros P. induction P as [|v l l' P IH|v w l|l l' l'' P1 IH1 P2 IH2]; [reflexivity|rewrite !count_cons, IH; reflexivity|rewrite !count_cons; lia|congruence].
  Qed.

  Record minv (vs : list voice) (stereo : bool) (k : Z) (s : st) : Prop := {
    m_len : length (s_obj s) = length vs;
    m_fit : backed vs (s_obj s);
    m_dec : forall i ch, In i (s_all s) -> nth_error (s_obj s) i = Some ch -> plays (c_dec ch) (rest_of vs k i);
    m_all : NoDup (s_all s); m_all_is : forall i, In i (s_all s) <-> (i < length vs)%nat /\ k <= v_end (nth i vs dv);
    m_act : NoDup (s_act s); m_act_is : forall i, In i (s_act s) <-> (i < length vs)%nat /\ k <= v_end (nth i vs dv) /\ at_of vs i < k;
    m_sorted : StronglySorted (early vs) (s_act s);
    m_i : s_i s = k - 1; m_k : 0 <= k;
    m_sync : forall i, (i < length vs)%nat -> k <= at_of vs i -> k <= s_sync s <= at_of vs i;
    m_nch : s_nch s = Z.of_nat (length (s_all s));
    m_na : s_na s = given true k vs; m_nb : s_nb s = given false k vs;
    m_buf : Z.of_nat (length (s_buf s)) < 1024; m_even : stereo = true -> Z.of_nat (length (s_buf s)) mod 2 = 0;
    m_nw : 2 * s_nw s = Z.of_nat (length (s_out s)) }.

  Lemma heard_perm vs k act : NoDup act -> (forall i, In i act <-> (i < length vs)%nat /\ k <= v_end (nth i vs dv) /\ at_of vs i <= k) ->
    Permutation (heard vs k act) (filter (sounding k) vs).
  Proof.
    intros Nd H. unfold heard. replace (filter (sounding k) vs) with (filter (sounding k) (map (fun i => nth i vs dv) (seq 0 (length vs)))) by (rewrite map_nth_seq; reflexivity). rewrite !filter_map_swap. apply Permutation_map. apply NoDup_Permutation; [apply NoDup_filter, Nd|apply NoDup_filter, seq_NoDup|].
    intros i. rewrite !filter_In, in_seq, H. unfold sounding, at_of. split; [intros ((Q1 & _) & Q2); split; [lia|exact Q2]|]. intros (Q1 & Q2). split; [|exact Q2]. split; [lia|]. lia.
  Qed.

  Lemma round_ok vs stereo n k (s : st) : (0 < n)%nat -> minv vs stereo k s -> exists s' on,
    round n false stereo s = Ok (Some (s', on)) /\ (on = true <-> k < last_of vs) /\
    if on then minv vs stereo (k + 1) s' /\ exists f, mixed stereo vs k f /\ s_out s' ++ s_buf s' = s_out s ++ s_buf s ++ f
    else s_out s' = s_out s ++ s_buf s /\ s_nw s' = Z.of_nat (length (s_out s')) / 2 /\ s_na s' = total true vs /\ s_nb s' = total false vs.
  Proof.
    intros Hn M. destruct M as [M1 M2 M3 M4 M5 M6 M7 M8 M9 M10 M11 M12 M13 M14 M15 M16 M17].
    unfold EaudModel.round. cbn [negb andb]. replace (s_i s + 1) with k by lia.
    assert (Sy : exists act sync, (if s_sync s =? k then syncactive (s_obj s) (s_all s) (s_act s) k (-1) else (s_act s, s_sync s)) = (act, sync) /\
      (forall i, In i act <-> (i < length vs)%nat /\ k <= v_end (nth i vs dv) /\ at_of vs i <= k) /\ NoDup act /\ StronglySorted (early vs) act /\
      (forall i, (i < length vs)%nat -> k < at_of vs i -> k < sync <= at_of vs i)).
    { destruct (Z.eqb_spec (s_sync s) k) as [Q|Q].
      - destruct (sync_ok vs (s_obj s) k M10 M2 (s_all s) (s_act s) (-1)) as (act & sync & E & I1 & I2 & I3 & I4 & I5).
        { intros i Hi. apply M5 in Hi. tauto. } { intros i Hi. apply M7 in Hi. tauto. } { exact M6. } { exact M8. } { left. reflexivity. }
        exists act, sync. split; [exact E|]. split.
        { intros i. rewrite I1, M7, M5. split; [intros [(R1 & R2 & R3)|((R1 & R2) & R3)]; [do 2 (split; [assumption|]); lia|auto]|tauto]. }
        split; [exact I2|]. split; [exact I3|]. intros i Li Hi. apply I5; [|exact Hi]. apply M5. split; [exact Li|]. unfold v_end. unfold at_of in Hi. lia.
      - exists (s_act s), (s_sync s). split; [reflexivity|]. split.
        { intros i. rewrite M7. split; [intros (R1 & R2 & R3); do 2 (split; [assumption|]); lia|]. intros (R1 & R2 & R3). do 2 (split; [assumption|]).
          destruct (Z.eq_dec (at_of vs i) k) as [R|R]; [|lia]. pose proof (M11 i R1 ltac:(lia)). lia. }
        split; [exact M6|]. split; [exact M8|]. intros i Li Hi. pose proof (M11 i Li ltac:(lia)). lia. }
    destruct Sy as (act & sync & -> & A1 & A2 & A3 & A4).
    set (s0 := mkS _ _ act k sync _ _ _ _ _ _).
    destruct (visit_ok vs k n Hn act s0 (mkA 0 0 false false 0) A2 eq_refl M4 M12) as (s1 & E & I1 & I2 & I3 & I4 & I5 & I6 & I7 & I8 & I9 & I10 & I11 & I12 & I13 & I14 & I15).
    { intros i Hi. apply A1 in Hi as (R1 & R2 & R3). destruct (M2 i R1) as (ch & E & F). exists ch. split; [exact E|]. split; [exact F|]. split; [unfold at_of in R3; lia|].
      assert (Hi : In i (s_all s)) by (apply M5; auto). split; [exact (M3 i ch Hi E)|exact Hi]. }
    rewrite E. cbn [bind]. clear E.
    pose proof (heard_perm vs k act A2 A1) as P. pose proof (count_perm true _ _ P) as C1. pose proof (count_perm false _ _ P) as C2.
    destruct (fold_add_sides k (heard vs k act)) as (E1 & E2 & E3). set (a := fold_left _ (heard vs k act) _) in *. clearbody a.
    unfold s0 in I2, I3, I4, I5, I6, I7, I8, I9, I12, I13, I14, I15. cbn [s_obj s_all s_act s_i s_sync s_nch s_buf s_out s_na s_nb s_nw] in I2, I3, I4, I5, I6, I7, I8, I9, I12, I13, I14, I15. clear s0.
    assert (All : forall i, In i (s_all s1) <-> (i < length vs)%nat /\ k + 1 <= v_end (nth i vs dv)).
    { intros i. rewrite I12, M5, A1. unfold ended. split.
      - intros ((R1 & R2) & R3). split; [exact R1|]. destruct (Z.ltb_spec k (v_end (nth i vs dv))); [lia|]. exfalso. apply R3. unfold at_of, v_end in *. split; [|lia]. split; [exact R1|]. lia.
      - intros (R1 & R2). split; [split; [exact R1|lia]|]. lia. }
    eexists. eexists. split; [reflexivity|]. rewrite E3.
    assert (On : (0 <? s_nch s1) = true <-> k < last_of vs).
    { rewrite I11. split.
      - intros Q. destruct (s_all s1) as [|i r] eqn:Ea; [cbn in Q; lia|]. destruct (proj1 (All i) (or_introl eq_refl)) as (R1 & R2). pose proof (last_of_ge vs i R1). lia.
      - intros Q. destruct (last_of_some vs k M10 Q) as (i & R1 & R2). assert (R : In i (s_all s1)) by (apply All; split; [exact R1|lia]). destruct (s_all s1); [destruct R|cbn; lia]. }
    split; [exact On|]. destruct (0 <? s_nch s1) eqn:Eo.
    - replace (0 =? s_nch s1) with false by lia. cbn [negb orb].
      set (f := if stereo then [a_a a; a_b a] else [Z.quot (a_a a + a_b a) 2]).
      assert (Hf : Z.of_nat (length f) = if stereo then 2 else 1) by (unfold f; destruct stereo; reflexivity).
      assert (Lb : Z.of_nat (length (s_buf s1 ++ f)) = Z.of_nat (length (s_buf s)) + if stereo then 2 else 1) by (rewrite app_length, I3; lia).
      split.
      + constructor; cbn [s_obj s_all s_act s_i s_sync s_nch s_buf s_out s_na s_nb s_nw].
        * congruence.
        * intros i Li. destruct (M2 i Li) as (ch & E & [F1 F2 F3]). destruct (I9 i ch E) as (ch' & E' & G1 & G2 & G3 & _). exists ch'. split; [exact E'|]. constructor; congruence.
        * intros i ch' Hi E'. pose proof (proj1 (All i) Hi) as (R1 & R2). destruct (M2 i R1) as (ch & E & [F1 F2 F3]). destruct (I9 i ch E) as (ch'' & E'' & _ & _ & _ & G4 & G5).
          rewrite E' in E''. injection E'' as <-. destruct (in_dec Nat.eq_dec i act) as [Q|Q]; [apply (G5 Q); unfold ended; lia|].
          rewrite (G4 Q). assert (Hi' : In i (s_all s)) by (apply M5; split; [exact R1|lia]). pose proof (M3 i ch Hi' E) as Pl. rewrite A1 in Q. unfold rest_of in *. unfold at_of in Q.
          assert (k < v_at (nth i vs dv)) by (destruct (Z.ltb_spec k (v_at (nth i vs dv))); [assumption|exfalso; apply Q; split; [exact R1|lia]]).
          replace (Z.to_nat (k + 1 - v_at (nth i vs dv))) with (Z.to_nat (k - v_at (nth i vs dv))) by lia. exact Pl.
        * exact I10.
        * exact All.
        * exact (I14 A2).
        * intros i. rewrite I13, A1. unfold ended. split; [intros ((R1 & R2 & R3) & R4); split; [exact R1|]; split; [|lia]; destruct (Z.ltb_spec k (v_end (nth i vs dv))); [lia|exfalso; apply R4; repeat split; lia]|].
          intros (R1 & R2 & R3). split; [do 2 (split; [lia|]); lia|]. lia.
        * apply I15, A3.
        * lia.
        * lia.
        * intros i Li Hi. rewrite I2. pose proof (A4 i Li ltac:(lia)). lia.
        * exact I11.
        * rewrite given_next, I6, M13. lia.
        * rewrite given_next, I7, M14. lia.
        * destruct (Z.eqb_spec (Z.of_nat (length (s_buf s1 ++ f))) 1024) as [Q|Q]; [cbn; lia|]. rewrite Lb in *. destruct stereo; [specialize (M16 eq_refl)|]; lia.
        * intros St. specialize (M16 St). destruct (Z.eqb_spec (Z.of_nat (length (s_buf s1 ++ f))) 1024) as [Q|Q]; [reflexivity|]. rewrite Lb, St. lia.
        * destruct (Z.eqb_spec (Z.of_nat (length (s_buf s1 ++ f))) 1024) as [Q|Q]; [|rewrite I4, I5; exact M17]. rewrite (app_length (s_out s1)), Nat2Z.inj_add, Q, I4, I5. change (1024 / 2) with 512. lia.
      + exists f. split.
        * exists (heard vs k act). split; [exact P|]. split; [|unfold f; rewrite E1, E2; reflexivity].
          unfold heard. apply ss_filter. apply (ss_map (early vs)); [|exact A3]. intros i j _ _ Q. exact Q.
        * cbn [s_out s_buf]. rewrite I3, I4. destruct (Z.of_nat (length (s_buf s ++ f)) =? 1024); [rewrite app_nil_r|]; reflexivity.
    - assert (En : s_nch s1 = 0) by (rewrite I11 in *; lia). rewrite En. cbn [Z.eqb orb negb]. cbn [s_out s_nw s_na s_nb]. rewrite app_nil_r, I3, I4, I5.
      split; [reflexivity|]. split.
      { rewrite app_length, Nat2Z.inj_add, <- M17. lia. }
      assert (Ll : last_of vs <= k) by (destruct (Z.ltb_spec k (last_of vs)) as [Q|Q]; [apply On in Q; congruence|exact Q]).
      rewrite I6, I7, C1, C2, M13, M14, <- !given_next. split; apply given_all; lia.
  Qed.

  Lemma rounds_ok vs stereo n : (0 < n)%nat -> forall j k (s : st), minv vs stereo k s -> k <= last_of vs -> (Z.to_nat (last_of vs - k) < j)%nat -> exists s' fs,
    rounds n j false stereo s = Ok (Some s') /\ s_out s' = s_out s ++ s_buf s ++ concat fs /\ Z.of_nat (length fs) = last_of vs - k /\
    (forall i, (i < length fs)%nat -> mixed stereo vs (k + Z.of_nat i) (nth i fs [])) /\
    s_nw s' = Z.of_nat (length (s_out s')) / 2 /\ s_na s' = total true vs /\ s_nb s' = total false vs.
  Proof.
    intros Hn. induction j as [|j IH]; intros k s M Hk Hj; [lia|]. cbn [EaudModel.rounds].
    destruct (round_ok vs stereo n k s Hn M) as (s1 & on & -> & On & R). cbn [bind]. destruct on.
    - destruct R as (M' & f & Mf & Eo). destruct (IH (k + 1) s1 M') as (s' & fs & -> & I1 & I2 & I3 & I4); [lia|pose proof (m_k _ _ _ _ M); lia|]. exists s', (f :: fs).
      split; [reflexivity|]. split; [cbn [concat]; rewrite I1, app_assoc, Eo, <- !app_assoc; reflexivity|]. split; [cbn [length]; lia|]. split; [|exact I4].
      intros [|i] Hi; cbn [nth]; [rewrite Z.add_0_r; exact Mf|]. cbn in Hi. replace (k + Z.of_nat (S i)) with (k + 1 + Z.of_nat i) by lia. apply I3. lia.
    - destruct R as (I1 & I4). exists s1, []. split; [reflexivity|]. cbn [concat length]. rewrite app_nil_r. split; [exact I1|].
      split; [pose proof (m_k _ _ _ _ M); destruct (Z.ltb_spec k (last_of vs)) as [Q|Q]; [apply On in Q; congruence|lia]|]. split; [intros i Hi; lia|exact I4].
  Qed.

  (** ** The whole *)
  Lemma basetime_le l : Forall (fun s => basetime l <= first_time s) l.
  Proof.
    destruct l as [|s l]; [constructor|]. unfold basetime.
    assert (H : forall l b, let m := fold_left (fun b s => if first_time s <? b then first_time s else b) l b in m <= b /\ Forall (fun s => m <= first_time s) l).
    { clear. induction l as [|s l IH]; intros b; cbn [fold_left]; cbv zeta; [split; [lia|constructor]|]. destruct (IH (if first_time s <? b then first_time s else b)) as (I1 & I2). cbv zeta in *.
      destruct (Z.ltb_spec (first_time s) b); (split; [lia|]); (constructor; [lia|exact I2]). }
    destruct (H l (first_time s)) as (I1 & I2). constructor; assumption.
  Qed.

  Lemma make_ok x base : forall (l : list (bool * list pkt)) vs,
    Forall2 (fun s v => snd s <> [] /\ 0 <= first_time s - base < 125 * 2 ^ 32 /\ exists snds, v = voice_of base s snds /\ plays (decoder_new x false (snd s)) snds) l vs ->
    exists obj, make x false base l = Ok obj /\ length obj = length vs /\
      forall i ch, nth_error obj i = Some ch -> fits vs i ch /\ 0 <= v_at (nth i vs dv) /\ plays (c_dec ch) (v_sound (nth i vs dv)).
  Proof.
    induction 1 as [|[a ps] v l vs (Hne & Ht & snds & -> & Pl) F IH]; [exists []; repeat split; destruct i; discriminate|].
    destruct ps as [|p r]; [exfalso; apply Hne; reflexivity|]. destruct IH as (obj & E & L & H). cbn [make]. cbn [first_time snd] in Ht. unfold to_uint.
    assert (Q : Z.quot (p_time p - base) 125 = (p_time p - base) / 125) by (apply Z.quot_div_nonneg; lia). rewrite Q.
    replace ((- (125) <? p_time p - base) && ((p_time p - base) / 125 <? 4294967296)) with true by lia. cbn [bind]. rewrite E. cbn [bind]. eexists. split; [reflexivity|].
    split; [cbn [length]; congruence|]. intros [|i] ch En; cbn [nth_error nth] in *; [|destruct (H i ch En) as ([F1 F2 F3] & R); split; [constructor; assumption|exact R]]. injection En as <-.
    split; [constructor; reflexivity|]. cbn [voice_of v_at v_sound snd c_dec]. split; [lia|exact Pl].
  Qed.

  Lemma extract_ok x stereo : forall (l : list (bool * list pkt)) vs,
    Forall2 (fun s v => snd s <> [] /\ first_time s - basetime l < 125 * 2 ^ 32 /\ exists snds, v = voice_of (basetime l) s snds /\ plays (decoder_new x false (snd s)) snds) l vs ->
    exists n0, forall n, (n0 <= n)%nat -> exists s, EaudModel.extract g729_decode g722_decode gsm_decode c n x false stereo l = Ok (Some s) /\
      mixdown stereo vs (s_out s) /\ s_nw s = Z.of_nat (length (s_out s)) / 2 /\ s_na s = total true vs /\ s_nb s = total false vs.
  Proof.
    intros l vs F. destruct (make_ok x (basetime l) l vs) as (obj & E & L & H).
    { pose proof (basetime_le l) as G. revert F G. generalize (basetime l). intros b F. induction F as [|s v l vs (A1 & A2 & A3) F IH]; intros G; constructor.
      - inversion G; subst. split; [exact A1|]. split; [lia|exact A3].
      - apply IH. exact (Forall_inv_tail G). }
    exists (S (Z.to_nat (last_of vs))). intros n Hn. unfold EaudModel.extract. rewrite E. cbn [bind].
    assert (H' : forall i, (i < length vs)%nat -> exists ch, nth_error obj i = Some ch /\ fits vs i ch /\ 0 <= v_at (nth i vs dv) /\ plays (c_dec ch) (v_sound (nth i vs dv))).
    { intros i Li. destruct (nth_error obj i) as [ch|] eqn:En; [|apply nth_error_None in En; lia]. exists ch. split; [reflexivity|exact (H i ch En)]. }
    assert (Va : Forall (fun v => 0 <= v_at v) vs). { apply Forall_forall. intros v Hv. apply (In_nth _ _ dv) in Hv as (i & Li & <-). destruct (H' i Li) as (_ & _ & _ & Q & _). exact Q. }
    assert (L0 : 0 <= last_of vs) by (clear; induction vs as [|v vs IH]; cbn; [lia|unfold last_of in IH; lia]).
    destruct (rounds_ok vs stereo n ltac:(lia) n 0 (start obj)) as (s & fs & Er & I1 & I2 & I3 & I4 & I5 & I6).
    { unfold start. constructor; cbn [s_obj s_all s_act s_i s_sync s_nch s_buf s_out s_na s_nb s_nw].
      - exact L.
      - intros i Li. destruct (H' i Li) as (ch & En & Q & _). exists ch. auto.
      - intros i ch Hi En. destruct (H i ch En) as (_ & Q1 & Q2). unfold rest_of. replace (Z.to_nat (0 - v_at (nth i vs dv))) with O by lia. exact Q2.
      - apply seq_NoDup.
      - intros i. rewrite in_seq, L. split; [intros Q; split; [lia|]|lia]. destruct (H' i ltac:(lia)) as (_ & _ & _ & Q1 & _). unfold v_end. lia.
      - constructor.
      - intros i. split; [intros []|]. intros (Q1 & _ & Q2). destruct (H' i Q1) as (_ & _ & _ & Q3 & _). unfold at_of in Q2. lia.
      - constructor.
      - reflexivity.
      - lia.
      - lia.
      - rewrite seq_length. reflexivity.
      - symmetry. apply given_none, Va.
      - symmetry. apply given_none, Va.
      - cbn. lia.
      - reflexivity.
      - reflexivity. }
    { exact L0. } { lia. }
    exists s. split; [exact Er|]. split; [|auto]. exists fs. split; [exact I1|]. split; [rewrite I2; unfold last_of; lia|]. intros k Hk. exact (I3 k Hk).
  Qed.

  (** ** -n *)
  Definition free (s : st) : Prop := Forall (fun ch => d_nosync (c_dec ch) = true) (s_obj s).
  Lemma decode_nosync (d : dec) p d' j : decode_frame g729_decode g722_decode gsm_decode c d p = Ok (d', j) -> d_nosync d' = d_nosync d.
  Proof.
    unfold decode_frame. set (ib := firstn _ (p_load p)). clearbody ib.
    assert (P : forall x l a, bind (write (d_obuf d) 0 l) (fun b => Ok (forward (with_buf d x b) (Z.of_nat (length l)) (Z.of_nat (length l)), 2 * Z.of_nat (length l))) = Ok a -> d_nosync (fst a) = d_nosync d).
    { intros x l a. unfold bind. destruct (write (d_obuf d) 0 l); try discriminate. intros E. injection E as <-. reflexivity. }
    assert (G : forall f, bind (g729_frames g729_decode c 51 f (d_x d) (p_load p)) (fun '(x, l) => bind (write (d_obuf d) 0 l) (fun b => Ok (forward (with_buf d x b) (Z.of_nat (length l)) (Z.of_nat (length l)), 2 * Z.of_nat (length l)))) = Ok (d', j) -> d_nosync d' = d_nosync d).
    { intros f. destruct (g729_frames g729_decode c 51 f (d_x d) (p_load p)) as [[x l]| | | |]; try discriminate. exact (P x l (d', j)). }
    assert (N : forall v, Ok (d, v) = Ok (d', j) -> d_nosync d' = d_nosync d) by (intros v E; injection E as <- _; reflexivity).
    destruct (p_pt p =? 0); [exact (P _ _ (d', j))|]. destruct (p_pt p =? 8); [exact (P _ _ (d', j))|]. destruct (p_pt p =? 18).
    { destruct (f_729 c); [apply N| |]; (destruct (_ mod 10 =? 0); [apply G|]; destruct (_ mod 8 =? 0); [apply G|]; destruct (_ mod 15 =? 0); [apply G|]; destruct (_ mod 2 =? 0); [apply G|apply N]). }
    destruct (p_pt p =? 9). { destruct (f_722 c); [|apply N]. destruct (g722_decode (d_x d) ib) as [x l]. exact (P x l (d', j)). }
    destruct (p_pt p =? 3). { destruct (f_gsm c); [|apply N]. destruct (_ <? 33); [apply N|]. destruct (gsm_frames gsm_decode 25 (d_x d) (p_load p)) as [[x l]| | | |]; try discriminate. exact (P x l (d', j)). }
    destruct (_ || _ || _); apply N.
  Qed.
  Lemma fill_nosync : forall pp (d : dec) d' s, d_nosync d = true -> fill g729_decode g722_decode gsm_decode c d pp = Ok (d', s) -> d_nosync d' = true /\ s <> Other Err.
  Proof.
    induction pp as [|p pp IH]; intros d d' s Ns; cbn [fill].
    { intros E. injection E as <- <-. split; [exact Ns|discriminate]. }
    set (r := if _ <? _ then _ else Ok d). assert (Hr : forall d1, r = Ok d1 -> d_nosync d1 = true).
    { intros d1. unfold r. destruct (_ <? _); [|intros E; injection E as <-; exact Ns]. unfold bind. destruct (to_uint _ _); try discriminate. intros E. injection E as <-. exact Ns. }
    clearbody r. destruct r as [d1| | | |]; try discriminate. specialize (Hr d1 eq_refl). cbn [bind]. rewrite Hr.
    destruct (d_nticks d1 <? p_ts p); [intros E; injection E as <- <-; split; [exact Hr|discriminate]|].
    destruct (200000 <? _). { destruct (to_uint _ _); try discriminate. cbn [bind]. intros E. injection E as <- <-. split; [exact Hr|discriminate]. }
    destruct (decode_frame _ _ _ _ d1 p) as [[d2 j]| | | |] eqn:Ed; try discriminate. apply decode_nosync in Ed. cbn [bind].
    destruct (j <=? 0). { apply IH. destruct (0 <? j); cbn; congruence. }
    intros E. injection E as <- <-. split; [destruct (0 <? j); cbn; congruence|discriminate].
  Qed.
  Lemma get_nosync (d d' : dec) g : d_nosync d = true -> get d = Ok (d', g) -> d_nosync d' = true /\ g <> Err.
  Proof.
    intros Ns. unfold decoder_get.
    assert (P : forall d1 : dec, d_nosync d1 = true -> match nth_error (d_obuf d1) (Z.to_nat (d_obp d1)) with
      | None => Oob
      | Some v => Ok (mkD (d_pp d1) (d_nticks d1) (d_sticks d1) (d_lpt d1) (d_obuf d1) (d_obp d1 + 1) (d_oblen d1 - 1) (d_x d1) (d_stime d1) (d_dticks d1) (d_nosync d1), Sample v)
      end = Ok (d', g) -> d_nosync d' = true /\ g <> Err).
    { intros d1 N1. destruct (nth_error _ _); [|discriminate]. intros E. injection E as <- <-. split; [exact N1|discriminate]. }
    destruct (d_oblen d =? 0); [|exact (P d Ns)]. destruct (fill _ _ _ _ d (d_pp d)) as [[d1 s]| | | |] eqn:Ef; try discriminate. destruct (fill_nosync _ _ _ _ Ns Ef) as (N1 & N2). cbn [bind].
    destruct s; [exact (P d1 N1)|]. intros E. injection E as <- <-. split; [exact N1|congruence].
  Qed.
  Lemma get_skip_nosync n : forall (d d' : dec) g, d_nosync d = true -> get_skip g729_decode g722_decode gsm_decode c n d = Ok (d', g) -> d_nosync d' = true /\ g <> Some Err.
  Proof.
    induction n as [|n IH]; intros d d' g Ns; cbn [get_skip]; [intros E; injection E as <- <-; split; [exact Ns|discriminate]|].
    destruct (get d) as [[d1 g1]| | | |] eqn:Eg; try discriminate. destruct (get_nosync _ _ _ Ns Eg) as (N1 & N2). cbn [bind].
    destruct g1; try (intros E; injection E as <- <-; split; [exact N1|congruence]). apply IH, N1.
  Qed.
  Lemma forall_upd {A} (P : A -> Prop) l i v : Forall P l -> P v -> Forall P (upd l i v).
  Proof. intros F H. revert i. induction F as [|x l Hx F IH]; intros [|i]; cbn; try (constructor; auto); constructor. Qed.
  Lemma visit_nosync n : forall ids (s : st) a s' a', free s -> visit n true ids s a = Ok (Some (s', a')) ->
    free s' /\ s_nch s' = s_nch s /\ s_all s' = s_all s /\ a_neof a' = a_neof a.
  Proof.
    induction ids as [|i ids IH]; intros s a s' a' F; cbn [EaudModel.visit]; [intros E; injection E as <- <-; auto|].
    destruct (nth_error (s_obj s) i) as [ch|] eqn:Ec; [|discriminate]. destruct (if c_a ch then a_sa a else a_sb a); [apply IH, F|].
    assert (Nc : d_nosync (c_dec ch) = true). { unfold free in F. rewrite Forall_forall in F. exact (F ch (nth_error_In _ _ Ec)). }
    destruct (get_skip _ _ _ _ n (c_dec ch)) as [[d g]| | | |] eqn:Eg; try discriminate. destruct (get_skip_nosync _ _ _ _ Nc Eg) as (N1 & N2). cbn [bind].
    assert (F' : Forall (fun ch => d_nosync (c_dec ch) = true) (upd (s_obj s) i (with_dec ch d))) by (apply forall_upd; [exact F|exact N1]).
    destruct g as [[v| | |]|]; try discriminate; [|destruct (negb _); discriminate|congruence].
    intros E. apply IH in E; [|destruct (c_a ch); exact F']. destruct E as (I1 & I2 & I3 & I4). split; [exact I1|]. split; [destruct (c_a ch); exact I2|]. split; [destruct (c_a ch); exact I3|].
    rewrite I4. unfold add. destruct (c_a ch); reflexivity.
  Qed.
  Lemma rounds_nosync n stereo : forall k (s s' : st), free s -> 0 < s_nch s -> rounds n k true stereo s <> Ok (Some s').
  Proof.
    induction k as [|k IH]; intros s s' F Hn; cbn [EaudModel.rounds]; [discriminate|]. unfold EaudModel.round. cbn [negb andb].
    set (s0 := mkS _ _ _ _ _ _ _ _ _ _ _). destruct (visit n true (s_all s0) s0 _) as [[[s1 a]|]| | | |] eqn:Ev; cbn [bind]; try discriminate.
    destruct (visit_nosync n _ s0 _ _ _ F Ev) as (I1 & I2 & I3 & I4). cbn [a_neof] in I4. rewrite I4. unfold s0 in I2. cbn [s_nch] in I2. replace (0 <? s_nch s1) with true by lia.
    apply IH; [exact I1|cbn [s_nch]; lia].
  Qed.
  Lemma make_nosync x base : forall l (obj : list chan), make x true base l = Ok obj -> length obj = length l /\ Forall (fun ch => d_nosync (c_dec ch) = true) obj.
  Proof.
    induction l as [|[a [|p r]] l IH]; intros obj; cbn [make]; [intros E; injection E as <-; auto|discriminate|].
    destruct (to_uint _ _); try discriminate. cbn [bind]. destruct (make x true base l) as [cs| | | |] eqn:Em; try discriminate. cbn [bind]. destruct (IH cs eq_refl) as (I1 & I2).
    intros E. injection E as <-. cbn [length]. split; [congruence|]. constructor; [reflexivity|exact I2].
  Qed.
  Lemma extract_nosync n x stereo l s : l <> [] -> EaudModel.extract g729_decode g722_decode gsm_decode c n x true stereo l <> Ok (Some s).
  Proof.
    intros Hl. unfold EaudModel.extract. destruct (make x true (basetime l) l) as [obj| | | |] eqn:Em; cbn [bind]; try discriminate. destruct (make_nosync _ _ _ _ Em) as (I1 & I2).
    apply rounds_nosync; [exact I2|]. cbn. destruct l; [congruence|]. cbn in I1. lia.
  Qed.
End Codecs.

Lemma sane_dec t p : sane t p \/ ~ sane t p.
Proof.
  unfold sane. cbv zeta. assert (Da : forall A C : Prop, (A \/ ~ A) -> (C \/ ~ C) -> (A /\ C) \/ ~ (A /\ C)) by (intros; tauto).
  assert (Di : forall A C : Prop, (A \/ ~ A) -> (C \/ ~ C) -> (A -> C) \/ ~ (A -> C)) by (intros; tauto).
  apply Da; [lia|]. apply Da; [lia|]. apply Da; [lia|]. apply Da; [apply Di; lia|]. apply Di; [lia|]. apply Di; lia.
Qed.
Lemma not_all_sane t pp : ~ Forall (sane t) pp -> exists p, In p pp /\ ~ sane t p.
Proof.
  induction pp as [|p pp IH]; intros H; [exfalso; apply H; constructor|]. destruct (sane_dec t p) as [D|D]; [|exists p; split; [left; reflexivity|exact D]].
  destruct IH as (q & I1 & I2); [intros F; apply H; constructor; assumption|]. exists q. split; [right; exact I1|exact I2].
Qed.
