From Coq Require Import Permutation.
From Verif Require Import Base HashModel HashSpec.

Lemma upd_split {A} (b : list A) i c c' : nth_error b i = Some c ->
  exists l1 l2, b = l1 ++ c :: l2 /\ length l1 = i /\ upd b i c' = l1 ++ c' :: l2.
Proof.
  intros H. destruct (nth_error_split _ _ H) as (l1 & l2 & -> & Hl). exists l1, l2.
  split; [reflexivity|]. split; [exact Hl|]. rewrite upd_app_r by lia. rewrite Hl, Nat.sub_diag. reflexivity.
Qed.

Lemma filter_none {A} (p : A -> bool) l : (forall x, In x l -> p x = false) -> filter p l = [].
Proof.
  induction l as [|x l IH]; cbn; intros H; [reflexivity|]. rewrite (H x) by auto. apply IH. auto.
Qed.

Lemma filter_all {A} (p : A -> bool) l : (forall x, In x l -> p x = true) -> filter p l = l.
Proof.
  induction l as [|x l IH]; cbn; intros H; [reflexivity|]. rewrite (H x) by auto. f_equal. apply IH. auto.
Qed.

Lemma filter_filter_comm {A} (p q : A -> bool) l : filter p (filter q l) = filter q (filter p l).
Proof.
  induction l as [|x l IH]; cbn; [reflexivity|].
  destruct (p x) eqn:Ep, (q x) eqn:Eq; cbn; rewrite ?Ep, ?Eq, ?IH; reflexivity.
Qed.

Lemma filter_map {A B} (f : A -> B) (p : B -> bool) l : filter p (map f l) = map f (filter (fun x => p (f x)) l).
Proof. induction l as [|x l IH]; cbn; [reflexivity|]. destruct (p (f x)); cbn; rewrite IH; reflexivity. Qed.

Lemma Permutation_filter {A} (p : A -> bool) l l' : Permutation l l' -> Permutation (filter p l) (filter p l').
Proof.
  induction 1; cbn.
  - constructor.
  - destruct (p x); auto using perm_skip.
  - destruct (p x), (p y); try apply perm_swap; apply Permutation_refl.
  - eapply Permutation_trans; eassumption.
Qed.

Lemma NoDup_map_filter {A B} (f : A -> B) (p : A -> bool) l : NoDup (map f l) -> NoDup (map f (filter p l)).
Proof.
  induction l as [|x l IH]; cbn; intros H; [constructor|]. inversion H; subst.
  destruct (p x); cbn; [|auto]. constructor; [|auto].
  intros Hin. apply in_map_iff in Hin. destruct Hin as (y & E & Hy). apply filter_In in Hy.
  apply H2. rewrite <- E. apply in_map. tauto.
Qed.

Lemma NoDup_map_inj {A B} (f : A -> B) l x y : NoDup (map f l) -> In x l -> In y l -> f x = f y -> x = y.
Proof.
  induction l as [|z l IH]; cbn; [tauto|]. intros H Hx Hy E. inversion H; subst.
  destruct Hx as [->|Hx], Hy as [->|Hy]; auto.
  - exfalso. apply H2. rewrite E. apply in_map; assumption.
  - exfalso. apply H2. rewrite <- E. apply in_map; assumption.
Qed.

Lemma find_hd_filter {A} (p : A -> bool) l : find p l = hd_error (filter p l).
Proof. induction l as [|x l IH]; cbn; [reflexivity|]. destruct (p x); [reflexivity|exact IH]. Qed.

Lemma filter_length_le {A} (p : A -> bool) l : (length (filter p l) <= length l)%nat.
Proof. induction l as [|x l IH]; cbn; [lia|]. destruct (p x); cbn; lia. Qed.

Section HP.
  Context {K : Type} (keqb : K -> K -> bool) (is_str : bool) (hash : K -> Z).
  Context (keqb_ok : forall x y, keqb x y = true <-> x = y).
  Notation ent := (Z * K * Z)%type.
  Notation of_key := (of_key keqb).

  Definition al_of (e : hent K) : ent := (e_id e, e_key e, e_val e).
  Definition okent (e : hent K) : Prop := e_hash e = hash (e_key e).

  Record Rb (nodups : bool) (b : list (list (hent K))) (al : list ent) : Prop := {
    r_len : exists n, length b = (2 ^ n)%nat;
    r_pos : forall i c e, nth_error b i = Some c -> In e c -> okent e /\ bidx (length b) (e_hash e) = i;
    r_perm : Permutation (map al_of (concat b)) al;
    r_key : forall k, of_key k (map al_of (concat b)) = of_key k al;
    r_id : NoDup (map m_id al);
    r_nodup : nodups = true -> forall k, (length (of_key k al) <= 1)%nat
  }.

  Lemma bidx_range n h : (bidx (2 ^ n) h < 2 ^ n)%nat.
  Proof.
    unfold bidx. assert (E : Z.of_nat (2 ^ n) = 2 ^ Z.of_nat n) by (rewrite Nat2Z.inj_pow; reflexivity).
    rewrite E. rewrite <- Z.ones_equiv || rewrite Z.sub_1_r, <- Z.ones_equiv.
    rewrite Z.land_ones by lia. pose proof (Z.mod_pos_bound h (2 ^ Z.of_nat n)) as Hb.
    assert (0 < 2 ^ Z.of_nat n) by (apply Z.pow_pos_nonneg; lia).
    apply Nat2Z.inj_lt. rewrite Z2Nat.id by lia. rewrite E. lia.
  Qed.

  Lemma of_key_app k a b : of_key k (a ++ b) = of_key k a ++ of_key k b.
  Proof. apply filter_app. Qed.

  Lemma of_key_foreign k es : (forall e, In e es -> e_key e <> k) -> of_key k (map al_of es) = [].
  Proof.
    intros H. apply filter_none. intros x Hx. apply in_map_iff in Hx. destruct Hx as (e & <- & He).
    cbn. destruct (keqb (e_key e) k) eqn:E; [|reflexivity]. apply keqb_ok in E. destruct (H _ He E).
  Qed.

  (** Entries of a key live in one bucket. *)
  Lemma bucket_key nodups b al k i c : Rb nodups b al -> i = bidx (length b) (hash k) -> nth_error b i = Some c ->
    of_key k al = of_key k (map al_of c) /\
    forall l1 l2, b = l1 ++ c :: l2 -> length l1 = i ->
      of_key k (map al_of (concat l1)) = [] /\ of_key k (map al_of (concat l2)) = [].
  Proof.
    intros R Hi Hc.
    assert (X : forall l1 l2, b = l1 ++ c :: l2 -> length l1 = i ->
      of_key k (map al_of (concat l1)) = [] /\ of_key k (map al_of (concat l2)) = []).
    { intros l1 l2 E Hl. split; apply of_key_foreign; intros e He <-; apply in_concat in He; destruct He as (c' & Hc' & He).
      - apply In_nth_error in Hc'. destruct Hc' as [j Hj].
        assert (Hjl : (j < length l1)%nat) by (apply nth_error_Some; rewrite Hj; discriminate).
        assert (Hj2 : nth_error b j = Some c') by (rewrite E, nth_error_app1; assumption).
        destruct (r_pos _ _ _ R _ _ _ Hj2 He) as [H1 H2]. unfold okent in H1. rewrite H1 in H2. lia.
      - apply In_nth_error in Hc'. destruct Hc' as [j Hj].
        assert (Hj2 : nth_error b (length l1 + S j) = Some c').
        { rewrite E, nth_error_app2 by lia. replace (length l1 + S j - length l1)%nat with (S j) by lia. exact Hj. }
        destruct (r_pos _ _ _ R _ _ _ Hj2 He) as [H1 H2]. unfold okent in H1. rewrite H1 in H2. lia. }
    split; [|exact X].
    destruct (upd_split b i c c Hc) as (l1 & l2 & E & Hl & _). destruct (X _ _ E Hl) as [X1 X2].
    rewrite <- (r_key _ _ _ R k), E, concat_app. cbn [concat]. rewrite !map_app, !of_key_app, X1, X2.
    rewrite app_nil_r. reflexivity.
  Qed.

  Lemma walk_find chain k : Forall okent chain ->
    walk keqb is_str chain k (hash k) = hd_error (filter (fun e => keqb (e_key e) k) chain).
  Proof.
    induction 1 as [|e c He Hc IH]; cbn; [reflexivity|].
    destruct (keqb (e_key e) k) eqn:Ek.
    - apply keqb_ok in Ek. unfold okent in He. rewrite He, Ek, Z.eqb_refl. rewrite andb_false_r. reflexivity.
    - destruct (is_str && _); exact IH.
  Qed.

  Lemma nth_bucket nodups b al h : Rb nodups b al -> exists c, nth_error b (bidx (length b) h) = Some c.
  Proof.
    intros R. destruct (r_len _ _ _ R) as [n Hn]. destruct (nth_error b (bidx (length b) h)) eqn:E; [eauto|].
    apply nth_error_None in E. rewrite Hn in E at 1. rewrite Hn in E. pose proof (bidx_range n h). lia.
  Qed.

  Lemma chain_ok nodups b al i c : Rb nodups b al -> nth_error b i = Some c -> Forall okent c.
  Proof. intros R H. apply Forall_forall. intros e He. exact (proj1 (r_pos _ _ _ R _ _ _ H He)). Qed.

  Lemma cmpkey2_eq a e : okent a -> okent e -> cmpkey2 keqb is_str a e = keqb (e_key a) (e_key e).
  Proof.
    unfold cmpkey2, okent. intros Ha He. destruct is_str; [|reflexivity]. rewrite Ha, He.
    destruct (keqb (e_key a) (e_key e)) eqn:E.
    - apply keqb_ok in E. rewrite E, Z.eqb_refl. reflexivity.
    - destruct (negb _); reflexivity.
  Qed.

  Lemma keqb_refl k : keqb k k = true. Proof. apply keqb_ok; reflexivity. Qed.
  Lemma keqb_sym a b : keqb a b = keqb b a.
  Proof.
    destruct (keqb a b) eqn:E, (keqb b a) eqn:F; try reflexivity.
    - apply keqb_ok in E. subst. rewrite keqb_refl in F. discriminate.
    - apply keqb_ok in F. subst. rewrite keqb_refl in E. discriminate.
  Qed.

  Lemma of_key_one k (e : ent) : of_key k [e] = if keqb (m_key e) k then [e] else [].
  Proof. reflexivity. Qed.

  Lemma insert_ok nodups abrt num b al sp : Rb nodups b al -> okent sp -> ~ In (e_id sp) (map m_id al) ->
    if nodups && negb (length (of_key (e_key sp) al) =? 0)%nat
    then insert_locked keqb is_str nodups abrt num b sp = (if abrt then InsAbort else InsDup)
    else exists b', insert_locked keqb is_str nodups abrt num b sp = InsOk (num + 1) b' /\
           Rb nodups b' (al ++ [al_of sp]) /\ length b' = length b.
  Proof.
    intros R Hsp Hid. unfold insert_locked.
    destruct (nth_bucket _ _ _ (e_hash sp) R) as [c Hc]. rewrite Hc.
    assert (Hbk := bucket_key nodups b al (e_key sp) _ c R (f_equal (bidx (length b)) Hsp) Hc).
    destruct Hbk as [Hbk Hsides].
    assert (Hex : existsb (fun tsp => cmpkey2 keqb is_str sp tsp) c = negb (length (of_key (e_key sp) al) =? 0)%nat).
    { rewrite Hbk. pose proof (chain_ok _ _ _ _ _ R Hc) as Hok. clear - Hok Hsp keqb_ok.
      induction Hok as [|e c He Hc IH]; cbn; [reflexivity|].
      rewrite cmpkey2_eq by assumption. rewrite (keqb_sym (e_key sp)). rewrite IH.
      destruct (keqb (e_key e) (e_key sp)); reflexivity. }
    rewrite Hex. destruct (nodups && _) eqn:End; [destruct abrt; reflexivity|].
    eexists. split; [reflexivity|]. split; [|apply upd_length].
    destruct (upd_split b _ c (c ++ [sp]) Hc) as (l1 & l2 & E & Hl & Eu).
    destruct (Hsides l1 l2 E Hl) as [S1 S2].
    assert (Hcc : concat (upd b (bidx (length b) (e_hash sp)) (c ++ [sp])) = concat l1 ++ (c ++ [sp]) ++ concat l2).
    { rewrite Eu, concat_app. reflexivity. }
    assert (Hcb : concat b = concat l1 ++ c ++ concat l2) by (rewrite E, concat_app; reflexivity).
    constructor.
    - destruct (r_len _ _ _ R) as [n Hn]. exists n. rewrite upd_length. exact Hn.
    - intros i c' e H1 H2. rewrite upd_length.
      destruct (Nat.eq_dec (bidx (length b) (e_hash sp)) i) as [<-|Hne].
      + rewrite nth_error_upd_same in H1 by (apply nth_error_Some; rewrite Hc; discriminate).
        injection H1 as <-. apply in_app_or in H2. destruct H2 as [H2|[<-|[]]]; [|auto].
        exact (r_pos _ _ _ R _ _ _ Hc H2).
      + rewrite nth_error_upd_other in H1 by assumption. exact (r_pos _ _ _ R _ _ _ H1 H2).
    - rewrite Hcc. eapply Permutation_trans; [|apply Permutation_app; [exact (r_perm _ _ _ R)|apply Permutation_refl]].
      rewrite Hcb. rewrite !map_app. cbn [map]. rewrite <- !app_assoc. apply Permutation_app_head.
      apply Permutation_app_head. apply Permutation_app_comm.
    - intros k. rewrite Hcc, !map_app, !of_key_app. cbn [map]. rewrite of_key_one. cbn [m_key al_of fst snd].
      rewrite <- (r_key _ _ _ R k), Hcb, !map_app, !of_key_app.
      destruct (keqb (e_key sp) k) eqn:Ek; [|rewrite !app_nil_r; reflexivity].
      apply keqb_ok in Ek. subst k. rewrite S1, S2. rewrite !app_nil_r. cbn [app].
      reflexivity.
    - rewrite map_app. cbn [map]. apply Permutation_NoDup with (l := e_id sp :: map m_id al).
      + apply Permutation_cons_append.
      + constructor; [exact Hid|exact (r_id _ _ _ R)].
    - intros Hnd k. rewrite of_key_app, app_length, of_key_one. cbn [m_key al_of fst snd].
      rewrite Hnd in End. cbn in End.
      destruct (keqb (e_key sp) k) eqn:Ek; cbn [length]; [|pose proof (r_nodup _ _ _ R Hnd k); lia].
      apply keqb_ok in Ek. subst k. destruct (length (of_key (e_key sp) al)); [lia|discriminate].
  Qed.

  Lemma reinsert_ok nodups abrt es : forall num b al, Rb nodups b al -> Forall okent es ->
    NoDup (map m_id (al ++ map al_of es)) ->
    (nodups = true -> forall k, (length (of_key k (al ++ map al_of es)) <= 1)%nat) ->
    exists b', reinsert keqb is_str nodups abrt num b es = InsOk (num + Z.of_nat (length es)) b' /\
      Rb nodups b' (al ++ map al_of es) /\ length b' = length b.
  Proof.
    induction es as [|e es IH]; intros num b al R Hok Hnd Hk.
    - cbn. exists b. rewrite Z.add_0_r, app_nil_r. auto.
    - inversion Hok; subst. cbn [reinsert map] in *.
      assert (Hid : ~ In (e_id e) (map m_id al)).
      { rewrite map_app in Hnd. cbn in Hnd. apply NoDup_remove_2 in Hnd. intros Hin. apply Hnd.
        apply in_or_app. left. exact Hin. }
      pose proof (insert_ok nodups abrt num b al e R H1 Hid) as Hi.
      assert (Hc : nodups && negb (length (of_key (e_key e) al) =? 0)%nat = false).
      { destruct nodups; [|reflexivity]. specialize (Hk eq_refl (e_key e)).
        rewrite of_key_app in Hk. cbn in Hk. rewrite keqb_refl in Hk. rewrite app_length in Hk. cbn [length] in Hk.
        cbn. replace (length (of_key (e_key e) al)) with O by lia. reflexivity. }
      rewrite Hc in Hi. destruct Hi as (b' & Hi & R' & Hl). rewrite Hi.
      replace (al ++ al_of e :: map al_of es) with ((al ++ [al_of e]) ++ map al_of es) in * by (rewrite <- app_assoc; reflexivity).
      destruct (IH (num + 1) b' (al ++ [al_of e]) R' H2 Hnd Hk) as (b'' & H3 & R'' & Hl2).
      exists b''. split; [|split; [assumption|lia]]. rewrite H3. f_equal. cbn [length]. lia.
  Qed.

  Lemma Rb_empty nodups n : Rb nodups (repeat [] (2 ^ n)) [].
  Proof.
    assert (Hc : forall m, concat (repeat (@nil (hent K)) m) = []) by (induction m; cbn; auto).
    constructor.
    - exists n. apply repeat_length.
    - intros i c e H1 H2. apply nth_error_In, repeat_spec in H1. subst. destruct H2.
    - rewrite Hc. constructor.
    - intros k. rewrite Hc. reflexivity.
    - constructor.
    - cbn. lia.
  Qed.

  (** The table represents [al]. *)
  Definition R (t : htab K) (al : list ent) : Prop :=
    Rb (ht_nodups t) (ht_b t) al /\ ht_num t = Z.of_nat (length al).

  Lemma R_ctor nodups abrt : R (ht_ctor nodups abrt) [].
  Proof. split; [|reflexivity]. exact (Rb_empty nodups 8). Qed.

  Lemma Rb_trans nodups b b' al : Rb nodups b al -> Rb nodups b' (map al_of (concat b)) -> Rb nodups b' al.
  Proof.
    intros Ra Rc. constructor.
    - exact (r_len _ _ _ Rc).
    - exact (r_pos _ _ _ Rc).
    - eapply Permutation_trans; [exact (r_perm _ _ _ Rc)|exact (r_perm _ _ _ Ra)].
    - intros k. rewrite (r_key _ _ _ Rc). apply (r_key _ _ _ Ra).
    - exact (r_id _ _ _ Ra).
    - exact (r_nodup _ _ _ Ra).
  Qed.

  Lemma concat_ok nodups b al : Rb nodups b al -> Forall okent (concat b).
  Proof.
    intros Hr. apply Forall_forall. intros e He. apply in_concat in He. destruct He as (c & Hc & He).
    apply In_nth_error in Hc. destruct Hc as [i Hi]. exact (proj1 (r_pos _ _ _ Hr _ _ _ Hi He)).
  Qed.

  Lemma resize_ok t al n mem : R t al ->
    exists t', resize_locked keqb is_str t (2 ^ n) mem = HRet t' tt /\ R t' al /\ ht_nodups t' = ht_nodups t /\ ht_abrt t' = ht_abrt t.
  Proof.
    intros [Hr Hn]. unfold resize_locked. destruct mem; [|exists t; split; [reflexivity|split; [split; assumption|auto]]].
    destruct (reinsert_ok (ht_nodups t) (ht_abrt t) (concat (ht_b t)) 0 (repeat [] (2 ^ n)) [] (Rb_empty _ n)
       (concat_ok _ _ _ Hr)) as (b' & H1 & H2 & _).
    - cbn [app]. apply (Permutation_NoDup (Permutation_map m_id (Permutation_sym (r_perm _ _ _ Hr)))). exact (r_id _ _ _ Hr).
    - intros Hd k. cbn [app]. rewrite (r_key _ _ _ Hr). exact (r_nodup _ _ _ Hr Hd k).
    - rewrite H1. eexists. split; [reflexivity|]. cbn [ht_nodups ht_abrt]. split; [|auto].
      split; cbn [ht_nodups ht_b ht_num].
      + cbn [app] in H2. eapply Rb_trans; eassumption.
      + pose proof (Permutation_length (r_perm _ _ _ Hr)) as Hpl. rewrite map_length in Hpl. lia.
  Qed.

  Lemma ht_insert_ok t al sp mem : R t al -> okent sp -> ~ In (e_id sp) (map m_id al) ->
    if ht_nodups t && negb (length (of_key (e_key sp) al) =? 0)%nat
    then ht_insert keqb is_str t sp mem = if ht_abrt t then HAbort else HRet t (false, false)
    else exists t', ht_insert keqb is_str t sp mem = HRet t' (true, (length al =? 0)%nat) /\ R t' (al ++ [al_of sp]) /\
         ht_nodups t' = ht_nodups t /\ ht_abrt t' = ht_abrt t.
  Proof.
    intros [Hr Hn] Hok Hid. unfold ht_insert.
    pose proof (insert_ok (ht_nodups t) (ht_abrt t) (ht_num t) (ht_b t) al sp Hr Hok Hid) as Hi.
    destruct (ht_nodups t && _); [rewrite Hi; destruct (ht_abrt t); reflexivity|].
    destruct Hi as (b' & Hi & R' & Hl). rewrite Hi. cbn [ht_num ht_b].
    set (t1 := mkHt (ht_num t + 1) b' (ht_nodups t) (ht_abrt t)).
    assert (R1 : R t1 (al ++ [al_of sp])).
    { split; cbn; [exact R'|]. rewrite app_length. cbn. lia. }
    assert (X : exists t2, (if (ht_num t + 1) * 10 >? Z.of_nat (length b') * 7
                 then resize_locked keqb is_str t1 (length b' * 2) mem else HRet t1 tt) = HRet t2 tt /\ R t2 (al ++ [al_of sp]) /\
                 ht_nodups t2 = ht_nodups t /\ ht_abrt t2 = ht_abrt t).
    { destruct (_ >? _); [|exists t1; auto].
      destruct (r_len _ _ _ R') as [n E]. replace (length b' * 2)%nat with (2 ^ S n)%nat by (rewrite E; cbn; lia).
      destruct (resize_ok t1 _ (S n) mem R1) as (t2 & H1 & H2 & H3 & H4). exists t2. auto. }
    destruct X as (t2 & -> & R2 & H3 & H4). exists t2. split; [|auto]. f_equal. f_equal.
    destruct R2 as [_ E]. rewrite E, app_length. cbn [length]. lia.
  Qed.

  Definition wo (id : Z) (al : list ent) : list ent := filter (fun e => negb (m_id e =? id)) al.

  Lemma remove_ok t al id k : R t al -> (exists v, In (id, k, v) al) ->
    exists t', remove_locked t id (hash k) = HRet t' (length al =? 1)%nat /\ R t' (wo id al) /\
      ht_nodups t' = ht_nodups t /\ ht_abrt t' = ht_abrt t.
  Proof.
    intros [Hr Hn] [v Hin]. unfold remove_locked.
    destruct (nth_bucket _ _ _ (hash k) Hr) as [c Hc]. rewrite Hc.
    (* the entry is in chain c *)
    assert (He : exists e, In e c /\ al_of e = (id, k, v)).
    { apply (Permutation_in _ (Permutation_sym (r_perm _ _ _ Hr))) in Hin. apply in_map_iff in Hin.
      destruct Hin as (e & Ea & He). exists e. split; [|exact Ea]. apply in_concat in He. destruct He as (c' & Hc' & He).
      apply In_nth_error in Hc'. destruct Hc' as [i Hi]. destruct (r_pos _ _ _ Hr _ _ _ Hi He) as [P1 P2].
      unfold okent in P1. unfold al_of in Ea. injection Ea as E1 E2 E3. rewrite P1, E2 in P2. subst i.
      rewrite Hc in Hi. injection Hi as ->. exact He. }
    destruct He as (e & Hec & Ee).
    assert (Hide : e_id e = id) by (unfold al_of in Ee; congruence).
    assert (Hex : existsb (fun e => e_id e =? id) c = true).
    { apply existsb_exists. exists e. split; [exact Hec|]. lia. }
    rewrite Hex.
    assert (Hndc : NoDup (map (@e_id K) (concat (ht_b t)))).
    { replace (map (@e_id K) (concat (ht_b t))) with (map m_id (map al_of (concat (ht_b t)))) by (rewrite map_map; reflexivity).
      apply (Permutation_NoDup (Permutation_map m_id (Permutation_sym (r_perm _ _ _ Hr)))). exact (r_id _ _ _ Hr). }
    assert (Hcat : concat (upd (ht_b t) (bidx (length (ht_b t)) (hash k)) (filter (fun e => negb (e_id e =? id)) c))
                   = filter (fun e => negb (e_id e =? id)) (concat (ht_b t))).
    { destruct (upd_split (ht_b t) _ c (filter (fun e => negb (e_id e =? id)) c) Hc) as (l1 & l2 & E & Hl & Eu).
      rewrite Eu. rewrite E in Hndc |- *. rewrite !concat_app in *. cbn [concat] in *. rewrite !filter_app.
      assert (Hout : forall x, In x (concat l1 ++ concat l2) -> negb (e_id x =? id) = true).
      { intros x Hx. apply negb_true_iff. apply Z.eqb_neq. intros Ex.
        rewrite !map_app in Hndc.
        assert (Hndc' : NoDup (map (@e_id K) c ++ (map (@e_id K) (concat l1) ++ map (@e_id K) (concat l2)))).
        { eapply Permutation_NoDup; [|exact Hndc]. rewrite !app_assoc. apply Permutation_app_tail. apply Permutation_app_comm. }
        rewrite <- map_app in Hndc'.
        clear - Hndc' Hx Ex Hec Hide. induction c as [|y c IH]; [destruct Hec|].
        cbn in Hndc'. inversion Hndc'; subst. destruct Hec as [->|Hec]; [|apply IH; assumption].
        apply H1. apply in_or_app. right. rewrite <- Ex. apply in_map; assumption. }
      rewrite (filter_all _ (concat l1)) by (intros x Hx; apply Hout; apply in_or_app; auto).
      rewrite (filter_all _ (concat l2)) by (intros x Hx; apply Hout; apply in_or_app; auto). reflexivity. }
    eexists. split; [f_equal; lia|]. split; [|auto].
    assert (Hmap : forall l : list (hent K), map al_of (filter (fun e => negb (e_id e =? id)) l) = wo id (map al_of l)).
    { intros l. unfold wo. rewrite filter_map. reflexivity. }
    split; cbn [ht_nodups ht_b ht_num].
    - constructor.
      + destruct (r_len _ _ _ Hr) as [n E]. exists n. rewrite upd_length. exact E.
      + intros i c' x H1 H2. rewrite upd_length.
        destruct (Nat.eq_dec (bidx (length (ht_b t)) (hash k)) i) as [<-|Hne].
        * rewrite nth_error_upd_same in H1 by (apply nth_error_Some; rewrite Hc; discriminate).
          injection H1 as <-. apply filter_In in H2. exact (r_pos _ _ _ Hr _ _ _ Hc (proj1 H2)).
        * rewrite nth_error_upd_other in H1 by assumption. exact (r_pos _ _ _ Hr _ _ _ H1 H2).
      + rewrite Hcat, Hmap. apply Permutation_filter. exact (r_perm _ _ _ Hr).
      + intros k'. rewrite Hcat, Hmap. unfold HashSpec.of_key, wo. rewrite !(filter_filter_comm (fun e => keqb _ _)).
        f_equal. exact (r_key _ _ _ Hr k').
      + apply NoDup_map_filter. exact (r_id _ _ _ Hr).
      + intros Hd k'. unfold HashSpec.of_key, wo. rewrite filter_filter_comm.
        pose proof (r_nodup _ _ _ Hr Hd k') as Hk. fold (of_key k' al).
        pose proof (filter_length_le (fun e : ent => negb (m_id e =? id)) (of_key k' al)) as Hfl. lia.
    - rewrite Hn. pose proof (r_id _ _ _ Hr) as Hid. clear - Hin Hid. unfold wo.
      induction al as [|a al IH]; [destruct Hin|]. cbn [map] in Hid. inversion Hid; subst.
      cbn [filter length]. destruct Hin as [->|Hin].
      + cbn [m_id fst]. rewrite Z.eqb_refl. cbn [negb].
        rewrite filter_all; [lia|]. intros x Hx. apply negb_true_iff, Z.eqb_neq. intros Ex. apply H1.
        cbn [m_id fst]. rewrite <- Ex. apply in_map. exact Hx.
      + assert (Ha : negb (m_id a =? id) = true).
        { apply negb_true_iff, Z.eqb_neq. intros Ex. apply H1. rewrite Ex. change id with (m_id (id, k, v)). apply in_map. exact Hin. }
        rewrite Ha. cbn [length]. specialize (IH Hin H2). lia.
  Qed.

  Lemma bucket_al t al k : R t al ->
    map al_of (filter (fun e => keqb (e_key e) k) (bucket t (hash k))) = of_key k al /\ Forall okent (bucket t (hash k)).
  Proof.
    intros [Hr _]. unfold bucket. destruct (nth_bucket _ _ _ (hash k) Hr) as [c Hc].
    rewrite (nth_error_nth _ _ _ Hc). split; [|eapply chain_ok; eassumption].
    destruct (bucket_key _ _ _ k _ c Hr eq_refl Hc) as [E _]. rewrite E. unfold HashSpec.of_key. rewrite filter_map. reflexivity.
  Qed.

  Lemma walk_al t al k : R t al ->
    option_map al_of (walk keqb is_str (bucket t (hash k)) k (hash k)) = hd_error (of_key k al) /\
    forall e, walk keqb is_str (bucket t (hash k)) k (hash k) = Some e -> okent e.
  Proof.
    intros Ht. destruct (bucket_al t al k Ht) as [H1 H2]. rewrite walk_find by exact H2. rewrite <- H1. split.
    - destruct (filter _ _); reflexivity.
    - intros e He. destruct (filter (fun e => keqb (e_key e) k) (bucket t (hash k))) as [|x l] eqn:E; [discriminate|].
      cbn in He. injection He as ->. assert (Hin : In e (filter (fun e => keqb (e_key e) k) (bucket t (hash k)))) by (rewrite E; cbn; auto).
      apply filter_In in Hin. rewrite Forall_forall in H2. apply H2. tauto.
  Qed.

  Lemma of_key_in k e al : In e (of_key k al) -> In e al /\ m_key e = k.
  Proof. unfold HashSpec.of_key. rewrite filter_In. intros [H1 H2]. apply keqb_ok in H2. auto. Qed.

  Lemma remove_by_key_ok t al k : R t al ->
    match of_key k al with
    | [] => ht_remove_by_key keqb is_str hash t k = HRet t (None, false)
    | e :: _ => exists t' sp, ht_remove_by_key keqb is_str hash t k = HRet t' (Some sp, (length al =? 1)%nat) /\
        al_of sp = e /\ okent sp /\ R t' (wo (m_id e) al) /\ ht_nodups t' = ht_nodups t /\ ht_abrt t' = ht_abrt t
    end.
  Proof.
    intros Ht. destruct (walk_al t al k Ht) as [Hw Hok]. unfold ht_remove_by_key.
    destruct (of_key k al) as [|e r] eqn:Ek.
    - destruct (walk keqb is_str (bucket t (hash k)) k (hash k)); [discriminate|reflexivity].
    - destruct (walk keqb is_str (bucket t (hash k)) k (hash k)) as [sp|]; [|discriminate].
      cbn in Hw. injection Hw as Hw. specialize (Hok _ eq_refl).
      assert (Hin : In e (of_key k al)) by (rewrite Ek; cbn; auto). apply of_key_in in Hin. destruct Hin as [Hin Hk].
      destruct (remove_ok t al (e_id sp) k Ht) as (t' & H1 & H2 & H3).
      { exists (e_val sp). rewrite <- Hw in Hin, Hk. unfold al_of in *. cbn in Hk. subst k. exact Hin. }
      rewrite H1. exists t', sp. split; [reflexivity|]. split; [exact Hw|]. split; [exact Hok|].
      rewrite <- Hw. cbn [m_id al_of fst]. auto.
  Qed.

  Lemma without_nil (al : list ent) : without [] al = al.
  Proof. unfold without. apply filter_all. reflexivity. Qed.

  Lemma without_cons id d (al : list ent) : without (id :: d) al = without d (wo id al).
  Proof.
    unfold without, wo. induction al as [|a al IH]; [reflexivity|]. cbn [filter].
    change (existsb (Z.eqb (m_id a)) (id :: d)) with ((m_id a =? id) || existsb (Z.eqb (m_id a)) d).
    destruct (m_id a =? id); cbn [negb orb filter]; [exact IH|]. rewrite IH. reflexivity.
  Qed.

  Lemma foreach_loop_sel (sel : hent K -> bool) f es : forall t seen last,
    foreach_loop sel f es t seen last = foreach_loop (fun _ => true) f (filter sel es) t seen last.
  Proof.
    induction es as [|e es IH]; intros t seen last; cbn [foreach_loop filter]; [reflexivity|].
    destruct (sel e); [|apply IH]. cbn [foreach_loop]. destruct (f seen (e_val e)) as [del brk].
    destruct del; [destruct (remove_locked t (e_id e) (e_hash e)) as [t' l| |]; try reflexivity|];
    destruct brk; try reflexivity; apply IH.
  Qed.

  Lemma foreach_loop_ok f es : forall t al seen last, R t al ->
    Forall okent es -> NoDup (map (@e_id K) es) -> (forall e, In e es -> In (al_of e) al) ->
    exists t' brk, let (dels, seen') := visit f (map al_of es) seen in
      foreach_loop (fun _ => true) f es t seen last =
        HRet t' (seen', last || (negb (length al =? 0)%nat && (length (without dels al) =? 0)%nat && negb (length dels =? 0)%nat), brk) /\
      R t' (without dels al) /\ ht_nodups t' = ht_nodups t /\ ht_abrt t' = ht_abrt t /\ (forall d, In d dels -> In d (map m_id al)).
  Proof.
    induction es as [|e es IH]; intros t al seen last Ht Hok Hnd Hin; cbn [map visit foreach_loop].
    - exists t, false. rewrite without_nil. cbn. rewrite andb_false_r, orb_false_r. split; [reflexivity|]. split; [exact Ht|]. split; [reflexivity|]. split; [reflexivity|]. intros d [].
    - inversion Hok; subst. inversion Hnd; subst. cbn [m_val al_of snd m_id fst].
      destruct (f seen (e_val e)) as [del brk]. destruct del.
      + assert (Hin1 : In (al_of e) al) by (apply Hin; cbn; auto).
        destruct (remove_ok t al (e_id e) (e_key e) Ht) as (t1 & E1 & R1 & F1 & F2); [exists (e_val e); exact Hin1|].
        rewrite H1. rewrite E1.
        assert (Hlen1 : (length al <> 0)%nat) by (destruct al; [destruct Hin1|cbn; lia]).
        assert (Hl : (length (wo (e_id e) al) + 1 = length al)%nat).
        { destruct Ht as [Hr Hn]. destruct R1 as [_ Hn1].
          unfold remove_locked in E1. destruct (nth_error _ _); [|discriminate]. destruct (existsb _ _); [|discriminate].
          injection E1 as <- _. cbn [ht_num] in Hn1. lia. }
        destruct brk.
        * exists t1, true. cbn [app]. rewrite without_cons, without_nil.
          split; [|split; [exact R1|split; [exact F1|split; [exact F2|]]]].
          -- cbn [length]. f_equal. f_equal. f_equal. rewrite andb_true_r. f_equal.
             destruct (Nat.eqb_spec (length al) 0); [lia|]. cbn [negb andb].
             destruct (Nat.eqb_spec (length al) 1), (Nat.eqb_spec (length (wo (e_id e) al)) 0); lia || reflexivity.
          -- intros d [<-|[]]. change (e_id e) with (m_id (al_of e)). apply in_map. exact Hin1.
        * destruct (IH t1 (wo (e_id e) al) (e_val e :: seen) (last || (length al =? 1)%nat) R1 H2 H4) as (t2 & brk2 & IH').
          { intros x Hx. unfold wo. apply filter_In. split; [apply Hin; cbn; auto|].
            apply negb_true_iff, Z.eqb_neq. intros Ex. apply H3. cbn in Ex. rewrite <- Ex. apply in_map; exact Hx. }
          destruct (visit f (map al_of es) (e_val e :: seen)) as [d' s'].
          destruct IH' as (A1 & A2 & A3 & A4 & A5). exists t2, brk2. cbn [app]. rewrite without_cons.
          split; [|split; [exact A2|split; [congruence|split; [congruence|]]]].
          -- rewrite A1. f_equal. f_equal. f_equal. cbn [length].
             destruct last; cbn [orb]; [reflexivity|]. rewrite !andb_true_r.
             destruct (Nat.eqb_spec (length al) 0); [lia|]. cbn [negb andb].
             destruct (Nat.eqb_spec (length al) 1) as [E|E]; cbn [orb].
             ++ assert (Hz : wo (e_id e) al = []) by (apply length_zero_iff_nil; lia). rewrite Hz.
                unfold without; cbn. reflexivity.
             ++ destruct (Nat.eqb_spec (length (wo (e_id e) al)) 0); [lia|]. cbn [negb andb].
                destruct (Nat.eqb_spec (length (without d' (wo (e_id e) al))) 0) as [E2|E2]; [|reflexivity].
                cbn [andb]. destruct d'; [|reflexivity]. rewrite without_nil in E2. lia.
          -- intros d [<-|Hd]; [change (e_id e) with (m_id (al_of e)); apply in_map; exact Hin1|].
             specialize (A5 _ Hd). apply in_map_iff in A5. destruct A5 as (x & <- & Hx). apply in_map.
             unfold wo in Hx. apply filter_In in Hx. tauto.
      + destruct brk.
        * exists t, true. rewrite without_nil. cbn [length negb]. rewrite Nat.eqb_refl. cbn [negb]. rewrite andb_false_r.
          split; [reflexivity|]. split; [exact Ht|]. split; [reflexivity|]. split; [reflexivity|]. intros d [].
        * destruct (IH t al (e_val e :: seen) (last || false) Ht H2 H4) as (t2 & brk2 & IH').
          { intros x Hx. apply Hin; cbn; auto. }
          destruct (visit f (map al_of es) (e_val e :: seen)) as [d' s'].
          destruct IH' as (A1 & A2 & A3 & A4 & A5). exists t2, brk2. cbn [app].
          split; [|auto]. rewrite A1. rewrite orb_false_r. reflexivity.
  Qed.

  Lemma ids_concat t al : R t al -> NoDup (map (@e_id K) (concat (ht_b t))).
  Proof.
    intros [Hr _].
    replace (map (@e_id K) (concat (ht_b t))) with (map m_id (map al_of (concat (ht_b t)))) by (rewrite map_map; reflexivity).
    apply (Permutation_NoDup (Permutation_map m_id (Permutation_sym (r_perm _ _ _ Hr)))). exact (r_id _ _ _ Hr).
  Qed.

  Lemma foreach_ok t al f : R t al ->
    exists t' ord dels seen, ht_foreach t f =
        HRet t' (seen, negb (length al =? 0)%nat && (length (without dels al) =? 0)%nat) /\
      Permutation ord al /\ (forall k, of_key k ord = of_key k al) /\ visit f ord [] = (dels, seen) /\
      R t' (without dels al) /\ ht_nodups t' = ht_nodups t /\ ht_abrt t' = ht_abrt t.
  Proof.
    intros Ht. pose proof Ht as [Hr Hn]. unfold ht_foreach.
    destruct (Z.eqb_spec (ht_num t) 0) as [E|E].
    - assert (Hal : al = []) by (apply length_zero_iff_nil; lia). subst al.
      exists t, [], [], []. rewrite without_nil. cbn. split; [reflexivity|]. auto 10.
    - destruct (foreach_loop_ok f (concat (ht_b t)) t al [] false Ht (concat_ok _ _ _ Hr) (ids_concat t al Ht)) as (t' & brk & H).
      { intros e He. apply (Permutation_in _ (r_perm _ _ _ Hr)). apply in_map. exact He. }
      destruct (visit f (map al_of (concat (ht_b t))) []) as [dels seen] eqn:Ev. destruct H as (A1 & A2 & A3 & A4 & A5).
      exists t', (map al_of (concat (ht_b t))), dels, seen. split.
      + rewrite A1. cbn [orb]. f_equal. f_equal.
        destruct (Nat.eqb_spec (length al) 0) as [|Hne]; [reflexivity|]. cbn [negb andb].
        destruct (Nat.eqb_spec (length (without dels al)) 0) as [E2|]; [|reflexivity]. cbn [andb].
        destruct dels; [|reflexivity]. rewrite without_nil in E2. lia.
      + split; [exact (r_perm _ _ _ Hr)|]. split; [exact (r_key _ _ _ Hr)|]. auto.
  Qed.

  Lemma foreach_key_ok t al k f : R t al ->
    exists t' dels seen, ht_foreach_key keqb is_str hash t k f = HRet t' seen /\
      visit f (of_key k al) [] = (dels, seen) /\
      R t' (without dels al) /\ ht_nodups t' = ht_nodups t /\ ht_abrt t' = ht_abrt t.
  Proof.
    intros Ht. pose proof Ht as [Hr Hn]. unfold ht_foreach_key.
    destruct (Z.eqb_spec (ht_num t) 0) as [E|E].
    - assert (Hal : al = []) by (apply length_zero_iff_nil; lia). subst al.
      exists t, [], []. rewrite without_nil. cbn. auto 10.
    - rewrite foreach_loop_sel. destruct (bucket_al t al k Ht) as [Hb Hok].
      assert (Hsel : filter (fun sp : hent K => if is_str && negb (hash k =? e_hash sp) then false else keqb (e_key sp) k) (bucket t (hash k))
                     = filter (fun e => keqb (e_key e) k) (bucket t (hash k))).
      { clear - Hok keqb_ok. induction Hok as [|e c He Hc IH]; cbn; [reflexivity|]. rewrite IH.
        destruct (keqb (e_key e) k) eqn:Ek; [|destruct (is_str && _); reflexivity].
        apply keqb_ok in Ek. unfold okent in He. rewrite He, Ek, Z.eqb_refl, andb_false_r. reflexivity. }
      rewrite Hsel. set (es := filter (fun e => keqb (e_key e) k) (bucket t (hash k))) in *.
      destruct (foreach_loop_ok f es t al [] false Ht) as (t' & brk & H).
      + unfold es. apply Forall_forall. intros e He. apply filter_In in He. rewrite Forall_forall in Hok. apply Hok; tauto.
      + replace (map (@e_id K) es) with (map m_id (map al_of es)) by (rewrite map_map; reflexivity).
        rewrite Hb. apply NoDup_map_filter. exact (r_id _ _ _ Hr).
      + intros e He. assert (Hin : In (al_of e) (map al_of es)) by (apply in_map; exact He).
        rewrite Hb in Hin. apply of_key_in in Hin. tauto.
      + rewrite Hb in H. destruct (visit f (of_key k al) []) as [dels seen]. destruct H as (A1 & A2 & A3 & A4 & A5).
        exists t', dels, seen. rewrite A1. auto.
  Qed.

  (** Purge: batches of 64. *)
  Lemma purge_visit (es : list ent) : forall seen, (length seen < 64)%nat ->
    visit purge_f es seen =
      (map m_id (firstn (64 - length seen) es), rev (map m_val (firstn (64 - length seen) es)) ++ seen).
  Proof.
    induction es as [|e es IH]; intros seen Hs; cbn [visit].
    - rewrite firstn_nil. reflexivity.
    - unfold purge_f at 1. unfold PURGE_BATCH.
      replace (64 - length seen)%nat with (S (63 - length seen)) by lia. cbn [firstn map rev].
      destruct (Nat.eqb_spec (S (length seen)) 64) as [E|E].
      + replace (63 - length seen)%nat with O by lia. reflexivity.
      + rewrite (IH (m_val e :: seen)) by (cbn [length]; lia). cbn [length].
        replace (64 - S (length seen))%nat with (63 - length seen)%nat by lia.
        cbn [app]. rewrite <- app_assoc. reflexivity.
  Qed.

  Lemma without_firstn n (ord al : list ent) : Permutation ord al -> NoDup (map m_id al) ->
    Permutation (without (map m_id (firstn n ord)) al) (skipn n ord).
  Proof.
    intros Hp Hnd. unfold without.
    assert (Hnd' : NoDup (map m_id ord)) by (apply (Permutation_NoDup (Permutation_map m_id (Permutation_sym Hp))); exact Hnd).
    eapply Permutation_trans; [apply Permutation_filter; apply Permutation_sym; exact Hp|].
    set (p := fun e : ent => negb (existsb (Z.eqb (m_id e)) (map m_id (firstn n ord)))).
    replace (filter p ord) with (filter p (firstn n ord ++ skipn n ord)) by (rewrite firstn_skipn; reflexivity).
    rewrite filter_app.
    rewrite filter_none, filter_all; [apply Permutation_refl| |].
    - intros x Hx. unfold p. apply negb_true_iff. destruct (existsb _ _) eqn:E; [|reflexivity]. exfalso.
      apply existsb_exists in E. destruct E as (i & Hi & E). apply Z.eqb_eq in E. subst i.
      rewrite <- (firstn_skipn n ord), map_app in Hnd'.
      apply in_map_iff in Hi. destruct Hi as (y & Ey & Hy).
      assert (Hyx : In (m_id y) (map m_id (firstn n ord))) by (apply in_map; exact Hy).
      assert (Hxx : In (m_id x) (map m_id (skipn n ord))) by (apply in_map; exact Hx).
      rewrite Ey in Hyx. clear - Hnd' Hyx Hxx. induction (map m_id (firstn n ord)) as [|z l IH]; [destruct Hyx|].
      cbn in Hnd'. inversion Hnd'; subst. destruct Hyx as [->|Hy]; [|auto]. apply H1. apply in_or_app. auto.
    - intros x Hx. unfold p. apply negb_false_iff. apply existsb_exists. exists (m_id x).
      split; [apply in_map; exact Hx|apply Z.eqb_refl].
  Qed.

  Lemma purge_loop_ok fuel : forall t al np out, R t al -> (length al < fuel)%nat ->
    exists t' vals, purge_loop fuel t np out = Some (HRet t' (np + (Z.of_nat (length al) + 63) / 64, out ++ vals)) /\
      Permutation vals (map m_val al) /\ R t' [] /\ ht_nodups t' = ht_nodups t /\ ht_abrt t' = ht_abrt t.
  Proof.
    induction fuel as [|fuel IH]; intros t al np out Ht Hf; [lia|]. cbn [purge_loop].
    destruct (foreach_ok t al purge_f Ht) as (t' & ord & dels & seen & E & Hp & Hk & Hv & R' & F1 & F2).
    rewrite E. rewrite purge_visit in Hv by (cbn; lia). cbn [length] in Hv. rewrite Nat.sub_0_r, app_nil_r in Hv.
    apply pair_equal_spec in Hv. destruct Hv as [<- <-].
    destruct Ht as [Hr Hn]. pose proof (Permutation_length Hp) as Hlen.
    assert (Hls : length (rev (map m_val (firstn 64 ord))) = Nat.min 64 (length ord)) by (rewrite rev_length, map_length; apply firstn_length).
    rewrite Hls.
    destruct (Nat.eqb_spec (Nat.min 64 (length ord)) 0) as [E0|E0].
    - assert (Ho : ord = []) by (apply length_zero_iff_nil; lia). subst ord.
      assert (Hal : al = []) by (apply length_zero_iff_nil; cbn in Hlen; lia). subst al.
      exists t', []. cbn [length]. rewrite app_nil_r. split; [f_equal; f_equal; f_equal; lia|].
      split; [constructor|]. split; [exact R'|auto].
    - assert (Hwf : Permutation (without (map m_id (firstn 64 ord)) al) (skipn 64 ord)).
      { apply without_firstn; [exact Hp|exact (r_id _ _ _ Hr)]. }
      pose proof (Permutation_length Hwf) as Hl2. rewrite skipn_length in Hl2.
      destruct (IH t' _ (np + 1) (out ++ rev (rev (map m_val (firstn 64 ord)))) R') as (t2 & vals & H1 & H2 & H3 & H4 & H5); [lia|].
      rewrite rev_involutive in H1. exists t2, (map m_val (firstn 64 ord) ++ vals). split.
      + rewrite rev_involutive, H1, <- app_assoc. f_equal. f_equal. f_equal. lia.
      + split; [|split; [exact H3|split; congruence]].
        eapply Permutation_trans; [apply Permutation_app_head; exact H2|].
        eapply Permutation_trans; [apply Permutation_app_head; apply Permutation_map; exact Hwf|].
        rewrite <- map_app, firstn_skipn. apply Permutation_map. exact Hp.
  Qed.

  Lemma fresh_lt nid (al : list ent) : (forall e, In e al -> m_id e < nid) -> ~ In nid (map m_id al).
  Proof. intros H Hin. apply in_map_iff in Hin. destruct Hin as (e & E & He). specialize (H _ He). lia. Qed.

  Lemma without_incl d (al : list ent) e : In e (without d al) -> In e al.
  Proof. unfold without. rewrite filter_In. tauto. Qed.

  Lemma wo_without id (al : list ent) : wo id al = without [id] al.
  Proof. rewrite without_cons, without_nil. reflexivity. Qed.

  Lemma step_ok t al nid o : R t al -> (forall e, In e al -> m_id e < nid) ->
    exists out al', fst (ht_step keqb is_str hash t nid o) = out /\
      mm_step keqb (ht_nodups t) (ht_abrt t) nid al o out al' /\ out <> RBad /\
      (out = RAbort -> al' = al) /\
      (out <> RAbort -> let t' := snd (ht_step keqb is_str hash t nid o) in
        R t' al' /\ ht_nodups t' = ht_nodups t /\ ht_abrt t' = ht_abrt t /\ (forall e, In e al' -> m_id e < nid + 1)).
  Proof.
    intros Ht Hlt. assert (Hlt' : forall e, In e al -> m_id e < nid + 1) by (intros e He; specialize (Hlt _ He); lia).
    destruct o as [k v mem|id|k|k|f|k f| |]; cbn [ht_step].
    - unfold ht_append. pose proof (ht_insert_ok t al (mkEnt nid k (hash k) v) mem Ht eq_refl (fresh_lt _ _ Hlt)) as H.
      cbn [e_key] in H. destruct (ht_nodups t && _) eqn:E.
      + apply andb_true_iff in E. destruct E as [E1 E2].
        assert (Hne : of_key k al <> []) by (intros X; rewrite X in E2; discriminate).
        rewrite H. destruct (ht_abrt t) eqn:Ea; (eexists _, al; split; [reflexivity|]; cbn [fst snd]).
        * split; [rewrite E1; constructor; auto|]. split; [discriminate|]. split; [auto|congruence].
        * split; [rewrite E1; constructor; auto|]. split; [discriminate|]. split; [auto|auto].
      + destruct H as (t' & H & R' & F1 & F2). rewrite H. eexists _, _. split; [reflexivity|]. cbn [fst snd].
        split; [apply mm_append; exact E|]. split; [discriminate|]. split; [discriminate|]. intros _.
        split; [exact R'|]. split; [exact F1|]. split; [exact F2|].
        intros e He. apply in_app_or in He. destruct He as [He|[<-|[]]]; [auto|cbn; lia].
    - pose proof Ht as [Hr Hn].
      destruct (find (fun e => e_id e =? id) (concat (ht_b t))) as [e|] eqn:Ef.
      + apply find_some in Ef. destruct Ef as [He Hid]. apply Z.eqb_eq in Hid.
        assert (Hal : In (al_of e) al) by (apply (Permutation_in _ (r_perm _ _ _ Hr)); apply in_map; exact He).
        destruct (remove_ok t al id (e_key e) Ht) as (t' & H1 & H2 & H3 & H4).
        { exists (e_val e). rewrite <- Hid. exact Hal. }
        unfold ht_remove. rewrite H1. eexists _, _. split; [reflexivity|]. cbn [fst snd].
        split; [apply mm_remove|]. split; [discriminate|]. split; [discriminate|]. intros _.
        rewrite <- wo_without. split; [exact H2|]. split; [exact H3|]. split; [exact H4|].
        intros x Hx. apply Hlt'. unfold wo in Hx. apply filter_In in Hx. tauto.
      + eexists _, _. split; [reflexivity|]. cbn [fst snd].
        split; [apply mm_remove|]. split; [discriminate|]. split; [discriminate|]. intros _.
        assert (E : without [id] al = al).
        { unfold without. apply filter_all. intros x Hx. cbn. rewrite orb_false_r. apply negb_true_iff, Z.eqb_neq. intros Ex.
          apply (Permutation_in _ (Permutation_sym (r_perm _ _ _ Hr))) in Hx. apply in_map_iff in Hx. destruct Hx as (e & <- & He).
          pose proof (find_none _ _ Ef _ He) as Hf. cbn in Hf, Ex. lia. }
        rewrite E. auto.
    - pose proof (remove_by_key_ok t al k Ht) as H. destruct (of_key k al) as [|e r] eqn:Ek.
      + rewrite H. eexists _, al. split; [reflexivity|]. cbn [fst snd option_map].
        split; [apply mm_rem_key_none; exact Ek|]. split; [discriminate|]. split; [discriminate|]. auto.
      + destruct H as (t' & sp & H1 & H2 & H3 & H4 & H5 & H6). rewrite H1. eexists _, _. split; [reflexivity|]. cbn [fst snd option_map].
        replace (e_val sp) with (m_val e) by (rewrite <- H2; reflexivity).
        split; [eapply mm_rem_key; exact Ek|]. split; [discriminate|]. split; [discriminate|]. intros _.
        rewrite <- wo_without. split; [exact H4|]. split; [exact H5|]. split; [exact H6|].
        intros x Hx. apply Hlt'. unfold wo in Hx. apply filter_In in Hx. tauto.
    - eexists _, al. split; [reflexivity|]. cbn [fst snd].
      destruct (walk_al t al k Ht) as [Hw _]. unfold ht_find.
      replace (match walk keqb is_str (bucket t (hash k)) k (hash k) with Some sp => Some (e_val sp) | None => None end)
        with (option_map m_val (hd_error (of_key k al))).
      2:{ rewrite <- Hw. destruct (walk _ _ _ _ _); reflexivity. }
      split; [apply mm_find|]. split; [discriminate|]. split; [discriminate|]. auto.
    - destruct (foreach_ok t al f Ht) as (t' & ord & dels & seen & E & Hp & Hk & Hv & R' & F1 & F2).
      rewrite E. eexists _, _. split; [reflexivity|]. cbn [fst snd].
      split; [eapply mm_foreach; eassumption|]. split; [discriminate|]. split; [discriminate|]. intros _.
      split; [exact R'|]. split; [exact F1|]. split; [exact F2|]. intros x Hx. apply Hlt'. eapply without_incl; exact Hx.
    - destruct (foreach_key_ok t al k f Ht) as (t' & dels & seen & E & Hv & R' & F1 & F2).
      rewrite E. eexists _, _. split; [reflexivity|]. cbn [fst snd].
      split; [eapply mm_foreach_key; eassumption|]. split; [discriminate|]. split; [discriminate|]. intros _.
      split; [exact R'|]. split; [exact F1|]. split; [exact F2|]. intros x Hx. apply Hlt'. eapply without_incl; exact Hx.
    - eexists _, al. split; [reflexivity|]. cbn [fst snd]. destruct Ht as [Hr Hn]. unfold ht_length. rewrite Hn.
      split; [apply mm_length|]. split; [discriminate|]. split; [discriminate|]. intros _. split; [split; assumption|auto].
    - destruct Ht as [Hr Hn]. unfold ht_purge.
      destruct (purge_loop_ok (S (S (Z.to_nat (ht_num t)))) t al 0 [] (conj Hr Hn)) as (t' & vals & H1 & H2 & H3 & H4 & H5); [lia|].
      rewrite H1. cbn [app]. eexists _, []. split; [reflexivity|]. cbn [fst snd].
      split; [rewrite Z.add_0_l; apply mm_purge; exact H2|]. split; [discriminate|]. split; [discriminate|]. intros _.
      split; [exact H3|]. split; [exact H4|]. split; [exact H5|]. intros e [].
  Qed.

  Lemma run_ok os : forall t al nid, R t al -> (forall e, In e al -> m_id e < nid) ->
    exists al', mm_exec keqb (ht_nodups t) (ht_abrt t) nid al os (fst (ht_run keqb is_str hash t nid os)) al' /\
      (~ In RAbort (fst (ht_run keqb is_str hash t nid os)) -> R (snd (ht_run keqb is_str hash t nid os)) al').
  Proof.
    induction os as [|o os IH]; intros t al nid Ht Hlt; cbn [ht_run].
    - exists al. split; [constructor|auto].
    - destruct (step_ok t al nid o Ht Hlt) as (out & al1 & H1 & H2 & H3 & H4 & H5).
      destruct (ht_step keqb is_str hash t nid o) as [out' t']. cbn [fst snd] in *. subst out'.
      assert (Hd : out = RAbort \/ out <> RAbort) by (destruct out; auto; right; discriminate).
      destruct Hd as [->|Hn].
      + exists al. cbn [fst snd]. rewrite (H4 eq_refl) in H2. split; [apply mx_abort; exact H2|].
        intros Hc. exfalso. apply Hc. cbn; auto.
      + specialize (H5 Hn). destruct H5 as (R' & F1 & F2 & Hlt1).
        destruct (IH t' al1 (nid + 1) R' Hlt1) as (al2 & E & Hr).
        rewrite F1, F2 in E. exists al2.
        destruct (ht_run keqb is_str hash t' (nid + 1) os) as [outs t2]. cbn [fst snd] in *.
        destruct out; try congruence; cbn [fst snd];
          (split; [eapply mx_step; try eassumption; discriminate|intros Hc; apply Hr; intros Hi; apply Hc; cbn; auto]).
  Qed.

  Lemma transfer_ok t o al ao k mem : R t al -> R o ao -> (forall e, In e al -> ~ In (m_id e) (map m_id ao)) ->
    ht_nodups o && negb (length (of_key k ao) =? 0)%nat = false ->
    exists t' o', match of_key k al with
      | [] => ht_transfer keqb is_str hash t o k mem = HRet t (o, None, false, false) /\ t' = t /\ o' = o
      | e :: _ => ht_transfer keqb is_str hash t o k mem = HRet t' (o', Some (m_val e), (length al =? 1)%nat, (length ao =? 0)%nat) /\
                  R t' (without [m_id e] al) /\ R o' (ao ++ [e]) /\
                  ht_nodups t' = ht_nodups t /\ ht_abrt t' = ht_abrt t /\ ht_nodups o' = ht_nodups o /\ ht_abrt o' = ht_abrt o
      end.
  Proof.
    intros Ht Ho Hdis Hnd. pose proof (remove_by_key_ok t al k Ht) as H. unfold ht_transfer.
    destruct (of_key k al) as [|e r] eqn:Ek.
    - rewrite H. exists t, o. auto.
    - destruct H as (t' & sp & H1 & H2 & H3 & H4 & H5 & H6). rewrite H1.
      assert (Hin : In e al /\ m_key e = k) by (apply of_key_in; rewrite Ek; cbn; auto). destruct Hin as [Hin Hk].
      assert (Hids : e_id sp = m_id e) by (rewrite <- H2; reflexivity).
      assert (Hks : e_key sp = k) by (rewrite <- Hk, <- H2; reflexivity).
      pose proof (ht_insert_ok o ao sp mem Ho H3) as Hi. rewrite Hids, Hks in Hi. specialize (Hi (Hdis _ Hin)).
      rewrite Hnd in Hi. destruct Hi as (o' & I1 & I2 & I3 & I4). rewrite I1. exists t', o'.
      replace (e_val sp) with (m_val e) by (rewrite <- H2; reflexivity). rewrite <- wo_without.
      rewrite H2 in I2. auto 10.
  Qed.
End HP.
