From Coq Require Import List Arith Lia Bool Permutation.
From Verif Require Import PollModel PollSpec.
Import ListNotations.

(* ----- the table as a finite map ----- *)

Definition isin (T : list (nat * nat)) (u : nat) : bool := existsb (fun p => fst p =? u) T.

Definition rep (T : list (nat * nat)) (u k : nat) :=
  map (fun p => if fst p =? u then (fst p, k) else p) T.

Definition tr1 (T : list (nat * nat)) (e : entry) : option (list (nat * nat)) :=
  match e with
  | EAdd u k => if isin T u then None else Some (T ++ [(u, k)])
  | EDel u => if isin T u then Some (drop_skt T u) else None
  | EUpd u k => if isin T u then Some (rep T u k) else None
  end.

Fixpoint tr (T : list (nat * nat)) (es : list entry) : option (list (nat * nat)) :=
  match es with
  | [] => Some T
  | e :: r => match tr1 T e with Some T' => tr T' r | None => None end
  end.

Lemma tr_app : forall es T fs,
  tr T (es ++ fs) = match tr T es with Some T' => tr T' fs | None => None end.
Proof.
  induction es as [|e es IH]; intros T fs; cbn; [reflexivity|].
  destruct (tr1 T e); auto.
Qed.

Lemma isin_in : forall T u, isin T u = true <-> In u (map fst T).
Proof.
  intros T u; unfold isin; rewrite existsb_exists, in_map_iff; split.
  - intros [p [H E]]; apply Nat.eqb_eq in E; exists p; auto.
  - intros [p [E H]]; exists p; split; auto; apply Nat.eqb_eq; auto.
Qed.

Lemma isin_perm : forall A B u, Permutation A B -> isin A u = isin B u.
Proof.
  intros A B u P; destruct (isin A u) eqn:EA, (isin B u) eqn:EB; auto.
  - apply isin_in in EA. apply (Permutation_in u (Permutation_map fst P)) in EA.
    apply isin_in in EA; congruence.
  - apply isin_in in EB.
    apply (Permutation_in u (Permutation_map fst (Permutation_sym P))) in EB.
    apply isin_in in EB; congruence.
Qed.

Lemma filter_perm : forall {A} (f : A -> bool) a b,
  Permutation a b -> Permutation (filter f a) (filter f b).
Proof.
  intros A f a b P; induction P; cbn; auto.
  - destruct (f x); auto.
  - destruct (f x), (f y); auto; apply perm_swap.
  - eapply perm_trans; eauto.
Qed.

Lemma drop_cons : forall v k T u, drop_skt ((v, k) :: T) u =
  if v =? u then drop_skt T u else (v, k) :: drop_skt T u.
Proof. intros; unfold drop_skt; cbn. destruct (v =? u); reflexivity. Qed.

Lemma isin_cons : forall v k T u, isin ((v, k) :: T) u = (v =? u) || isin T u.
Proof. reflexivity. Qed.

Lemma rep_cons : forall v j T u k, rep ((v, j) :: T) u k =
  (if v =? u then (v, k) else (v, j)) :: rep T u k.
Proof. reflexivity. Qed.

Lemma drop_none : forall T u, isin T u = false -> drop_skt T u = T.
Proof.
  induction T as [|[v k] T IH]; intros u H; [reflexivity|].
  rewrite isin_cons in H. rewrite drop_cons.
  apply orb_false_iff in H; destruct H as [H1 H2].
  rewrite H1; f_equal; apply IH; exact H2.
Qed.

Lemma drop_isin : forall T u, isin (drop_skt T u) u = false.
Proof.
  induction T as [|[v k] T IH]; intros u; [reflexivity|]. rewrite drop_cons.
  destruct (v =? u) eqn:E; auto. rewrite isin_cons, E; apply IH.
Qed.

Lemma drop_isin_ne : forall T u w, w <> u -> isin (drop_skt T u) w = isin T w.
Proof.
  induction T as [|[v k] T IH]; intros u w N; [reflexivity|]. rewrite drop_cons, isin_cons.
  destruct (v =? u) eqn:E; rewrite ?isin_cons.
  - apply Nat.eqb_eq in E; subst.
    destruct (u =? w) eqn:F; [apply Nat.eqb_eq in F; congruence|]. cbn; apply IH; auto.
  - f_equal; apply IH; auto.
Qed.

Lemma NoDup_drop : forall T u, NoDup (map fst T) -> NoDup (map fst (drop_skt T u)).
Proof.
  induction T as [|[v k] T IH]; intros u H; [auto|]. rewrite drop_cons. cbn [map fst] in *.
  inversion H; subst. destruct (v =? u) eqn:E; cbn [map fst]; auto.
  constructor; auto. intro C; apply isin_in in C.
  rewrite drop_isin_ne in C by (apply Nat.eqb_neq in E; auto).
  apply isin_in in C; auto.
Qed.

Lemma get_isin : forall T u, (exists k, get_skt T u = Some k) <-> isin T u = true.
Proof.
  induction T as [|[v k] T IH]; intros u; cbn.
  - split; [intros [k H]; discriminate | discriminate].
  - destruct (v =? u); cbn; [split; eauto | apply IH].
Qed.

Lemma get_none : forall T u, get_skt T u = None -> isin T u = false.
Proof.
  intros T u H; destruct (isin T u) eqn:E; auto.
  apply get_isin in E; destruct E; congruence.
Qed.

Lemma rep_fst : forall T u k, map fst (rep T u k) = map fst T.
Proof.
  intros T u k; unfold rep; rewrite map_map; apply map_ext.
  intros [v j]; cbn; destruct (v =? u); reflexivity.
Qed.

Lemma rep_none : forall T u k, isin T u = false -> rep T u k = T.
Proof.
  induction T as [|[v j] T IH]; intros u k H; [reflexivity|]. rewrite isin_cons in H. rewrite rep_cons.
  apply orb_false_iff in H; destruct H as [H1 H2]. rewrite H1; f_equal; apply IH; auto.
Qed.

Lemma rep_perm : forall T u k, NoDup (map fst T) -> isin T u = true ->
  Permutation (rep T u k) (drop_skt T u ++ [(u, k)]).
Proof.
  induction T as [|[v j] T IH]; intros u k N H; [discriminate|].
  rewrite isin_cons in H. rewrite rep_cons, drop_cons. cbn [map fst] in N.
  inversion N; subst. destruct (v =? u) eqn:E; cbn [app].
  - apply Nat.eqb_eq in E; subst v.
    assert (isin T u = false) as F
      by (destruct (isin T u) eqn:F; auto; apply isin_in in F; contradiction).
    rewrite rep_none, drop_none by auto.
    apply Permutation_cons_append.
  - apply perm_skip; apply IH; auto.
Qed.

(* the model's index based operations *)
Lemma find_isin : forall T u, find_idx T u = None <-> isin T u = false.
Proof.
  induction T as [|[v k] T IH]; intros u; cbn; [tauto|].
  destruct (v =? u); cbn; [split; discriminate|].
  destruct (find_idx T u) eqn:E; cbn.
  - split; [discriminate|]. intro H; apply IH in H; congruence.
  - split; auto; intros _; apply IH; auto.
Qed.

Lemma find_some : forall T u i, NoDup (map fst T) -> find_idx T u = Some i ->
  exists A B k, T = A ++ (u, k) :: B /\ length A = i /\ isin A u = false /\ isin B u = false.
Proof.
  induction T as [|[v k] T IH]; intros u i N H; cbn in *; [discriminate|].
  inversion N; subst. destruct (v =? u) eqn:E.
  - injection H as <-. apply Nat.eqb_eq in E; subst v.
    exists [], T, k; repeat split; auto.
    destruct (isin T u) eqn:F; auto; apply isin_in in F; contradiction.
  - destruct (find_idx T u) as [j|] eqn:F; cbn in H; [|discriminate].
    injection H as <-. destruct (IH u j H3 F) as (A & B & k' & -> & L & IA & IB).
    exists ((v, k) :: A), B, k'; rewrite isin_cons, E; cbn [length app]; auto.
Qed.

Lemma drop_app : forall A B u, drop_skt (A ++ B) u = drop_skt A u ++ drop_skt B u.
Proof. intros; apply filter_app. Qed.

Lemma remove_at_drop : forall A B u k, isin A u = false -> isin B u = false ->
  remove_at (A ++ (u, k) :: B) (length A) = A ++ B /\
  drop_skt (A ++ (u, k) :: B) u = A ++ B.
Proof.
  intros A B u k HA HB; split.
  - unfold remove_at. rewrite firstn_app, firstn_all, Nat.sub_diag, firstn_O, app_nil_r.
    f_equal. rewrite skipn_app. rewrite skipn_all2 by lia.
    replace (S (length A) - length A) with 1 by lia. reflexivity.
  - rewrite drop_app, (drop_none A) by auto. f_equal.
    rewrite drop_cons, Nat.eqb_refl. apply drop_none; auto.
Qed.

Lemma nth_mid : forall (A B : list (nat * nat)) p d, nth (length A) (A ++ p :: B) d = p.
Proof. intros; rewrite app_nth2 by lia; rewrite Nat.sub_diag; reflexivity. Qed.

Lemma set_at_rep : forall A B u k j, isin A u = false -> isin B u = false ->
  set_at (A ++ (u, k) :: B) (length A) (u, j) = A ++ (u, j) :: B /\
  rep (A ++ (u, k) :: B) u j = A ++ (u, j) :: B.
Proof.
  intros A B u k j HA HB; split.
  - unfold set_at. rewrite firstn_app, firstn_all, Nat.sub_diag, firstn_O, app_nil_r.
    f_equal. f_equal. rewrite skipn_app. rewrite skipn_all2 by lia.
    replace (S (length A) - length A) with 1 by lia. reflexivity.
  - unfold rep; rewrite map_app. fold (rep A u j). rewrite rep_none by auto. f_equal.
    fold (rep ((u, k) :: B) u j). rewrite rep_cons, Nat.eqb_refl; f_equal. apply rep_none; auto.
Qed.

(* ----- removing one occurrence ----- *)
Lemma existsb_in : forall l k, existsb (Nat.eqb k) l = true <-> In k l.
Proof.
  intros; rewrite existsb_exists; split.
  - intros [x [H E]]; apply Nat.eqb_eq in E; subst; auto.
  - intro H; exists k; split; auto; apply Nat.eqb_refl.
Qed.

Lemma rem1_perm : forall l k m, Permutation l (k :: m) -> Permutation (rem1 l k) m.
Proof.
  intros l k m P.
  assert (forall l, In k l -> Permutation l (k :: rem1 l k)) as Q.
  { clear. induction l as [|x l IH]; intro H; [destruct H|]. cbn.
    destruct (x =? k) eqn:E.
    - apply Nat.eqb_eq in E; subst; auto.
    - destruct H as [->|H]; [rewrite Nat.eqb_refl in E; discriminate|].
      eapply perm_trans; [apply perm_skip, IH, H|]. apply perm_swap. }
  assert (In k l) as H by (apply (Permutation_in k (Permutation_sym P)); left; auto).
  apply Permutation_cons_inv with k.
  eapply perm_trans; [apply Permutation_sym, Q, H | exact P].
Qed.

(* ----- the invariant ----- *)
Definition pending (s : st) := cur s ++ log s.
Definition refs (s : st) := map snd (tbl s) ++ flat_map esock (pending s).

Record Inv (s : st) : Prop := {
  i_map : exists T, tr (tbl s) (pending s) = Some T /\ Permutation T (skts s);
  i_uniq : NoDup (map fst (tbl s));
  i_suniq : NoDup (map fst (skts s));
  i_refs : NoDup (refs s);
  i_polled : Permutation (polled s) (map snd (tbl s));
  i_held : Permutation (held s) (refs s);
  i_log : length (log s) <= p_len (alen s) /\ p_cap (alen s) = p_len (alen s) /\
          p_cap (shlen s) = p_len (shlen s);
  i_tbl : length (tbl s) + length (cur s) <= taloc s
}.

Lemma inv_init : Inv init.
Proof.
  constructor; cbn; try lia; try apply NoDup_nil; try apply perm_nil.
  exists []; split; auto.
Qed.

Lemma room_le : forall s ok al, room s ok = Some al ->
  length (log s) <= p_len (alen s) /\ p_cap (alen s) = p_len (alen s) /\
  p_cap (shlen s) = p_len (shlen s) ->
  length (log s) < p_len al /\ p_cap al = p_len al.
Proof.
  intros s ok al H (L & L2 & _); unfold room in H.
  destruct (length (log s) =? p_len (alen s)) eqn:E.
  - destruct ok; [|discriminate]. injection H as <-. apply Nat.eqb_eq in E. cbn. unfold ilen; lia.
  - injection H as <-. apply Nat.eqb_neq in E; lia.
Qed.

Lemma inv_with_room : forall s al, Inv s -> length (log s) <= p_len al -> p_cap al = p_len al -> Inv (with_room s al).
Proof. intros s al [? ? ? ? ? ? L0 ?] L L2; constructor; cbn; auto. destruct L0 as (_ & _ & ?). auto. Qed.

Lemma tr1_uniq : forall T e T', tr1 T e = Some T' -> NoDup (map fst T) -> NoDup (map fst T').
Proof.
  intros T e T' H N; destruct e as [u k|u|u k]; cbn in H;
    destruct (isin T u) eqn:E; try discriminate; injection H as <-.
  - rewrite map_app; cbn.
    apply (Permutation_NoDup (Permutation_cons_append (map fst T) u)).
    constructor; auto. intro C; apply isin_in in C; congruence.
  - apply NoDup_drop; auto.
  - rewrite rep_fst; auto.
Qed.

Lemma tr_uniq : forall es T T', tr T es = Some T' -> NoDup (map fst T) -> NoDup (map fst T').
Proof.
  induction es as [|e es IH]; intros T T' H N; cbn in H; [injection H as <-; auto|].
  destruct (tr1 T e) eqn:E; [|discriminate]. eapply IH; eauto. eapply tr1_uniq; eauto.
Qed.

(* one more entry in the log *)
Lemma inv_record : forall s al sk e s',
  Inv s -> record s al sk e = Ok s' -> p_cap al = p_len al ->
  (forall k, In k (esock e) -> ~ In k (held s)) ->
  NoDup (map fst sk) ->
  (forall T, NoDup (map fst T) -> Permutation T (skts s) ->
     exists T', tr1 T e = Some T' /\ Permutation T' sk) ->
  Inv s'.
Proof.
  intros s al sk e s' [[T [HT PT]] U SU RF PO HE LO TB] R CL F NS M.
  unfold record in R. destruct (length (log s) <? p_cap al) eqn:E; [|discriminate].
  apply Nat.ltb_lt in E. injection R as <-.
  assert (refs (mkst sk (log s ++ [e]) al (shlen s) (cur s) (tbl s) (taloc s) (polled s)
    (held s ++ esock e)) = refs s ++ esock e) as RR.
  { unfold refs, pending; cbn. rewrite (app_assoc (cur s)), (flat_map_app esock (cur s ++ log s)), app_assoc.
    cbn. rewrite app_nil_r. reflexivity. }
  constructor; try rewrite RR; cbn [skts log alen shlen cur tbl taloc polled held]; auto.
  - destruct (M T) as [T' [H1 H2]]; [eapply tr_uniq; eauto | auto |].
    exists T'; split; auto. unfold pending in *; cbn.
    rewrite app_assoc, tr_app, HT; cbn. rewrite H1; auto.
  - destruct e as [u k|u|u k]; cbn [esock] in *; rewrite ?app_nil_r; auto;
      apply (Permutation_NoDup (Permutation_cons_append (refs s) k)); constructor; auto;
      intro C; apply (F k); [left; auto| | left; auto |];
      eapply Permutation_in; [apply Permutation_sym; eauto| |apply Permutation_sym; eauto|];
      auto.
  - apply Permutation_app_tail; auto.
  - rewrite app_length; cbn; lia.
Qed.

Lemma record_ok : forall s al sk e, length (log s) < p_len al -> p_cap al = p_len al -> exists s', record s al sk e = Ok s'.
Proof.
  intros s al sk e H H2; unfold record. rewrite H2. apply Nat.ltb_lt in H; rewrite H; eauto.
Qed.

Lemma NoDup_put : forall m u k, NoDup (map fst m) -> NoDup (map fst (put_skt m u k)).
Proof.
  intros m u k N; unfold put_skt; rewrite map_app; cbn.
  apply (Permutation_NoDup (Permutation_cons_append (map fst (drop_skt m u)) u)).
  constructor; [|apply NoDup_drop; auto].
  intro C; apply isin_in in C; rewrite drop_isin in C; discriminate.
Qed.

Lemma add_maps : forall m u k, isin m u = false ->
  forall T, NoDup (map fst T) -> Permutation T m ->
  exists T', tr1 T (EAdd u k) = Some T' /\ Permutation T' (put_skt m u k).
Proof.
  intros m u k F T N P. exists (T ++ [(u, k)]); cbn.
  rewrite (isin_perm T m) by auto. rewrite F. split; auto.
  unfold put_skt; rewrite drop_none by auto. apply Permutation_app_tail; auto.
Qed.

Lemma upd_maps : forall m u k, isin m u = true ->
  forall T, NoDup (map fst T) -> Permutation T m ->
  exists T', tr1 T (EUpd u k) = Some T' /\ Permutation T' (put_skt m u k).
Proof.
  intros m u k F T N P. exists (rep T u k); cbn.
  assert (isin T u = true) as F' by (rewrite (isin_perm T m); auto).
  rewrite F'. split; auto. eapply perm_trans; [apply rep_perm; auto|].
  unfold put_skt. apply Permutation_app_tail. apply filter_perm; auto.
Qed.

Lemma del_maps : forall m u, isin m u = true ->
  forall T, NoDup (map fst T) -> Permutation T m ->
  exists T', tr1 T (EDel u) = Some T' /\ Permutation T' (drop_skt m u).
Proof.
  intros m u F T N P. exists (drop_skt T u); cbn.
  assert (isin T u = true) as F' by (rewrite (isin_perm T m); auto).
  rewrite F'. split; auto. apply filter_perm; auto.
Qed.

Lemma append_inv : forall s u k ok other, Inv s ->
  ~ has (skts s) u -> ~ In k (held s) ->
  exists s' b, append s u k ok other = Ok (s', b) /\ Inv s'.
Proof.
  intros s u k ok other I NU NK; unfold append.
  destruct (room s ok) as [al|] eqn:R; [|exists s, false; auto].
  assert (length (log s) < p_len al /\ p_cap al = p_len al) as (L & L2) by (eapply room_le; eauto; apply I).
  destruct other; [|exists (with_room s al), false; split; auto; apply inv_with_room; auto; lia].
  destruct (record_ok s al (put_skt (skts s) u k) (EAdd u k) L L2) as [s' E].
  rewrite E; cbn. exists s', true; split; auto.
  eapply inv_record; eauto.
  - intros j [<-|[]]; auto.
  - apply NoDup_put, I.
  - apply add_maps. destruct (isin (skts s) u) eqn:F; auto.
    apply isin_in in F; contradiction.
Qed.

Lemma update_inv : forall s u k ok other, Inv s -> ~ In k (held s) ->
  exists s' b, update s u k ok other = Ok (s', b) /\ Inv s'.
Proof.
  intros s u k ok other I NK; unfold update.
  destruct (room s ok) as [al|] eqn:R; [|exists s, false; auto].
  assert (length (log s) < p_len al /\ p_cap al = p_len al) as (L & L2) by (eapply room_le; eauto; apply I).
  destruct other; [|exists (with_room s al), false; split; auto; apply inv_with_room; auto; lia].
  cbv zeta. destruct (get_skt (skts s) u) as [j|] eqn:G.
  - destruct (record_ok s al (put_skt (skts s) u k) (EUpd u k) L L2) as [s' E].
    rewrite E; cbn. exists s', true; split; auto.
    eapply inv_record; eauto.
    + intros i [<-|[]]; auto.
    + apply NoDup_put, I.
    + apply upd_maps. apply get_isin; eauto.
  - destruct (record_ok s al (put_skt (skts s) u k) (EAdd u k) L L2) as [s' E].
    rewrite E; cbn. exists s', true; split; auto.
    eapply inv_record; eauto.
    + intros i [<-|[]]; auto.
    + apply NoDup_put, I.
    + apply add_maps. apply get_none; auto.
Qed.

Lemma remove_inv : forall s u, Inv s ->
  exists s', remove s u true true = Ok (s', true) /\ Inv s'.
Proof.
  intros s u I; unfold remove.
  destruct (get_skt (skts s) u) as [j|] eqn:G; [|exists s; auto].
  assert (exists al, room s true = Some al) as [al R]
    by (unfold room; destruct (_ =? _); eauto).
  cbv zeta; rewrite R.
  assert (length (log s) < p_len al /\ p_cap al = p_len al) as (L & L2) by (eapply room_le; eauto; apply I).
  destruct (record_ok s al (drop_skt (skts s) u) (EDel u) L L2) as [s' E].
  rewrite E; cbn. exists s'; split; auto.
  eapply inv_record; eauto.
  - apply NoDup_drop, I.
  - apply del_maps. apply get_isin; eauto.
Qed.

Lemma sync_inv : forall s, Inv s -> cur s = [] -> Inv (fst (sync_start s true)).
Proof.
  intros s I C; unfold sync_start. destruct (log s) as [|e l] eqn:L; [exact I|].
  rewrite <- L in *.
  destruct I as [[T [HT PT]] U SU RF PO HE LO TB].
  unfold pending in HT; rewrite C in HT; cbn in HT.
  assert (refs s = map snd (tbl s) ++ flat_map esock (log s)) as RS
    by (unfold refs, pending; rewrite C; reflexivity).
  destruct (taloc s - length (tbl s) <? length (log s)) eqn:G; cbn [fst];
    (constructor; unfold refs, pending; cbn [skts log alen shlen cur tbl taloc polled held];
     rewrite ?app_nil_r, <- ?RS; auto).
  - exists T; auto.
  - cbn; lia.
  - lia.
  - exists T; auto.
  - cbn; lia.
  - apply Nat.ltb_ge in G. rewrite C in TB; cbn in TB. lia.
Qed.

Lemma sync_cur : forall s, cur s = [] -> cur (fst (sync_start s true)) = log s.
Proof.
  intros s C; unfold sync_start. destruct (log s) eqn:L; [auto|].
  destruct (_ <? _); reflexivity.
Qed.

Lemma sync_tbl : forall s ok, tbl (fst (sync_start s ok)) = tbl s.
Proof.
  intros s ok; unfold sync_start. destruct (log s); [auto|].
  destruct (_ <? _); [destruct ok|]; reflexivity.
Qed.

Lemma nodup_mid : forall (A B : list nat) x, NoDup (A ++ x :: B) -> NoDup (A ++ B).
Proof. intros; eapply NoDup_remove_1; eauto. Qed.

Lemma replay_inv : forall s, Inv s ->
  exists s', replay1 s = Ok s' /\ Inv s' /\
    match cur s with
    | [] => s' = s
    | e :: r => cur s' = r /\ tr1 (tbl s) e = Some (tbl s') /\ log s' = log s /\
                skts s' = skts s
    end.
Proof.
  intros s [[T [HT PT]] U SU RF PO HE LO TB]. unfold replay1.
  destruct (cur s) as [|e r] eqn:C.
  { exists s. split; [reflexivity|]. split; [|reflexivity]. constructor; auto; [exists T; auto | rewrite C; auto]. }
  unfold pending in HT; rewrite C in HT; cbn [app tr] in HT.
  destruct (tr1 (tbl s) e) as [T1|] eqn:E1; [|discriminate].
  assert (refs s = map snd (tbl s) ++ esock e ++ flat_map esock (r ++ log s)) as RS
    by (unfold refs, pending; rewrite C; reflexivity).
  rewrite RS in RF, HE. cbn [length] in TB.
  assert (U1 := tr1_uniq _ _ _ E1 U).
  destruct e as [u k|u|u k]; cbn [tr1] in E1; cbn [esock] in *; cbv zeta.
  - destruct (isin (tbl s) u) eqn:F; [discriminate|]. injection E1 as <-.
    rewrite (proj2 (find_isin (tbl s) u) F).
    assert (~ In k (polled s)) as NK.
    { intro H. apply (Permutation_in k PO) in H.
      cbn in RF. apply NoDup_remove_2 in RF. apply RF, in_or_app; auto. }
    unfold ep_add. destruct (existsb (Nat.eqb k) (polled s)) eqn:X;
      [apply existsb_in in X; contradiction|]. cbn [bindr].
    destruct (length (tbl s) <? taloc s) eqn:Y; [|apply Nat.ltb_ge in Y; lia].
    eexists; split; [reflexivity|]. cbn [cur tbl log skts]. split; [|auto].
    constructor; unfold refs, pending; cbn [skts log alen shlen cur tbl taloc polled held]; auto.
    + exists T; auto.
    + rewrite map_app; cbn. rewrite <- app_assoc; exact RF.
    + rewrite map_app; cbn. apply Permutation_app_tail; auto.
    + rewrite map_app; cbn. rewrite <- app_assoc; exact HE.
    + rewrite app_length; cbn; lia.
  - destruct (isin (tbl s) u) eqn:F; [|discriminate]. injection E1 as <-.
    destruct (find_idx (tbl s) u) as [i|] eqn:FI; [|apply find_isin in FI; congruence].
    destruct (find_some _ _ _ U FI) as (A & B & k & TE & LA & IA & IB).
    rewrite TE in *. subst i. rewrite nth_mid; cbn [snd].
    destruct (remove_at_drop A B u k IA IB) as [R1 R2]. rewrite R1, R2 in *.
    rewrite map_app in PO, RF, HE; cbn [map snd app] in PO, RF, HE.
    assert (In k (polled s)) as IK.
    { apply (Permutation_in k (Permutation_sym PO)). apply in_or_app; right; left; auto. }
    unfold ep_del. rewrite (proj2 (existsb_in (polled s) k) IK). cbn [bindr].
    eexists; split; [reflexivity|]. cbn [cur tbl log skts]. split; [|auto].
    constructor; unfold refs, pending; cbn [skts log alen shlen cur tbl taloc polled held]; auto.
    + exists T; auto.
    + rewrite map_app. rewrite <- app_assoc in RF. apply NoDup_remove_1 in RF.
      rewrite <- app_assoc; exact RF.
    + rewrite map_app. apply rem1_perm. eapply perm_trans; [exact PO|].
      apply Permutation_sym, Permutation_middle.
    + rewrite map_app. apply rem1_perm. eapply perm_trans; [exact HE|].
      rewrite <- !app_assoc. apply Permutation_sym, Permutation_middle.
    + rewrite app_length in TB |- *; cbn in TB; lia.
  - destruct (isin (tbl s) u) eqn:F; [|discriminate]. injection E1 as <-.
    destruct (find_idx (tbl s) u) as [i|] eqn:FI; [|apply find_isin in FI; congruence].
    destruct (find_some _ _ _ U FI) as (A & B & j & TE & LA & IA & IB).
    rewrite TE in *. subst i. rewrite nth_mid; cbn [snd fst].
    destruct (set_at_rep A B u j k IA IB) as [R1 R2]. rewrite R1, R2 in *.
    rewrite map_app in PO, RF, HE; cbn [map snd app] in PO, RF, HE.
    assert (In j (polled s)) as IK.
    { apply (Permutation_in j (Permutation_sym PO)). apply in_or_app; right; left; auto. }
    unfold ep_del. rewrite (proj2 (existsb_in (polled s) j) IK). cbn [bindr].
    assert (Permutation (rem1 (polled s) j) (map snd A ++ map snd B)) as PR.
    { apply rem1_perm. eapply perm_trans; [exact PO|].
      apply Permutation_sym, Permutation_middle. }
    assert (RF' : NoDup ((map snd A ++ map snd B) ++ k :: flat_map esock (r ++ log s))).
    { rewrite <- app_assoc in RF. apply NoDup_remove_1 in RF.
      rewrite <- app_assoc; exact RF. }
    assert (~ In k (rem1 (polled s) j)) as NK.
    { intro H. apply (Permutation_in k PR) in H.
      apply NoDup_remove_2 in RF'. apply RF', in_or_app; auto. }
    unfold ep_add. destruct (existsb (Nat.eqb k) (rem1 (polled s) j)) eqn:X;
      [apply existsb_in in X; contradiction|]. cbn [bindr].
    eexists; split; [reflexivity|]. cbn [cur tbl log skts]. split; [|auto].
    constructor; unfold refs, pending; cbn [skts log alen shlen cur tbl taloc polled held]; auto.
    + exists T; auto.
    + rewrite map_app; cbn [map snd].
      rewrite <- app_assoc in RF' |- *; cbn [app].
      eapply Permutation_NoDup; [|exact RF'].
      apply Permutation_app_head. apply Permutation_sym, Permutation_middle.
    + rewrite map_app; cbn [map snd].
      eapply perm_trans; [apply Permutation_app_tail, PR|].
      rewrite <- app_assoc. apply Permutation_app_head.
      apply Permutation_sym, Permutation_cons_append.
    + rewrite map_app; cbn [map snd].
      assert (Permutation (rem1 (held s) j)
        ((map snd A ++ map snd B) ++ k :: flat_map esock (r ++ log s))) as PH.
      { apply rem1_perm. eapply perm_trans; [exact HE|].
        rewrite <- !app_assoc. apply Permutation_sym, Permutation_middle. }
      eapply perm_trans; [exact PH|]. rewrite <- !app_assoc. cbn [app].
      apply Permutation_app_head. apply Permutation_sym, Permutation_middle.
    + rewrite app_length in TB |- *; cbn in TB |- *; lia.
Qed.

Lemma step_inv : forall s o, Inv s -> legal s o -> enough o ->
  exists s', step s o = Ok s' /\ Inv s'.
Proof.
  intros s o I L M; destruct o as [u k ok other|u k ok other|u ok other|ok|];
    cbn [step legal enough] in *.
  - destruct L as [L1 L2]. destruct (append_inv s u k ok other I L1 L2) as (s' & b & E & I').
    rewrite E; cbn; eauto.
  - destruct (update_inv s u k ok other I L) as (s' & b & E & I'). rewrite E; cbn; eauto.
  - destruct M as [-> ->]. destruct (remove_inv s u I) as (s' & E & I'). rewrite E; cbn; eauto.
  - subst ok. exists (fst (sync_start s true)); split; auto. apply sync_inv; auto.
  - destruct (replay_inv s I) as (s' & E & I' & _). eauto.
Qed.

Lemma run_inv : forall os s, Inv s -> legals s os -> Forall enough os ->
  exists s', run s os = Ok s' /\ Inv s'.
Proof.
  induction os as [|o os IH]; intros s I L M; cbn [run legals] in *; [eauto|].
  inversion M; subst. destruct L as [L1 L2].
  destruct (step_inv s o I L1 H1) as (s' & E & I'). rewrite E in L2 |- *; cbn [bindr].
  apply IH; auto.
Qed.

(* the operations on the log leave the replay alone *)
Lemma step_aside : forall s o s', legal s o -> not_sync o -> step s o = Ok s' ->
  o <> PReplay -> cur s' = cur s /\ tbl s' = tbl s.
Proof.
  intros s o s' L N E X; destruct o as [u k ok other|u k ok other|u ok other|ok|];
    cbn in E, N; try contradiction; try congruence.
  - unfold append in E. destruct (room s ok); cbn in E; [|injection E as <-; auto].
    destruct other; cbn in E; [|injection E as <-; auto].
    unfold record in E. destruct (_ <? _); cbn in E; [injection E as <-; auto|discriminate].
  - unfold update in E. destruct (room s ok); cbn in E; [|injection E as <-; auto].
    destruct other; cbn in E; [|injection E as <-; auto].
    unfold record in E. destruct (_ <? _); cbn in E; [injection E as <-; auto|discriminate].
  - unfold remove in E. destruct (get_skt (skts s) u); cbn in E; [|injection E as <-; auto].
    destruct (room s ok); cbn in E; [|injection E as <-; auto].
    destruct other; cbn in E; [|injection E as <-; auto].
    unfold record in E. destruct (_ <? _); cbn in E; [injection E as <-; auto|discriminate].
Qed.

Lemma mid_tr : forall os s s', Inv s -> legals s os -> Forall enough os ->
  Forall not_sync os -> run s os = Ok s' ->
  tr (tbl s') (cur s') = tr (tbl s) (cur s).
Proof.
  induction os as [|o os IH]; intros s s' I L M N R; cbn [run legals] in *.
  - injection R as <-; auto.
  - inversion M; subst. inversion N; subst. destruct L as [L1 L2].
    destruct (step_inv s o I L1 H1) as (s1 & E & I1). rewrite E in L2, R; cbn [bindr] in R.
    rewrite (IH s1 s'); auto.
    assert ((o = PReplay) \/ o <> PReplay) as [->|D]
      by (destruct o; auto; right; discriminate).
    + cbn in E. destruct (replay_inv s I) as (s2 & E2 & _ & W). rewrite E in E2.
      assert (s2 = s1) as -> by congruence. clear E2.
      destruct (cur s) as [|e r] eqn:C; [subst s1; rewrite C; auto|].
      destruct W as (W1 & W2 & _). rewrite W1; cbn. rewrite W2; auto.
    + destruct (step_aside s o s1 L1 H3 E D) as [-> ->]. auto.
Qed.

(* enough replay steps empty what was taken *)
Lemma replays_done : forall n s, Inv s -> length (cur s) <= n ->
  exists s', run s (repeat PReplay n) = Ok s' /\ Inv s' /\ cur s' = [] /\
             tr (tbl s) (cur s) = Some (tbl s') /\ log s' = log s /\ skts s' = skts s.
Proof.
  induction n as [|n IH]; intros s I L; cbn [repeat run].
  - exists s. destruct (cur s) as [|e r] eqn:C; cbn in L; [|lia].
    split; [auto|]. split; [auto|]. cbn; auto.
  - destruct (replay_inv s I) as (s1 & E & I1 & W). cbn [step]. rewrite E; cbn [bindr].
    destruct (cur s) as [|e r] eqn:C.
    + subst s1. destruct (IH s I) as (s2 & R & I2 & C2 & T2 & G2); [rewrite C; cbn; lia|].
      exists s2. rewrite C in T2. auto.
    + destruct W as (W1 & W2 & W3 & W4). destruct (IH s1 I1) as (s2 & R & I2 & C2 & T2 & G2 & K2);
        [rewrite W1; cbn in L; lia|].
      exists s2. rewrite W1 in T2. cbn [tr]. rewrite W2, <- W3, <- W4. auto 10.
Qed.

Lemma get_drop : forall m u w, get_skt (drop_skt m u) w = if w =? u then None else get_skt m w.
Proof.
  induction m as [|[v k] m IH]; intros u w; [destruct (w =? u); reflexivity|].
  rewrite drop_cons. destruct (v =? u) eqn:E.
  - rewrite IH. apply Nat.eqb_eq in E; subst v. cbn.
    rewrite (Nat.eqb_sym u w). destruct (w =? u); auto.
  - cbn. rewrite IH. destruct (v =? w) eqn:F; auto.
    apply Nat.eqb_eq in F; subst v. rewrite E; auto.
Qed.

Lemma get_app1 : forall m u k w, isin m u = false ->
  get_skt (m ++ [(u, k)]) w = if w =? u then Some k else get_skt m w.
Proof.
  induction m as [|[v j] m IH]; intros u k w H; cbn [app get_skt].
  - rewrite (Nat.eqb_sym u w); destruct (w =? u); auto.
  - rewrite isin_cons in H; apply orb_false_iff in H; destruct H as [H1 H2].
    rewrite IH by auto. destruct (v =? w) eqn:F; auto.
    apply Nat.eqb_eq in F; subst v. rewrite H1; auto.
Qed.

Lemma get_put : forall m u k w, get_skt (put_skt m u k) w = if w =? u then Some k else get_skt m w.
Proof.
  intros; unfold put_skt. rewrite get_app1 by apply drop_isin.
  rewrite get_drop. destruct (w =? u); auto.
Qed.

Lemma room_true : forall s, exists al, room s true = Some al.
Proof. intro s; unfold room; destruct (_ =? _); eauto. Qed.

Lemma set_socket : forall s u k ok other s' b, 
  append s u k ok other = Ok (s', b) \/ update s u k ok other = Ok (s', b) ->
  (ok = true -> other = true -> b = true) /\
  forall w, get_skt (skts s') w = if b && (w =? u) then Some k else get_skt (skts s) w.
Proof.
  intros s u k ok other s' b H. split.
  - intros -> ->. destruct (room_true s) as [al R].
    destruct H as [H|H]; unfold append, update in H; rewrite R in H; cbv zeta in H;
      unfold record in H; destruct (_ <? _); cbn in H; congruence.
  - intro w. destruct H as [H|H]; unfold append, update in H;
      (destruct (room s ok) as [al|]; [|injection H as <- <-; auto]);
      (destruct other; [|injection H as <- <-; auto]);
      cbv zeta in H; unfold record in H; destruct (_ <? _); cbn in H; try discriminate;
      injection H as <- <-; cbn [skts andb]; apply get_put.
Qed.

Lemma unset_socket : forall s u ok other s' b,
  remove s u ok other = Ok (s', b) ->
  (ok = true -> other = true -> b = true) /\
  forall w, get_skt (skts s') w = if w =? u then None else get_skt (skts s) w.
Proof.
  intros s u ok other s' b H. unfold remove in H.
  destruct (get_skt (skts s) u) as [j|] eqn:G.
  - split.
    + intros -> ->. destruct (room_true s) as [al R]. rewrite R in H; cbv zeta in H.
      unfold record in H; destruct (_ <? _); cbn in H; congruence.
    + intro w. destruct (room s ok) as [al|]; [|injection H as <- <-; apply get_drop].
      destruct other; [|injection H as <- <-; apply get_drop].
      cbv zeta in H; unfold record in H; destruct (_ <? _); cbn in H; try discriminate.
      injection H as <- <-; apply get_drop.
  - injection H as <- <-. split; auto. intro w. destruct (w =? u) eqn:E; auto.
    apply Nat.eqb_eq in E; subst; auto.
Qed.

Lemma get_perm : forall A B u, NoDup (map fst A) -> Permutation A B -> get_skt A u = get_skt B u.
Proof.
  intros A B u N P; induction P as [|[v k] A B P IH|[v k] [w j] A|A B C P1 IH1 P2 IH2]; auto.
  - cbn. cbn in N; inversion N; subst. destruct (v =? u); auto.
  - cbn in *. destruct (v =? u) eqn:E, (w =? u) eqn:F; auto.
    apply Nat.eqb_eq in E, F; subst. inversion N; subst. exfalso; apply H1; left; auto.
  - rewrite IH1 by auto. apply IH2. eapply Permutation_NoDup; [apply Permutation_map, P1|auto].
Qed.
