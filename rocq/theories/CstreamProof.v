From Verif Require Import Base CstreamModel CstreamSpec.
Local Opaque BUFLEN.

Lemma memchr_spec l ch : match memchr l ch with
  | Some n => (n < length l)%nat /\ ~ In ch (firstn n l) /\ l = firstn n l ++ ch :: skipn (S n) l
  | None => ~ In ch l end.
Proof.
  induction l as [|x t IH]; cbn [memchr]; [intros []|]. destruct (Z.eqb_spec x ch) as [->|N].
  - cbn. repeat split; [lia|auto].
  - destruct (memchr t ch) as [n|]; cbn [option_map].
    + destruct IH as (H1 & H2 & H3). split; [cbn [length]; lia|]. cbn [firstn skipn]. split.
      * intros [X|X]; [congruence|auto].
      * cbn [app]. f_equal. exact H3.
    + intros [X|X]; [congruence|auto].
Qed.

(** Unread bytes of the buffer. *)
Definition win (c : conn) : list Z := firstn (epos c - ppos c) (skipn (ppos c) (inbuf c)).
Record okc (c : conn) : Prop := { o_len : length (inbuf c) = BUFLEN; o_pe : (ppos c <= epos c)%nat; o_e : (epos c <= BUFLEN)%nat }.

Lemma win_len c : okc c -> length (win c) = (epos c - ppos c)%nat.
Proof. intros []. unfold win. rewrite firstn_length, skipn_length. lia. Qed.

Lemma store_ok {A} (m : list A) i bs : (i + length bs <= length m)%nat -> store m i bs = Some (firstn i m ++ bs ++ skipn (i + length bs) m).
Proof. intros H. unfold store. destruct (Nat.leb_spec (i + length bs) (length m)); [reflexivity|lia]. Qed.

Lemma compact_ok c : okc c -> exists c1, compact c = Some c1 /\ okc c1 /\ win c1 = win c /\ ppos c1 = O /\ (epos c1 = length (win c))%nat.
Proof.
  intros O. pose proof (win_len _ O) as W. pose proof O as [L PE E]. unfold compact. destruct (Nat.eqb_spec (ppos c) 0) as [P0|P0]; cbn [orb].
  { exists c. repeat split; auto; lia. }
  destruct (Nat.eqb_spec (epos c) 0) as [E0|E0]. { lia. }
  destruct (Nat.eqb_spec (ppos c) (epos c)) as [PE'|PE'].
  { eexists. split; [reflexivity|]. cbn. split; [constructor; cbn; lia|]. assert (win c = []) by (destruct (win c); [reflexivity|cbn in W; lia]).
    rewrite H. repeat split. }
  fold (win c). rewrite store_ok by (rewrite W; lia). eexists. split; [reflexivity|]. cbn [inbuf ppos epos]. split.
  { constructor; cbn [inbuf ppos epos]; [|lia|lia]. rewrite !app_length, skipn_length, firstn_length. lia. }
  split; [|split; [reflexivity|lia]]. unfold win at 1. cbn [inbuf ppos epos skipn firstn app]. rewrite Nat.sub_0_r, <- W, firstn_app, firstn_all, Nat.sub_diag. cbn [firstn]. apply app_nil_r.
Qed.

Lemma doio_ok c sock n : okc c -> exists c1, doio c sock n = Some (c1, length (read sock (BUFLEN - length (win c)) n)) /\
  okc c1 /\ win c1 = win c ++ read sock (BUFLEN - length (win c)) n.
Proof.
  intros O. destruct (compact_ok c O) as (c1 & E & O1 & W & P & Ep). unfold doio. rewrite E, Ep. set (bs := read sock _ n).
  assert (Lb : (length bs <= BUFLEN - length (win c))%nat) by (unfold bs, read; rewrite firstn_length; lia).
  pose proof O1 as [L PE Ee]. rewrite store_ok by lia. eexists. split; [reflexivity|]. split.
  { constructor; cbn [inbuf ppos epos]; [|lia|lia]. rewrite !app_length, firstn_length, skipn_length. lia. }
  unfold win at 1. cbn [inbuf ppos epos]. rewrite P, Nat.sub_0_r. cbn [skipn]. rewrite app_assoc, firstn_app.
  assert (F : firstn (length (win c)) (inbuf c1) = win c). { rewrite <- Ep. rewrite <- W. unfold win. rewrite P, Nat.sub_0_r. reflexivity. }
  rewrite F. rewrite firstn_all2 by (rewrite app_length; lia). rewrite app_length.
  replace (length (win c) + length bs - (length (win c) + length bs))%nat with 0%nat by lia. cbn [firstn]. apply app_nil_r.
Qed.

Lemma firstn_skipn_comm' {A} m n (l : list A) : firstn m (skipn n l) = skipn n (firstn (n + m) l).
Proof. revert l. induction n as [|n IH]; intros l; [reflexivity|]. destruct l; [rewrite !skipn_nil, firstn_nil; reflexivity|]. cbn [skipn Nat.add firstn]. apply IH. Qed.

Lemma get_ok c ok : okc c ->
  (get c ok = Again /\ ~ In 10 (win c)) \/
  exists l c', get c ok = Line l ok c' /\ okc c' /\ win c = (l ++ [10]) ++ win c' /\ ~ In 10 l.
Proof.
  intros O. pose proof O as [L PE E]. unfold get. destruct (Nat.eqb_spec (epos c) (ppos c)) as [X|X].
  { left. split; [reflexivity|]. unfold win. rewrite X, Nat.sub_diag. intros []. }
  fold (win c). pose proof (memchr_spec (win c) 10) as M. pose proof (win_len _ O) as W. destruct (memchr (win c) 10) as [n|]; [|auto].
  destruct M as (H1 & H2 & H3). right. exists (firstn n (win c)), (mkConn (inbuf c) (ppos c + (n + 1)) (epos c)).
  assert (O' : okc (mkConn (inbuf c) (ppos c + (n + 1)) (epos c))) by (constructor; cbn; lia).
  assert (W' : win (mkConn (inbuf c) (ppos c + (n + 1)) (epos c)) = skipn (S n) (win c)).
  { unfold win. cbn [inbuf ppos epos]. rewrite firstn_skipn_comm', (firstn_skipn_comm' (epos c - ppos c) (ppos c)), skipn_skipn'.
    f_equal; [lia|]. f_equal. lia. }
  split; [|split; [exact O'|split; [|exact H2]]].
  - destruct ok; cbn [negb]; [|reflexivity]. rewrite store_ok; [reflexivity|]. rewrite app_length, firstn_length, repeat_length. cbn [length]. lia.
  - rewrite W', <- app_assoc. exact H3.
Qed.

Definition seen_lines (s : list (list Z * bool)) : list (list Z) := map fst s.

Lemma loop_ok alloc fuel : forall c seen, okc c -> (epos c - ppos c < fuel)%nat ->
  exists c' more, loop fuel alloc c seen = Some (c', seen ++ more) /\ okc c' /\ lines_of (win c) (map fst more) (win c') /\
    (forall i l b, nth_error more i = Some (l, b) -> b = alloc (length seen + i)%nat).
Proof.
  induction fuel as [|fuel IH]; intros c seen O F; [lia|]. cbn [loop]. destruct (get_ok c (alloc (length seen)) O) as [[E N]|(l & c' & E & O' & W & N)]; rewrite E.
  - exists c, []. rewrite app_nil_r. split; [reflexivity|]. split; [exact O|]. split; [split; [reflexivity|split; [constructor|exact N]]|]. intros [|] ? ?; discriminate.
  - destruct (IH c' (seen ++ [(l, alloc (length seen))]) O') as (c2 & more & E2 & O2 & (L1 & L2 & L3) & A).
    { pose proof (win_len _ O). pose proof (win_len _ O'). rewrite W, !app_length in H. cbn in H. lia. }
    exists c2, ((l, alloc (length seen)) :: more). rewrite E2, <- app_assoc. split; [reflexivity|]. split; [exact O2|]. split.
    + split; [|split; [|exact L3]]; cbn [map fst concat]; [rewrite W, L1, <- !app_assoc; reflexivity|constructor; assumption].
    + intros [|i] l' b; cbn [nth_error]; [intros [= <- <-]; f_equal; lia|]. intros H. apply A in H. rewrite app_length in H. cbn in H. rewrite H. f_equal. lia.
Qed.

Lemma lines_app bytes ls tail extra ls' tail' : lines_of bytes ls tail -> lines_of (tail ++ extra) ls' tail' -> lines_of (bytes ++ extra) (ls ++ ls') tail'.
Proof.
  intros (A1 & A2 & A3) (B1 & B2 & B3). split; [|split; [apply Forall_app; auto|exact B3]].
  rewrite A1, <- app_assoc, B1, map_app, concat_app, <- app_assoc. reflexivity.
Qed.

(** Invariant: [got] are the bytes read so far. *)
Record inv (alloc : nat -> bool) (w : world) (all : list Z) (got : list Z) : Prop := {
  i_ok : okc (w_conn w);
  i_all : w_closed w = false -> all = got ++ w_sock w;
  i_pre : exists rest, all = got ++ rest;
  i_lines : lines_of got (map fst (w_seen w)) (win (w_conn w));
  i_alloc : forall i l b, nth_error (w_seen w) i = Some (l, b) -> b = alloc i }.

Lemma nth_error_app_cases {A} (a b : list A) i x : nth_error (a ++ b) i = Some x -> nth_error a i = Some x \/ exists j, i = (length a + j)%nat /\ nth_error b j = Some x.
Proof.
  destruct (Nat.lt_ge_cases i (length a)).
  - rewrite nth_error_app1 by assumption. auto.
  - rewrite nth_error_app2 by assumption. intros H1. right. exists (i - length a)%nat. split; [lia|exact H1].
Qed.

Lemma step_inv alloc w all got e : inv alloc w all got -> exists w' got', step alloc w e = Some w' /\
  inv alloc w' (all ++ match e with Arrive bs => bs | Serve _ => [] end) got' /\
  (w_closed w = true -> w' = w /\ got' = got) /\
  (w_closed w = false -> match e with Arrive _ => w_closed w' = false /\ got' = got | Serve n =>
     let room := (BUFLEN - length (win (w_conn w)))%nat in
     got' = got ++ firstn (Nat.min room (S n)) (w_sock w) /\
     (w_closed w' = true <-> w_sock w = [] \/ length (win (w_conn w)) = BUFLEN) end).
Proof.
  intros I. pose proof I as [O A P L AL]. unfold step. destruct (w_closed w) eqn:C.
  { exists w, got. split; [reflexivity|]. split; [|split; [auto|discriminate]]. constructor; auto; [congruence|]. destruct P as [r ->]. exists (r ++ match e with Arrive bs => bs | Serve _ => [] end). apply app_assoc_reverse. }
  specialize (A eq_refl). destruct e as [bs|n].
  { eexists. exists got. split; [reflexivity|]. split; [|split; [discriminate|auto]]. constructor; cbn [w_conn w_sock w_seen w_closed]; auto.
    - intros _. rewrite A, app_assoc. reflexivity.
    - exists (w_sock w ++ bs). rewrite A, app_assoc. reflexivity. }
  rewrite app_nil_r. destruct (doio_ok (w_conn w) (w_sock w) (S n) O) as (c1 & E & O1 & W1). rewrite E. set (bs := read _ _ _) in *.
  assert (Hbs : bs = firstn (Nat.min (BUFLEN - length (win (w_conn w))) (S n)) (w_sock w)) by reflexivity.
  assert (Lw : (length (win (w_conn w)) <= BUFLEN)%nat) by (rewrite win_len by exact O; destruct O; lia).
  assert (Hs : w_sock w = bs ++ skipn (length bs) (w_sock w)).
  { rewrite <- (firstn_skipn (length bs) (w_sock w)) at 1. f_equal. rewrite Hbs at 2. rewrite Hbs, firstn_length.
    destruct (Nat.le_ge_cases (Nat.min (BUFLEN - length (win (w_conn w))) (S n)) (length (w_sock w))) as [H|H].
    - rewrite Nat.min_l by exact H. reflexivity.
    - rewrite Nat.min_r by exact H. rewrite firstn_all. symmetry. apply firstn_all2. exact H. }
  destruct (length bs) as [|k] eqn:Lb.
  - assert (bs = []) by (destruct bs; [reflexivity|discriminate]). eexists. exists got. split; [reflexivity|]. split; [|split; [discriminate|]].
    + constructor; cbn [w_conn w_sock w_seen w_closed]; auto; try discriminate. rewrite W1, H, app_nil_r. exact L.
    + intros _. cbn [w_closed]. rewrite <- Hbs, H, app_nil_r. split; [reflexivity|]. split; [intros _|reflexivity].
      rewrite H in Hbs. symmetry in Hbs. destruct (w_sock w) as [|x t]; [auto|]. right. destruct (BUFLEN - length (win (w_conn w)))%nat eqn:EE; [lia|discriminate].
  - destruct (loop_ok alloc (S (epos c1 - ppos c1)) c1 (w_seen w) O1 ltac:(lia)) as (c2 & more & E2 & O2 & L2 & A2). rewrite E2.
    eexists. exists (got ++ bs). split; [reflexivity|]. split; [|split; [discriminate|]].
    + assert (Ha : all = (got ++ bs) ++ skipn (S k) (w_sock w)) by (rewrite <- app_assoc, <- Hs; exact A).
      constructor; cbn [w_conn w_sock w_seen w_closed]; auto.
      * eauto.
      * rewrite map_app. rewrite W1 in L2. eapply lines_app; eauto.
      * intros i l b H. apply nth_error_app_cases in H as [H|(j & -> & H)]; [eauto|]. apply A2 in H. exact H.
    + intros _. cbn [w_closed]. split; [rewrite <- Hbs; reflexivity|]. split; [discriminate|]. intros [H|H]; exfalso.
      * rewrite H, firstn_nil in Hbs. rewrite Hbs in Lb. discriminate.
      * rewrite H, Nat.sub_diag in Hbs. cbn in Hbs. rewrite Hbs in Lb. discriminate.
Qed.

Lemma run_inv alloc es : forall w all got, inv alloc w all got -> exists w' got', run alloc w es = Some w' /\ inv alloc w' (all ++ arrived es) got'.
Proof.
  induction es as [|e es IH]; intros w all got I; cbn [run].
  - exists w, got. unfold arrived. cbn. rewrite app_nil_r. auto.
  - destruct (step_inv _ _ _ _ e I) as (w1 & g1 & -> & I1 & _). destruct (IH _ _ _ I1) as (w2 & g2 & E & I2). exists w2, g2. split; [exact E|].
    unfold arrived in *. cbn [map concat]. rewrite app_assoc. exact I2.
Qed.

Lemma inv0 alloc : inv alloc world0 [] [].
Proof.
  constructor; cbn; auto; [constructor; cbn; rewrite ?repeat_length; lia|exists []; reflexivity| |intros [|]; discriminate].
  split; [reflexivity|]. split; [constructor|]. intros [].
Qed.

Lemma lines_det b ls t ls' t' : lines_of b ls t -> lines_of b ls' t' -> ls = ls' /\ t = t'.
Proof.
  revert b ls'. induction ls as [|l ls IH]; intros b ls' (A1 & A2 & A3) (B1 & B2 & B3).
  - cbn in A1. destruct ls' as [|l' ls']; cbn in B1; [split; congruence|]. exfalso. apply A3. subst b. rewrite B1. rewrite <- !app_assoc. apply in_app_iff. right. left. reflexivity.
  - destruct ls' as [|l' ls']; cbn in B1.
    + exfalso. apply B3. subst t'. rewrite A1. cbn. rewrite <- !app_assoc. apply in_app_iff. right. left. reflexivity.
    + inversion A2; subst. inversion B2; subst. cbn [map concat] in B1.
      assert (K : forall (l l' r r' : list Z), ~ In 10 l -> ~ In 10 l' -> l ++ 10 :: r = l' ++ 10 :: r' -> l = l' /\ r = r').
      { clear. induction l as [|x l IH]; intros [|x' l'] r r' N N' E; cbn in *; injection E; intros; subst; auto; try (exfalso; tauto).
        destruct (IH l' r r'); auto. subst. auto. }
      rewrite <- !app_assoc in B1. cbn [app] in B1. destruct (K _ _ _ _ H1 H3 B1) as [<- E]. destruct (IH _ ls' (conj eq_refl (conj H2 A3))) as [-> ->]; [split; [exact E|auto]|auto].
Qed.
