From Verif Require Import Base Str TickModel TickSpec.

Lemma set_same f t v : set_th f t v t = v.
Proof. unfold set_th. now rewrite Nat.eqb_refl. Qed.
Lemma set_other f t u v : t <> u -> set_th f t v u = f u.
Proof. intros H. unfold set_th. destruct (Nat.eqb_spec t u); congruence. Qed.

Section M.
  Context (m : Z) (n : nat) (Hm : 0 < m) (Hn : Z.of_nat n <= m).

  (** threads that wait with tickets k, k+1, ... and the lines they have *)
  Fixpoint waits (f : nat -> tst) (k : Z) (ws : list nat) (ls : list (list Z)) : Prop :=
    match ws, ls with
    | [], [] => True
    | t :: ws, l :: ls => f t = TWait (k mod m) l /\ waits f (k + 1) ws ls
    | _, _ => False
    end.
  Lemma waits_in f t : forall ws ls k, waits f k ws ls -> In t ws -> exists i l, 0 <= i < Z.of_nat (length ws) /\ f t = TWait ((k + i) mod m) l.
  Proof.
    induction ws as [|u ws IH]; intros [|l ls] k W I; cbn [waits] in W; try contradiction. destruct W as [W1 W2]. destruct I as [->|I].
    - exists 0, l. rewrite Z.add_0_r. cbn [length]. split; [lia | exact W1].
    - destruct (IH ls (k + 1) W2 I) as (i & l' & Hi & E). exists (i + 1), l'. cbn [length]. split; [lia|]. rewrite E. do 2 f_equal. lia.
  Qed.
  Lemma waits_set f t v : forall ws ls k, ~ In t ws -> waits f k ws ls -> waits (set_th f t v) k ws ls.
  Proof.
    induction ws as [|u ws IH]; intros [|l ls] k N W; cbn [waits] in *; auto. destruct W as [W1 W2]. split.
    - rewrite set_other by (intros ->; apply N; now left). exact W1.
    - apply IH; [intros I; apply N; now right | exact W2].
  Qed.
  Lemma waits_snoc f t l : forall ws ls k, waits f k ws ls -> f t = TWait ((k + Z.of_nat (length ws)) mod m) l -> waits f k (ws ++ [t]) (ls ++ [l]).
  Proof.
    induction ws as [|u ws IH]; intros [|l' ls] k W E; cbn [waits app length] in *; try contradiction.
    - rewrite Z.add_0_r in E. auto.
    - destruct W as [W1 W2]. split; [exact W1|]. apply IH; [exact W2|]. rewrite E. do 2 f_equal. lia.
  Qed.
  Lemma mod_eq k i : 0 <= i < m -> k mod m = (k + i) mod m -> i = 0.
  Proof.
    intros Hi E. assert (X : i mod m = 0).
    { replace i with ((k + i) - k) by lia. rewrite Zminus_mod, <- E, Z.sub_diag. apply Z.mod_0_l. lia. }
    rewrite Z.mod_small in X by lia. exact X.
  Qed.

  (** [hd] is the thread that writes, with what it has written and what is left *)
  Inductive head := HNone | HIn (t : nat) (w l : list Z).
  Definition hth (h : head) : list nat := match h with HNone => [] | HIn t _ _ => [t] end.
  Definition hline (h : head) : list (list Z) := match h with HNone => [] | HIn _ w l => [w ++ l] end.
  Definition hpart (h : head) : list Z := match h with HNone => [] | HIn _ w _ => w end.
  Record inv (s : tl) (k : Z) (h : head) (ws : list nat) (ls done : list (list Z)) : Prop := Inv {
    i_serv : now_serving s = k mod m;
    i_next : next_ticket s = (k + Z.of_nat (length (hth h ++ ws))) mod m;
    i_head : match h with HNone => True | HIn t w l => th s t = TIn w l end;
    i_wait : waits (th s) (k + Z.of_nat (length (hth h))) ws ls;
    i_idle : forall t, ~ In t (hth h ++ ws) -> th s t = TIdle;
    i_nd : NoDup (hth h ++ ws);
    i_n : forall t, In t (hth h ++ ws) -> (t < n)%nat;
    i_asked : asked s = done ++ hline h ++ ls;
    i_strm : strm s = concat done ++ hpart h }.

  Lemma inv_len s k h ws ls done : inv s k h ws ls done -> Z.of_nat (length (hth h ++ ws)) <= m.
  Proof.
    intros I. assert (L : (length (hth h ++ ws) <= length (seq 0 n))%nat).
    { apply NoDup_incl_length; [exact (i_nd _ _ _ _ _ _ I)|]. intros t Ht. apply in_seq. pose proof (i_n _ _ _ _ _ _ I t Ht). lia. }
    rewrite seq_length in L. lia.
  Qed.

  Lemma in_dec_nat (t : nat) l : {In t l} + {~ In t l}.
  Proof. apply in_dec, Nat.eq_dec. Qed.

  Lemma inv_step s k h ws ls done o : (op_thread o < n)%nat -> inv s k h ws ls done -> exists k' h' ws' ls' done', inv (tstep m s o) k' h' ws' ls' done'.
  Proof.
    intros Ho I. pose proof (inv_len _ _ _ _ _ _ I) as L. pose proof I as [S N H W D ND LT A X].
    assert (Same : exists k' h' ws' ls' done', inv s k' h' ws' ls' done') by (exists k, h, ws, ls, done; exact I).
    destruct o as [t l|t|t|t]; cbn [tstep op_thread] in *.
    - destruct (th s t) eqn:E; try exact Same. exists k, h, (ws ++ [t]), (ls ++ [l]), done.
      assert (NI : ~ In t (hth h ++ ws)).
      { intros J. apply in_app_or in J. destruct J as [J|J].
        - destruct h as [|u w l']; [destruct J|]. destruct J as [->|[]]. congruence.
        - destruct (waits_in _ _ _ _ _ W J) as (i & l' & _ & E2). congruence. }
      assert (NI2 := NI). rewrite in_app_iff in NI2.
      split; cbn [next_ticket now_serving th strm asked].
      + exact S.
      + rewrite N, !app_length. cbn [length]. rewrite Zplus_mod_idemp_l. f_equal. lia.
      + destruct h as [|u w l']; [exact Logic.I|]. rewrite set_other; [exact H|]. intros ->. apply NI2. left. now left.
      + apply waits_snoc; [apply waits_set; [tauto | exact W]|]. rewrite set_same, N, app_length. do 2 f_equal. lia.
      + intros u Hu. rewrite app_assoc, in_app_iff in Hu. rewrite set_other; [apply D; tauto|]. intros ->. apply Hu. right. now left.
      + rewrite app_assoc. apply (NoDup_Add (a := t) (l := hth h ++ ws)); [|split; assumption]. pose proof (Add_app t (hth h ++ ws) []) as Q. now rewrite app_nil_r in Q.
      + intros u Hu. rewrite app_assoc, in_app_iff in Hu. destruct Hu as [Hu|[->|[]]]; [now apply LT | exact Ho].
      + rewrite A, <- !app_assoc. reflexivity.
      + exact X.
    - destruct (th s t) as [|tk l|w l] eqn:E; try exact Same. destruct (Z.eqb_spec (now_serving s) tk) as [Q|Q]; [|exact Same].
      assert (IN : In t (hth h ++ ws)) by (destruct (in_dec_nat t (hth h ++ ws)) as [J|J]; [exact J | rewrite (D t J) in E; discriminate]).
      apply in_app_or in IN. destruct IN as [IN|IN].
      { destruct h as [|u w l']; [destruct IN|]. destruct IN as [->|[]]. congruence. }
      destruct (waits_in _ _ _ _ _ W IN) as (i & l' & Hi & E2). rewrite E in E2. injection E2 as E2 E3. rewrite app_length in L.
      rewrite S, E2, <- Z.add_assoc in Q. apply mod_eq in Q; [|lia].
      destruct h as [|u w l2]; cbn [hth length] in *; [|lia].
      destruct ws as [|u ws]; [destruct IN|]. destruct ls as [|l2 ls]; cbn [waits] in W; [contradiction|]. destruct W as [W1 W2].
      cbn [app] in *. inversion ND as [|? ? ND1 ND2]; subst.
      assert (u = t).
      { destruct IN as [->|IN]; [reflexivity|]. destruct (waits_in _ _ _ _ _ W2 IN) as (j & l3 & Hj & E4). rewrite E in E4. injection E4 as E4 _.
        cbn [length] in L. assert (Y : 1 + j = 0); [|lia]. apply (mod_eq k); [lia|]. etransitivity; [|etransitivity; [exact E4|]]; f_equal; lia. }
      subst u. exists k, (HIn t [] l'), ws, ls, done. rewrite E in W1. injection W1 as _ W1. subst l2.
      split; cbn [next_ticket now_serving th strm asked hth hline hpart app]; auto.
      + apply set_same.
      + apply waits_set; [exact ND1|]. cbn [length]. replace (k + Z.of_nat 1) with (k + Z.of_nat 0 + 1) by lia. exact W2.
      + intros u Hu. rewrite set_other; [apply D; exact Hu|]. intros ->. apply Hu. now left.
    - destruct (th s t) as [|tk l|w [|x l]] eqn:E; try exact Same.
      assert (IN : In t (hth h ++ ws)) by (destruct (in_dec_nat t (hth h ++ ws)) as [J|J]; [exact J | rewrite (D t J) in E; discriminate]).
      apply in_app_or in IN. destruct IN as [IN|IN]; [|destruct (waits_in _ _ _ _ _ W IN) as (i & l' & _ & E2); congruence].
      destruct h as [|u w' l']; [destruct IN|]. destruct IN as [->|[]]. rewrite H in E. injection E as -> ->.
      cbn [hth app] in *. inversion ND as [|? ? ND1 ND2]; subst.
      exists k, (HIn t (w ++ [x]) l), ws, ls, done. split; cbn [next_ticket now_serving th strm asked hth hline hpart app]; auto.
      + apply set_same.
      + apply waits_set; assumption.
      + intros u Hu. rewrite set_other; [apply D; exact Hu|]. intros ->. apply Hu. now left.
      + rewrite A. cbn [hline]. now rewrite <- app_assoc.
      + rewrite X. cbn [hpart]. now rewrite <- app_assoc.
    - destruct (th s t) as [|tk l|w [|x l]] eqn:E; try exact Same.
      assert (IN : In t (hth h ++ ws)) by (destruct (in_dec_nat t (hth h ++ ws)) as [J|J]; [exact J | rewrite (D t J) in E; discriminate]).
      apply in_app_or in IN. destruct IN as [IN|IN]; [|destruct (waits_in _ _ _ _ _ W IN) as (i & l' & _ & E2); congruence].
      destruct h as [|u w' l']; [destruct IN|]. destruct IN as [->|[]]. rewrite H in E. injection E as -> ->.
      cbn [hth app length] in *. inversion ND as [|? ? ND1 ND2]; subst.
      exists (k + 1), HNone, ws, ls, (done ++ [w]). split; cbn [next_ticket now_serving th strm asked hth hline hpart app length]; auto.
      + rewrite S. now rewrite Zplus_mod_idemp_l.
      + rewrite N. f_equal. lia.
      + apply waits_set; [exact ND1|]. replace (k + 1 + Z.of_nat 0) with (k + Z.of_nat 1) by lia. exact W.
      + intros u Hu. destruct (Nat.eq_dec t u) as [->|Nu]; [apply set_same|]. rewrite set_other by exact Nu. apply D. intros [J|J]; auto.
      + intros u Hu. apply LT. now right.
      + rewrite A. cbn [hline]. rewrite app_nil_r, <- app_assoc. reflexivity.
      + rewrite X, concat_app. cbn [concat hpart]. now rewrite !app_nil_r.
  Qed.

  Lemma inv_run ops : forall s k h ws ls done, Forall (fun o => (op_thread o < n)%nat) ops -> inv s k h ws ls done ->
    exists k' h' ws' ls' done', inv (trun m s ops) k' h' ws' ls' done'.
  Proof.
    induction ops as [|o ops IH]; intros s k h ws ls done F I; [exists k, h, ws, ls, done; exact I|]. inversion F as [|? ? F1 F2]; subst.
    destruct (inv_step _ _ _ _ _ _ o F1 I) as (k' & h' & ws' & ls' & done' & I'). exact (IH _ _ _ _ _ _ F2 I').
  Qed.
  Lemma inv_init start : 0 <= start < m -> inv (tl_init start) start HNone [] [] [].
  Proof.
    intros Hs. split; cbn [tl_init next_ticket now_serving th strm asked hth hline hpart app length waits concat]; auto; try (rewrite Z.mod_small; lia); [constructor | intros t []].
  Qed.
End M.

Lemma low_letter x y : low x = low y <-> same_letter x y.
Proof.
  unfold low, same_letter.
  destruct (Z.leb_spec 65 x), (Z.leb_spec x 90), (Z.leb_spec 65 y), (Z.leb_spec y 90); cbn [andb]; lia.
Qed.
Lemma low_same a b : map low a = map low b <-> Forall2 same_letter a b.
Proof.
  revert b. induction a as [|x a IH]; intros [|y b]; cbn [map].
  - split; constructor.
  - split; intros H; inversion H.
  - split; intros H; inversion H.
  - split.
    + intros H. injection H as H1 H2. constructor; [now apply low_letter | now apply IH].
    + intros H. inversion H; subst. f_equal; [now apply low_letter | now apply IH].
Qed.
