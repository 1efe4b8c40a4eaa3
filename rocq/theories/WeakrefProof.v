From Coq Require Import Permutation.
From Verif Require Import Base HashModel HashSpec HashProof WeakrefModel WeakrefSpec.

Section WP.
  Context (hash : Z -> Z).
  Let zok : forall x y, Z.eqb x y = true <-> x = y := Z.eqb_eq.
  Notation R := (R Z.eqb hash).

  Definition WR (w : wreg) (l : list went) : Prop := R (w_ht w) l /\ ht_nodups (w_ht w) = true /\ ht_abrt (w_ht w) = true.

  Lemma due_same f l x : due f l x x = [].
  Proof. destruct x; reflexivity. Qed.

  (** Effect on the registry called, relative to any content [m] of the other one. *)
  Definition eff (w : wreg) (l : list went) (nid : Z) (o : wr_op) (w' : wreg) (out : wr_out) (l' : list went) : Prop :=
    (forall m, ws_step nid l m o out l' m) /\ out <> WBad /\ (out = WAbort -> l' = l) /\
    (out <> WAbort -> WR w' l' /\ w_first w' = w_first w /\ w_last w' = w_last w /\
       w_ev w' = w_ev w ++ due (w_first w) (w_last w) l l' /\ (forall e, In e l' -> In e l \/ m_id e = nid)).

  Lemma reg_eff w l nid u v mem : WR w l -> (forall e, In e l -> m_id e < nid) ->
    exists l', eff w l nid (WReg u v mem) (fst (wr_reg hash w nid u v mem)) (snd (wr_reg hash w nid u v mem)) l'.
  Proof.
    intros (Hr & Hn & Ha) Hlt. unfold wr_reg, ht_append.
    pose proof (ht_insert_ok Z.eqb false hash zok (w_ht w) l (mkEnt nid u (hash u) v) mem Hr eq_refl (fresh_lt nid l Hlt)) as H.
    cbn [e_key] in H. rewrite Hn, Ha in H. cbn [andb] in H.
    destruct (Nat.eqb_spec (length (uid_is u l)) 0) as [E|E]; cbn [negb] in H.
    - destruct H as (t' & H & R' & F1 & F2). rewrite H. cbn [fst snd]. exists (l ++ [(nid, u, v)]).
      assert (Hk : uid_is u l = []) by (apply length_zero_iff_nil; exact E).
      split; [intros m; apply ws_reg; exact Hk|]. split; [discriminate|]. split; [discriminate|]. intros _.
      split; [split; [exact R'|cbn [w_ht]; split; congruence]|]. split; [reflexivity|]. split; [reflexivity|]. cbn [w_ev].
      split.
      + f_equal. destruct l; cbn; [rewrite andb_true_r|rewrite andb_false_r]; reflexivity.
      + intros e He. apply in_app_or in He. destruct He as [He|[<-|[]]]; auto.
    - rewrite H. cbn [fst snd]. exists l. split.
      + intros m. apply ws_reg_dup. intros X. rewrite X in E. cbn in E. congruence.
      + split; [discriminate|]. split; [auto|congruence].
  Qed.

  Lemma unreg_eff w l nid u : WR w l ->
    exists l', eff w l nid (WUnreg u) (fst (wr_unreg hash w u)) (snd (wr_unreg hash w u)) l'.
  Proof.
    intros (Hr & Hn & Ha). unfold wr_unreg.
    pose proof (remove_by_key_ok Z.eqb false hash zok (w_ht w) l u Hr) as H.
    destruct (uid_is u l) as [|e r] eqn:Ek.
    - rewrite H. cbn [fst snd]. exists l. split; [intros m; apply ws_unreg_none; exact Ek|].
      split; [discriminate|]. split; [discriminate|]. intros _. split; [split; [exact Hr|auto]|].
      rewrite due_same. cbn. auto.
    - destruct H as (t' & sp & H & H2 & H3 & R' & F1 & F2). rewrite H. cbn [fst snd].
      exists (without [m_id e] l).
      assert (Hin : In e l) by (apply (of_key_in Z.eqb zok u e l); rewrite Ek; cbn; auto).
      split. { intros m. replace (e_val sp) with (m_val e) by (rewrite <- H2; reflexivity). eapply ws_unreg; exact Ek. }
      split; [discriminate|]. split; [discriminate|]. intros _. rewrite wo_without in R'.
      split; [split; [exact R'|cbn [w_ht]; split; congruence]|]. split; [reflexivity|]. split; [reflexivity|]. cbn [w_ev].
      split; [|intros x Hx; left; eapply without_incl; eassumption].
      f_equal. destruct R' as [_ Hn']. destruct Hr as [Hrb Hnum].
      assert (Hlen : (length (without [m_id e] l) + 1 = length l)%nat).
      { pose proof (remove_ok Z.eqb hash zok (w_ht w) l (m_id e) (m_key e) (conj Hrb Hnum)) as X.
        destruct X as (t2 & X1 & X2 & _); [exists (m_val e); destruct e as [[? ?] ?]; exact Hin|].
        unfold remove_locked in X1. destruct (nth_error _ _); [|discriminate]. destruct (existsb _ _); [|discriminate].
        injection X1 as <- _. destruct X2 as [_ X2]. cbn [ht_num] in X2. rewrite wo_without in X2. lia. }
      destruct l as [|x l]; [destruct Hin|]. destruct (without [m_id e] (x :: l)) as [|y q] eqn:Ew; cbn [due].
      + replace (length (x :: l) =? 1)%nat with true by (cbn [length] in *; lia). rewrite andb_true_r. reflexivity.
      + replace (length (x :: l) =? 1)%nat with false by (cbn [length] in *; lia). rewrite andb_false_r. reflexivity.
  Qed.

  Lemma get_eff w l nid u : WR w l ->
    exists l', eff w l nid (WGet u) (fst (wr_get hash w u)) (snd (wr_get hash w u)) l'.
  Proof.
    intros (Hr & Hn & Ha). exists l. unfold wr_get. cbn [fst snd].
    destruct (walk_al Z.eqb false hash zok (w_ht w) l u Hr) as [Hw _].
    split. { intros m. replace (ht_find Z.eqb false hash (w_ht w) u) with (option_map m_val (hd_error (uid_is u l))); [apply ws_get|].
             rewrite <- Hw. unfold ht_find. destruct (walk _ _ _ _ _); reflexivity. }
    split; [discriminate|]. split; [discriminate|]. intros _. split; [split; [exact Hr|auto]|]. rewrite due_same, app_nil_r. auto.
  Qed.

  Lemma foreach_eff w l nid f : WR w l ->
    exists l', eff w l nid (WForeach f) (fst (wr_foreach w f)) (snd (wr_foreach w f)) l'.
  Proof.
    intros (Hr & Hn & Ha). unfold wr_foreach.
    destruct (foreach_ok Z.eqb hash zok (w_ht w) l f Hr) as (t' & ord & dels & seen & E & Hp & Hk & Hv & R' & F1 & F2).
    rewrite E. cbn [fst snd]. exists (without dels l). split; [intros m; eapply ws_foreach; eassumption|].
    split; [discriminate|]. split; [discriminate|]. intros _. split; [split; [exact R'|cbn [w_ht]; split; congruence]|].
    split; [reflexivity|]. split; [reflexivity|]. cbn [w_ev]. split; [|intros x Hx; left; eapply without_incl; eassumption].
    f_equal. destruct l as [|x l]; [destruct (w_last w); reflexivity|].
    destruct (without dels (x :: l)); cbn; [rewrite andb_true_r|rewrite andb_false_r]; reflexivity.
  Qed.

  Lemma length_eff w l nid : WR w l ->
    exists l', eff w l nid WLength (fst (wr_length w)) (snd (wr_length w)) l'.
  Proof.
    intros (Hr & Hn & Ha). exists l. unfold wr_length. cbn [fst snd].
    split. { intros m. destruct Hr as [_ Hnum]. unfold ht_length. rewrite Hnum. apply ws_length. }
    split; [discriminate|]. split; [discriminate|]. intros _. split; [split; [exact Hr|auto]|]. rewrite due_same, app_nil_r. auto.
  Qed.

  Lemma purge_eff w l nid : WR w l ->
    exists l', eff w l nid WPurge (fst (wr_purge w)) (snd (wr_purge w)) l'.
  Proof.
    intros (Hr & Hn & Ha). exists []. unfold wr_purge, ht_purge. pose proof Hr as [_ Hnum].
    destruct (purge_loop_ok Z.eqb hash zok (S (S (Z.to_nat (ht_num (w_ht w))))) (w_ht w) l 0 [] Hr) as (t' & vals & H1 & H2 & H3 & H4 & H5); [lia|].
    rewrite H1. cbn [fst snd app]. rewrite Z.add_0_l.
    split. { intros m. apply ws_purge. destruct l as [|x l]; cbn [length]; split; intros; try congruence; try lia. }
    split; [discriminate|]. split; [discriminate|]. intros _. split; [split; [exact H3|cbn [w_ht]; split; congruence]|].
    split; [reflexivity|]. split; [reflexivity|]. cbn [w_ev]. split; [|intros e []].
    f_equal. destruct l as [|x l]; cbn [length due].
    - replace ((Z.of_nat 0 + 63) / 64 >? 0) with false by reflexivity. rewrite andb_false_r. reflexivity.
    - replace ((Z.of_nat (S (length l)) + 63) / 64 >? 0) with true by lia. rewrite andb_true_r. reflexivity.
  Qed.

  Definition disj (l m : list went) : Prop := forall e, In e l -> ~ In (m_id e) (map m_id m).

  Lemma move_eff w o l m nid u mem : WR w l -> WR o m -> disj l m ->
    let '(w', o', out) := wr_move hash w o u mem in
    exists l' m', ws_step nid l m (WMove u mem) out l' m' /\ out <> WBad /\ (out = WAbort -> l' = l /\ m' = m) /\
      (out <> WAbort -> WR w' l' /\ WR o' m' /\ w_first w' = w_first w /\ w_last w' = w_last w /\
         w_first o' = w_first o /\ w_last o' = w_last o /\
         w_ev w' = w_ev w ++ due (w_first w) (w_last w) l l' /\ w_ev o' = w_ev o ++ due (w_first o) (w_last o) m m' /\
         (forall e, In e l' \/ In e m' -> In e l \/ In e m) /\ disj l' m').
  Proof.
    intros (Hr & Hn & Ha) (Hro & Hno & Hao) Hd. unfold wr_move.
    destruct (uid_is u l) as [|e r] eqn:Ek.
    - pose proof (remove_by_key_ok Z.eqb false hash zok (w_ht w) l u Hr) as H. rewrite Ek in H.
      unfold ht_transfer. rewrite H. exists l, m. split; [apply ws_move_none; exact Ek|].
      split; [discriminate|]. split; [discriminate|]. intros _. cbn [w_ht w_first w_last w_ev].
      rewrite !due_same, !andb_false_r. split; [split; [exact Hr|auto]|]. split; [split; [exact Hro|auto]|]. auto 10.
    - assert (Hin : In e l /\ m_key e = u) by (apply (of_key_in Z.eqb zok u e l); rewrite Ek; cbn; auto). destruct Hin as [Hin Hku].
      destruct (uid_is u m) as [|e2 r2] eqn:Em.
      + destruct (transfer_ok Z.eqb false hash zok (w_ht w) (w_ht o) l m u mem Hr Hro Hd) as (t' & o' & H).
        { rewrite Hno, Em. reflexivity. }
        rewrite Ek in H. destruct H as (H1 & R1 & R2 & F1 & F2 & F3 & F4). rewrite H1.
        exists (without [m_id e] l), (m ++ [e]). split; [eapply ws_move; eassumption|].
        split; [discriminate|]. split; [discriminate|]. intros _. cbn [w_ht w_first w_last w_ev].
        split; [split; [exact R1|split; cbn [w_ht]; congruence]|]. split; [split; [exact R2|split; cbn [w_ht]; congruence]|].
        split; [reflexivity|]. split; [reflexivity|]. split; [reflexivity|]. split; [reflexivity|].
        assert (Hlen : (length (without [m_id e] l) + 1 = length l)%nat).
        { pose proof (remove_ok Z.eqb hash zok (w_ht w) l (m_id e) (m_key e) Hr) as X.
          destruct X as (t2 & X1 & X2 & _); [exists (m_val e); destruct e as [[? ?] ?]; exact Hin|].
          unfold remove_locked in X1. destruct (nth_error _ _); [|discriminate]. destruct (existsb _ _); [|discriminate].
          injection X1 as <- _. destruct X2 as [_ X2]. destruct Hr as [_ Hnum]. cbn [ht_num] in X2. rewrite wo_without in X2. lia. }
        split.
        { f_equal. destruct l as [|x l]; [destruct Hin|]. destruct (without [m_id e] (x :: l)) as [|y q] eqn:Ew; cbn [due andb].
          - replace (length (x :: l) =? 1)%nat with true by (cbn [length] in *; lia). rewrite andb_true_r. reflexivity.
          - replace (length (x :: l) =? 1)%nat with false by (cbn [length] in *; lia). rewrite andb_false_r. reflexivity. }
        split.
        { f_equal. destruct m as [|x m]; cbn; [rewrite andb_true_r|rewrite andb_false_r]; reflexivity. }
        split.
        { intros x [Hx|Hx]; [left; eapply without_incl; eassumption|]. apply in_app_or in Hx. destruct Hx as [Hx|[<-|[]]]; auto. }
        intros x Hx. rewrite map_app. cbn [map]. intros Hc. apply in_app_or in Hc. destruct Hc as [Hc|[Hc|[]]].
        * apply (Hd x); [eapply without_incl; eassumption|exact Hc].
        * unfold without in Hx. apply filter_In in Hx. destruct Hx as [_ Hx]. cbn in Hx. rewrite Hc in Hx. rewrite Z.eqb_refl in Hx. discriminate.
      + (* duplicate in the destination *)
        pose proof (remove_by_key_ok Z.eqb false hash zok (w_ht w) l u Hr) as H. rewrite Ek in H.
        destruct H as (t' & sp & H & H2 & H3 & R' & F1 & F2). unfold ht_transfer. rewrite H.
        assert (Hks : e_key sp = u) by (rewrite <- Hku, <- H2; reflexivity).
        assert (Hids : e_id sp = m_id e) by (rewrite <- H2; reflexivity).
        pose proof (ht_insert_ok Z.eqb false hash zok (w_ht o) m sp mem Hro H3) as Hi.
        rewrite Hids, Hks in Hi. specialize (Hi (Hd _ Hin)). rewrite Hno, Hao, Em in Hi. cbn [length negb andb Nat.eqb] in Hi.
        rewrite Hi. exists l, m. split; [apply ws_move_dup; [rewrite Ek|rewrite Em]; discriminate|].
        split; [discriminate|]. split; [auto|congruence].
  Qed.

  Lemma wr_run_ok os : forall a b l m nid, WR a l -> WR b m -> disj l m ->
    (forall e, In e l \/ In e m -> m_id e < nid) ->
    let cf := (w_first a, w_first b) in let cl := (w_last a, w_last b) in
    exists l' m', let '((a', b'), outs) := wr_run hash (a, b) nid os in
      ws_exec cf cl nid l m (w_ev a) (w_ev b) os outs l' m' (w_ev a') (w_ev b').
  Proof.
    induction os as [|[r o] os IH]; intros a b l m nid Ha Hb Hd Hlt cf cl; cbn [wr_run].
    - exists l, m. constructor.
    - (* one step, described uniformly *)
      assert (S : exists l1 m1 a1 b1 out, wr_step hash (a, b) nid r o = ((a1, b1), out) /\
        (if r then ws_step nid m l o out m1 l1 else ws_step nid l m o out l1 m1) /\ out <> WBad /\
        (out = WAbort -> l1 = l /\ m1 = m) /\
        (out <> WAbort -> WR a1 l1 /\ WR b1 m1 /\ disj l1 m1 /\ w_first a1 = w_first a /\ w_last a1 = w_last a /\
          w_first b1 = w_first b /\ w_last b1 = w_last b /\
          w_ev a1 = w_ev a ++ due (w_first a) (w_last a) l l1 /\ w_ev b1 = w_ev b ++ due (w_first b) (w_last b) m m1 /\
          (forall e, In e l1 \/ In e m1 -> m_id e < nid + 1))).
      { assert (G : forall (w : wreg) (x : list went) w' out x', w = (if r then b else a) -> x = (if r then m else l) ->
           eff w x nid o w' out x' -> wr_step hash (a, b) nid r o = ((if r then (a, w') else (w', b)), out) ->
           exists l1 m1 a1 b1 out, wr_step hash (a, b) nid r o = ((a1, b1), out) /\
        (if r then ws_step nid m l o out m1 l1 else ws_step nid l m o out l1 m1) /\ out <> WBad /\
        (out = WAbort -> l1 = l /\ m1 = m) /\
        (out <> WAbort -> WR a1 l1 /\ WR b1 m1 /\ disj l1 m1 /\ w_first a1 = w_first a /\ w_last a1 = w_last a /\
          w_first b1 = w_first b /\ w_last b1 = w_last b /\
          w_ev a1 = w_ev a ++ due (w_first a) (w_last a) l l1 /\ w_ev b1 = w_ev b ++ due (w_first b) (w_last b) m m1 /\
          (forall e, In e l1 \/ In e m1 -> m_id e < nid + 1))).
        { intros w x w' out x' Ew Ex (E1 & E2 & E3 & E4) Hs. rewrite Hs.
          destruct r; subst w x.
          - exists l, x', a, w', out. split; [reflexivity|]. split; [apply E1|]. split; [exact E2|].
            split; [intros X; split; [reflexivity|apply E3; exact X]|]. intros X. destruct (E4 X) as (F0 & F1 & F2 & F3 & F4).
            split; [exact Ha|]. split; [exact F0|]. split.
            { intros e He Hc. apply in_map_iff in Hc. destruct Hc as (y & Ey & Hy). destruct (F4 _ Hy) as [Hy'|Hy'].
              - apply (Hd e He). rewrite <- Ey. apply in_map; exact Hy'.
              - specialize (Hlt e (or_introl He)). lia. }
            rewrite due_same, app_nil_r. repeat (split; [auto|]). intros e [He|He]; [specialize (Hlt e (or_introl He)); lia|].
            destruct (F4 _ He) as [He'|He']; [specialize (Hlt e (or_intror He')); lia|lia].
          - exists x', m, w', b, out. split; [reflexivity|]. split; [apply E1|]. split; [exact E2|].
            split; [intros X; split; [apply E3; exact X|reflexivity]|]. intros X. destruct (E4 X) as (F0 & F1 & F2 & F3 & F4).
            split; [exact F0|]. split; [exact Hb|]. split.
            { intros e He Hc. destruct (F4 _ He) as [He'|He'].
              - exact (Hd e He' Hc).
              - rewrite He' in Hc. apply in_map_iff in Hc. destruct Hc as (y & Ey & Hy). specialize (Hlt y (or_intror Hy)). lia. }
            rewrite due_same, app_nil_r. repeat (split; [auto|]). intros e [He|He]; [|specialize (Hlt e (or_intror He)); lia].
            destruct (F4 _ He) as [He'|He']; [specialize (Hlt e (or_introl He')); lia|lia]. }
        set (w0 := if r then b else a) in *. set (x0 := if r then m else l) in *.
        assert (Hw0 : WR w0 x0) by (unfold w0, x0; destruct r; assumption).
        assert (Hlt0 : forall e, In e x0 -> m_id e < nid) by (intros e He; apply Hlt; unfold x0 in He; destruct r; auto).
        destruct o as [u v mem|u|u|f| | |u mem].
        - destruct (reg_eff w0 x0 nid u v mem Hw0 Hlt0) as [x' He]. eapply G; [reflexivity|reflexivity|exact He|].
          unfold wr_step. cbn [fst snd]. fold w0. destruct (wr_reg hash w0 nid u v mem); reflexivity.
        - destruct (unreg_eff w0 x0 nid u Hw0) as [x' He]. eapply G; [reflexivity|reflexivity|exact He|].
          unfold wr_step. cbn [fst snd]. fold w0. destruct (wr_unreg hash w0 u); reflexivity.
        - destruct (get_eff w0 x0 nid u Hw0) as [x' He]. eapply G; [reflexivity|reflexivity|exact He|].
          unfold wr_step. cbn [fst snd]. fold w0. destruct (wr_get hash w0 u); reflexivity.
        - destruct (foreach_eff w0 x0 nid f Hw0) as [x' He]. eapply G; [reflexivity|reflexivity|exact He|].
          unfold wr_step. cbn [fst snd]. fold w0. destruct (wr_foreach w0 f); reflexivity.
        - destruct (length_eff w0 x0 nid Hw0) as [x' He]. eapply G; [reflexivity|reflexivity|exact He|].
          unfold wr_step. cbn [fst snd]. fold w0. destruct (wr_length w0); reflexivity.
        - destruct (purge_eff w0 x0 nid Hw0) as [x' He]. eapply G; [reflexivity|reflexivity|exact He|].
          unfold wr_step. cbn [fst snd]. fold w0. destruct (wr_purge w0); reflexivity.
        - clear G. unfold wr_step. cbn [fst snd]. unfold w0, x0 in *. destruct r.
          + assert (Hd' : disj m l).
            { intros e He Hc. apply in_map_iff in Hc. destruct Hc as (y & Ey & Hy). apply (Hd y Hy). rewrite Ey. apply in_map; exact He. }
            pose proof (move_eff b a m l nid u mem Hb Ha Hd') as M.
            destruct (wr_move hash b a u mem) as [[w' o'] out]. destruct M as (m1 & l1 & M1 & M2 & M3 & M4).
            exists l1, m1, o', w', out. split; [reflexivity|]. split; [exact M1|]. split; [exact M2|].
            split; [intros X; destruct (M3 X); auto|]. intros X. destruct (M4 X) as (N1 & N2 & N3 & N4 & N5 & N6 & N7 & N8 & N9 & N10).
            split; [exact N2|]. split; [exact N1|]. split.
            { intros e He Hc. apply in_map_iff in Hc. destruct Hc as (y & Ey & Hy). apply (N10 y Hy). rewrite Ey. apply in_map; exact He. }
            repeat (split; [auto|]). intros e He. assert (In e m \/ In e l) as [H|H] by (apply N9; tauto);
            [specialize (Hlt e (or_intror H))|specialize (Hlt e (or_introl H))]; lia.
          + pose proof (move_eff a b l m nid u mem Ha Hb Hd) as M.
            destruct (wr_move hash a b u mem) as [[w' o'] out]. destruct M as (l1 & m1 & M1 & M2 & M3 & M4).
            exists l1, m1, w', o', out. split; [reflexivity|]. split; [exact M1|]. split; [exact M2|].
            split; [exact M3|]. intros X. destruct (M4 X) as (N1 & N2 & N3 & N4 & N5 & N6 & N7 & N8 & N9 & N10).
            split; [exact N1|]. split; [exact N2|]. split; [exact N10|].
            repeat (split; [auto|]). intros e He. assert (In e l \/ In e m) as H by (apply N9; tauto).
            specialize (Hlt e H). lia. }
      destruct S as (l1 & m1 & a1 & b1 & out & S1 & S2 & S3 & S4 & S5). rewrite S1.
      assert (Hcase : out = WAbort \/ out <> WAbort) by (destruct out; auto; right; discriminate).
      destruct Hcase as [->|Hne].
      + exists l, m. destruct (S4 eq_refl) as [-> ->]. apply wx_abort. exact S2.
      + specialize (S5 Hne). destruct S5 as (A1 & B1 & D1 & F1 & F2 & F3 & F4 & E1 & E2 & L1).
        destruct (IH a1 b1 l1 m1 (nid + 1) A1 B1 D1 L1) as (l2 & m2 & H).
        exists l2, m2. destruct (wr_run hash (a1, b1) (nid + 1) os) as [[a2 b2] outs].
        rewrite E1, E2 in H. rewrite F1, F2, F3, F4 in H.
        destruct out; try congruence; (eapply wx_step; [exact S2|discriminate|discriminate|exact H]).
  Qed.
End WP.

(** The events of a registry with both callbacks set alternate. *)
Lemma alternating_snoc b ev x : alternating b ev -> x = (if Nat.even (length ev) then b else negb b) -> alternating b (ev ++ [x]).
Proof.
  revert b. induction ev as [|y ev IH]; intros b; cbn [app alternating length].
  - intros _ ->. auto.
  - intros [-> H] Hx. split; [reflexivity|]. apply IH; [exact H|]. rewrite Nat.even_succ, <- Nat.negb_even in Hx.
    rewrite Hx. destruct (Nat.even (length ev)); cbn; [reflexivity|]. rewrite negb_involutive. reflexivity.
Qed.

Lemma exec_alternates cf cl nid l m ea eb os outs l' m' ea' eb' :
  ws_exec cf cl nid l m ea eb os outs l' m' ea' eb' -> cf = (true, true) -> cl = (true, true) ->
  alternating true ea -> alternating true eb ->
  (Nat.even (length ea) = true <-> l = []) -> (Nat.even (length eb) = true <-> m = []) ->
  alternating true ea' /\ alternating true eb' /\
  (Nat.even (length ea') = true <-> l' = []) /\ (Nat.even (length eb') = true <-> m' = []).
Proof.
  induction 1 as [| |nid l m ea eb r o out l' m' os outs l2 m2 ea2 eb2 Hs Hn1 Hn2 He IH]; intros -> -> Ha Hb Ea Eb; auto.
  assert (G : forall ev x y, alternating true ev -> (Nat.even (length ev) = true <-> x = []) ->
    alternating true (ev ++ due true true x y) /\ (Nat.even (length (ev ++ due true true x y)) = true <-> y = [])).
  { clear. intros ev x y H E.
    destruct x as [|? ?], y as [|? ?]; cbn [due]; rewrite ?app_nil_r.
    - auto.
    - assert (Ev : Nat.even (length ev) = true) by (apply E; reflexivity).
      split; [apply alternating_snoc; [exact H|rewrite Ev; reflexivity]|].
      rewrite app_length, Nat.add_comm. cbn [length Nat.add]. rewrite Nat.even_succ, <- Nat.negb_even, Ev. cbn. split; discriminate.
    - assert (Ev : Nat.even (length ev) = false).
      { destruct (Nat.even (length ev)); [|reflexivity]. assert (X : p :: x = []) by (apply E; reflexivity). discriminate. }
      split; [apply alternating_snoc; [exact H|rewrite Ev; reflexivity]|].
      rewrite app_length, Nat.add_comm. cbn [length Nat.add]. rewrite Nat.even_succ, <- Nat.negb_even, Ev. cbn. split; reflexivity.
    - split; [exact H|]. rewrite E. split; discriminate. }
  cbn [fst snd] in *. destruct (G ea l l' Ha Ea) as [A1 A2]. destruct (G eb m m' Hb Eb) as [B1 B2].
  apply IH; auto.
Qed.
