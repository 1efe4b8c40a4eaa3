From Verif Require Import Base SpmcModel SpmcSpec.

Lemma zlen_app {A} (a b : list A) : zlen (a ++ b) = zlen a + zlen b.
Proof. unfold zlen. rewrite app_length. lia. Qed.
Lemma zlen_nonneg {A} (a : list A) : 0 <= zlen a.
Proof. unfold zlen. lia. Qed.
Lemma zlen_cons {A} (x : A) (a : list A) : zlen (x :: a) = zlen a + 1.
Proof. unfold zlen. cbn [length]. lia. Qed.
Lemma zlen_nil {A} : zlen (@nil A) = 0.
Proof. reflexivity. Qed.
Definition znth (l : list Z) (i : Z) : Z := nth (Z.to_nat i) l 0.
Lemma znth_app1 l l' i : 0 <= i < zlen l -> znth (l ++ l') i = znth l i.
Proof. unfold zlen, znth. intros H. apply app_nth1. lia. Qed.
Lemma znth_app2 l l' i : zlen l <= i -> znth (l ++ l') i = znth l' (i - zlen l).
Proof. unfold zlen, znth. intros H. rewrite app_nth2 by lia. f_equal. lia. Qed.

Lemma legal_app cap q1 e1 q2 e2 q3 : legal cap q1 e1 q2 -> legal cap q2 e2 q3 -> legal cap q1 (e1 ++ e2) q3.
Proof. intros H. revert e2 q3. induction H; intros e2 q3 H2; cbn [app]; auto; constructor; auto. Qed.
Lemma legal_balance cap q es q' : legal cap q es q' -> q ++ puts es = gets es ++ q'.
Proof.
  induction 1 as [q|q vs es q' L H IH|q n es q' L H IH|t vs q es q' H IH|t es q' H IH]; cbn [puts gets flat_map app].
  - apply app_nil_r.
  - rewrite app_assoc. exact IH.
  - exact IH.
  - rewrite <- !app_assoc. f_equal. exact IH.
  - exact IH.
Qed.
Lemma puts_app a b : puts (a ++ b) = puts a ++ puts b.
Proof. apply flat_map_app. Qed.
Lemma gets_app a b : gets (a ++ b) = gets a ++ gets b.
Proof. apply flat_map_app. Qed.

Section proof.
  Context (cap : Z) (get : Z -> option Z) (P2 : power_of_two cap).

  Lemma cap_pos : 0 < cap.
  Proof. destruct P2 as (k & K & ->). apply Z.pow_pos_nonneg; lia. Qed.
  Lemma slot_mod i : slot cap i = i mod cap.
  Proof.
    unfold slot. destruct P2 as (k & K & ->). replace (2 ^ k - 1) with (Z.ones k) by (rewrite Z.ones_equiv; lia). apply Z.land_ones; lia.
  Qed.
  Lemma slot_range i : 0 <= slot cap i < cap.
  Proof. rewrite slot_mod. apply Z.mod_pos_bound, cap_pos. Qed.
  Lemma slot_inj i j : i - cap < j < i + cap -> slot cap i = slot cap j -> i = j.
  Proof.
    pose proof cap_pos. rewrite !slot_mod. intros R E.
    assert ((i - j) mod cap = 0) by (rewrite Zminus_mod, E, Z.sub_diag; apply Z.mod_0_l; lia).
    apply Z.mod_divide in H0; [|lia]. destruct H0 as (z & Z1). assert (z < 1) by (apply Z.mul_lt_mono_pos_r with (p := cap); lia). assert (-1 < z) by (apply Z.mul_lt_mono_pos_r with (p := cap); lia). assert (z = 0) by lia. subst z. lia.
  Qed.
  Lemma slot_add i j : slot cap (slot cap i + j) = slot cap (i + j).
  Proof. pose proof cap_pos. rewrite !slot_mod. apply Zplus_mod_idemp_l. Qed.
  Lemma copy_slot i j : 0 <= j < cap -> at_copy cap (slot cap i) j = slot cap (i + j).
  Proof.
    pose proof cap_pos. pose proof (slot_range i). intros J. rewrite <- slot_add. unfold at_copy. rewrite (slot_mod (slot cap i + j)).
    destruct (Z.ltb_spec j (cap - slot cap i)).
    - rewrite Z.mod_small; lia.
    - apply Z.mod_unique with (q := 1); lia.
  Qed.
  Lemma place_ext f g vs : forall j n, (forall i, j <= i < n -> f i = g i) -> j + zlen vs <= n -> place f j vs = place g j vs.
  Proof.
    induction vs as [|v vs IH]; intros j n H L; auto. rewrite zlen_cons in L. pose proof (zlen_nonneg vs). cbn [place]. rewrite H by lia. f_equal.
    apply (IH (j + 1) n); [|lia]. intros; apply H; lia.
  Qed.
  Definition at_w (w j : Z) : Z := slot cap (w + j).
  Lemma place_copy w vs : zlen vs <= cap -> place (at_copy cap (slot cap w)) 0 vs = place (at_w w) 0 vs.
  Proof. intros L. apply place_ext with (n := cap); [|lia]. intros; apply copy_slot; auto. Qed.
  Lemma place_slot w vs : place (at_slot cap (slot cap w)) 0 vs = place (at_w w) 0 vs.
  Proof. apply place_ext with (n := zlen vs); [|lia]. intros; unfold at_slot, at_w; apply slot_add; auto. Qed.

  (** What a call writes *)
  Lemma kv_take_spec ks : forall a, let '(vs, n) := kv_take get a ks in
    0 <= n <= zlen ks /\ vs = values get (PushManyKv ks) n /\ zlen vs <= Z.of_nat a /\ (n < zlen ks -> zlen vs = Z.of_nat a) /\
    (zlen ks <= Z.of_nat a -> n = zlen ks).
  Proof.
    induction ks as [|k ks IH]; intros a; cbn [kv_take].
    - unfold zlen; cbn. repeat split; lia.
    - destruct a as [|a].
      + rewrite zlen_cons. pose proof (zlen_nonneg ks). change (zlen (@nil Z)) with 0. cbn. repeat split; lia.
      + rewrite zlen_cons. destruct (get k) as [v|] eqn:G.
        * specialize (IH a). destruct (kv_take get a ks) as [vs n]. destruct IH as (I1 & I2 & I3 & I4 & I5). rewrite zlen_cons.
          split; [lia|]. split; [|repeat split; lia]. unfold values in *. replace (Z.to_nat (n + 1)) with (S (Z.to_nat n)) by lia.
          cbn [firstn flat_map]. rewrite G. cbn [app]. congruence.
        * specialize (IH (S a)). destruct (kv_take get (S a) ks) as [vs n]. destruct IH as (I1 & I2 & I3 & I4 & I5).
          split; [lia|]. split; [|repeat split; try lia]. unfold values in *. replace (Z.to_nat (n + 1)) with (S (Z.to_nat n)) by lia.
          cbn [firstn flat_map]. rewrite G. exact I2.
  Qed.
  Lemma zlen_firstn (l : list Z) n : 0 <= n -> zlen (firstn (Z.to_nat n) l) = Z.min n (zlen l).
  Proof. unfold zlen. intros. rewrite firstn_length. lia. Qed.
  Lemma plan_spec s c : 0 <= widx s - rcache s <= cap ->
    let free := cap - (widx s - rcache s) in
    let '(todo, vs, ret) := plan cap get s c in
    todo = place (at_w (widx s)) 0 vs /\ vs = values get c ret /\ 0 <= ret <= size_of c /\ zlen vs <= free /\
    (ret < size_of c -> zlen vs = free) /\ (enough cap s c = true -> ret = size_of c).
  Proof.
    intros B free. pose proof cap_pos. unfold plan. fold free. destruct c as [v|vs|vs|ks]; cbn [enough size_of].
    - destruct (Z.leb_spec (widx s + 1 - rcache s) cap).
      + rewrite zlen_cons; change (zlen (@nil Z)) with 0. cbn [place]. unfold at_w. rewrite Z.add_0_r. repeat split; cbn; lia.
      + change (zlen (@nil Z)) with 0. cbn. repeat split; lia.
    - cbn [size_of]. fold free. rewrite zlen_firstn by lia. pose proof (zlen_nonneg vs). rewrite place_copy by (rewrite zlen_firstn by lia; lia).
      repeat split; try lia. unfold values. destruct (Z.le_gt_cases free (zlen vs)).
      + rewrite Z.min_l by lia. auto.
      + rewrite Z.min_r by lia. rewrite !firstn_all2; auto; unfold zlen in *; lia.
    - cbn [size_of]. fold free. rewrite zlen_firstn by lia. pose proof (zlen_nonneg vs). rewrite place_slot.
      repeat split; try lia. unfold values. destruct (Z.le_gt_cases free (zlen vs)).
      + rewrite Z.min_l by lia. auto.
      + rewrite Z.min_r by lia. rewrite !firstn_all2; auto; unfold zlen in *; lia.
    - pose proof (kv_take_spec ks (Z.to_nat free)) as K. destruct (kv_take get (Z.to_nat free) ks) as [vs n].
      destruct K as (K1 & K2 & K3 & K4 & K5). cbn [size_of]. fold free. rewrite place_slot. repeat split; auto; try lia.
  Qed.

  (** The invariant *)
  Definition lim (c : ccall) : Z := match c with TryPop => 1 | PopMany n => n end.
  Definition cok (s : st) (pu : list Z) (p : cpc) : Prop :=
    match p with
    | CIdle => True
    | CLoadR c => 0 <= lim c
    | CLoadC c r | CLoadW c r => 0 <= lim c /\ 0 <= r <= ridx s
    | CStoreC c r w => 0 <= lim c /\ 0 <= r <= ridx s /\ r <= w <= widx s
    | CRead c r new j acc => 0 <= lim c /\ 0 <= r <= ridx s /\ r <= new <= widx s /\ new - r <= lim c /\ (0 < lim c -> r < new) /\ 0 <= j <= new - r /\ zlen acc = j /\
        (ridx s = r -> forall i, 0 <= i < j -> znth acc i = znth pu (r + i))
    | CCas c r new acc => 0 <= lim c /\ 0 <= r <= ridx s /\ r <= new <= widx s /\ new - r <= lim c /\ (0 < lim c -> r < new) /\ zlen acc = new - r /\
        (ridx s = r -> forall i, 0 <= i < new - r -> znth acc i = znth pu (r + i))
    end.
  Definition why (c : pcall) (n : Z) (seen : list event) : Prop :=
    seen = [] /\ n = size_of c \/
    exists free, seen = [Space free] /\ zlen (values get c n) <= free /\ (n < size_of c -> zlen (values get c n) = free).
  Definition pok (s : st) (es : list event) (p : ppc) : Prop :=
    match p with
    | PIdle | PRefresh _ => explains get (pres s) (by_producer es)
    | PWrite c todo vs ret => exists old seen pre rest,
        by_producer es = old ++ seen /\ explains get (pres s) old /\ 0 <= ret <= size_of c /\ why c ret seen /\ vs = values get c ret /\ vs <> [] /\
        vs = pre ++ rest /\ todo = place (at_w (widx s)) (zlen pre) rest /\ widx s + zlen vs <= rcache s + cap /\
        forall i, 0 <= i < zlen pre -> slots s (slot cap (widx s + i)) = znth vs i
    end.
  Definition pend (t : nat) (p : cpc) : list event := match p with CStoreC c r w => if r =? w then [Empty t] else [] | _ => [] end.
  Record Inv0 (s : st) (es : list event) : Prop := {
    iw : widx s = zlen (puts es);
    ir : ridx s = zlen (gets es);
    il : exists q, legal cap [] es q;
    irc : 0 <= rcache s <= ridx s /\ widx s <= rcache s + cap;
    irw : ridx s <= widx s;
    iwc : 0 <= wcache s <= widx s;
    isl : forall i, ridx s <= i < widx s -> slots s (slot cap i) = znth (puts es) i;
    ic : forall t, cok s (puts es) (cons s t);
    ires : forall t, exists X, by_consumer t es = X ++ pend t (cons s t) /\ Forall2 explains_pop (cres s t) X;
    ib : broken s = false
  }.

  Definition Inv (s : st) (es : list event) : Prop := Inv0 s es /\ pok s es (prod s).

  Lemma inv_init : Inv init [].
  Proof.
    pose proof cap_pos. split; [constructor|]; cbn; try lia; auto.
    - exists []. constructor.
    - intros t. exists []. split; auto.
    - constructor.
  Qed.

  Lemma tset_same {A} (f : nat -> A) t x : tset f t x t = x.
  Proof. unfold tset. rewrite Nat.eqb_refl. auto. Qed.
  Lemma tset_other {A} (f : nat -> A) t x u : u <> t -> tset f t x u = f u.
  Proof. unfold tset. destruct (Nat.eqb_spec u t); auto; congruence. Qed.

  Lemma inv_set_cons s es t p : Inv s es -> cok s (puts es) p -> pend t p = pend t (cons s t) -> Inv (set_cons s t p) es.
  Proof.
    intros [[] PO] C PE. split; [|exact PO]. constructor; cbn [set_cons widx ridx rcache wcache slots prod cons pres cres broken oob]; auto.
    - intros u. destruct (Nat.eq_dec u t) as [->|N]; [rewrite tset_same; exact C|rewrite tset_other by auto; apply ic0].
    - intros u. destruct (Nat.eq_dec u t) as [->|N]; [rewrite tset_same, PE; auto|rewrite tset_other by auto; auto].
  Qed.

  Lemma inv_oob s es o : Inv s es -> Inv (mkSt (widx s) (ridx s) (rcache s) (wcache s) (slots s) (prod s) (cons s) (pres s) (cres s) (broken s) o) es.
  Proof. intros [[] PO]. split; [constructor; auto|exact PO]. Qed.

  (** The producer *)
  Lemma inv0_prod s es p r : Inv0 s es -> Inv0 (mkSt (widx s) (ridx s) (rcache s) (wcache s) (slots s) p (cons s) r (cres s) (broken s) (oob s)) es.
  Proof. intros []. constructor; auto. Qed.
  Lemma go_inv s es old seen c : Inv0 s es -> by_producer es = old ++ seen -> explains get (pres s) old ->
    (seen = [] /\ enough cap s c = true \/ seen = [Space (cap - (widx s - rcache s))]) -> Inv (go cap get s c) es.
  Proof.
    intros I0 BP EX WHY. assert (B : 0 <= widx s - rcache s <= cap) by (destruct I0; lia).
    pose proof (plan_spec s c B) as PS. cbv zeta in PS. unfold go. destruct (plan cap get s c) as [[todo vs] ret].
    destruct PS as (TD & VS & RT & LE & SH & EN).
    assert (W : why c ret seen).
    { destruct WHY as [[-> E]| ->]; [left; auto|right]. exists (cap - (widx s - rcache s)). rewrite <- VS. auto. }
    destruct vs as [|v vs].
    - split; [apply inv0_prod; auto|]. cbn [p_return prod pok pres]. rewrite BP.
      pose proof (ex_call get (pres s) old c ret seen EX RT W) as X. rewrite <- VS in X. rewrite app_nil_r in X. exact X.
    - split; [apply inv0_prod; auto|]. unfold set_prod, pok; cbn [prod pres widx rcache slots].
      exists old, seen, [], (v :: vs). repeat split; auto; try lia; try discriminate.
      cbn. intros; lia.
  Qed.
  Lemma p_start_inv s es c : Inv s es -> Inv (p_start cap get s c) es.
  Proof.
    intros [I0 PO]. unfold p_start. destruct (prod s) eqn:P; try (split; auto; rewrite P; auto; fail).
    destruct (enough cap s c) eqn:E.
    - apply (go_inv s es (by_producer es) []); auto. rewrite app_nil_r; auto.
    - split; [apply inv0_prod; auto|]. exact PO.
  Qed.
  Lemma by_producer_app a b : by_producer (a ++ b) = by_producer a ++ by_producer b.
  Proof. apply filter_app. Qed.
  Lemma by_consumer_app t a b : by_consumer t (a ++ b) = by_consumer t a ++ by_consumer t b.
  Proof. apply filter_app. Qed.
  Lemma queue_is s es q : Inv0 s es -> legal cap [] es q -> puts es = gets es ++ q /\ zlen q = widx s - ridx s.
  Proof.
    intros [] L. apply legal_balance in L. cbn [app] in L. split; auto. rewrite iw0, ir0. unfold puts, gets in *. rewrite L, zlen_app. lia.
  Qed.

  Lemma p_step_inv s es : Inv s es -> Inv (fst (p_step cap get s)) (es ++ snd (p_step cap get s)).
  Proof.
    intros [I0 PO]. pose proof cap_pos as CP. unfold p_step. destruct (prod s) as [|c|c [|[i v] todo] vs ret] eqn:P; cbn [fst snd].
    - rewrite app_nil_r. split; auto. rewrite P. auto.
    - (* the index of the readers *)
      destruct (il _ _ I0) as (q & L). destruct (queue_is _ _ _ I0 L) as (BA & QL).
      apply (go_inv _ _ (by_producer es) [Space (cap - (widx s - ridx s))]).
      + destruct I0. constructor; cbn [widx ridx rcache wcache slots prod cons pres cres broken oob]; rewrite ?puts_app, ?gets_app; cbn [puts gets flat_map]; rewrite ?app_nil_r; auto; try lia.
        * exists q. eapply legal_app; [exact L|]. constructor; [lia|constructor].
        * intros t. rewrite by_consumer_app. cbn [by_consumer filter]. rewrite app_nil_r. auto.
      + rewrite by_producer_app. reflexivity.
      + exact PO.
      + right. reflexivity.
    - (* commit *)
      destruct PO as (old & seen & pre & rest & BP & EX & RT & W & VS & NE & SP & TD & FIT & DONE).
      assert (rest = []) by (destruct rest; [auto|discriminate TD]). subst rest. rewrite app_nil_r in SP. subst pre.
      destruct (il _ _ I0) as (q & L). destruct (queue_is _ _ _ I0 L) as (BA & QL).
      split.
      + destruct I0. constructor; cbn [p_return widx ridx rcache wcache slots prod cons pres cres broken oob]; rewrite ?puts_app, ?gets_app; cbn [puts gets flat_map]; rewrite ?app_nil_r; auto; try (pose proof (zlen_nonneg vs); lia).
        * rewrite zlen_app. lia.
        * exists (q ++ vs). eapply legal_app; [exact L|]. constructor; [rewrite zlen_app; lia|constructor].
        * intros i Hi. destruct (Z.lt_ge_cases i (widx s)).
          -- rewrite znth_app1 by lia. apply isl0; lia.
          -- rewrite znth_app2 by lia. replace i with (widx s + (i - widx s)) at 1 by lia. rewrite DONE by lia. f_equal. lia.
        * intros t. specialize (ic0 t). pose proof (zlen_nonneg vs) as NN. assert (EQ : forall x, 0 <= x < widx s -> znth (puts es ++ vs) x = znth (puts es) x) by (intros; apply znth_app1; lia).
          destruct (cons s t); cbn [cok p_return widx ridx] in *; auto; try lia.
          -- destruct ic0 as (a1 & a2 & a3 & a4 & a5 & a6 & a7 & a8). repeat split; try lia; auto. intros E z Hz. rewrite EQ by lia. auto.
          -- destruct ic0 as (a1 & a2 & a3 & a4 & a5 & a6 & a7). repeat split; try lia; auto. intros E z Hz. rewrite EQ by lia. auto.
        * intros t. rewrite by_consumer_app. cbn [by_consumer filter]. rewrite app_nil_r. auto.
      + cbn [p_return prod pok pres]. rewrite by_producer_app, BP. cbn [by_producer filter]. rewrite <- app_assoc.
        pose proof (ex_call get (pres s) old c ret seen EX RT W) as X. rewrite <- VS in X. destruct vs; [congruence|exact X].
    - (* a slot *)
      destruct PO as (old & seen & pre & rest & BP & EX & RT & W & VS & NE & SP & TD & FIT & DONE). rewrite app_nil_r.
      destruct rest as [|v' rest]; [discriminate TD|]. cbn [place] in TD. injection TD as -> <- ->.
      assert (LV : zlen vs = zlen pre + 1 + zlen rest) by (rewrite SP, zlen_app, zlen_cons; lia). pose proof (zlen_nonneg rest). pose proof (zlen_nonneg pre).
      split.
      + destruct I0. constructor; cbn [widx ridx rcache wcache slots prod cons pres cres broken oob]; auto.
        * intros i Hi. unfold fset. destruct (Z.eqb_spec (slot cap i) (at_w (widx s) (zlen pre))) as [E|E]; [|auto].
          exfalso. unfold at_w in E. apply slot_inj in E; lia.
      + cbn [prod pok pres widx rcache slots]. exists old, seen, (pre ++ [v]), rest. rewrite <- app_assoc. cbn [app].
        assert (LP : zlen (pre ++ [v]) = zlen pre + 1) by (rewrite zlen_app, zlen_cons; change (zlen (@nil Z)) with 0; lia).
        repeat split; auto; try lia.
        * rewrite LP. auto.
        * rewrite LP. intros i Hi. unfold fset. destruct (Z.eqb_spec (slot cap (widx s + i)) (at_w (widx s) (zlen pre))) as [E|E].
          -- unfold at_w in E. apply slot_inj in E; [|destruct I0; lia]. assert (i = zlen pre) by lia. subst i. rewrite SP, znth_app2, Z.sub_diag by lia. reflexivity.
          -- apply DONE. unfold at_w in E. assert (i <> zlen pre) by (intros ->; congruence). lia.
  Qed.

  (** The consumers *)
  Lemma start_read_ok s pu c r w : 0 <= lim c -> 0 <= r <= ridx s -> r < w <= widx s -> cok s pu (CRead c r (newidx c r w) 0 []).
  Proof.
    intros L R W. cbn [cok]. change (zlen (@nil Z)) with 0. destruct c as [|n]; cbn [newidx lim] in *.
    - repeat split; try lia.
    - destruct (Z.gtb_spec (r + n) w); repeat split; lia.
  Qed.
  Lemma read_at s es c r new j : Inv0 s es -> ridx s = r -> r <= new <= widx s -> 0 <= j < new - r -> new - r <= lim c ->
    slots s (at_read cap c r j) = znth (puts es) (r + j).
  Proof.
    intros [] R N J LM. assert (E : at_read cap c r j = slot cap (r + j)).
    { destruct c as [|n]; cbn [at_read lim] in *; [f_equal; lia|]. apply copy_slot. lia. }
    rewrite E. apply isl0. lia.
  Qed.
  Lemma prefix_is acc q : (forall i, 0 <= i < zlen acc -> znth acc i = znth q i) -> zlen acc <= zlen q -> exists q', q = acc ++ q'.
  Proof.
    intros H L. exists (skipn (length acc) q). rewrite <- (firstn_skipn (length acc) q) at 1. f_equal. unfold zlen in *.
    apply nth_ext with (d := 0) (d' := 0); [rewrite firstn_length; lia|]. intros n Hn. rewrite firstn_length in Hn.
    specialize (H (Z.of_nat n)). unfold znth in H. rewrite Nat2Z.id in H. rewrite H by lia.
    rewrite <- (firstn_skipn (length acc) q) at 2. rewrite app_nth1; auto. rewrite firstn_length; lia.
  Qed.
  Lemma c_start_inv s es t c : 0 <= lim c -> Inv s es -> Inv (c_start s t c) es.
  Proof.
    intros L I. unfold c_start. destruct (cons s t) eqn:C; auto. apply inv_set_cons; auto. rewrite C. auto.
  Qed.
  Lemma c_step_inv s es t weak : Inv s es -> Inv (fst (c_step cap s t weak)) (es ++ snd (c_step cap s t weak)).
  Proof.
    intros I. pose proof cap_pos as CP. pose proof (ic _ _ (proj1 I) t) as CO. assert (R0 : 0 <= ridx s) by (destruct I as [[] _]; lia).
    unfold c_step. destruct (cons s t) as [|c|c r|c r|c r w|c r new j acc|c r new acc] eqn:C; cbn [cok] in CO.
    - cbn [fst snd]. rewrite app_nil_r. auto.
    - cbn [fst snd]. rewrite app_nil_r. apply inv_set_cons; auto; [cbn; lia|rewrite C; auto].
    - cbn [fst snd]. rewrite app_nil_r. assert (WC := iwc _ _ (proj1 I)). destruct (Z.geb_spec r (wcache s)).
      + apply inv_set_cons; auto. rewrite C; auto.
      + apply inv_set_cons; auto; [|rewrite C; auto]. apply start_read_ok; lia.
    - (* the index of the writer *)
      cbn [fst snd]. assert (RW := irw _ _ (proj1 I)). assert (PE : pend t (CStoreC c r (widx s)) = if r =? widx s then [Empty t] else []) by reflexivity.
      destruct (Z.eqb_spec r (widx s)) as [E|E].
      + destruct I as [I0 PO]. destruct (il _ _ I0) as (q & L). destruct (queue_is _ _ _ I0 L) as (BA & QL).
        assert (q = []) by (destruct q; [auto|rewrite zlen_cons in QL; pose proof (zlen_nonneg q); lia]). subst q.
        split.
        * destruct I0. constructor; cbn [set_cons widx ridx rcache wcache slots prod cons pres cres broken oob]; rewrite ?puts_app, ?gets_app; cbn [puts gets flat_map]; rewrite ?app_nil_r; auto.
          -- exists []. eapply legal_app; [exact L|]. constructor. constructor.
          -- intros u. destruct (Nat.eq_dec u t) as [->|N]; [rewrite tset_same; cbn; lia|rewrite tset_other by auto; apply ic0].
          -- intros u. rewrite by_consumer_app. destruct (ires0 u) as (X & X1 & X2). exists X. split; auto. rewrite X1.
             destruct (Nat.eq_dec u t) as [->|N].
             ++ rewrite tset_same, C, PE. cbn [pend by_consumer filter]. rewrite Nat.eqb_refl. rewrite app_nil_r. auto.
             ++ rewrite tset_other by auto. cbn [by_consumer filter]. destruct (Nat.eqb_spec t u); [congruence|]. rewrite app_nil_r. auto.
        * cbn [set_cons prod]. unfold pok in *. cbn [pres widx rcache slots]. rewrite by_producer_app. cbn [by_producer filter]. rewrite app_nil_r. exact PO.
      + rewrite app_nil_r. apply inv_set_cons; auto; [cbn; lia|]. rewrite C, PE. auto.
    - (* the cache *)
      cbn [fst snd]. rewrite app_nil_r. set (s1 := mkSt _ _ _ _ _ _ _ _ _ _ _).
      assert (I1 : r <> w -> Inv s1 es). { intros _. destruct I as [[] PO]. split; [|exact PO]. constructor; auto. cbn [wcache widx s1]. lia. }
      destruct (Z.eqb_spec r w) as [E|E].
      + destruct I as [[] PO]. split; [|exact PO]. constructor; cbn [c_return s1 widx ridx rcache wcache slots prod cons pres cres broken oob]; auto; try lia.
        * intros u. destruct (Nat.eq_dec u t) as [->|N]; [rewrite tset_same; cbn; auto|rewrite tset_other by auto; apply ic0].
        * intros u. destruct (ires0 u) as (X & X1 & X2). destruct (Nat.eq_dec u t) as [->|N].
          -- rewrite !tset_same. rewrite C in X1. cbn [pend] in X1. rewrite (proj2 (Z.eqb_eq r w) E) in X1. exists (X ++ [Empty t]). rewrite app_nil_r. split; auto.
             apply Forall2_app; auto. constructor; [reflexivity|constructor].
          -- rewrite !tset_other by auto. exists X. auto.
      + destruct (Z.ltb_spec r w); [|lia]. apply inv_set_cons; auto.
        * apply start_read_ok; cbn [s1 ridx widx]; lia.
        * cbn [s1 cons]. rewrite C. cbn [pend]. rewrite (proj2 (Z.eqb_neq r w) E). auto.
    - destruct CO as (a1 & a2 & a3 & a4 & a5 & a6 & a7 & a8). destruct (Z.ltb_spec j (new - r)); cbn [fst snd]; rewrite app_nil_r; (apply inv_set_cons; [try apply inv_oob; auto| |try (cbn [cons]; rewrite C); auto]); cbn [cok ridx widx].
      + assert (LP : zlen (acc ++ [slots s (at_read cap c r j)]) = j + 1) by (rewrite zlen_app, zlen_cons; change (zlen (@nil Z)) with 0; lia).
        repeat split; auto; try lia. intros E i Hi. destruct (Z.eq_dec i j) as [->|N].
        * rewrite znth_app2 by lia. replace (j - zlen acc) with 0 by lia. cbn [znth]. unfold znth at 1. cbn.
          apply (read_at s es c r new j (proj1 I)); auto; lia.
        * rewrite znth_app1 by lia. apply a8; auto; lia.
      + assert (j = new - r) by lia. subst j. repeat split; auto; try lia.
    - destruct CO as (a1 & a2 & a3 & a4 & a5 & a6 & a7). destruct (weak || negb (ridx s =? r)) eqn:WK; cbn [fst snd].
      + rewrite app_nil_r. apply inv_set_cons; auto. rewrite C; auto.
      + apply orb_false_iff in WK as [_ RR]. apply negb_false_iff, Z.eqb_eq in RR. specialize (a7 RR).
        destruct I as [I0 PO]. destruct (il _ _ I0) as (q & L). destruct (queue_is _ _ _ I0 L) as (BA & QL).
        destruct (prefix_is acc q) as (q' & ->).
        { intros i Hi. rewrite a7 by lia. rewrite BA. rewrite znth_app2; [f_equal|]; destruct I0; lia. } { lia. }
        split.
        * destruct I0. constructor; cbn [c_return widx ridx rcache wcache slots prod cons pres cres broken oob]; rewrite ?puts_app, ?gets_app; cbn [puts gets flat_map]; rewrite ?app_nil_r; auto; try lia.
          -- rewrite zlen_app. lia.
          -- exists q'. eapply legal_app; [exact L|]. constructor. constructor.
          -- intros u. destruct (Nat.eq_dec u t) as [->|N]; [rewrite tset_same; cbn; auto|rewrite tset_other by auto].
             specialize (ic0 u). destruct (cons s u); cbn [cok c_return widx ridx] in *; auto; try lia.
             ++ destruct ic0 as (b1 & b2 & b3 & b4 & b5 & b6 & b7 & b8). repeat split; auto; try lia. intros E. apply b8. lia.
             ++ destruct ic0 as (b1 & b2 & b3 & b4 & b5 & b6 & b7). repeat split; auto; try lia. intros E. apply b7. lia.
          -- intros u. rewrite by_consumer_app. destruct (ires0 u) as (X & X1 & X2). cbn [by_consumer filter]. fold (by_consumer u es). rewrite X1. destruct (Nat.eq_dec u t) as [->|N].
             ++ rewrite !tset_same, Nat.eqb_refl, C. cbn [pend]. rewrite !app_nil_r. exists (X ++ [Popped t acc]). split; [rewrite app_nil_r; auto|]. apply Forall2_app; auto. constructor; [|constructor].
                cbn [explains_pop fst snd]. split; auto. destruct c as [|n]; cbn [lim] in *; [lia|]. split; [lia|]. intros NZ ->. change (zlen (@nil Z)) with 0 in a6. lia.
             ++ rewrite !tset_other by auto. destruct (Nat.eqb_spec t u); [congruence|]. exists X. rewrite app_nil_r. auto.
        * cbn [c_return prod]. unfold pok in *. cbn [pres widx rcache slots]. rewrite by_producer_app. cbn [by_producer filter]. rewrite app_nil_r. exact PO.
  Qed.

  Lemma run_inv acts : Forall sane acts -> forall s es, Inv s es -> Inv (fst (run cap get s acts)) (es ++ snd (run cap get s acts)).
  Proof.
    induction 1 as [|a acts SA F IH]; intros s es I; cbn [run]; [cbn; rewrite app_nil_r; auto|].
    assert (I1 : Inv (fst (step cap get s a)) (es ++ snd (step cap get s a))).
    { destruct a as [c| |t c|t weak]; cbn [step fst snd]; rewrite ?app_nil_r.
      - apply p_start_inv; auto.
      - apply p_step_inv; auto.
      - apply c_start_inv; auto. destruct c; cbn in *; lia.
      - apply c_step_inv; auto. }
    destruct (step cap get s a) as [s1 e1]. cbn [fst snd] in I1. specialize (IH _ _ I1). destruct (run cap get s1 acts) as [s2 e2]. cbn [fst snd] in *.
    rewrite app_assoc. exact IH.
  Qed.

  (** No access outside of the slots *)
  Definition climit (p : cpc) : Z :=
    match p with CIdle => 0 | CLoadR c | CLoadC c _ | CLoadW c _ | CStoreC c _ _ | CRead c _ _ _ _ | CCas c _ _ _ => lim c end.
  Definition In_bounds (s : st) : Prop := oob s = false /\ forall t, climit (cons s t) <= cap.

  Lemma outside_slot i : outside cap (slot cap i) = false.
  Proof. unfold outside. pose proof (slot_range i). lia. Qed.
  Lemma lim_tset s t p : (forall t, climit (cons s t) <= cap) -> climit p <= cap -> forall u, climit (tset (cons s) t p u) <= cap.
  Proof. intros A B u. unfold tset. destruct (u =? t)%nat; auto. Qed.

  Lemma step_bounds s es a : Inv s es -> sane a -> small cap a -> In_bounds s -> In_bounds (fst (step cap get s a)).
  Proof.
    intros I SA SM [O L]. pose proof cap_pos as CP. destruct a as [c| |t c|t weak]; cbn [step fst].
    - unfold p_start, go. destruct (prod s); [|split; auto..]. destruct (enough cap s c); [|split; auto].
      destruct (plan cap get s c) as [[todo vs] ret]. destruct vs; split; auto.
    - destruct I as [I0 PO]. unfold p_step, pok in *. destruct (prod s) as [|c|c [|[i v] todo] vs ret]; cbn [fst]; try (split; auto; fail).
      + unfold go. destruct (plan cap get _ c) as [[todo vs] ret]. destruct vs; split; auto.
      + destruct PO as (old & seen & pre & rest & _ & _ & _ & _ & _ & _ & _ & TD & _). destruct rest as [|x rest]; [discriminate|].
        cbn [place] in TD. injection TD as -> -> _. split; auto. cbn [oob]. unfold at_w. rewrite outside_slot, O. auto.
    - unfold c_start. destruct (cons s t); [|split; auto..]. split; auto. cbn [set_cons cons]. apply lim_tset; auto. destruct c; cbn in *; lia.
    - pose proof (L t) as LT. pose proof (ic _ _ (proj1 I) t) as CO. unfold c_step. destruct (cons s t) as [|c|c r|c r|c r w|c r new j acc|c r new acc] eqn:C; cbn [climit cok] in *.
      + split; auto.
      + split; auto. apply lim_tset; auto.
      + destruct (r >=? wcache s); split; auto; apply lim_tset; auto.
      + split; auto. apply lim_tset; auto.
      + destruct (r =? w); [split; auto; apply lim_tset; auto; cbn; lia|]. destruct (r <? w); [|split; auto]. split; auto. apply lim_tset; auto.
      + destruct (Z.ltb_spec j (new - r)); [|split; auto; apply lim_tset; auto]. split; [|apply (lim_tset s); auto].
        cbn [fst set_cons oob]. rewrite O. cbn [orb]. destruct c as [|n]; cbn [at_read lim] in *; [apply outside_slot|].
        rewrite copy_slot by lia. apply outside_slot.
      + destruct (weak || negb (ridx s =? r)); split; auto; apply lim_tset; auto; cbn; lia.
  Qed.

  Lemma run_bounds acts : Forall sane acts -> Forall (small cap) acts -> forall s es, Inv s es -> In_bounds s -> In_bounds (fst (run cap get s acts)).
  Proof.
    induction acts as [|a acts IH]; intros SA SM s es I B; cbn [run]; auto.
    inversion SA; inversion SM; subst. pose proof (step_bounds s es a I H1 H5 B) as B1.
    pose proof (run_inv [a] (Forall_cons _ H1 (Forall_nil _)) s es I) as I1. cbn [run] in I1.
    destruct (step cap get s a) as [s1 e1]. cbn [fst snd] in *. specialize (IH H2 H6 _ _ I1 B1). destruct (run cap get s1 acts). exact IH.
  Qed.

  (** A consumer alone comes to an end *)
  Definition done (s : st) (t : nat) (n : nat) : Prop := cons (fst (run cap get s (repeat (CStep t false) n))) t = CIdle.
  Lemma done_S s t n : done (fst (c_step cap s t false)) t n -> done s t (S n).
  Proof.
    unfold done. cbn [repeat run step]. destruct (c_step cap s t false) as [s1 e1]. cbn [fst]. destruct (run cap get s1 _). auto.
  Qed.
  Definition ends (s : st) (t : nat) : Prop := exists n, done s t n.
  Lemma ends_step s t : ends (fst (c_step cap s t false)) t -> ends s t.
  Proof. intros [n D]. exists (S n). apply done_S; auto. Qed.
  Lemma ends_idle s t : cons s t = CIdle -> ends s t.
  Proof. intros. exists O. exact H. Qed.
  Lemma set_cons_at s t p : cons (set_cons s t p) t = p.
  Proof. apply tset_same. Qed.
  Lemma step_inv1 s es t : Inv s es -> exists es', Inv (fst (c_step cap s t false)) es'.
  Proof. intros I. eexists. apply c_step_inv. exact I. Qed.

  Lemma read_ends k : forall s t c r new j acc, cons s t = CRead c r new j acc -> Z.to_nat (new - r - j) = k ->
    (forall s', cons s' t = CCas c r new (acc ++ map (fun i => slots s (at_read cap c r (j + Z.of_nat i))) (seq 0 k)) -> ridx s' = ridx s -> widx s' = widx s -> wcache s' = wcache s -> ends s' t) ->
    ends s t.
  Proof.
    induction k as [|k IH]; intros s t c r new j acc C K F; apply ends_step; unfold c_step; rewrite C.
    - destruct (Z.ltb_spec j (new - r)); [lia|]. apply F; auto. cbn [fst]. rewrite set_cons_at, app_nil_r. auto.
    - destruct (Z.ltb_spec j (new - r)); [|lia]. eapply IH; [apply set_cons_at|lia|]. intros s' C' R W WC.
      apply F; auto. rewrite C'. f_equal. rewrite <- app_assoc. f_equal. cbn [app seq map]. f_equal; [f_equal; f_equal; lia|].
      rewrite <- seq_shift, map_map. apply map_ext. intros i. cbn [fst set_cons slots]. f_equal. f_equal. lia.
  Qed.
  Lemma cas_ends s t c r new acc : cons s t = CCas c r new acc -> ridx s = r -> ends s t.
  Proof.
    intros C R. apply ends_step. unfold c_step. rewrite C, R, Z.eqb_refl. cbn [orb negb fst]. apply ends_idle. apply tset_same.
  Qed.
  Lemma fresh_read s t c r new j acc : cons s t = CRead c r new j acc -> ridx s = r -> ends s t.
  Proof. intros C R. eapply read_ends; eauto. intros s' C' R' _ _. eapply cas_ends; eauto. congruence. Qed.
  Lemma fresh_store s es t c r w : Inv s es -> cons s t = CStoreC c r w -> ridx s = r -> ends s t.
  Proof.
    intros I C R. pose proof (ic _ _ (proj1 I) t) as CO. rewrite C in CO. cbn [cok] in CO.
    apply ends_step. unfold c_step. rewrite C. destruct (Z.eqb_spec r w); [apply ends_idle; apply tset_same|]. destruct (Z.ltb_spec r w); [|lia].
    eapply fresh_read; [apply set_cons_at|]. exact R.
  Qed.
  Lemma fresh_loadw s es t c r : Inv s es -> cons s t = CLoadW c r -> ridx s = r -> ends s t.
  Proof.
    intros I C R. apply ends_step. destruct (step_inv1 s es t I) as (es' & I'). unfold c_step in *. rewrite C in *. cbn [fst] in *.
    eapply fresh_store; [exact I'|apply set_cons_at|exact R].
  Qed.
  Lemma fresh_loadc s es t c r : Inv s es -> cons s t = CLoadC c r -> ridx s = r -> ends s t.
  Proof.
    intros I C R. apply ends_step. destruct (step_inv1 s es t I) as (es' & I'). unfold c_step in *. rewrite C in *. cbn [fst] in *.
    destruct (r >=? wcache s); [eapply fresh_loadw; [exact I'|apply set_cons_at|exact R]|eapply fresh_read; [apply set_cons_at|exact R]].
  Qed.
  Lemma fresh_loadr s es t c : Inv s es -> cons s t = CLoadR c -> ends s t.
  Proof.
    intros I C. apply ends_step. destruct (step_inv1 s es t I) as (es' & I'). unfold c_step in *. rewrite C in *. cbn [fst] in *.
    eapply fresh_loadc; [exact I'|apply set_cons_at|reflexivity].
  Qed.
  (** From a stale index: one more round *)
  Lemma any_cas s es t c r new acc : Inv s es -> cons s t = CCas c r new acc -> ends s t.
  Proof.
    intros I C. destruct (Z.eq_dec (ridx s) r) as [E|N]; [eapply cas_ends; eauto|].
    apply ends_step. destruct (step_inv1 s es t I) as (es' & I'). unfold c_step in *. rewrite C in *.
    destruct (Z.eqb_spec (ridx s) r); [contradiction|]. cbn [orb negb fst] in *. eapply fresh_loadr; [exact I'|apply set_cons_at].
  Qed.
  Lemma any_read k : forall s es t c r new j acc, Inv s es -> cons s t = CRead c r new j acc -> Z.to_nat (new - r - j) = k -> ends s t.
  Proof.
    induction k as [|k IH]; intros s es t c r new j acc I C K; apply ends_step; destruct (step_inv1 s es t I) as (es' & I'); unfold c_step in *; rewrite C in *.
    - destruct (Z.ltb_spec j (new - r)); [lia|]. cbn [fst] in *. eapply any_cas; [exact I'|apply set_cons_at].
    - destruct (Z.ltb_spec j (new - r)); [|lia]. cbn [fst] in *. eapply IH; [exact I'|apply set_cons_at|lia].
  Qed.
  Lemma any_store s es t c r w : Inv s es -> cons s t = CStoreC c r w -> ends s t.
  Proof.
    intros I C. pose proof (ic _ _ (proj1 I) t) as CO. rewrite C in CO. cbn [cok] in CO.
    apply ends_step. destruct (step_inv1 s es t I) as (es' & I'). unfold c_step in *. rewrite C in *.
    destruct (Z.eqb_spec r w); [apply ends_idle; apply tset_same|]. destruct (Z.ltb_spec r w); [|lia]. cbn [fst] in *.
    eapply any_read; [exact I'|apply set_cons_at|reflexivity].
  Qed.
  Lemma any_loadw s es t c r : Inv s es -> cons s t = CLoadW c r -> ends s t.
  Proof.
    intros I C. apply ends_step. destruct (step_inv1 s es t I) as (es' & I'). unfold c_step in *. rewrite C in *. cbn [fst] in *.
    eapply any_store; [exact I'|apply set_cons_at].
  Qed.
  Lemma consumer_ends s es t : Inv s es -> ends s t.
  Proof.
    intros I. destruct (cons s t) as [|c|c r|c r|c r w|c r new j acc|c r new acc] eqn:C.
    - apply ends_idle; auto.
    - eapply fresh_loadr; eauto.
    - apply ends_step. destruct (step_inv1 s es t I) as (es' & I'). unfold c_step in *. rewrite C in *. cbn [fst] in *.
      destruct (r >=? wcache s); [eapply any_loadw; [exact I'|apply set_cons_at]|eapply any_read; [exact I'|apply set_cons_at|reflexivity]].
    - eapply any_loadw; eauto.
    - eapply any_store; eauto.
    - eapply any_read; eauto.
    - eapply any_cas; eauto.
  Qed.

  (** The producer alone comes to an end *)
  Lemma run_cons s a l : fst (run cap get s (a :: l)) = fst (run cap get (fst (step cap get s a)) l).
  Proof. cbn [run]. destruct (step cap get s a) as [s1 e1]. cbn [fst]. destruct (run cap get s1 l). auto. Qed.
  Lemma write_ends todo : forall s c vs ret, prod s = PWrite c todo vs ret -> prod (fst (run cap get s (repeat PStep (S (length todo))))) = PIdle.
  Proof.
    induction todo as [|[i v] todo IH]; intros s c vs ret P; cbn [length]; cbn [repeat];
      rewrite run_cons; unfold step at 1, p_step; rewrite P.
    - reflexivity.
    - eapply IH. reflexivity.
  Qed.
  Lemma go_ends s c : exists n, prod (fst (run cap get (go cap get s c) (repeat PStep n))) = PIdle.
  Proof.
    unfold go. destruct (plan cap get s c) as [[todo vs] ret]. destruct vs; [exists O; reflexivity|].
    exists (S (length todo)). eapply write_ends. reflexivity.
  Qed.
  Lemma producer_ends s : exists n, prod (fst (run cap get s (repeat PStep n))) = PIdle.
  Proof.
    destruct (prod s) as [|c|c todo vs ret] eqn:P; [exists O; auto| |eexists; eapply write_ends; eauto].
    set (s1 := mkSt (widx s) (ridx s) (ridx s) (wcache s) (slots s) (prod s) (cons s) (pres s) (cres s) (broken s) (oob s)).
    destruct (go_ends s1 c) as (n & D). exists (S n). cbn [repeat run step]. unfold p_step. rewrite P. cbn [fst].
    subst s1. rewrite P in D. destruct (run cap get _ (repeat PStep n)). exact D.
  Qed.
End proof.
