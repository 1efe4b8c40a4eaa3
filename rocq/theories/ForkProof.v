From Coq Require Import List Arith Lia Bool.
From Verif Require Import ForkModel ForkSpec.
Import ListNotations.

Lemma stream_eqb_refl : forall x, stream_eqb x x = true.
Proof. intros [[s r] b]. unfold stream_eqb. now rewrite Nat.eqb_refl, !Bool.eqb_reflx. Qed.
Lemma stream_eqb_eq : forall x y, stream_eqb x y = true <-> x = y.
Proof.
  intros [[s r] b] [[s' r'] b']. unfold stream_eqb. rewrite !andb_true_iff, Nat.eqb_eq, !Bool.eqb_true_iff.
  split; [intros [[-> ->] ->]; reflexivity|]. intros E. injection E. auto.
Qed.
Lemma key_eqb_eq : forall x y, key_eqb x y = true <-> x = y.
Proof.
  intros [|n i j t] [|n' i' j' t']; cbn [key_eqb]; try (split; [discriminate|discriminate]); [tauto|].
  rewrite !andb_true_iff, Nat.eqb_eq, !Bool.eqb_true_iff.
  split; [intros [[[-> ->] ->] ->]; reflexivity|]. intros E. injection E. auto.
Qed.
Lemma key_eqb_refl : forall x, key_eqb x x = true.
Proof. intros x. now apply key_eqb_eq. Qed.

(* The chain of a stream, given the copies in force. *)
Definition dropof (x : stream) (a : nat * copy) : list proc :=
  let '(s, i, b) := x in let '(n, c) := a in
  if c_tgt c =? s then [mkproc ORD_PLAY (KFwd n i (xorb (c_tidx c) b) true) ADrop] else [].
Definition copyof (x : stream) (a : nat * copy) : list proc :=
  let '(s, i, b) := x in let '(n, c) := a in
  if c_src c =? s then
    let j := xorb (c_sidx c) b in
    [mkproc ORD_WITNESS (KFwd n i j false) (ACopy (tin_of c i j) (tout_of c i j))] else [].
Definition full (A : list (nat * copy)) (x : stream) : list proc :=
  flat_map (dropof x) A ++ mkproc ORD_WITNESS KBase ARecord :: flat_map (copyof x) A
    ++ [mkproc ORD_RELAY KBase ARelay].

Lemma insert_after : forall p l r,
  Forall (fun q => p_ord q <= p_ord p) l ->
  match r with [] => True | q :: _ => p_ord p < p_ord q end ->
  insert p (l ++ r) = l ++ p :: r.
Proof.
  intros p l r H. induction H as [|q l H1 H2 IH]; cbn [app insert]; intros HR.
  - destruct r as [|q r]; [reflexivity|]. cbn [insert]. destruct (Nat.ltb_spec (p_ord p) (p_ord q)); [reflexivity|lia].
  - destruct (Nat.ltb_spec (p_ord p) (p_ord q)); [lia|]. now rewrite IH.
Qed.

Lemma drops_ord : forall x A, Forall (fun q => p_ord q = ORD_PLAY /\ p_act q = ADrop) (flat_map (dropof x) A).
Proof.
  intros [[s i] b] A. apply Forall_forall. intros q H. apply in_flat_map in H. destruct H as [[n c] [_ H]].
  unfold dropof in H. destruct (c_tgt c =? s); [|contradiction]. destruct H as [<-|[]]. now split.
Qed.
Lemma copies_ord : forall x A, Forall (fun q => p_ord q = ORD_WITNESS) (flat_map (copyof x) A).
Proof.
  intros [[s i] b] A. apply Forall_forall. intros q H. apply in_flat_map in H. destruct H as [[n c] [_ H]].
  unfold copyof in H. destruct (c_src c =? s); [|contradiction]. destruct H as [<-|[]]. reflexivity.
Qed.

Lemma insert_drop : forall A x k,
  insert (mkproc ORD_PLAY k ADrop) (full A x) =
  (flat_map (dropof x) A ++ [mkproc ORD_PLAY k ADrop]) ++
    mkproc ORD_WITNESS KBase ARecord :: flat_map (copyof x) A ++ [mkproc ORD_RELAY KBase ARelay].
Proof.
  intros A x k. unfold full. rewrite insert_after; [now rewrite <- app_assoc| |cbn; unfold ORD_PLAY, ORD_WITNESS; lia].
  eapply Forall_impl; [|apply drops_ord]. intros q [E _]. cbn [p_ord]. lia.
Qed.
Lemma insert_copy : forall A x k a,
  insert (mkproc ORD_WITNESS k a) (full A x) =
  flat_map (dropof x) A ++ mkproc ORD_WITNESS KBase ARecord ::
    (flat_map (copyof x) A ++ [mkproc ORD_WITNESS k a]) ++ [mkproc ORD_RELAY KBase ARelay].
Proof.
  intros A x k a. unfold full.
  replace (flat_map (dropof x) A ++ mkproc ORD_WITNESS KBase ARecord :: flat_map (copyof x) A ++ [mkproc ORD_RELAY KBase ARelay])
    with ((flat_map (dropof x) A ++ mkproc ORD_WITNESS KBase ARecord :: flat_map (copyof x) A) ++ [mkproc ORD_RELAY KBase ARelay])
    by now rewrite <- app_assoc.
  rewrite insert_after.
  - repeat (rewrite <- ?app_assoc; cbn [app]). reflexivity.
  - apply Forall_app. split; [|constructor].
    + eapply Forall_impl; [|apply drops_ord]. intros q [E _]. cbn [p_ord]. rewrite E. unfold ORD_PLAY, ORD_WITNESS. lia.
    + reflexivity.
    + eapply Forall_impl; [|apply copies_ord]. intros q E. cbn in E |- *. lia.
  - cbn. unfold ORD_RELAY, ORD_WITNESS. lia.
Qed.

Lemma flat_map_snoc : forall (A B : Type) (f : A -> list B) l a, flat_map f (l ++ [a]) = flat_map f l ++ f a.
Proof. intros. rewrite flat_map_app. cbn. now rewrite app_nil_r. Qed.

Lemma install_full : forall A m c n, c_src c <> c_tgt c -> (forall x, m x = full A x) ->
  forall x, fold_left (reg1 c n) regs m x = full (A ++ [(n, c)]) x.
Proof.
  intros A m c n NE H [[s i] b]. unfold full at 1. rewrite !flat_map_snoc.
  assert (S : fold_left (reg1 c n) regs m (s, i, b) =
    if c_src c =? s then
      insert (mkproc ORD_WITNESS (KFwd n i (xorb (c_sidx c) b) false)
        (ACopy (tin_of c i (xorb (c_sidx c) b)) (tout_of c i (xorb (c_sidx c) b)))) (m (s, i, b))
    else if c_tgt c =? s then
      insert (mkproc ORD_PLAY (KFwd n i (xorb (c_tidx c) b) true) ADrop) (m (s, i, b))
    else m (s, i, b)).
  { destruct c as [src sidx tgt tidx]. cbn [c_src c_tgt c_sidx c_tidx] in *.
    unfold regs, parts. cbn [flat_map app fold_left reg1]. unfold reg, src_of, tout_of, stream_eqb.
    cbn [c_src c_tgt c_sidx c_tidx]. rewrite (Nat.eqb_sym s src), (Nat.eqb_sym s tgt).
    destruct (Nat.eqb_spec src s) as [E1|E1], (Nat.eqb_spec tgt s) as [E2|E2];
      try (exfalso; congruence); destruct i, b, sidx, tidx; reflexivity. }
  rewrite S, !H. cbn [dropof copyof].
  destruct (Nat.eqb_spec (c_src c) s) as [E1|E1], (Nat.eqb_spec (c_tgt c) s) as [E2|E2];
    try (exfalso; congruence).
  - rewrite insert_copy, app_nil_r. reflexivity.
  - rewrite insert_drop, app_nil_r. reflexivity.
  - rewrite !app_nil_r. reflexivity.
Qed.

(* Removing a processor by its key. *)
Lemma remove_filter : forall k l, In k (map p_key l) -> NoDup (map p_key (filter (fun p => key_eqb (p_key p) k) l)) ->
  remove k l = Some (filter (fun p => negb (key_eqb (p_key p) k)) l).
Proof.
  intros k. induction l as [|q l IH]; cbn [map In remove filter]; intros H ND; [contradiction|].
  destruct (key_eqb (p_key q) k) eqn:E.
  - apply key_eqb_eq in E. cbn [negb]. cbn [map] in ND. inversion ND as [|? ? NI ND']. subst.
    f_equal. symmetry. clear -NI. induction l as [|r l IH]; cbn [filter]; [reflexivity|].
    cbn [filter] in NI. destruct (key_eqb (p_key r) (p_key q)) eqn:E.
    + exfalso. apply NI. apply key_eqb_eq in E. cbn [map]. left. exact E.
    + cbn [negb]. now rewrite IH.
  - cbn [negb]. rewrite IH; [reflexivity| |exact ND].
    destruct H as [<-|H]; [|exact H]. rewrite key_eqb_refl in E. discriminate.
Qed.

Lemma filter_filter : forall (A : Type) (f g : A -> bool) l, filter f (filter g l) = filter (fun x => g x && f x) l.
Proof.
  intros A f g. induction l as [|a l IH]; cbn [filter]; [reflexivity|].
  destruct (g a); cbn [filter andb]; [|exact IH]. destruct (f a); now rewrite IH.
Qed.

Definition ids (A : list (nat * copy)) := map fst A.

Definition home (c : copy) (k : key) : stream :=
  match k with
  | KBase => (0, false, false)
  | KFwd _ i j false => src_of c i j
  | KFwd _ i j true => tout_of c i j
  end.

Lemma full_key : forall A x k, In k (map p_key (full A x)) ->
  match k with
  | KBase => True
  | KFwd n i j t => exists c, In (n, c) A /\ x = home c k
  end.
Proof.
  intros A [[s i] b] k H. apply in_map_iff in H. destruct H as [p [<- H]].
  unfold full in H. apply in_app_iff in H. destruct H as [H|[H|H]].
  - apply in_flat_map in H. destruct H as [[n c] [HI H]]. unfold dropof in H.
    destruct (Nat.eqb_spec (c_tgt c) s) as [E|]; [|contradiction]. destruct H as [<-|[]]. cbn [p_key].
    exists c. split; [exact HI|]. cbn [home]. unfold tout_of. rewrite E.
    destruct (c_tidx c), b; reflexivity.
  - subst p. exact I.
  - apply in_app_iff in H. destruct H as [H|[H|[]]].
    + apply in_flat_map in H. destruct H as [[n c] [HI H]]. unfold copyof in H.
      destruct (Nat.eqb_spec (c_src c) s) as [E|]; [|contradiction]. destruct H as [<-|[]]. cbn [p_key].
      exists c. split; [exact HI|]. cbn [home]. unfold src_of. rewrite E.
      destruct (c_sidx c), b; reflexivity.
    + subst p. exact I.
Qed.

Lemma full_has : forall A n c i j t, In (n, c) A ->
  In (KFwd n i j t) (map p_key (full A (home c (KFwd n i j t)))).
Proof.
  intros A n c i j t H. unfold full. rewrite map_app, in_app_iff. cbn [map In]. rewrite map_app, in_app_iff.
  destruct t; cbn [home].
  - left. apply in_map_iff. exists (mkproc ORD_PLAY (KFwd n i j true) ADrop). split; [reflexivity|].
    apply in_flat_map. exists (n, c). split; [exact H|]. unfold tout_of, dropof. rewrite Nat.eqb_refl.
    left. destruct (c_tidx c), j; reflexivity.
  - right. right. left. apply in_map_iff.
    exists (mkproc ORD_WITNESS (KFwd n i j false) (ACopy (tin_of c i j) (tout_of c i j))). split; [reflexivity|].
    apply in_flat_map. exists (n, c). split; [exact H|]. unfold src_of, copyof. rewrite Nat.eqb_refl.
    left. destruct (c_sidx c), j; reflexivity.
Qed.

(* a key occurs once *)
Lemma once_flat : forall (f : nat * copy -> list proc) k n A,
  (forall a, Forall (fun p => exists i j t, p_key p = KFwd (fst a) i j t) (f a)) ->
  (forall a, length (f a) <= 1) ->
  (exists i j t, k = KFwd n i j t) -> NoDup (ids A) ->
  length (filter (fun p => key_eqb (p_key p) k) (flat_map f A)) <= 1 /\
  (~ In n (ids A) -> filter (fun p => key_eqb (p_key p) k) (flat_map f A) = []).
Proof.
  intros f k n A HF HL [i [j [t ->]]]. induction A as [|a A IH]; intros ND; [split; [cbn; lia|reflexivity]|].
  cbn [ids map] in ND. inversion ND as [|? ? NI ND']. subst. specialize (IH ND'). destruct IH as [I1 I2].
  cbn [flat_map]. rewrite filter_app, app_length.
  assert (EMP : fst a <> n -> filter (fun p => key_eqb (p_key p) (KFwd n i j t)) (f a) = []).
  { intros NE. specialize (HF a). induction HF as [|p l [i' [j' [t' E]]] H2 IHF]; [reflexivity|].
    cbn [filter]. rewrite E. cbn [key_eqb]. destruct (Nat.eqb_spec (fst a) n); [congruence|]. exact IHF. }
  assert (LEN : length (filter (fun p => key_eqb (p_key p) (KFwd n i j t)) (f a)) <= length (f a)).
  { clear. induction (f a) as [|p l IH]; cbn [filter length]; [lia|]. destruct (key_eqb _ _); cbn [length]; lia. }
  specialize (HL a). split.
  - destruct (Nat.eq_dec (fst a) n) as [E|NE].
    + rewrite I2; [cbn [length]; lia|]. now rewrite <- E.
    + rewrite EMP by exact NE. cbn [length]. lia.
  - intros NI2. cbn [ids map In] in NI2. rewrite EMP, I2; [reflexivity| |]; tauto.
Qed.

Lemma dropof_key : forall x a, Forall (fun p => exists i j, p_key p = KFwd (fst a) i j true) (dropof x a).
Proof.
  intros [[s i] b] [n c]. unfold dropof. destruct (_ =? _); repeat constructor. cbn. eauto.
Qed.
Lemma copyof_key : forall x a, Forall (fun p => exists i j, p_key p = KFwd (fst a) i j false) (copyof x a).
Proof.
  intros [[s i] b] [n c]. unfold copyof. destruct (_ =? _); repeat constructor. cbn. eauto.
Qed.
Lemma dropof_len : forall x a, length (dropof x a) <= 1.
Proof. intros [[s i] b] [n c]. unfold dropof. destruct (_ =? _); cbn; lia. Qed.
Lemma copyof_len : forall x a, length (copyof x a) <= 1.
Proof. intros [[s i] b] [n c]. unfold copyof. destruct (_ =? _); cbn; lia. Qed.

Lemma none_other : forall (f : nat * copy -> list proc) (t : bool) A n i j,
  (forall a, Forall (fun p => exists i j, p_key p = KFwd (fst a) i j (negb t)) (f a)) ->
  filter (fun p => key_eqb (p_key p) (KFwd n i j t)) (flat_map f A) = [].
Proof.
  intros f t A n i j HF. induction A as [|a A IH]; [reflexivity|]. cbn [flat_map]. rewrite filter_app, IH, app_nil_r.
  specialize (HF a). induction HF as [|p l [i' [j' E]] H2 IHF]; [reflexivity|].
  cbn [filter]. rewrite E. cbn [key_eqb]. destruct t; cbn; rewrite !andb_false_r; exact IHF.
Qed.

Lemma full_once : forall A x n i j t, NoDup (ids A) ->
  length (filter (fun p => key_eqb (p_key p) (KFwd n i j t)) (full A x)) <= 1.
Proof.
  intros A x n i j t ND. unfold full. rewrite filter_app. cbn [filter p_key key_eqb]. rewrite filter_app.
  cbn [filter p_key key_eqb]. rewrite app_nil_r, app_length.
  destruct t.
  - rewrite (none_other (copyof x) true) by apply copyof_key. cbn [length].
    destruct (once_flat (dropof x) (KFwd n i j true) n A) as [H _]; [| |eauto|exact ND|lia].
    + intros a. eapply Forall_impl; [|apply dropof_key]. intros p [i' [j' E]]. eauto.
    + apply dropof_len.
  - rewrite (none_other (dropof x) false) by apply dropof_key. cbn [length].
    destruct (once_flat (copyof x) (KFwd n i j false) n A) as [H _]; [| |eauto|exact ND|lia].
    + intros a. eapply Forall_impl; [|apply copyof_key]. intros p [i' [j' E]]. eauto.
    + apply copyof_len.
Qed.

Lemma filter_comm : forall (A : Type) (f g : A -> bool) l, filter f (filter g l) = filter g (filter f l).
Proof. intros. rewrite !filter_filter. apply filter_ext. intros a. apply andb_comm. Qed.

Lemma filter_len : forall (A : Type) (f : A -> bool) l, length (filter f l) <= length l.
Proof. intros A f. induction l as [|a l IH]; cbn [filter length]; [lia|]. destruct (f a); cbn [length]; lia. Qed.

Lemma forallb_filter_id : forall (A : Type) (f : A -> bool) l, forallb f l = true -> filter f l = l.
Proof.
  intros A f. induction l as [|a l IH]; cbn [forallb filter]; intros H; [reflexivity|].
  apply andb_true_iff in H. destruct H as [-> H]. now rewrite IH.
Qed.

Definition gone (K : list key) (p : proc) : bool := negb (existsb (key_eqb (p_key p)) K).

Lemma unreg_full : forall A (m : chains) K n c i j t, NoDup (ids A) -> In (n, c) A ->
  (forall x, m x = filter (gone K) (full A x)) -> ~ In (KFwd n i j t) K ->
  exists m', unreg m (home c (KFwd n i j t)) (KFwd n i j t) = Some m' /\
    forall x, m' x = filter (gone (KFwd n i j t :: K)) (full A x).
Proof.
  intros A m K n c i j t ND HI H NK. unfold unreg. set (k := KFwd n i j t) in *. set (y := home c k) in *.
  rewrite remove_filter.
  - eexists. split; [reflexivity|]. intros x. cbn beta.
    assert (EQ : forall x, filter (fun p => negb (key_eqb (p_key p) k)) (filter (gone K) (full A x)) =
                 filter (gone (k :: K)) (full A x)).
    { intros x'. rewrite filter_filter. apply filter_ext. intros p. unfold gone. cbn [existsb].
      rewrite negb_orb. apply andb_comm. }
    destruct (stream_eqb x y) eqn:E.
    + apply stream_eqb_eq in E. subst x. rewrite H. apply EQ.
    + rewrite H, <- EQ. symmetry. apply forallb_filter_id. apply forallb_forall. intros p HP.
      apply filter_In in HP. destruct HP as [HP _]. apply negb_true_iff.
      destruct (key_eqb (p_key p) k) eqn:EK; [|reflexivity]. exfalso. apply key_eqb_eq in EK.
      assert (HK : In k (map p_key (full A x))) by (rewrite <- EK; now apply in_map).
      apply full_key in HK. cbn beta iota in HK. unfold k in HK at 1. cbn beta iota in HK.
      destruct HK as [c' [HI' EX]].
      assert (c' = c).
      { clear -ND HI HI'. unfold ids in ND. induction A as [|a A IH]; [contradiction|].
        cbn [map] in ND. inversion ND as [|? ? NI ND']. subst.
        destruct HI as [->|HI], HI' as [E|HI'].
        - congruence.
        - exfalso. apply NI. apply in_map_iff. exists (n, c'). split; [reflexivity|exact HI'].
        - exfalso. apply NI. subst a. apply in_map_iff. exists (n, c). split; [reflexivity|exact HI].
        - now apply IH. }
      subst c'. fold k in EX. fold y in EX. subst x. rewrite stream_eqb_refl in E. discriminate.
  - rewrite H. pose proof (full_has A n c i j t HI) as HK. fold k in HK. fold y in HK.
    apply in_map_iff in HK. destruct HK as [p [EP HP]]. apply in_map_iff. exists p. split; [exact EP|].
    apply filter_In. split; [exact HP|]. unfold gone. rewrite EP. apply negb_true_iff.
    destruct (existsb (key_eqb k) K) eqn:EE; [|reflexivity]. exfalso. apply NK.
    apply existsb_exists in EE. destruct EE as [k' [HK' EK']]. apply key_eqb_eq in EK'. now rewrite EK'.
  - rewrite H, filter_comm.
    assert (L : length (filter (gone K) (filter (fun p => key_eqb (p_key p) k) (full A y))) <= 1).
    { eapply Nat.le_trans; [apply filter_len|]. now apply full_once. }
    destruct (filter (gone K) _) as [|p [|q l]]; [constructor| |cbn [length] in L; lia].
    cbn [map]. constructor; [intros []|constructor].
Qed.

Lemma filter_flat_map : forall (A B : Type) (f : A -> list B) (g : B -> bool) (h : A -> bool) l,
  (forall a, In a l -> filter g (f a) = if h a then f a else []) ->
  filter g (flat_map f l) = flat_map f (filter h l).
Proof.
  intros A B f g h. induction l as [|a l IH]; intros H; [reflexivity|].
  cbn [flat_map filter]. rewrite filter_app, H by now left. rewrite IH by (intros; apply H; now right).
  destruct (h a); reflexivity.
Qed.

Definition allkeys (n : nat) : list key :=
  [KFwd n true true true; KFwd n true true false; KFwd n true false true; KFwd n true false false;
   KFwd n false true true; KFwd n false true false; KFwd n false false true; KFwd n false false false].

Lemma allkeys_of : forall n n' i j t, existsb (key_eqb (KFwd n' i j t)) (allkeys n) = (n' =? n).
Proof.
  intros n n' i j t. unfold allkeys. cbn [existsb key_eqb].
  destruct (n' =? n), i, j, t; reflexivity.
Qed.

Lemma gone_full : forall A n x,
  filter (gone (allkeys n)) (full A x) = full (filter (fun a => negb (fst a =? n)) A) x.
Proof.
  intros A n x. unfold full. rewrite filter_app. cbn [filter].
  unfold gone at 2. cbn [p_key existsb allkeys key_eqb orb negb]. rewrite filter_app. cbn [filter].
  unfold gone at 3. cbn [p_key existsb allkeys key_eqb orb negb].
  rewrite (filter_flat_map _ _ (dropof x) _ (fun a => negb (fst a =? n))),
          (filter_flat_map _ _ (copyof x) _ (fun a => negb (fst a =? n))); [reflexivity| |].
  - intros a _. pose proof (copyof_key x a) as H. pose proof (copyof_len x a) as L.
    destruct (copyof x a) as [|p [|q l]]; [now destruct (negb _)| |cbn [length] in L; lia].
    inversion H as [|? ? [i' [j' E]] _]. subst. cbn [filter]. unfold gone. rewrite E, allkeys_of.
    now destruct (fst a =? n).
  - intros a _. pose proof (dropof_key x a) as H. pose proof (dropof_len x a) as L.
    destruct (dropof x a) as [|p [|q l]]; [now destruct (negb _)| |cbn [length] in L; lia].
    inversion H as [|? ? [i' [j' E]] _]. subst. cbn [filter]. unfold gone. rewrite E, allkeys_of.
    now destruct (fst a =? n).
Qed.

Lemma uninstall_full : forall A (m : chains) n c, NoDup (ids A) -> In (n, c) A -> (forall x, m x = full A x) ->
  exists m', uninstall c n m = Some m' /\ forall x, m' x = full (filter (fun a => negb (fst a =? n)) A) x.
Proof.
  intros A m n c ND HI H. unfold uninstall, regs, parts. cbn [flat_map app fold_left].
  assert (H0 : forall x, m x = filter (gone []) (full A x)).
  { intros x. rewrite H. symmetry. apply forallb_filter_id. apply forallb_forall. reflexivity. }
  clear H.
  Local Ltac one ND HI H m' :=
    let E := fresh "E" in let H' := fresh "H" in
    match goal with
    | |- context [unreg1 ?c ?n (Some ?m) (?i, ?j, ?sd)] =>
        let t := match sd with Src => constr:(false) | Tgt => constr:(true) end in
        destruct (unreg_full _ m _ n c i j t ND HI H) as [m' [E H']];
        [cbn [In]; intuition congruence|];
        replace (unreg1 c n (Some m) (i, j, sd)) with (Some m') by (symmetry; exact E);
        clear E H; rename H' into H
    end.
  one ND HI H0 m1. one ND HI H0 m2. one ND HI H0 m3. one ND HI H0 m4.
  one ND HI H0 m5. one ND HI H0 m6. one ND HI H0 m7. one ND HI H0 m8.
  exists m8. split; [reflexivity|]. intros x. rewrite H0. apply gone_full.
Qed.

(* The invariant of the histories. *)
Record inv (s : st) : Prop := {
  i_nodup : NoDup (ids (cps s));
  i_next : Forall (fun n => n < next s) (ids (cps s));
  i_ch : forall x, ch s x = full (cps s) x }.

Lemma inv_init : inv init.
Proof. split; [constructor|constructor|reflexivity]. Qed.

Lemma ids_filter_nodup : forall f A, NoDup (ids A) -> NoDup (ids (filter f A)).
Proof.
  intros f. induction A as [|a A IH]; cbn [filter ids map]; intros ND; [constructor|].
  inversion ND as [|? ? NI ND']. subst. destruct (f a); [|now apply IH].
  cbn [ids map]. constructor; [|now apply IH]. intros H. apply NI.
  apply in_map_iff in H. destruct H as [b [E H]]. apply filter_In in H. apply in_map_iff. exists b. tauto.
Qed.

Lemma ids_filter_next : forall f A n, Forall (fun k => k < n) (ids A) -> Forall (fun k => k < n) (ids (filter f A)).
Proof.
  intros f A n H. rewrite Forall_forall in *. intros k HK. apply H.
  apply in_map_iff in HK. destruct HK as [b [E HK]]. apply filter_In in HK. apply in_map_iff. exists b. tauto.
Qed.

Lemma nodup_snoc : forall (l : list nat) a, NoDup l -> ~ In a l -> NoDup (l ++ [a]).
Proof.
  induction l as [|b l IH]; cbn [app]; intros a ND NI; [constructor; [intros []|constructor]|].
  inversion ND as [|? ? NI' ND']. subst. constructor.
  - rewrite in_app_iff. cbn [In] in *. intros [H|[->|[]]]; tauto.
  - apply IH; [exact ND'|]. cbn [In] in NI. tauto.
Qed.

Lemma step_copy : forall s c ok, inv s -> 8 <= ok -> exists s',
  step s (FCopy c ok) = Some s' /\ inv s' /\
  map snd (cps s') = (if c_src c =? c_tgt c then map snd (cps s) else map snd (cps s) ++ [c]).
Proof.
  intros s c ok I OK. cbn [step]. unfold do_copy. destruct (Nat.eqb_spec (c_src c) (c_tgt c)) as [E|NE].
  - exists s. auto.
  - destruct (Nat.ltb_spec ok (length regs)) as [L|_]; [cbn in L; lia|]. cbn [option_map fst].
    eexists. split; [reflexivity|]. cbn [cps]. rewrite map_app. split; [|reflexivity].
    destruct I as [I1 I2 I3]. split; cbn [cps next ch].
    + unfold ids. rewrite map_app. cbn [map fst]. apply nodup_snoc; [exact I1|].
      intros H. rewrite Forall_forall in I2. specialize (I2 _ H). cbn beta in I2. lia.
    + unfold ids. rewrite map_app. apply Forall_app. split; [|repeat constructor].
      eapply Forall_impl; [|exact I2]. intros a L. cbn beta in *. lia.
    + intros x. now apply install_full.
Qed.

Lemma end_loop : forall t L A (m : chains),
  NoDup (ids A) -> (forall x, m x = full A x) -> NoDup (ids L) ->
  (forall a, In a L -> In a A) ->
  exists m', fold_left (fun m '(n, c) =>
                     if c_tgt c =? t
                     then match m with Some m => uninstall c n m | None => None end
                     else m) L (Some m) = Some m' /\
    forall x, m' x = full (filter (fun a => negb (existsb (fun b => (c_tgt (snd b) =? t) && (fst b =? fst a)) L)) A) x.
Proof.
  intros t. induction L as [|[n c] L IH]; intros A m ND H NDL SUB; cbn [fold_left existsb].
  - exists m. split; [reflexivity|]. intros x. rewrite H. f_equal. symmetry. apply forallb_filter_id.
    apply forallb_forall. reflexivity.
  - cbn [ids map fst] in NDL. inversion NDL as [|? ? NI NDL']. subst.
    destruct (c_tgt c =? t) eqn:ET.
    + destruct (uninstall_full A m n c ND (SUB _ (or_introl eq_refl)) H) as [m1 [E1 H1]]. rewrite E1.
      destruct (IH _ m1 (ids_filter_nodup _ _ ND) H1 NDL') as [m2 [E2 H2]].
      * intros a HA. apply filter_In. split; [apply SUB; now right|]. apply negb_true_iff, Nat.eqb_neq.
        intros EE. apply NI. rewrite <- EE. now apply in_map.
      * exists m2. split; [exact E2|]. intros x. rewrite H2. f_equal. rewrite filter_filter.
        apply filter_ext. intros a. cbn [snd fst]. rewrite ET. cbn [andb].
        rewrite negb_orb, (Nat.eqb_sym (fst a) n). reflexivity.
    + destruct (IH A m ND H NDL') as [m2 [E2 H2]].
      * intros a HA. apply SUB. now right.
      * exists m2. split; [exact E2|]. intros x. rewrite H2. f_equal. apply filter_ext. intros a.
        cbn [snd fst]. rewrite ET. reflexivity.
Qed.

Lemma nodup_ids_inj : forall A a b, NoDup (ids A) -> In a A -> In b A -> fst a = fst b -> a = b.
Proof.
  induction A as [|c A IH]; cbn [ids map]; intros a b ND HA HB E; [contradiction|].
  inversion ND as [|? ? NI ND']. subst. destruct HA as [->|HA], HB as [->|HB]; [reflexivity| | |now apply IH].
  - exfalso. apply NI. rewrite E. now apply in_map.
  - exfalso. apply NI. rewrite <- E. now apply in_map.
Qed.

Lemma step_end : forall s t, inv s -> exists s',
  step s (FEnd t) = Some s' /\ inv s' /\
  map snd (cps s') = filter (fun c => negb (c_tgt c =? t)) (map snd (cps s)).
Proof.
  intros s t [I1 I2 I3]. cbn [step]. unfold do_end.
  destruct (end_loop t (cps s) (cps s) (ch s) I1 I3 I1 (fun a H => H)) as [m [E H]]. rewrite E.
  eexists. split; [reflexivity|]. cbn [cps]. split.
  - split; cbn [cps next ch].
    + now apply ids_filter_nodup.
    + now apply ids_filter_next.
    + intros x. rewrite H. f_equal. apply filter_ext_in. intros [n c] HA. f_equal.
      destruct (c_tgt c =? t) eqn:ET.
      * apply existsb_exists. exists (n, c). cbn [fst snd]. now rewrite ET, Nat.eqb_refl.
      * destruct (existsb _ (cps s)) eqn:EX; [|reflexivity]. exfalso.
        apply existsb_exists in EX. destruct EX as [b [HB EB]]. apply andb_true_iff in EB.
        destruct EB as [EB1 EB2]. apply Nat.eqb_eq in EB2.
        pose proof (nodup_ids_inj _ _ _ I1 HB HA EB2) as ->. cbn [snd] in EB1. congruence.
  - clear. induction (cps s) as [|[n c] l IH]; [reflexivity|]. cbn [filter map snd].
    destruct (negb (c_tgt c =? t)); cbn [map snd]; rewrite IH; reflexivity.
Qed.

Lemma run_inv : forall os s, inv s -> Forall mem_ok os -> exists s',
  run s os = Some s' /\ inv s' /\ map snd (cps s') = in_force (map snd (cps s)) os.
Proof.
  induction os as [|o os IH]; intros s I OK; cbn [run in_force]; [eauto|].
  inversion OK as [|? ? O1 O2]. subst. destruct o as [c ok|t].
  - destruct (step_copy s c ok I O1) as [s1 [E [I1 C1]]]. rewrite E.
    destruct (IH s1 I1 O2) as [s2 [E2 [I2 C2]]]. exists s2. rewrite C2, C1.
    split; [exact E2|]. split; [exact I2|]. reflexivity.
  - destruct (step_end s t I) as [s1 [E [I1 C1]]]. rewrite E.
    destruct (IH s1 I1 O2) as [s2 [E2 [I2 C2]]]. exists s2. rewrite C2, C1.
    split; [exact E2|]. split; [exact I2|]. reflexivity.
Qed.

(* Processing, on the chains of the invariant. *)
Definition go_of (f : nat) (m : chains) (x out : stream) (startat : nat) :=
  fix go (l : list proc) : option (list event) :=
         match l with
         | [] => Some []
         | p :: r =>
             if (0 <? startat) && (p_ord p <? startat) then go r
             else match p_act p with
                  | ADrop => Some [EvDrop x]
                  | ACopy tin tout =>
                      match handleat f m tin tout (ORD_PLAY + 1) with
                      | None => None
                      | Some e => option_map (app e) (go r)
                      end
                  | ARecord => option_map (cons (EvRecord x)) (go r)
                  | ARelay => Some [EvRelay x out]
                  end
         end.

Lemma handleat_S : forall f m x out k, handleat (S f) m x out k = go_of f m x out k (m x).
Proof. reflexivity. Qed.

Lemma go_skips : forall f m x out l r, Forall (fun q => p_ord q = ORD_PLAY /\ p_act q = ADrop) l ->
  go_of f m x out (ORD_PLAY + 1) (l ++ r) = go_of f m x out (ORD_PLAY + 1) r.
Proof.
  intros f m x out l r H. induction H as [|p l [E _] H IH]; [reflexivity|].
  cbn [app go_of]. rewrite E. exact IH.
Qed.

Definition spread_step f A x := (fun acc c =>
              if c_src c =? sess_of x then
                match acc, spread f A (fst (goes_to c x)) (snd (goes_to c x)) with
                | Some a, Some e => Some (a ++ e)
                | _, _ => None
                end
              else acc : option (list event)).
Lemma spread_S : forall f A x out, spread (S f) A x out =
  match fold_left (spread_step f A x) A (Some [EvRecord x]) with
  | Some a => Some (a ++ [EvRelay x out]) | None => None end.
Proof. reflexivity. Qed.

Lemma spread_none : forall f A x L, fold_left (spread_step f A x) L None = None.
Proof.
  intros f A x. induction L as [|c L IH]; [reflexivity|]. cbn [fold_left]. unfold spread_step at 2.
  destruct (c_src c =? sess_of x); [|exact IH]. exact IH.
Qed.

Lemma goes_to_ok : forall c x, c_src c = sess_of x ->
  let '(s, i, b) := x in
  goes_to c x = (tin_of c i (xorb (c_sidx c) b), tout_of c i (xorb (c_sidx c) b)).
Proof. intros c [[s i] b] E. reflexivity. Qed.

Lemma handle_spread : forall A m f x out, (forall x, m x = full A x) ->
  handleat f m x out (ORD_PLAY + 1) = spread f (map snd A) x out.
Proof.
  intros A m f. induction f as [|f IH]; intros x out H; [reflexivity|].
  rewrite handleat_S, spread_S, H. unfold full. rewrite go_skips by apply drops_ord.
  assert (G : forall L k a, (k = 0 \/ k = ORD_PLAY + 1) ->
    option_map (app a) (go_of f m x out k (flat_map (copyof x) L ++ [mkproc ORD_RELAY KBase ARelay])) =
    match fold_left (spread_step f (map snd A) x) (map snd L) (Some a) with
    | Some a => Some (a ++ [EvRelay x out]) | None => None end).
  { induction L as [|[n c] L IHL]; intros k a KK.
    - destruct KK as [-> | ->]; reflexivity.
    - cbn [flat_map map snd fold_left]. destruct x as [[s i] b]. unfold copyof at 1, spread_step at 2.
      cbn [sess_of fst]. destruct (Nat.eqb_spec (c_src c) s) as [E|NE].
      + pose proof (goes_to_ok c (s, i, b) E) as GT. cbn beta iota in GT. rewrite GT. cbn [fst snd].
        rewrite <- IH by exact H. cbn [app go_of p_ord p_act].
        replace ((0 <? k) && (ORD_WITNESS <? k)) with false by (destruct KK as [-> | ->]; reflexivity).
        destruct (handleat f m _ _ _) as [e|].
        * rewrite <- (IHL k (a ++ e) KK). fold (go_of f m (s, i, b) out k).
          destruct (go_of f m (s, i, b) out k (flat_map (copyof (s, i, b)) L ++ [mkproc ORD_RELAY KBase ARelay]));
            cbn [option_map]; [|reflexivity]. now rewrite app_assoc.
        * cbn [option_map]. now rewrite spread_none.
      + cbn [app]. now apply IHL. }
  specialize (G A (ORD_PLAY + 1) [EvRecord x] (or_intror eq_refl)). rewrite <- G.
  cbn [go_of p_ord p_act]. replace ((0 <? ORD_PLAY + 1) && (ORD_WITNESS <? ORD_PLAY + 1)) with false by reflexivity.
  fold (go_of f m x out (ORD_PLAY + 1)). reflexivity.
Qed.

Definition is_target (A : list copy) (s : nat) : bool := existsb (fun c => c_tgt c =? s) A.

Lemma go_start : forall f m x out l, Forall (fun q => ORD_PLAY + 1 <= p_ord q) l ->
  go_of f m x out 0 l = go_of f m x out (ORD_PLAY + 1) l.
Proof.
  intros f m x out l H. induction H as [|p l E H IH]; [reflexivity|].
  cbn [go_of]. replace ((0 <? 0) && (p_ord p <? 0)) with false by reflexivity.
  destruct (Nat.ltb_spec (p_ord p) (ORD_PLAY + 1)); [lia|].
  rewrite andb_false_r. rewrite IH. reflexivity.
Qed.

Lemma drops_or : forall x A,
  flat_map (dropof x) A = [] /\ is_target (map snd A) (sess_of x) = false \/
  (exists p l, flat_map (dropof x) A = p :: l) /\ is_target (map snd A) (sess_of x) = true.
Proof.
  intros [[s i] b] A. cbn [sess_of fst]. induction A as [|[n c] A IHA]; [left; now split|].
  cbn [flat_map map snd]. unfold is_target. cbn [existsb]. fold (is_target (map snd A) s).
  unfold dropof at 1 3. destruct (c_tgt c =? s).
  - right. split; [eexists; eexists; reflexivity|reflexivity].
  - exact IHA.
Qed.

Lemma network_spread : forall A m f x out, (forall x, m x = full A x) ->
  from_network (S f) m x out =
  if is_target (map snd A) (sess_of x) then Some [EvDrop x] else spread (S f) (map snd A) x out.
Proof.
  intros A m f x out H. unfold from_network. rewrite <- (handle_spread A m (S f) x out H).
  rewrite !handleat_S, H. unfold full. rewrite go_skips by apply drops_ord.
  assert (D : flat_map (dropof x) A = [] /\ is_target (map snd A) (sess_of x) = false \/
              (exists p l, flat_map (dropof x) A = p :: l) /\ is_target (map snd A) (sess_of x) = true).
  { apply drops_or. }
  destruct D as [[-> ->]|[[p [l E]] ->]].
  - cbn [app]. apply go_start. constructor; [cbn; unfold ORD_PLAY, ORD_WITNESS; lia|].
    apply Forall_app. split; [|repeat constructor; cbn; unfold ORD_PLAY, ORD_RELAY; lia].
    eapply Forall_impl; [|apply copies_ord]. intros q E. cbn beta in *. rewrite E. unfold ORD_PLAY, ORD_WITNESS; lia.
  - pose proof (drops_ord x A) as DO. rewrite E in DO |- *. inversion DO as [|? ? [O1 O2] _]. subst.
    cbn [app go_of Nat.ltb Nat.leb andb]. now rewrite O2.
Qed.

(* When the processing of a packet ends. *)
Lemma fold_more : forall f f' A x, (forall y o e, spread f A y o = Some e -> spread f' A y o = Some e) ->
  forall L a b, fold_left (spread_step f A x) L (Some a) = Some b -> fold_left (spread_step f' A x) L (Some a) = Some b.
Proof.
  intros f f' A x H. induction L as [|c L IH]; cbn [fold_left]; intros a b E; [exact E|].
  unfold spread_step at 2. unfold spread_step at 2 in E. destruct (c_src c =? sess_of x); [|now apply IH].
  destruct (spread f A (fst (goes_to c x)) (snd (goes_to c x))) as [e|] eqn:ES.
  - rewrite (H _ _ _ ES). now apply IH.
  - rewrite spread_none in E. discriminate.
Qed.

Lemma spread_more : forall f f' A x out e, f <= f' -> spread f A x out = Some e -> spread f' A x out = Some e.
Proof.
  induction f as [|f IH]; intros f' A x out e L E; [discriminate|].
  destruct f' as [|f']; [lia|]. rewrite spread_S in *.
  destruct (fold_left (spread_step f A x) A (Some [EvRecord x])) as [a|] eqn:EF; [|discriminate].
  rewrite (fold_more f f' A x (fun y o e => IH f' A y o e (le_S_n _ _ L)) _ _ _ EF). exact E.
Qed.

Definition receives (A : list copy) (t s : nat) : Prop := copied A s t.

Lemma acc_spread : forall A s, Acc (receives A) s -> exists f, forall x out, sess_of x = s ->
  exists e, spread f A x out = Some e.
Proof.
  intros A s H. induction H as [s _ IH].
  assert (B : forall L, (forall c, In c L -> In c A) -> exists f, forall c, In c L -> c_src c = s -> forall y o,
    sess_of y = c_tgt c -> exists e, spread f A y o = Some e).
  { induction L as [|c L IHL]; intros SUB; [exists 0; intros c []|].
    destruct IHL as [f1 H1]; [intros; apply SUB; now right|].
    destruct (Nat.eq_dec (c_src c) s) as [E|NE].
    - destruct (IH (c_tgt c)) as [f2 H2]; [exists c; split; [apply SUB; now left|split; [exact E|reflexivity]]|].
      exists (max f1 f2). intros c' [<-|HC] EC y o EY.
      + destruct (H2 y o EY) as [e He]. exists e. eapply spread_more; [|exact He]. lia.
      + destruct (H1 c' HC EC y o EY) as [e He]. exists e. eapply spread_more; [|exact He]. lia.
    - exists f1. intros c' [<-|HC] EC; [congruence|]. now apply H1. }
  destruct (B A (fun c H => H)) as [f H]. exists (S f). intros x out EX. rewrite spread_S.
  assert (FL : forall L a, (forall c, In c L -> In c A) -> exists b, fold_left (spread_step f A x) L (Some a) = Some b).
  { induction L as [|c L IHL]; intros a SUB; [eexists; reflexivity|]. cbn [fold_left].
    unfold spread_step at 2. destruct (Nat.eqb_spec (c_src c) (sess_of x)) as [E|NE].
    - destruct (H c (SUB _ (or_introl eq_refl)) (eq_trans E EX) (fst (goes_to c x)) (snd (goes_to c x))) as [e He].
      + now destruct x as [[s' i'] b'].
      + rewrite He. apply IHL. intros; apply SUB; now right.
    - apply IHL. intros; apply SUB; now right. }
  destruct (FL A [EvRecord x] (fun c H => H)) as [b ->]. eauto.
Qed.

Lemma fold_some : forall f A x L a b, fold_left (spread_step f A x) L (Some a) = Some b ->
  forall c, In c L -> c_src c = sess_of x -> exists e, spread f A (fst (goes_to c x)) (snd (goes_to c x)) = Some e.
Proof.
  intros f A x. induction L as [|c L IH]; cbn [fold_left]; intros a b E c' HC EC; [contradiction|].
  unfold spread_step at 2 in E. destruct HC as [<-|HC].
  - rewrite EC, Nat.eqb_refl in E. destruct (spread f A (fst (goes_to c x)) (snd (goes_to c x))); [eauto|].
    rewrite spread_none in E. discriminate.
  - destruct (c_src c =? sess_of x); [|now apply (IH _ _ E)].
    destruct (spread f A (fst (goes_to c x)) (snd (goes_to c x))); [now apply (IH _ _ E)|].
    rewrite spread_none in E. discriminate.
Qed.

Lemma spread_acc : forall A f x out e, spread f A x out = Some e -> Acc (receives A) (sess_of x).
Proof.
  intros A. induction f as [|f IH]; intros x out e E; [discriminate|]. rewrite spread_S in E.
  destruct (fold_left (spread_step f A x) A (Some [EvRecord x])) as [a|] eqn:EF; [|discriminate].
  constructor. intros t [c [HI [ES ET]]].
  destruct (fold_some _ _ _ _ _ _ EF c HI ES) as [e' HE]. specialize (IH _ _ _ HE).
  replace t with (sess_of (fst (goes_to c x))); [exact IH|]. destruct x as [[s i] b]. exact ET.
Qed.

Lemma acc_no_chain : forall A s, Acc (receives A) s ->
  forall h : nat -> nat, h 0 = s -> ~ (forall n, copied A (h n) (h (S n))).
Proof.
  intros A s H. induction H as [s _ IH]. intros h E C.
  apply (IH (h 1)) with (h := fun n => h (S n)); [unfold receives; rewrite <- E; apply C|reflexivity|].
  intros n. apply C.
Qed.

Lemma rank_acc : forall A (rank : nat -> nat), (forall s t, copied A s t -> rank t < rank s) ->
  forall s, Acc (receives A) s.
Proof.
  intros A rank H s. remember (rank s) as r eqn:E. revert s E.
  induction r as [r IH] using lt_wf_ind. intros s E. constructor. intros t HT.
  apply (IH (rank t)); [|reflexivity]. rewrite E. now apply H.
Qed.

(* A failed registration. *)
Lemma unreg_none : forall c n L, fold_left (unreg1 c n) L None = None.
Proof. intros c n. induction L as [|[[i j] sd] L IH]; [reflexivity|exact IH]. Qed.

Lemma insert_keys : forall p l k, In k (map p_key (insert p l)) -> k = p_key p \/ In k (map p_key l).
Proof.
  intros p. induction l as [|q l IH]; cbn [insert map In]; intros k H; [intuition congruence|].
  destruct (p_ord p <? p_ord q); cbn [map In] in H; [intuition congruence|].
  destruct H as [<-|H]; [tauto|]. destruct (IH k H); tauto.
Qed.
Lemma remove_keys : forall k l l', remove k l = Some l' -> In k (map p_key l) /\
  forall k', In k' (map p_key l') -> In k' (map p_key l).
Proof.
  intros k. induction l as [|q l IH]; cbn [remove]; intros l' H; [discriminate|].
  destruct (key_eqb (p_key q) k) eqn:E.
  - apply key_eqb_eq in E. injection H as <-. cbn [map In]. split; [tauto|]. intros k2 HK. tauto.
  - destruct (remove k l) as [r|]; [|discriminate]. cbn [option_map] in H. injection H as <-.
    destruct (IH r eq_refl) as [H1 H2]. cbn [map In]. split; [tauto|]. intros k' [<-|HK]; [tauto|]. right. now apply H2.
Qed.
Lemma unreg_keys : forall m y k m', unreg m y k = Some m' ->
  (exists x, In k (map p_key (m x))) /\
  forall k', (exists x, In k' (map p_key (m' x))) -> exists x, In k' (map p_key (m x)).
Proof.
  intros m y k m' H. unfold unreg in H. destruct (remove k (m y)) as [l|] eqn:E; [|discriminate].
  injection H as <-. apply remove_keys in E. destruct E as [E1 E2]. split; [eauto|].
  intros k' [x HX]. destruct (stream_eqb x y); eauto.
Qed.

Definition key_of (n : nat) (r : bool * bool * side) : key :=
  let '(i, j, sd) := r in KFwd n i j (match sd with Src => false | Tgt => true end).

Lemma unreg1_keys : forall c n m r m', unreg1 c n (Some m) r = Some m' ->
  (exists x, In (key_of n r) (map p_key (m x))) /\
  forall k', (exists x, In k' (map p_key (m' x))) -> exists x, In k' (map p_key (m x)).
Proof. intros c n m [[i j] sd] m' H. destruct sd; exact (unreg_keys _ _ _ _ H). Qed.

Lemma unregs_keys : forall c n L m m', fold_left (unreg1 c n) L (Some m) = Some m' ->
  forall r, In r L -> exists x, In (key_of n r) (map p_key (m x)).
Proof.
  intros c n. induction L as [|r L IH]; intros m m' H r' HR; [contradiction|]. cbn [fold_left] in H.
  destruct (unreg1 c n (Some m) r) as [m1|] eqn:E; [|rewrite unreg_none in H; discriminate].
  apply unreg1_keys in E. destruct E as [E1 E2]. destruct HR as [<-|HR]; [exact E1|].
  apply E2. exact (IH _ _ H r' HR).
Qed.

Lemma regs_keys : forall c n L m k x, In k (map p_key (fold_left (reg1 c n) L m x)) ->
  In k (map (key_of n) L) \/ In k (map p_key (m x)).
Proof.
  intros c n. induction L as [|r L IH]; intros m k x H; [tauto|]. cbn [fold_left] in H.
  destruct (IH _ _ _ H) as [H1|H1]; [left; now right|]. cbn [map In].
  destruct r as [[i j] sd]. destruct sd; cbn [reg1] in H1; unfold reg in H1;
    destruct (stream_eqb x _); try tauto; apply insert_keys in H1; cbn [p_key] in H1; cbn [key_of]; intuition.
Qed.

Lemma short_aborts : forall s c ok, inv s -> c_src c <> c_tgt c -> ok < 8 -> do_copy s c ok = None.
Proof.
  intros s c ok [I1 I2 I3] NE L. unfold do_copy. destruct (Nat.eqb_spec (c_src c) (c_tgt c)); [contradiction|].
  destruct (Nat.ltb_spec ok (length regs)) as [_|L']; [|cbn in L'; lia].
  destruct (uninstall c (next s) _) as [m|] eqn:E; [|reflexivity]. exfalso.
  unfold uninstall in E. assert (HR : In (true, true, Tgt) regs) by (cbn; tauto).
  destruct (unregs_keys _ _ _ _ _ E _ HR) as [x HX]. apply regs_keys in HX. destruct HX as [HX|HX].
  - apply in_map_iff in HX. destruct HX as [r [ER HX]].
    assert (r = (true, true, Tgt)) as ->.
    { destruct r as [[i j] sd]. cbn [key_of] in ER. injection ER as -> -> ES. now destruct sd. }
    clear -HX L. do 8 (destruct ok as [|ok]; [cbn in HX; intuition congruence|]). lia.
  - rewrite I3 in HX. apply full_key in HX. cbn [key_of] in HX. destruct HX as [c' [HC _]].
    rewrite Forall_forall in I2. specialize (I2 (next s)). cbn beta in I2.
    assert (In (next s) (ids (cps s))) by (apply in_map_iff; exists (next s, c'); now split).
    specialize (I2 H). lia.
Qed.

Lemma run_some : forall os s s', inv s -> run s os = Some s' ->
  inv s' /\ map snd (cps s') = in_force (map snd (cps s)) os.
Proof.
  induction os as [|o os IH]; intros s s' I H; cbn [run in_force] in *.
  - injection H as <-. now split.
  - destruct (step s o) as [s1|] eqn:E; [|discriminate]. destruct o as [c ok|t].
    + destruct (Nat.eq_dec (c_src c) (c_tgt c)) as [EQ|NE].
      * cbn [step] in E. unfold do_copy in E. rewrite EQ, Nat.eqb_refl in E. cbn [option_map fst] in E.
        injection E as <-. destruct (IH _ _ I H) as [I2 C2]. split; [exact I2|].
        rewrite EQ, Nat.eqb_refl. exact C2.
      * destruct (Nat.lt_ge_cases ok 8) as [L|L].
        -- cbn [step] in E. rewrite (short_aborts s c ok I NE L) in E. discriminate.
        -- destruct (step_copy s c ok I L) as [s2 [E2 [I2 C2]]].
           assert (s2 = s1) as -> by congruence. destruct (IH _ _ I2 H) as [I3 C3]. split; [exact I3|].
           now rewrite C3, C2.
    + destruct (step_end s t I) as [s2 [E2 [I2 C2]]].
      assert (s2 = s1) as -> by congruence. destruct (IH _ _ I2 H) as [I3 C3]. split; [exact I3|].
      now rewrite C3, C2.
Qed.

Lemma player_result : forall os s, run init os = Some s -> forall f x out,
  from_player f (ch s) x out = spread f (in_force [] os) x out.
Proof.
  intros os s H f x out. destruct (run_some _ _ _ inv_init H) as [I C]. cbn [init cps map] in C.
  rewrite <- C. apply handle_spread. apply I.
Qed.
Lemma network_result : forall os s, run init os = Some s -> forall f x out,
  from_network (S f) (ch s) x out =
  if is_target (in_force [] os) (sess_of x) then Some [EvDrop x] else spread (S f) (in_force [] os) x out.
Proof.
  intros os s H f x out. destruct (run_some _ _ _ inv_init H) as [I C]. cbn [init cps map] in C.
  rewrite <- C. apply network_spread. apply I.
Qed.

Lemma is_target_iff : forall A t, is_target A t = true <-> exists s, copied A s t.
Proof.
  intros A t. unfold is_target. rewrite existsb_exists. split.
  - intros [c [H E]]. apply Nat.eqb_eq in E. exists (c_src c), c. auto.
  - intros [s [c [H [_ E]]]]. exists c. split; [exact H|]. now apply Nat.eqb_eq.
Qed.

Lemma shallow : forall f A x out, (forall t u, copied A (sess_of x) t -> ~ copied A t u) ->
  spread (S (S f)) A x out = Some (EvRecord x ::
    flat_map (fun c => if c_src c =? sess_of x
                       then [EvRecord (fst (goes_to c x)); EvRelay (fst (goes_to c x)) (snd (goes_to c x))] else []) A
    ++ [EvRelay x out]).
Proof.
  intros f A x out H. rewrite spread_S.
  assert (LEAF : forall c, In c A -> c_src c = sess_of x -> spread (S f) A (fst (goes_to c x)) (snd (goes_to c x)) =
    Some [EvRecord (fst (goes_to c x)); EvRelay (fst (goes_to c x)) (snd (goes_to c x))]).
  { intros c HC EC. rewrite spread_S.
    assert (ST : sess_of (fst (goes_to c x)) = c_tgt c) by now destruct x as [[s i] b].
    assert (FN : forall L a, (forall d, In d L -> In d A) ->
       fold_left (spread_step f A (fst (goes_to c x))) L (Some a) = Some a).
    { induction L as [|d L IH]; intros a SUB; [reflexivity|]. cbn [fold_left]. unfold spread_step at 2.
      destruct (Nat.eqb_spec (c_src d) (sess_of (fst (goes_to c x)))) as [E|_].
      - exfalso. apply (H (c_tgt c) (c_tgt d)); [exists c; auto|]. exists d.
        split; [apply SUB; now left|]. split; [|reflexivity]. congruence.
      - apply IH. intros d' HD. apply SUB. now right. }
    rewrite FN by auto. reflexivity. }
  assert (FL : forall L a, (forall c, In c L -> In c A) -> fold_left (spread_step (S f) A x) L (Some a) =
    Some (a ++ flat_map (fun c => if c_src c =? sess_of x
                       then [EvRecord (fst (goes_to c x)); EvRelay (fst (goes_to c x)) (snd (goes_to c x))] else []) L)).
  { induction L as [|c L IH]; intros a SUB; [cbn; now rewrite app_nil_r|]. cbn [fold_left flat_map].
    unfold spread_step at 2. destruct (Nat.eqb_spec (c_src c) (sess_of x)) as [E|NE].
    - rewrite LEAF; [|apply SUB; now left|exact E]. rewrite IH by (intros; apply SUB; now right).
      now rewrite <- app_assoc.
    - apply IH. intros; apply SUB; now right. }
  rewrite FL by auto. reflexivity.
Qed.

Lemma loops_forever : forall A (h : nat -> nat), (forall n, copied A (h n) (h (S n))) ->
  forall f x out, sess_of x = h 0 -> spread f A x out = None.
Proof.
  intros A h H f x out E. destruct (spread f A x out) as [e|] eqn:ES; [|reflexivity]. exfalso.
  apply spread_acc in ES. rewrite E in ES. exact (acc_no_chain _ _ ES h eq_refl H).
Qed.
