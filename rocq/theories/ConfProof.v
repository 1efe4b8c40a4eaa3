From Verif Require Import Base Str AddrModel BindModel ConfModel ConfSpec.
From Verif Require Import NumSpec.
From Verif Require BindSpec BindProof OptsModel OptsSpec OptsProof OptsThm.

(** ** Texts *)

Lemma cut_hit c a b : ~ In c a -> cut c (a ++ c :: b) = Some (a, b).
Proof.
  induction a as [|x a IH]; cbn [cut app In]; intros N.
  - rewrite Z.eqb_refl; auto.
  - destruct (Z.eqb_spec x c) as [->|]; [tauto|]. rewrite IH; tauto.
Qed.
Lemma cut_miss c s : ~ In c s -> cut c s = None.
Proof.
  induction s as [|x s IH]; cbn [cut In]; intros N; auto.
  destruct (Z.eqb_spec x c) as [->|]; [tauto|]. rewrite IH; tauto.
Qed.
Lemma cut_cases c s : (exists a b, s = a ++ c :: b /\ ~ In c a /\ cut c s = Some (a, b)) \/ (~ In c s /\ cut c s = None).
Proof.
  induction s as [|x s IH]; cbn [cut In]; [tauto|].
  destruct (Z.eqb_spec x c) as [->|N].
  - left. exists [], s. cbn; tauto.
  - destruct IH as [(a & b & -> & I & E)|[I E]]; rewrite E; [left|right; tauto].
    exists (x :: a), b. cbn; intuition.
Qed.
Lemma cut_inv c s a b : cut c s = Some (a, b) -> s = a ++ c :: b /\ ~ In c a.
Proof. destruct (cut_cases c s) as [(p & q & -> & I & E)|[I E]]; rewrite E; [intros [= <- <-]; auto|discriminate]. Qed.
Lemma cut_none c s : cut c s = None <-> ~ In c s.
Proof.
  destruct (cut_cases c s) as [(p & q & -> & I & E)|[I E]]; rewrite E; split; try discriminate; auto.
  intros H; destruct H. apply in_or_app; cbn; auto.
Qed.

Definition to_arg (g : given) : larg := mkArg (Some (host g)) (v6 g) (label g) (adv g).

Lemma arg_text_parse s f l h a : arg_text s l h a <-> bindarg_parse s f = mkArg (Some h) f l a.
Proof.
  unfold bindarg_parse. split.
  - intros [h' N1 N2|h' a' N1 N2|l' h' N1 N2|l' h' a' N1 N2].
    + rewrite (cut_miss 64), (cut_miss 61); auto.
    + rewrite (cut_miss 64), (cut_hit 61); auto.
    + rewrite (cut_hit 64), (cut_miss 61); auto.
    + rewrite (cut_hit 64), (cut_hit 61); auto.
  - destruct (cut_cases 64 s) as [(x & y & -> & I & E)|[I E]]; rewrite E.
    + destruct (cut_cases 61 y) as [(p & q & -> & J & K)|[J K]]; rewrite K; intros [= <- <- <-]; constructor; auto.
    + destruct (cut_cases 61 s) as [(p & q & -> & J & K)|[J K]]; rewrite K; intros [= <- <- <-]; constructor; auto.
Qed.

Definition parsed (os : list copt) : list larg := map (fun p => bindarg_parse (snd p) (fst p)) (listens os).

Lemma understood_parsed os gs : understood os gs <-> map to_arg gs = parsed os.
Proof.
  unfold understood, parsed. generalize (listens os). intros l; revert gs; induction l as [|p l IH]; intros gs; cbn [map].
  - split; [intros H; inversion H; auto|destruct gs; [constructor|discriminate]].
  - split.
    + intros H; inversion H as [|? g ? gs' [E T] F]; subst. cbn [map]. f_equal.
      * apply (arg_text_parse _ (fst p)) in T. rewrite T. unfold to_arg. rewrite E; auto.
      * apply IH; auto.
    + destruct gs as [|g gs]; [discriminate|]. cbn [map]. intros H. injection H as H1 H2. constructor; [|apply IH; auto].
      assert (E : v6 g = fst p).
      { unfold to_arg, bindarg_parse in H1. destruct (cut 64 (snd p)) as [[? ?]|]; destruct (cut 61 _) as [[? ?]|]; injection H1; auto. }
      split; auto. apply (arg_text_parse _ (fst p)). rewrite <- H1. unfold to_arg. rewrite E; auto.
Qed.
Lemma to_arg_inj g g' : to_arg g = to_arg g' -> g = g'.
Proof. destruct g, g'; unfold to_arg; cbn. intros [= -> -> -> ->]; auto. Qed.
Lemma map_to_arg_inj gs gs' : map to_arg gs = map to_arg gs' -> gs = gs'.
Proof.
  revert gs'; induction gs as [|g gs IH]; intros [|g' gs']; cbn; try discriminate; auto.
  intros H; injection H as H1 H2. f_equal; [|apply IH; auto]. apply to_arg_inj. unfold to_arg. congruence.
Qed.
Lemma understood_exists os : exists gs, understood os gs.
Proof.
  assert (H : exists gs, map to_arg gs = parsed os).
  { unfold parsed. induction (listens os) as [|p l [gs IH]]; cbn [map]; [exists []; auto|].
    destruct (bindarg_parse (snd p) (fst p)) as [h f lb a] eqn:E.
    assert (exists h', h = Some h') as [h' ->].
    { unfold bindarg_parse in E. destruct (cut 64 (snd p)) as [[? ?]|]; destruct (cut 61 _) as [[? ?]|]; injection E; intros; subst; eauto. }
    exists (mkGiven f lb h' a :: gs). cbn [map]. rewrite IH. auto. }
  destruct H as [gs H]. exists gs. apply understood_parsed; auto.
Qed.
Lemma understood_unique os gs gs' : understood os gs -> understood os gs' -> gs = gs'.
Proof. rewrite !understood_parsed. intros A B. apply map_to_arg_inj. congruence. Qed.
Lemma understood_nil os : listens os = [] <-> understood os [].
Proof.
  rewrite understood_parsed. unfold parsed. cbn [map]. split; [intros ->; auto|]. destruct (listens os); [auto|discriminate].
Qed.

(** ** Options *)

Lemma opt_run_app c os os' : opt_run c (os ++ os') = match opt_run c os with Some c' => opt_run c' os' | None => None end.
Proof. revert c; induction os as [|o os IH]; intros c; cbn [app opt_run]; auto. destruct (opt_step c o); auto. Qed.
Lemma listens_app os os' : listens (os ++ os') = listens os ++ listens os'.
Proof. unfold listens. apply flat_map_app. Qed.
Lemma parsed_app os os' : parsed (os ++ os') = parsed os ++ parsed os'.
Proof. unfold parsed. rewrite listens_app, map_app; auto. Qed.


Lemma parsed_length os : length (parsed os) = length (listens os).
Proof. apply map_length. Qed.

Lemma opt_run_sound os c : opt_run (mkLine [] None None) os = Some c ->
  (length (listens os) <= 16)%nat /\ l_bargs c = parsed os /\ advertises os (l_adv0 c) (l_adv1 c).
Proof.
  revert c; induction os as [|o os IH] using rev_ind; intros c.
  - cbn [opt_run]. intros [= <-]. cbn; repeat split; auto; try lia. constructor.
  - rewrite opt_run_app, listens_app, parsed_app. cbn [opt_run].
    destruct (opt_run (mkLine [] None None) os) as [c'|]; [|discriminate].
    destruct (IH _ eq_refl) as (L & P & A). clear IH. pose proof (parsed_length os) as PL. rewrite <- P in PL.
    destruct o as [s|s|s]; cbn [opt_step].
    + rewrite PL. unfold BINDARG_MAX. rewrite app_length. change (length (listens [OptL s])) with 1%nat.
      destruct (Nat.eqb_spec (length (listens os)) 16) as [X|X]; [discriminate|].
      intros [= <-]. cbn [l_bargs l_adv0 l_adv1]. rewrite P. split; [lia|]. split; [reflexivity|constructor; auto].
    + rewrite PL. unfold BINDARG_MAX. rewrite app_length. change (length (listens [Opt6 s])) with 1%nat.
      destruct (Nat.eqb_spec (length (listens os)) 16) as [X|X]; [discriminate|].
      intros [= <-]. cbn [l_bargs l_adv0 l_adv1]. rewrite P. split; [lia|]. split; [reflexivity|constructor; auto].
    + change (listens [OptA s]) with (@nil (bool * list Z)). change (parsed [OptA s]) with (@nil larg). rewrite !app_nil_r.
      destruct s as [|x s]; [discriminate|].
      destruct (cut_cases 47 (x :: s)) as [(p & q & -> & I & E)|[I E]]; rewrite E.
      * destruct q as [|y q]; [discriminate|]. intros [= <-]. cbn [l_bargs l_adv0 l_adv1]. split; [auto|]. split; [auto|].
        econstructor; eauto. discriminate.
      * intros [= <-]. cbn [l_bargs l_adv0 l_adv1]. split; [auto|]. split; [auto|]. econstructor; eauto. discriminate.
Qed.

Lemma opt_run_complete os a0 a1 : advertises os a0 a1 -> (length (listens os) <= 16)%nat ->
  opt_run (mkLine [] None None) os = Some (mkLine (parsed os) a0 a1).
Proof.
  induction 1 as [|os s a0 a1 A IH|os s a0 a1 A IH|os p a0 a1 A IH N1 N2|os p q a0 a1 A IH N1 N2]; intros L; [reflexivity| | | |];
    rewrite opt_run_app, parsed_app; rewrite listens_app, app_length in L; rewrite IH by (cbn [listens flat_map length app] in L; lia);
    cbn [opt_run opt_step l_bargs l_adv0 l_adv1].
  - rewrite parsed_length. unfold BINDARG_MAX. cbn [listens flat_map length app] in L.
    destruct (Nat.eqb_spec (length (listens os)) 16); [lia|]. reflexivity.
  - rewrite parsed_length. unfold BINDARG_MAX. cbn [listens flat_map length app] in L.
    destruct (Nat.eqb_spec (length (listens os)) 16); [lia|]. reflexivity.
  - destruct p as [|x p]; [congruence|]. rewrite cut_miss by auto. rewrite app_nil_r. reflexivity.
  - rewrite cut_hit by auto. destruct (p ++ 47 :: q) as [|x r] eqn:E; [destruct p; discriminate|].
    destruct q; [congruence|]. rewrite app_nil_r. reflexivity.
Qed.

(** ** Addresses *)

Lemma any_wild h f : is_wildcard h f = true <-> any_address h f.
Proof.
  unfold is_wildcard, any_address. rewrite !orb_true_iff, !andb_true_iff, !bytes_eqb_eq, negb_true_iff. tauto.
Qed.
Lemma numeric_numhost h f : is_numhost h f = true <-> numeric h f.
Proof.
  unfold is_numhost, numeric. rewrite forallb_forall, Forall_forall. split; intros H c I.
  - specialize (H c I). apply existsb_exists in H as (x & J & E). apply Z.eqb_eq in E; subst; auto.
  - apply existsb_exists. exists c. rewrite Z.eqb_refl; auto.
Qed.
Definition asked_for (rs : resolver) (nr f : bool) (h : list Z) : option sockaddr :=
  if is_wildcard h f then rs None f nr false else rs (Some h) f (nr || is_numhost h f) true.
Lemma resolves_asked rs nr f h a : resolves rs nr f h a <-> asked_for rs nr f h = Some a.
Proof.
  unfold resolves, asked_for. pose proof (any_wild h f) as W. pose proof (numeric_numhost h f) as N.
  destruct (is_wildcard h f).
  - split; [intros [[_ E]|[X _]]; [auto|tauto]|]. left; tauto.
  - split.
    + intros [[X _]|(_ & num & E & R)]; [assert (false = true) by tauto; discriminate|].
      replace (nr || is_numhost h f) with num; auto. destruct num, nr, (is_numhost h f); cbn; intuition congruence.
    + intros R. right. split; [intros X; assert (false = true) by tauto; discriminate|].
      exists (nr || is_numhost h f). split; auto. rewrite orb_true_iff; tauto.
Qed.

(** ** The list of objects *)

Definition objs (es : list entry) : list baddr :=
  map (fun p => {| b_id := fst p; b_addr := e_addr (snd p); b_label := e_label (snd p) |}) (combine (seq 0 (length es)) es).
Definition rep (es : list entry) : hst := mkH {| b_list := rev (objs es); b_next := length es |} (map e_adv es).

Lemma objs_snoc es e : objs (es ++ [e]) = objs es ++ [{| b_id := length es; b_addr := e_addr e; b_label := e_label e |}].
Proof.
  unfold objs. rewrite app_length. cbn [length]. rewrite Nat.add_1_r, seq_S. cbn [Nat.add].
  assert (C : forall (l : list nat) (l' : list entry) x y, length l = length l' -> combine (l ++ [x]) (l' ++ [y]) = combine l l' ++ [(x, y)]).
  { induction l as [|u l IH]; intros [|v l'] x y; cbn; try discriminate; auto. intros E. f_equal. apply IH; lia. }
  rewrite C by apply seq_length. rewrite map_app. reflexivity.
Qed.
Lemma rep_snoc es e : rep (es ++ [e]) =
  mkH {| b_list := {| b_id := length es; b_addr := e_addr e; b_label := e_label e |} :: rev (objs es); b_next := S (length es) |} (map e_adv es ++ [e_adv e]).
Proof. unfold rep. rewrite objs_snoc, rev_unit, app_length, map_app. cbn. rewrite Nat.add_1_r. reflexivity. Qed.

Lemma objs_in es b : In b (objs es) -> exists e, nth_error es (b_id b) = Some e /\ e_addr e = b_addr b /\ e_label e = b_label b.
Proof.
  induction es as [|e es IH] using rev_ind; [intros []|]. rewrite objs_snoc. intros H. apply in_app_or in H as [H|[<-|[]]].
  - destruct (IH H) as (x & N & A & L). exists x. rewrite nth_error_app1; auto. apply nth_error_Some. congruence.
  - cbn [b_id b_addr b_label]. exists e. rewrite nth_error_app2, Nat.sub_diag by lia. auto.
Qed.
Lemma in_objs es i e : nth_error es i = Some e -> In {| b_id := i; b_addr := e_addr e; b_label := e_label e |} (objs es).
Proof.
  revert i e; induction es as [|x es IH] using rev_ind; intros i e; [destruct i; discriminate|].
  rewrite objs_snoc. intros N. apply in_or_app. destruct (lt_dec i (length es)) as [L|L].
  - rewrite nth_error_app1 in N by auto. left; auto.
  - rewrite nth_error_app2 in N by lia. destruct (i - length es)%nat eqn:D; [|destruct n; discriminate].
    injection N as ->. right; left. f_equal. lia.
Qed.

Definition all_inet (es : list entry) : Prop := Forall (fun e => inet (e_addr e) = true) es.
Lemma all_inet_objs es : all_inet es -> forall b, In b (rev (objs es)) -> inet (b_addr b) = true.
Proof.
  intros F b H. apply in_rev in H. apply objs_in in H as (e & N & <- & _).
  unfold all_inet in F. rewrite Forall_forall in F. apply F. eapply nth_error_In; eauto.
Qed.

Lemma in_labels es l : In l (labels_of es) <-> exists e, In e es /\ e_label e = Some l.
Proof.
  unfold labels_of. rewrite in_flat_map. split; intros (e & I & H); exists e; split; auto.
  - destruct (e_label e); cbn in H; [|tauto]. destruct H as [->|[]]; auto.
  - rewrite H; cbn; auto.
Qed.
Lemma labels_app es es' : labels_of (es ++ es') = labels_of es ++ labels_of es'.
Proof. apply flat_map_app. Qed.

(** Looking up a label *)
Lemma label2_known es l : In l (labels_of es) -> exists i, label2bindaddr (rev (objs es)) l = BObj i /\ exists e, nth_error es i = Some e /\ e_label e = Some l.
Proof.
  intros I. destruct (BindProof.label2_cases (rev (objs es)) l) as [(b & J & E & L)|[_ F]].
  - apply in_rev in J. apply objs_in in J as (e & N & _ & K). exists (b_id b). split; auto. exists e. split; congruence.
  - apply in_labels in I as (e & J & L). apply In_nth_error in J as (i & N). apply in_objs in N.
    rewrite Forall_forall in F. destruct (F _ (proj1 (in_rev _ _) N)); auto.
Qed.
Lemma label2_unknown es l : ~ In l (labels_of es) -> label2bindaddr (rev (objs es)) l = BNull.
Proof.
  intros I. destruct (BindProof.label2_cases (rev (objs es)) l) as [(b & J & E & L)|[E F]]; auto.
  destruct I. apply in_rev in J. apply objs_in in J as (e & N & _ & K). apply in_labels. exists e.
  split; [eapply nth_error_In; eauto|congruence].
Qed.

Lemma families_inet rs nr f h a : families rs -> asked_for rs nr f h = Some a -> inet a = true.
Proof.
  unfold asked_for. intros F. destruct (is_wildcard h f); intros E; apply F in E; destruct a; cbn; auto; tauto.
Qed.

(** The three calls that are made *)
Lemma host2_fail rs nr t h f lb a : asked_for rs nr f h = None -> exists t', host2 rs nr t h f lb a = (t', BNull).
Proof.
  intros E. unfold host2. fold (asked_for rs nr f h). rewrite E. unfold host2bindaddr.
  destruct (match lb with Some l => _ | None => _ end); eexists; reflexivity.
Qed.
Lemma host2_dup rs nr es h f l a : In l (labels_of es) -> exists t', host2 rs nr (rep es) h f (Some l) a = (t', BNull).
Proof.
  intros I. unfold host2, host2bindaddr. cbn [rep h_bs b_list]. destruct (label2_known _ _ I) as (i & -> & _). eexists; reflexivity.
Qed.
Lemma host2_new rs nr es h f l a ad : families rs -> all_inet es -> l <> [] -> ~ In l (labels_of es) -> asked_for rs nr f h = Some a ->
  host2 rs nr (rep es) h f (Some l) ad = (rep (es ++ [mkEnt a (Some l) ad]), BObj (length es)).
Proof.
  intros Fa AI NE NI E. unfold host2. fold (asked_for rs nr f h). rewrite E. unfold host2bindaddr. cbn [rep h_bs b_list].
  rewrite label2_unknown by auto. unfold addr2bindaddr_i. cbn [b_list b_next].
  match goal with |- context [find_addr ?x ?y ?z] => destruct (BindProof.find_addr_cases x y z) as [(l1 & b & l2 & S & _ & FI & _)|[-> _]] end.
  { red. apply Forall_forall. intros b I. eapply all_inet_objs; eauto. }
  { eapply families_inet; eauto. }
  - exfalso. destruct FI as [_ M]. cbn in M.
    assert (I : In b (objs es)) by (apply in_rev; rewrite S; apply in_or_app; cbn; auto).
    apply objs_in in I as (e & N & _ & L).
    destruct (b_label b) as [lb|]; cbn [sbytes] in M; [|congruence]. subst lb.
    apply NI, in_labels. exists e. split; [eapply nth_error_In; eauto|auto].
  - cbn [b_next]. replace (S (length es) =? length es)%nat with false by (symmetry; apply Nat.eqb_neq; lia).
    rewrite rep_snoc. reflexivity.
Qed.
Lemma host2_first rs nr h f lb a ad : lb <> Some [] -> asked_for rs nr f h = Some a ->
  host2 rs nr (rep []) h f lb ad = (rep [mkEnt a lb ad], BObj 0%nat).
Proof.
  intros _ E. unfold host2. fold (asked_for rs nr f h). rewrite E. destruct lb; reflexivity.
Qed.
Lemma host2_second rs nr h f a ai a0 a1 : families rs -> inet ai = true -> asked_for rs nr f h = Some a ->
  (same_host ai a /\ host2 rs nr (rep [mkEnt ai None a0]) h f None a1 = (rep [mkEnt ai None a0], BObj 0%nat)) \/
  (~ same_host ai a /\ host2 rs nr (rep [mkEnt ai None a0]) h f None a1 = (rep [mkEnt ai None a0; mkEnt a None a1], BObj 1%nat)).
Proof.
  intros Fa AI E. assert (A := families_inet _ _ _ _ _ Fa E). unfold host2. fold (asked_for rs nr f h). rewrite E.
  unfold host2bindaddr, addr2bindaddr_i, rep. cbn [h_bs objs length seq combine map rev app b_list find_addr b_addr fst snd e_addr e_label b_id b_label].
  change (BindSpec.same_host ai a) with (same_host ai a) in *.
  destruct (BindProof.ishostseq_inet ai a AI A) as [[-> S]|[-> S]]; [left|right]; split; auto.
Qed.

(** ** The labelled addresses *)

Lemma same_host_inet a b : same_host a b -> inet a = true.
Proof. destruct a, b; cbn; auto; tauto. Qed.

Lemma all_inet_snoc es e : all_inet es -> inet (e_addr e) = true -> all_inet (es ++ [e]).
Proof. intros F I. apply Forall_app. split; auto. Qed.

Lemma nodup_snoc {A} (l : list A) x : NoDup l -> ~ In x l -> NoDup (l ++ [x]).
Proof.
  intros N I. induction N as [|y l H N IH]; cbn in *; [repeat constructor; auto|].
  constructor; [|apply IH; tauto]. intros J. apply in_app_or in J as [J|[->|[]]]; tauto.
Qed.

Definition good_label (g : given) : Prop := label g <> Some [].

Lemma nodup_snoc_shift {A} (l : list A) x l' : NoDup ((l ++ [x]) ++ l') <-> NoDup (l ++ x :: l').
Proof. rewrite <- app_assoc. reflexivity. Qed.

Lemma rest_exact rs nr gs : families rs -> Forall good_label gs -> forall es b, all_inet es -> NoDup (labels_of es) ->
  (exists es', Forall2 (labelled_entry rs nr) gs es' /\ NoDup (labels_of (es ++ es')) /\
     listen_rest rs nr (rep es) (Some b) (map to_arg gs) = COk (mkConf (rep (es ++ es')) (Some b) None false)) \/
  (listen_rest rs nr (rep es) (Some b) (map to_arg gs) = CErr /\
   forall es', Forall2 (labelled_entry rs nr) gs es' -> ~ NoDup (labels_of (es ++ es'))).
Proof.
  intros Fa GL. induction GL as [|g gs H GL IH]; intros es b AI ND.
  - left. exists []. rewrite app_nil_r. repeat split; auto.
  - cbn [map listen_rest to_arg g_h g_label g_v6 g_adv].
    destruct (label g) as [l|] eqn:LB.
    2:{ right. split; auto. intros es' F. inversion F as [|? e ? ? [X _]]; congruence. }
    destruct (cut_cases 47 (host g)) as [(x & y & E & I & C)|[I C]]; rewrite C.
    { right. split; auto. intros es' F. inversion F as [|? e ? ? [_ [X _]]]. destruct X. rewrite E. apply in_or_app; cbn; auto. }
    destruct (asked_for rs nr (v6 g) (host g)) as [a|] eqn:R.
    2:{ destruct (host2_fail rs nr (rep es) (host g) (v6 g) (Some l) (adv g) R) as (t' & X).
        right. unfold str in *. rewrite X. split; auto. intros es' F. inversion F as [|? e ? ? [_ (_ & Y & _)]]. apply resolves_asked in Y. congruence. }
    destruct (in_dec (list_eq_dec Z.eq_dec) l (labels_of es)) as [J|J].
    { destruct (host2_dup rs nr es (host g) (v6 g) l (adv g) J) as (t' & X). right. unfold str in *. rewrite X. split; auto.
      intros es' F N. inversion F as [|? e ? ? [_ (_ & _ & L & _)]]; subst. rewrite LB in L.
      rewrite labels_app in N. cbn [labels_of flat_map] in N. rewrite L in N. cbn [app] in N.
      apply NoDup_remove_2 in N. destruct N. apply in_or_app; auto. }
    pose proof (host2_new rs nr es (host g) (v6 g) l a (adv g) Fa AI ltac:(intros ->; apply H; auto) J R) as X.
    unfold str in *. rewrite X. clear X.
    set (e := mkEnt a (Some l) (adv g)).
    destruct (IH (es ++ [e]) b) as [(es' & F & N & E)|[E F]].
    { apply all_inet_snoc; auto. eapply families_inet; eauto. }
    { rewrite labels_app. cbn. apply nodup_snoc; auto. }
    + left. exists (e :: es'). rewrite <- app_assoc in N, E. cbn [app] in N, E. split; [|split; auto].
      constructor; auto. split; [congruence|]. repeat split; auto. apply resolves_asked; auto.
    + right. split; auto. intros es' F' N. inversion F' as [|? e' ? es'' [_ (_ & Y & L & D)] F'']; subst.
      apply resolves_asked in Y. assert (e' = e) as ->.
      { destruct e' as [a' l' d']; cbn in *. subst e. congruence. }
      apply (F _ F''). rewrite <- app_assoc. exact N.
Qed.

(** ** The first arguments of the two families *)

Fixpoint modf (f : bool) (k : larg -> larg) (bs : list larg) : list larg :=
  match bs with [] => [] | b :: t => if Bool.eqb (g_v6 b) f then k b :: t else b :: modf f k t end.
Definition first_arg (f : bool) (bs : list larg) : option larg := find (fun b => Bool.eqb (g_v6 b) f) bs.
Definition keeps (k : larg -> larg) : Prop := forall b, g_v6 (k b) = g_v6 b.

Lemma keeps_set h : keeps (fun b => set_h b h).
Proof. intros b; reflexivity. Qed.

Lemma idx_arg bs f : match ba_firstidx bs f with
  | Some i => exists b, nth_error bs i = Some b /\ first_arg f bs = Some b /\ forall k, upd bs i (k b) = modf f k bs
  | None => first_arg f bs = None end.
Proof.
  induction bs as [|b bs IH]; cbn [ba_firstidx]; auto. unfold first_arg in *. cbn [find modf].
  destruct (Bool.eqb (g_v6 b) f).
  - exists b. auto.
  - destruct (ba_firstidx bs f) as [i|]; auto. destruct IH as (x & N & E & U). exists x. cbn [nth_error upd].
    repeat split; auto. intros k. f_equal. apply U.
Qed.
Lemma idx_modf bs f f' k : keeps k -> ba_firstidx (modf f' k bs) f = ba_firstidx bs f.
Proof.
  intros K. induction bs as [|b bs IH]; cbn [modf]; auto. destruct (Bool.eqb (g_v6 b) f'); cbn [ba_firstidx].
  - rewrite K; auto.
  - rewrite IH; auto.
Qed.
Lemma first_modf_other bs f k : keeps k -> first_arg (negb f) (modf f k bs) = first_arg (negb f) bs.
Proof.
  intros K. unfold first_arg. induction bs as [|b bs IH]; cbn [modf find]; auto.
  destruct (Bool.eqb_spec (g_v6 b) f) as [E|E]; cbn [find].
  - rewrite K, E. destruct f; reflexivity.
  - rewrite IH; auto.
Qed.
Lemma first_modf_same bs f k : keeps k -> first_arg f (modf f k bs) = option_map k (first_arg f bs).
Proof.
  intros K. unfold first_arg. induction bs as [|b bs IH]; cbn [modf find]; auto.
  destruct (Bool.eqb (g_v6 b) f) eqn:E; cbn [find].
  - rewrite K, E. reflexivity.
  - rewrite E, IH; auto.
Qed.
Lemma modf_modf bs f k k' : keeps k' -> modf f k (modf f k' bs) = modf f (fun b => k (k' b)) bs.
Proof.
  intros K. induction bs as [|b bs IH]; cbn [modf]; auto. destruct (Bool.eqb (g_v6 b) f) eqn:E; cbn [modf].
  - rewrite K, E. auto.
  - rewrite E, IH; auto.
Qed.
Lemma modf_comm bs f k k' : keeps k -> keeps k' -> modf f k (modf (negb f) k' bs) = modf (negb f) k' (modf f k bs).
Proof.
  intros K K'. induction bs as [|b bs IH]; cbn [modf]; auto. destruct (Bool.eqb_spec (g_v6 b) f) as [E|E]; cbn [modf].
  - replace (Bool.eqb (g_v6 b) (negb f)) with false by (rewrite E; destruct f; auto). cbn [modf].
    rewrite K, E. replace (Bool.eqb f (negb f)) with false by (destruct f; auto). rewrite eqb_reflx. auto.
  - replace (Bool.eqb (g_v6 b) (negb f)) with true by (destruct (g_v6 b), f; cbn; congruence). cbn [modf].
    rewrite K'. replace (Bool.eqb (g_v6 b) f) with false by (destruct (g_v6 b), f; cbn; congruence). reflexivity.
Qed.
Lemma modf_none bs f k : first_arg f bs = None -> modf f k bs = bs.
Proof.
  unfold first_arg. induction bs as [|b bs IH]; cbn [modf find]; auto. destruct (Bool.eqb (g_v6 b) f); [discriminate|].
  intros E. rewrite IH; auto.
Qed.

Definition null (b : larg) : larg := set_h b None.
Definition ext_step' (bs : list larg) (e : option larg) (f : bool) : option (list larg * option larg) :=
  match first_arg f bs with
  | None => Some (bs, e)
  | Some b =>
      match g_h b with
      | Some h =>
          match cut 47 h with
          | None => Some (bs, e)
          | Some (p, q) =>
              match e with
              | Some _ => None
              | None => Some (modf f (fun b => set_h b (match p with [] => None | _ => Some p end)) bs, Some (set_h b (Some q)))
              end
          end
      | None => Some (bs, e)
      end
  end.
Definition int_step' (bs : list larg) (e : option larg) (f : bool) : option (list larg * option larg) :=
  match first_arg f bs with
  | None => Some (bs, e)
  | Some b =>
      match g_h b with
      | None => Some (bs, e)
      | Some _ => match e with Some _ => None | None => Some (modf f null bs, Some b) end
      end
  end.
Lemma ext_step_eq bs e f : ext_step bs e (ba_firstidx bs f) = ext_step' bs e f.
Proof.
  pose proof (idx_arg bs f) as H. unfold ext_step, ext_step'. destruct (ba_firstidx bs f) as [i|].
  - destruct H as (b & N & E & U). rewrite N, E. destruct (g_h b) as [h|]; auto. destruct (cut 47 h) as [[p q]|]; auto.
    destruct e; auto. do 2 f_equal. apply (U (fun b => set_h b (match p with [] => None | _ => Some p end))).
  - rewrite H; auto.
Qed.
Lemma int_step_eq bs e f : int_step bs e (ba_firstidx bs f) = int_step' bs e f.
Proof.
  pose proof (idx_arg bs f) as H. unfold int_step, int_step'. destruct (ba_firstidx bs f) as [i|].
  - destruct H as (b & N & E & U). rewrite N, E. destruct (g_h b) as [h|]; auto.
    destruct e; auto. do 2 f_equal. apply (U null).
  - rewrite H; auto.
Qed.
Lemma ext_keeps_idx bs e f bs' e' f' : ext_step' bs e f = Some (bs', e') -> ba_firstidx bs' f' = ba_firstidx bs f'.
Proof.
  unfold ext_step'. destruct (first_arg f bs) as [b|]; [|intros [= <- <-]; auto]. destruct (g_h b) as [h|]; [|intros [= <- <-]; auto].
  destruct (cut 47 h) as [[p q]|]; [|intros [= <- <-]; auto]. destruct e; [discriminate|]. intros [= <- <-].
  apply idx_modf, keeps_set.
Qed.
Lemma int_keeps_idx bs e f bs' e' f' : int_step' bs e f = Some (bs', e') -> ba_firstidx bs' f' = ba_firstidx bs f'.
Proof.
  unfold int_step'. destruct (first_arg f bs) as [b|]; [|intros [= <- <-]; auto]. destruct (g_h b) as [h|]; [|intros [= <- <-]; auto].
  destruct e; [discriminate|]. intros [= <- <-]. apply idx_modf, keeps_set.
Qed.

(** The four steps of lines 88-122 together: what is left of the arguments, and the two interfaces *)
Definition split_bridge (bs : list larg) : option (list larg * option (larg * larg)) :=
  match ext_step' bs None false with
  | None => None
  | Some (bs1, e1) =>
      match ext_step' bs1 e1 true with
      | None => None
      | Some (bs2, None) => Some (bs2, None)
      | Some (bs2, Some ea) =>
          match int_step' bs2 None false with
          | None => None
          | Some (bs3, a3) =>
              match int_step' bs3 a3 true with
              | None => None
              | Some (_, None) => None
              | Some (bs4, Some ia) => Some (bs4, Some (ia, ea))
              end
          end
      end
  end.
Lemma init_split rs nr bs adv0 adv1 : bs <> [] -> init_bindaddrs rs nr bs adv0 adv1 =
  match split_bridge bs with
  | None => CErr
  | Some (bs', None) => listen_all rs nr h_empty None None false bs'
  | Some (bs', Some (ia, ea)) =>
      if match adv0, adv1 with Some _, None => true | _, _ => false end then CErr
      else match bridge_addr rs nr h_empty ia adv0 with
           | Some (t1, BObj p0) =>
               match bridge_addr rs nr t1 ea adv1 with
               | Some (t2, BObj p1) => listen_all rs nr t2 (Some p0) (Some p1) true bs'
               | Some (_, BAbort) => CAbort
               | _ => CErr
               end
           | Some (_, BAbort) => CAbort
           | _ => CErr
           end
  end.
Proof.
  intros NE. unfold init_bindaddrs. destruct bs as [|b bs]; [congruence|]. remember (b :: bs) as B eqn:HB. clear HB b bs NE.
  unfold split_bridge. rewrite ext_step_eq. destruct (ext_step' B None false) as [[bs1 e1]|] eqn:E1; auto.
  rewrite <- (ext_keeps_idx _ _ _ _ _ true E1), ext_step_eq.
  destruct (ext_step' bs1 e1 true) as [[bs2 [ea|]]|] eqn:E2; auto.
  rewrite <- (ext_keeps_idx _ _ _ _ _ false E1), <- (ext_keeps_idx _ _ _ _ _ false E2), int_step_eq.
  destruct (int_step' bs2 None false) as [[bs3 a3]|] eqn:E3; auto.
  rewrite <- (ext_keeps_idx _ _ _ _ _ true E2), <- (int_keeps_idx _ _ _ _ _ true E3), int_step_eq.
  destruct (int_step' bs3 a3 true) as [[bs4 [ia|]]|]; auto.
Qed.

(** Arguments without a host are skipped *)
Definition has_host (b : larg) : bool := match g_h b with Some _ => true | None => false end.
Lemma rest_filter rs nr bs t b0 : listen_rest rs nr t b0 bs = listen_rest rs nr t b0 (filter has_host bs).
Proof.
  revert t b0; induction bs as [|b bs IH]; intros t b0; auto. cbn [filter listen_rest]. unfold has_host at 1.
  destruct (g_h b) as [h|] eqn:E; auto. cbn [listen_rest]. rewrite E.
  destruct b0 as [x|]; destruct (g_label b); auto; destruct (cut 47 h) as [?|]; auto;
    destruct (host2 rs nr t h (g_v6 b) _ (g_adv b)) as [t' [p| |]]; auto.
Qed.
Lemma filter_null gs : filter has_host (modf false null (modf true null (map to_arg gs))) = map to_arg (drop_first false (drop_first true gs)).
Proof.
  assert (A : forall f gs, filter has_host (modf f null (map to_arg gs)) = map to_arg (drop_first f gs)).
  { intros f. induction gs0 as [|g gs0 IH]; cbn [map modf drop_first filter]; auto. cbn [to_arg g_v6].
    destruct (Bool.eqb (v6 g) f); cbn [filter has_host null set_h g_h to_arg map].
    - clear. induction gs0 as [|g' l IH]; cbn; auto. f_equal; auto.
    - f_equal. apply IH. }
  induction gs as [|g gs IH]; auto. cbn [map modf drop_first]. cbn [to_arg g_v6]. destruct (Bool.eqb_spec (v6 g) true) as [E|E]; cbn [modf drop_first].
  - cbn [null set_h g_v6]. cbn [to_arg g_v6]. rewrite E. cbn [Bool.eqb filter has_host null set_h g_h]. apply A.
  - cbn [to_arg g_v6]. destruct (v6 g); [congruence|]. cbn [Bool.eqb filter has_host null set_h g_h]. apply A.
Qed.

Lemma first_of_v6 f gs g : first_of f gs = Some g -> v6 g = f.
Proof. intros E. apply find_some in E as [_ E]. apply eqb_prop in E; auto. Qed.
Lemma first_arg_of f gs : first_arg f (map to_arg gs) = option_map to_arg (first_of f gs).
Proof. unfold first_arg, first_of. induction gs as [|g gs IH]; cbn [map find]; auto. cbn [to_arg g_v6]. destruct (Bool.eqb (v6 g) f); auto. Qed.

Lemma bridge_iff gs fi hi fe he : bridge gs fi hi fe he <-> exists f g, first_of f gs = Some g /\ bare g /\
  ((first_of (negb f) gs = None /\ fi = f /\ fe = f /\ cut 47 (host g) = Some (hi, he) /\ hi <> []) \/
   (exists g', first_of (negb f) gs = Some g' /\ bare g' /\ fi = negb f /\ fe = f /\ cut 47 (host g) = Some ([], he) /\ hi = host g' /\ cut 47 (host g') = None)).
Proof.
  split.
  - intros [g hi' he' A B C D N I|g g' he' A B C C' D I].
    + exists (v6 g), g. split; auto. split; auto. left. rewrite D, cut_hit; auto.
    + exists (v6 g), g. split; auto. split; auto. right. exists g'. rewrite (first_of_v6 _ _ _ B). repeat split; auto.
      * apply C'. * apply C'. * rewrite D. apply (cut_hit 47 []); auto. * apply cut_none; auto.
  - intros (f & g & A & C & [(B & -> & -> & D & N)|(g' & B & C' & -> & -> & D & -> & I)]).
    + assert (V := first_of_v6 _ _ _ A). subst f. apply cut_inv in D as [D I]. apply bridge_one; auto.
    + assert (V := first_of_v6 _ _ _ A). subst f. assert (V := first_of_v6 _ _ _ B). rewrite <- V. apply cut_inv in D as [D _].
      apply bridge_two; auto. apply cut_none; auto.
Qed.
Lemma no_bridge_iff gs : no_bridge gs <-> forall f g, first_of f gs = Some g -> cut 47 (host g) = None.
Proof. unfold no_bridge. split; intros H f g E; apply cut_none; eauto. Qed.

Definition cleared (gs : list given) : list larg := modf false null (modf true null (map to_arg gs)).

Lemma split_cases gs :
  (no_bridge gs /\ split_bridge (map to_arg gs) = Some (map to_arg gs, None)) \/
  (~ no_bridge gs /\ split_bridge (map to_arg gs) = None /\ forall fi hi fe he, ~ bridge gs fi hi fe he) \/
  (~ no_bridge gs /\ exists gi hi ge he,
     split_bridge (map to_arg gs) = Some (cleared gs, Some (set_h (to_arg gi) (Some hi), set_h (to_arg ge) (Some he))) /\
     forall fi' hi' fe' he', bridge gs fi' hi' fe' he' <-> (bare gi /\ bare ge /\ fi' = v6 gi /\ hi' = hi /\ fe' = v6 ge /\ he' = he)).
Proof.
  unfold cleared. set (bs := map to_arg gs). pattern (split_bridge bs).
  match goal with |- ?Q _ => set (P := Q) end. unfold split_bridge.
  pose proof (first_arg_of false gs : first_arg false bs = _) as F4. pose proof (first_arg_of true gs : first_arg true bs = _) as F6.
  unfold ext_step' at 1. rewrite F4.
  destruct (first_of false gs) as [g4|] eqn:E4; cbn [option_map] in F4 |- *.
  - assert (V4 := first_of_v6 _ _ _ E4).
    cbn [to_arg g_h]. destruct (cut 47 (host g4)) as [[p4 q4]|] eqn:C4.
    + (* the IPv4 argument has two parts *)
      set (k4 := fun b => set_h b (match p4 with [] => None | _ => Some p4 end)).
      assert (K4 : keeps k4) by apply keeps_set.
      assert (X6 : first_arg true (modf false k4 bs) = option_map to_arg (first_of true gs)).
      { change true with (negb false) at 1. rewrite first_modf_other by auto. exact F6. }
      assert (X4 : first_arg false (modf false k4 bs) = Some (k4 (to_arg g4))).
      { rewrite first_modf_same, F4 by auto. reflexivity. }
      assert (NB : ~ no_bridge gs) by (rewrite no_bridge_iff; intros H; specialize (H _ _ E4); congruence).
      unfold ext_step'. rewrite X6. destruct (first_of true gs) as [g6|] eqn:E6; cbn [option_map] in *.
      * assert (V6 := first_of_v6 _ _ _ E6). cbn [to_arg g_h]. destruct (cut 47 (host g6)) as [[p6 q6]|] eqn:C6.
        { right; left. split; auto. split; auto. intros fi hi fe he B. apply bridge_iff in B as ([|] & g & A & _ & [(D & _)|(g' & D & _ & _ & _ & _ & _ & I)]); cbn [negb] in *; congruence. }
        unfold int_step'. rewrite X4. cbn [k4 set_h g_h]. destruct p4 as [|x p4]; cbn [g_h].
        -- rewrite X6. cbn [to_arg g_h]. right; right. split; auto. exists g6, (host g6), g4, q4. split.
           ++ f_equal. f_equal. exact (modf_comm bs true null null (keeps_set None) (keeps_set None)).
           ++ intros fi' hi' fe' he'. rewrite bridge_iff. split.
              ** intros ([|] & g & A & B & [(D & _)|(g' & D & B' & -> & -> & I & -> & J)]); cbn [negb] in *; try congruence.
                 rewrite E4 in A; injection A as <-. rewrite E6 in D; injection D as <-. rewrite C4 in I; injection I as <-. repeat split; try apply B; try apply B'; auto.
              ** intros (B & B' & -> & -> & -> & ->). exists false, g4. split; auto. split; auto. right. exists g6. rewrite V4, V6. repeat split; try apply B; auto.
        -- change (first_arg true (modf false null (modf false k4 bs))) with (first_arg (negb false) (modf false null (modf false k4 bs))).
           rewrite first_modf_other by apply keeps_set. cbn [negb]. rewrite X6. cbn [to_arg g_h].
           right; left. split; auto. split; auto. intros fi hi fe he B.
           apply bridge_iff in B as ([|] & g & A & _ & [(D & _)|(g' & D & _ & _ & _ & I & _)]); cbn [negb] in *; congruence.
      * unfold int_step'. rewrite X4. cbn [k4 set_h g_h]. destruct p4 as [|x p4]; cbn [g_h].
        -- rewrite X6. right; left. split; auto. split; auto. intros fi hi fe he B.
           apply bridge_iff in B as ([|] & g & A & _ & [(D & _ & _ & I & J)|(g' & D & _)]); cbn [negb] in *; congruence.
        -- change (first_arg true (modf false null (modf false k4 bs))) with (first_arg (negb false) (modf false null (modf false k4 bs))).
           rewrite first_modf_other by apply keeps_set. cbn [negb]. rewrite X6.
           right; right. split; auto. exists g4, (x :: p4), g4, q4. split.
           ++ f_equal. f_equal. rewrite modf_modf by auto. rewrite (modf_none bs true null) by (rewrite F6; auto). reflexivity.
           ++ intros fi' hi' fe' he'. rewrite bridge_iff. split.
              ** intros ([|] & g & A & B & [(D & -> & -> & I & _)|(g' & D & _)]); cbn [negb] in *; try congruence.
                 rewrite E4 in A; injection A as <-. rewrite C4 in I; injection I as <- <-. repeat split; try apply B; auto.
              ** intros (B & _ & -> & -> & -> & ->). exists false, g4. split; auto. split; auto. left. rewrite V4. repeat split; auto. discriminate.
    + (* it has not *)
      unfold ext_step'. rewrite F6. destruct (first_of true gs) as [g6|] eqn:E6; cbn [option_map] in *.
      * assert (V6 := first_of_v6 _ _ _ E6). cbn [to_arg g_h]. destruct (cut 47 (host g6)) as [[p6 q6]|] eqn:C6.
        2:{ left. split; auto. rewrite no_bridge_iff. intros [|] g; congruence. }
        set (k6 := fun b => set_h b (match p6 with [] => None | _ => Some p6 end)).
        assert (K6 : keeps k6) by apply keeps_set.
        assert (NB : ~ no_bridge gs) by (rewrite no_bridge_iff; intros H; specialize (H _ _ E6); congruence).
        unfold int_step'. change (first_arg false (modf true k6 bs)) with (first_arg (negb true) (modf true k6 bs)).
        rewrite first_modf_other by auto. cbn [negb]. rewrite F4. cbn [to_arg g_h].
        replace (modf false null (modf true k6 bs)) with (modf true k6 (modf false null bs)) by exact (modf_comm bs true k6 null K6 (keeps_set None)).
        rewrite first_modf_same by auto. change (first_arg true (modf false null bs)) with (first_arg (negb false) (modf false null bs)).
        rewrite first_modf_other by apply keeps_set. cbn [negb]. rewrite F6. cbn [option_map k6 set_h g_h]. destruct p6 as [|x p6]; cbn [g_h].
        -- right; right. split; auto. exists g4, (host g4), g6, q6. split.
           ++ f_equal. f_equal. exact (modf_comm bs true null null (keeps_set None) (keeps_set None)).
           ++ intros fi' hi' fe' he'. rewrite bridge_iff. split.
              ** intros ([|] & g & A & B & [(D & _)|(g' & D & B' & -> & -> & I & -> & J)]); cbn [negb] in *; try congruence.
                 rewrite E6 in A; injection A as <-. rewrite E4 in D; injection D as <-. rewrite C6 in I; injection I as <-. repeat split; try apply B; try apply B'; auto.
              ** intros (B & B' & -> & -> & -> & ->). exists true, g6. split; auto. split; auto. right. exists g4. rewrite V4, V6. repeat split; try apply B; auto.
        -- right; left. split; auto. split; auto. intros fi hi fe he B.
           apply bridge_iff in B as ([|] & g & A & _ & [(D & _)|(g' & D & _ & _ & _ & I & _)]); cbn [negb] in *; congruence.
      * left. split; auto. rewrite no_bridge_iff. intros [|] g; congruence.
  - unfold ext_step'. rewrite F6. destruct (first_of true gs) as [g6|] eqn:E6; cbn [option_map] in *.
    + assert (V6 := first_of_v6 _ _ _ E6). cbn [to_arg g_h]. destruct (cut 47 (host g6)) as [[p6 q6]|] eqn:C6.
      2:{ left. split; auto. rewrite no_bridge_iff. intros [|] g; congruence. }
      set (k6 := fun b => set_h b (match p6 with [] => None | _ => Some p6 end)).
      assert (K6 : keeps k6) by apply keeps_set.
      assert (NB : ~ no_bridge gs) by (rewrite no_bridge_iff; intros H; specialize (H _ _ E6); congruence).
      unfold int_step'. change (first_arg false (modf true k6 bs)) with (first_arg (negb true) (modf true k6 bs)).
      rewrite first_modf_other by auto. cbn [negb]. rewrite F4. rewrite first_modf_same, F6 by auto. cbn [option_map k6 set_h g_h to_arg].
      destruct p6 as [|x p6]; cbn [g_h].
      * right; left. split; auto. split; auto. intros fi hi fe he B.
        apply bridge_iff in B as ([|] & g & A & _ & [(D & _ & _ & I & J)|(g' & D & _)]); cbn [negb] in *; congruence.
      * right; right. split; auto. exists g6, (x :: p6), g6, q6. split.
        -- f_equal. f_equal. rewrite modf_modf by auto. rewrite (modf_none (modf true null bs) false null); [reflexivity|].
           change false with (negb true). rewrite first_modf_other by apply keeps_set. exact F4.
        -- intros fi' hi' fe' he'. rewrite bridge_iff. split.
           ++ intros ([|] & g & A & B & [(D & -> & -> & I & _)|(g' & D & _)]); cbn [negb] in *; try congruence.
              rewrite E6 in A; injection A as <-. rewrite C6 in I; injection I as <- <-. repeat split; try apply B; auto.
           ++ intros (B & _ & -> & -> & -> & ->). exists true, g6. split; auto. split; auto. left. rewrite V6. repeat split; auto. discriminate.
    + left. split; auto. rewrite no_bridge_iff. intros [|] g; congruence.
Qed.

(** ** The configuration *)

Lemma entry_fun rs nr g e e' : entry_of rs nr g e -> entry_of rs nr g e' -> e = e'.
Proof.
  intros (_ & R & L & D) (_ & R' & L' & D'). apply resolves_asked in R, R'. destruct e, e'; cbn in *. congruence.
Qed.
Lemma labelled_fun rs nr gs es es' : Forall2 (labelled_entry rs nr) gs es -> Forall2 (labelled_entry rs nr) gs es' -> es = es'.
Proof.
  intros F; revert es'; induction F as [|g e gs es [_ H] F IH]; intros es' F'; inversion F' as [|? e' ? es'' [_ H'] F'']; subst; auto.
  f_equal; [eapply entry_fun; eauto|auto].
Qed.
Lemma advertises_fun os a0 a1 b0 b1 : (length (listens os) <= 16)%nat -> advertises os a0 a1 -> advertises os b0 b1 -> a0 = b0 /\ a1 = b1.
Proof. intros L A B. apply opt_run_complete in A, B; auto. rewrite A in B. injection B; auto. Qed.
Lemma drop_first_forall (P : given -> Prop) f gs : Forall P gs -> Forall P (drop_first f gs).
Proof. induction 1 as [|g gs H F IH]; cbn [drop_first]; auto. destruct (Bool.eqb (v6 g) f); auto. Qed.

Lemma bridge_addr_label rs nr t g h a : ~ bare g -> bridge_addr rs nr t (set_h (to_arg g) h) a = None.
Proof. unfold bare, bridge_addr. cbn [set_h to_arg g_label g_adv g_h]. destruct (label g), (adv g); auto. tauto. Qed.
Lemma bridge_addr_bare rs nr t g h a : bare g -> bridge_addr rs nr t (set_h (to_arg g) (Some h)) a = Some (host2 rs nr t h (v6 g) None a).
Proof. unfold bare, bridge_addr. cbn [set_h to_arg g_label g_adv g_h g_v6]. intros [-> ->]. auto. Qed.

Lemma bare_dec g : bare g \/ ~ bare g.
Proof. unfold bare. destruct (label g), (adv g); intuition discriminate. Qed.

Lemma plain_exact rs nr g gs : families rs -> Forall good_label (g :: gs) ->
  (exists e es, entry_of rs nr g e /\ Forall2 (labelled_entry rs nr) gs es /\ NoDup (labels_of (e :: es)) /\
     listen_all rs nr (rep []) None None false (map to_arg (g :: gs)) = COk (mkConf (rep (e :: es)) (Some 0%nat) None false)) \/
  (listen_all rs nr (rep []) None None false (map to_arg (g :: gs)) = CErr /\
   forall e es, entry_of rs nr g e -> Forall2 (labelled_entry rs nr) gs es -> ~ NoDup (labels_of (e :: es))).
Proof.
  intros Fa GL. inversion GL as [|? ? H GL']; subst. unfold listen_all. cbn [map listen_rest]. cbn [to_arg g_h g_label g_v6 g_adv].
  destruct (cut_cases 47 (host g)) as [(x & y & E & I & C)|[I C]]; rewrite C.
  { right. split; auto. intros e es (X & _). destruct X. rewrite E. apply in_or_app; cbn; auto. }
  destruct (asked_for rs nr (v6 g) (host g)) as [a|] eqn:R.
  2:{ destruct (host2_fail rs nr (rep []) (host g) (v6 g) (label g) (adv g) R) as (t' & X).
      right. unfold str in *. rewrite X. split; auto. intros e es (_ & Y & _). apply resolves_asked in Y. congruence. }
  pose proof (host2_first rs nr (host g) (v6 g) (label g) a (adv g) H R) as X. unfold str in *. rewrite X. clear X.
  set (e := mkEnt a (label g) (adv g)).
  assert (EO : entry_of rs nr g e) by (repeat split; auto; apply resolves_asked; auto).
  destruct (rest_exact rs nr gs Fa GL' [e] 0%nat) as [(es & F & N & E)|[E F]].
  { constructor; [|constructor]. eapply families_inet; eauto. }
  { unfold labels_of. cbn. destruct (label g); repeat constructor. auto. }
  - left. exists e, es. rewrite E. repeat split; auto; apply EO.
  - right. rewrite E. split; auto. intros e' es EO' F'. rewrite (entry_fun _ _ _ _ _ EO' EO). apply (F _ F').
Qed.

(** The outcome of the bridging configuration once the two interfaces are known *)
Lemma bridge_exact rs nr gs gi hi ge he a0 a1 : families rs -> Forall good_label gs -> bare gi -> bare ge ->
  let run := match bridge_addr rs nr h_empty (set_h (to_arg gi) (Some hi)) a0 with
           | Some (t1, BObj p0) =>
               match bridge_addr rs nr t1 (set_h (to_arg ge) (Some he)) a1 with
               | Some (t2, BObj p1) => listen_all rs nr t2 (Some p0) (Some p1) true (cleared gs)
               | Some (_, BAbort) => CAbort
               | _ => CErr
               end
           | Some (_, BAbort) => CAbort
           | _ => CErr
           end in
  let rest := drop_first false (drop_first true gs) in
  (exists ai ae es, resolves rs nr (v6 gi) hi ai /\ resolves rs nr (v6 ge) he ae /\ Forall2 (labelled_entry rs nr) rest es /\ NoDup (labels_of es) /\
     ((same_host ai ae /\ run = COk (mkConf (rep (mkEnt ai None a0 :: es)) (Some 0%nat) (Some 0%nat) true)) \/
      (~ same_host ai ae /\ run = COk (mkConf (rep (mkEnt ai None a0 :: mkEnt ae None a1 :: es)) (Some 0%nat) (Some 1%nat) true)))) \/
  (run = CErr /\ forall ai ae es, resolves rs nr (v6 gi) hi ai -> resolves rs nr (v6 ge) he ae -> Forall2 (labelled_entry rs nr) rest es -> ~ NoDup (labels_of es)).
Proof.
  intros Fa GL BI BE run rest. subst run. rewrite !bridge_addr_bare by auto. change h_empty with (rep []).
  destruct (asked_for rs nr (v6 gi) hi) as [ai|] eqn:RI.
  2:{ destruct (host2_fail rs nr (rep []) hi (v6 gi) None a0 RI) as (t' & X). rewrite X. right. split; auto.
      intros ai ae es Y. apply resolves_asked in Y. congruence. }
  rewrite (host2_first rs nr hi (v6 gi) None ai a0) by (auto; discriminate). rewrite bridge_addr_bare by auto.
  assert (II : inet ai = true) by (eapply families_inet; eauto).
  destruct (asked_for rs nr (v6 ge) he) as [ae|] eqn:RE.
  2:{ destruct (host2_fail rs nr (rep [mkEnt ai None a0]) he (v6 ge) None a1 RE) as (t' & X). rewrite X. right. split; auto.
      intros ai' ae es _ Y. apply resolves_asked in Y. congruence. }
  assert (IE : inet ae = true) by (eapply families_inet; eauto).
  assert (RST : forall es0 p1, all_inet es0 -> labels_of es0 = [] ->
    (exists es, Forall2 (labelled_entry rs nr) rest es /\ NoDup (labels_of es) /\
       listen_all rs nr (rep es0) (Some 0%nat) (Some p1) true (cleared gs) = COk (mkConf (rep (es0 ++ es)) (Some 0%nat) (Some p1) true)) \/
    (listen_all rs nr (rep es0) (Some 0%nat) (Some p1) true (cleared gs) = CErr /\ forall es, Forall2 (labelled_entry rs nr) rest es -> ~ NoDup (labels_of es))).
  { intros es0 p1 A L. unfold listen_all. rewrite rest_filter. unfold cleared. rewrite filter_null. fold rest.
    destruct (rest_exact rs nr rest Fa) with (es := es0) (b := 0%nat) as [(es & F & N & E)|[E F]].
    - apply drop_first_forall, drop_first_forall; auto.
    - auto.
    - rewrite L; constructor.
    - left. exists es. rewrite labels_app, L in N. rewrite E. auto.
    - right. rewrite E. split; auto. intros es F'. specialize (F es F'). rewrite labels_app, L in F. exact F. }
  destruct (host2_second rs nr he (v6 ge) ae ai a0 a1 Fa II RE) as [[S ->]|[S ->]].
  - destruct (RST [mkEnt ai None a0] 0%nat) as [(es & F & N & E)|[E F]]; [repeat constructor; auto|reflexivity| |].
    + left. exists ai, ae, es. rewrite E. repeat split; auto; apply resolves_asked; auto.
    + right. split; auto.
  - destruct (RST [mkEnt ai None a0; mkEnt ae None a1] 1%nat) as [(es & F & N & E)|[E F]]; [repeat constructor; auto|reflexivity| |].
    + left. exists ai, ae, es. rewrite E. repeat split; auto; apply resolves_asked; auto.
    + right. split; auto.
Qed.

Lemma configure_cases rs nr os : families rs -> labels_not_empty os ->
  (within_limits os /\ exists es b1 bm, setup rs nr os es b1 /\ configure rs nr os = COk (mkConf (rep es) (Some 0%nat) b1 bm)) \/
  (configure rs nr os = CErr /\ (within_limits os -> forall es b1, ~ setup rs nr os es b1)).
Proof.
  intros Fa LN. unfold configure. destruct (opt_run (mkLine [] None None) os) as [c|] eqn:R.
  2:{ right. split; auto. intros [L (a0 & a1 & A)]. rewrite (opt_run_complete _ _ _ A L) in R. discriminate. }
  destruct (opt_run_sound _ _ R) as (L & PB & AD). rewrite PB.
  assert (WL : within_limits os) by (split; eauto).
  destruct (understood_exists os) as [gs U]. assert (GL := LN _ U : Forall good_label gs). rewrite <- (proj1 (understood_parsed _ _) U).
  destruct gs as [|g gs].
  - cbn [map init_bindaddrs]. assert (NL : listens os = []) by (apply understood_nil; auto).
    assert (GW : good_label (mkGiven false None (B "*") None)) by discriminate.
    destruct (plain_exact rs nr (mkGiven false None (B "*") None) [] Fa (Forall_cons _ GW (Forall_nil _))) as [(e & es & EO & F & N & E)|[E F]].
    + left. split; auto. inversion F; subst. exists [e], None, false. split; [|exact E].
      destruct EO as (_ & RS & EL & ED). destruct e as [a lb d]; cbn in *; subst. apply setup_default; auto.
    + right. split; [exact E|]. intros _ es b1 S. inversion S as [a NL' RS|g gs e es' U'|gs fi hi fe he ai ae a0 a1 es' U' BR|gs fi hi fe he ai ae a0 a1 es' U' BR]; subst.
      * apply (F (mkEnt a None None) []); [repeat split; auto|constructor|constructor].
        intros [H|[]]; discriminate H.
      * assert (X := understood_unique _ _ _ U U'). discriminate.
      * assert (X := understood_unique _ _ _ U U'). subst gs. apply bridge_iff in BR as (f & g & X & _). discriminate.
      * assert (X := understood_unique _ _ _ U U'). subst gs. apply bridge_iff in BR as (f & g & X & _). discriminate.
  - assert (NL : listens os <> []) by (intros X; apply understood_nil in X; assert (Y := understood_unique _ _ _ U X); discriminate).
    rewrite init_split by discriminate.
    destruct (split_cases (g :: gs)) as [[NB SP]|[(NB & SP & NBR)|(NB & gi & hi & ge & he & SP & BR)]]; rewrite SP; clear SP.
    + destruct (plain_exact rs nr g gs Fa GL) as [(e & es & EO & F & N & E)|[E F]].
      * left. split; auto. exists (e :: es), None, false. split; [|exact E]. eapply setup_plain; eauto.
      * right. split; [exact E|]. intros _ es b1 S. inversion S as [a NL' RS|g' gs' e es' U' NB' EO F'|gs' fi hi fe he ai ae a0 a1 es' U' BR|gs' fi hi fe he ai ae a0 a1 es' U' BR]; subst.
        -- congruence.
        -- assert (X := understood_unique _ _ _ U U'). injection X as <- <-. eapply F; eauto.
        -- assert (X := understood_unique _ _ _ U U'). subst gs'.
           apply bridge_iff in BR as (f & x & X & _ & [(_ & _ & _ & Y & _)|(y & _ & _ & _ & _ & Y & _)]); rewrite (proj1 (no_bridge_iff _) NB _ _ X) in Y; discriminate.
        -- assert (X := understood_unique _ _ _ U U'). subst gs'.
           apply bridge_iff in BR as (f & x & X & _ & [(_ & _ & _ & Y & _)|(y & _ & _ & _ & _ & Y & _)]); rewrite (proj1 (no_bridge_iff _) NB _ _ X) in Y; discriminate.
    + right. split; auto. intros _ es b1 S. inversion S as [a NL' RS|g' gs' e es' U' NB' EO F'|gs' fi hi fe he ai ae a0 a1 es' U' BR|gs' fi hi fe he ai ae a0 a1 es' U' BR]; subst.
      * congruence.
      * assert (X := understood_unique _ _ _ U U'). injection X as <- <-. auto.
      * assert (X := understood_unique _ _ _ U U'). subst gs'. eapply NBR; eauto.
      * assert (X := understood_unique _ _ _ U U'). subst gs'. eapply NBR; eauto.
    + assert (NO : (l_adv0 c <> None /\ l_adv1 c = None) \/ ~ bare gi \/ ~ bare ge ->
               forall es b1, ~ setup rs nr os es b1).
      { intros C es b1 S. inversion S as [a NL' RS|g' gs' e es' U' NB' EO F'|gs' fi hi' fe he' ai ae a0 a1 es' U' BR' AD' A01|gs' fi hi' fe he' ai ae a0 a1 es' U' BR' AD' A01]; subst.
        - congruence.
        - assert (X := understood_unique _ _ _ U U'). injection X as <- <-. auto.
        - assert (X := understood_unique _ _ _ U U'). subst gs'. apply BR in BR' as (X1 & X2 & _).
          destruct (advertises_fun _ _ _ _ _ L AD AD') as [Y1 Y2]. rewrite Y1, Y2 in C. tauto.
        - assert (X := understood_unique _ _ _ U U'). subst gs'. apply BR in BR' as (X1 & X2 & _).
          destruct (advertises_fun _ _ _ _ _ L AD AD') as [Y1 Y2]. rewrite Y1, Y2 in C. tauto. }
      destruct (match l_adv0 c, l_adv1 c with Some _, None => true | _, _ => false end) eqn:A01.
      { right. split; auto. intros _. apply NO. left. destruct (l_adv0 c), (l_adv1 c); try discriminate. split; congruence. }
      assert (A01' : l_adv0 c <> None -> l_adv1 c <> None) by (destruct (l_adv0 c), (l_adv1 c); congruence).
      destruct (bare_dec gi) as [BI|BI].
      2:{ right. rewrite (bridge_addr_label _ _ _ gi) by auto. split; auto. }
      destruct (bare_dec ge) as [BE|BE].
      2:{ right. split; [|auto]. rewrite (bridge_addr_bare _ _ _ gi) by auto.
          destruct (asked_for rs nr (v6 gi) hi) as [ai|] eqn:RI.
          - change h_empty with (rep []). rewrite (host2_first rs nr hi (v6 gi) None ai) by (auto; discriminate).
            rewrite (bridge_addr_label _ _ _ ge) by auto. auto.
          - destruct (host2_fail rs nr h_empty hi (v6 gi) None (l_adv0 c) RI) as (t' & X). rewrite X. auto. }
      assert (BR0 : bridge (g :: gs) (v6 gi) hi (v6 ge) he) by (apply BR; repeat split; try apply BI; apply BE).
      destruct (bridge_exact rs nr (g :: gs) gi hi ge he (l_adv0 c) (l_adv1 c) Fa GL BI BE) as [(ai & ae & es & RI & RE & F & N & [[S E]|[S E]])|[E F]].
      * left. split; auto. do 3 eexists. split; [|exact E]. eapply setup_bridge_same; eauto.
      * left. split; auto. do 3 eexists. split; [|exact E]. eapply setup_bridge; eauto.
      * right. split; [exact E|]. intros _ es b1 S. inversion S as [a NL' RS|g' gs' e es' U' NB' EO F'|gs' fi hi' fe he' ai ae a0 a1 es' U' BR' AD' _ RI RE FF NN|gs' fi hi' fe he' ai ae a0 a1 es' U' BR' AD' _ RI RE FF NN]; subst.
        -- congruence.
        -- assert (X := understood_unique _ _ _ U U'). injection X as <- <-. auto.
        -- assert (X := understood_unique _ _ _ U U'). subst gs'. apply BR in BR' as (X1 & X2 & -> & -> & -> & ->). eapply F; eauto.
        -- assert (X := understood_unique _ _ _ U U'). subst gs'. apply BR in BR' as (X1 & X2 & -> & -> & -> & ->). eapply F; eauto.
Qed.

(** One meaning *)
Lemma bridge_not_plain gs fi hi fe he : bridge gs fi hi fe he -> ~ no_bridge gs.
Proof.
  intros BR NB. apply bridge_iff in BR as (f & x & X & _ & [(_ & _ & _ & Y & _)|(y & _ & _ & _ & _ & Y & _)]);
    rewrite (proj1 (no_bridge_iff _) NB _ _ X) in Y; discriminate.
Qed.
Lemma bridge_fun gs fi hi fe he fi' hi' fe' he' : bridge gs fi hi fe he -> bridge gs fi' hi' fe' he' -> fi = fi' /\ hi = hi' /\ fe = fe' /\ he = he'.
Proof.
  intros B B'. destruct (split_cases gs) as [[NB _]|[(_ & _ & N)|(_ & gi & hi0 & ge & he0 & _ & E)]].
  - destruct (bridge_not_plain _ _ _ _ _ B NB).
  - destruct (N _ _ _ _ B).
  - apply E in B as (_ & _ & -> & -> & -> & ->). apply E in B' as (_ & _ & -> & -> & -> & ->). auto.
Qed.
Lemma bridge_nonempty gs fi hi fe he : bridge gs fi hi fe he -> gs <> [].
Proof. intros BR ->. apply bridge_iff in BR as (? & ? & X & _); discriminate X. Qed.

(** A form with one case for bridging *)
Definition setup' (rs : resolver) (nr : bool) (os : list copt) (gs : list given) (es : list entry) (b1 : option nat) : Prop :=
  (gs = [] /\ exists a, resolves rs nr false (B "*") a /\ es = [mkEnt a None None] /\ b1 = None) \/
  (gs <> [] /\ no_bridge gs /\ b1 = None /\ exists g gs' e es', gs = g :: gs' /\ es = e :: es' /\ entry_of rs nr g e /\ Forall2 (labelled_entry rs nr) gs' es') \/
  (exists fi hi fe he ai ae a0 a1 es', bridge gs fi hi fe he /\ advertises os a0 a1 /\ resolves rs nr fi hi ai /\ resolves rs nr fe he ae /\
     Forall2 (labelled_entry rs nr) (drop_first false (drop_first true gs)) es' /\
     ((same_host ai ae /\ es = mkEnt ai None a0 :: es' /\ b1 = Some 0%nat) \/ (~ same_host ai ae /\ es = mkEnt ai None a0 :: mkEnt ae None a1 :: es' /\ b1 = Some 1%nat))).
Lemma setup_setup' rs nr os gs es b1 : understood os gs -> setup rs nr os es b1 -> setup' rs nr os gs es b1.
Proof.
  intros U S. destruct S as [a NL RS|g gs' e es' U' NB EO F N|gs' fi hi fe he ai ae a0 a1 es' U' BR AD A01 RI RE FF NN SH|gs' fi hi fe he ai ae a0 a1 es' U' BR AD A01 RI RE FF NN SH].
  - left. apply understood_nil in NL. rewrite (understood_unique _ _ _ U NL). eauto.
  - right; left. rewrite (understood_unique _ _ _ U U'). split; [discriminate|]. split; auto. split; auto. exists g, gs', e, es'. auto.
  - right; right. rewrite (understood_unique _ _ _ U U'). exists fi, hi, fe, he, ai, ae, a0, a1, es'. repeat (split; auto).
  - right; right. rewrite (understood_unique _ _ _ U U'). exists fi, hi, fe, he, ai, ae, a0, a1, es'. repeat (split; auto).
Qed.
Lemma setup_fun rs nr os es b1 es' b1' : (length (listens os) <= 16)%nat -> setup rs nr os es b1 -> setup rs nr os es' b1' -> es = es' /\ b1 = b1'.
Proof.
  intros L S S'. destruct (understood_exists os) as [gs U]. apply (setup_setup' _ _ _ _ _ _ U) in S, S'.
  destruct S as [(G & a & R & -> & ->)|[(G & NB & -> & g & gs1 & e & es1 & E & -> & EO & F)|(fi & hi & fe & he & ai & ae & a0 & a1 & es1 & BR & AD & RI & RE & F & X)]];
  destruct S' as [(G' & a' & R' & -> & ->)|[(G' & NB' & -> & g' & gs1' & e' & es1' & E' & -> & EO' & F')|(fi' & hi' & fe' & he' & ai' & ae' & a0' & a1' & es1' & BR' & AD' & RI' & RE' & F' & X')]];
  try congruence; try (apply bridge_nonempty in BR; congruence); try (apply bridge_nonempty in BR'; congruence);
  try (apply bridge_not_plain in BR; tauto); try (apply bridge_not_plain in BR'; tauto).
  - apply resolves_asked in R, R'. split; congruence.
  - rewrite E in E'. injection E' as <- <-. split; auto. f_equal; [eapply entry_fun; eauto|eapply labelled_fun; eauto].
  - destruct (bridge_fun _ _ _ _ _ _ _ _ _ BR BR') as (<- & <- & <- & <-). destruct (advertises_fun _ _ _ _ _ L AD AD') as [<- <-].
    apply resolves_asked in RI, RI', RE, RE'. rewrite RI in RI'. injection RI' as <-. rewrite RE in RE'. injection RE' as <-.
    rewrite <- (labelled_fun _ _ _ _ _ F F') in X'. destruct X as [(S1 & -> & ->)|(S1 & -> & ->)], X' as [(S2 & -> & ->)|(S2 & -> & ->)]; tauto.
Qed.

Lemma find_objs es i : find (fun b => (b_id b =? i)%nat) (rev (objs es)) =
  match nth_error es i with Some e => Some {| b_id := i; b_addr := e_addr e; b_label := e_label e |} | None => None end.
Proof.
  induction es as [|e es IH] using rev_ind; [destruct i; reflexivity|]. rewrite objs_snoc, rev_unit. cbn [find b_id].
  destruct (Nat.eqb_spec (length es) i) as [<-|N].
  - rewrite nth_error_app2, Nat.sub_diag by lia. reflexivity.
  - rewrite IH. destruct (lt_dec i (length es)) as [L|L].
    + rewrite nth_error_app1 by auto. auto.
    + rewrite (proj2 (nth_error_None es i)) by lia. rewrite (proj2 (nth_error_None (es ++ [e]) i)); auto. rewrite app_length; cbn; lia.
Qed.
Lemma object_rep es b0 b1 bm i : object (mkConf (rep es) b0 b1 bm) i = nth_error es i.
Proof.
  unfold object. cbn [c_h rep h_bs b_list h_adv]. rewrite find_objs. destruct (nth_error es i) as [e|] eqn:N; auto. cbn [b_addr b_label].
  assert (E : nth i (map e_adv es) None = e_adv e).
  { apply nth_error_nth. rewrite nth_error_map, N. reflexivity. }
  unfold str in *. rewrite E. destruct e; reflexivity.
Qed.
Lemma shows_rep es b1 bm : shows (mkConf (rep es) (Some 0%nat) b1 bm) es b1.
Proof. repeat split. intros i. apply object_rep. Qed.

(** ** No abort *)

Definition hinet (t : hst) : Prop := forall b, In b (b_list (h_bs t)) -> inet (b_addr b) = true.
Lemma host2_safe rs nr t h f lb ad : families rs -> hinet t -> snd (host2 rs nr t h f lb ad) <> BAbort /\ hinet (fst (host2 rs nr t h f lb ad)).
Proof.
  intros Fa HI. unfold host2. fold (asked_for rs nr f h). unfold host2bindaddr.
  destruct (match lb with Some l => match label2bindaddr (b_list (h_bs t)) l with BNull => false | _ => true end | None => false end).
  { cbn. split; [discriminate|exact HI]. }
  destruct (asked_for rs nr f h) as [a|] eqn:R; [|split; [discriminate|exact HI]].
  assert (A := families_inet _ _ _ _ _ Fa R). unfold addr2bindaddr_i.
  destruct (BindProof.find_addr_cases (b_list (h_bs t)) a (Some lb)) as [(l1 & b & l2 & S & -> & _)|[-> _]]; auto.
  - apply Forall_forall; auto.
  - split; [discriminate|exact HI].
  - split; [discriminate|]. intros b [<-|I]; auto.
Qed.
Lemma rest_safe rs nr bs : families rs -> forall t b0, hinet t -> (b0 <> None \/ exists b, In b bs /\ g_h b <> None) ->
  match listen_rest rs nr t b0 bs with COk c => c_b0 c <> None | CErr => True | CAbort => False end.
Proof.
  intros Fa. induction bs as [|b bs IH]; intros t b0 HI NE; cbn [listen_rest].
  - cbn. destruct NE as [NE|(b & [] & _)]; auto.
  - destruct (g_h b) as [h|] eqn:G.
    2:{ apply IH; auto. destruct NE as [NE|(x & [<-|I] & N)]; [auto|congruence|right; eauto]. }
    assert (W : match cut 47 h with Some _ => CErr | None =>
       match host2 rs nr t h (g_v6 b) (g_label b) (g_adv b) with
       | (t', BObj p) => listen_rest rs nr t' (match b0 with Some x => Some x | None => Some p end) bs
       | (_, BNull) => CErr | (_, BAbort) => CAbort end end = CErr \/
       match match cut 47 h with Some _ => CErr | None =>
       match host2 rs nr t h (g_v6 b) (g_label b) (g_adv b) with
       | (t', BObj p) => listen_rest rs nr t' (match b0 with Some x => Some x | None => Some p end) bs
       | (_, BNull) => CErr | (_, BAbort) => CAbort end end with COk c => c_b0 c <> None | CErr => True | CAbort => False end).
    { destruct (cut 47 h); auto. pose proof (host2_safe rs nr t h (g_v6 b) (g_label b) (g_adv b) Fa HI) as [S1 S2].
      destruct (host2 rs nr t h (g_v6 b) (g_label b) (g_adv b)) as [t' [p| |]]; cbn [fst snd] in *; auto.
      right. apply IH; auto. left. destruct b0; discriminate. }
    destruct b0 as [x|], (g_label b); auto; destruct W as [W|W]; auto; rewrite W; auto.
Qed.
Lemma all_safe rs nr t b0 b1 bm bs : families rs -> hinet t -> (b0 <> None \/ exists b, In b bs /\ g_h b <> None) ->
  listen_all rs nr t b0 b1 bm bs <> CAbort.
Proof.
  intros Fa HI NE. unfold listen_all. pose proof (rest_safe rs nr bs Fa t b0 HI NE) as R.
  destruct (listen_rest rs nr t b0 bs) as [| |c]; [discriminate|tauto|]. destruct (c_b0 c); [discriminate|congruence].
Qed.
Lemma configure_safe rs nr os : families rs -> configure rs nr os <> CAbort.
Proof.
  intros Fa. unfold configure. destruct (opt_run (mkLine [] None None) os) as [c|] eqn:R; [|discriminate].
  destruct (opt_run_sound _ _ R) as (_ & -> & _). destruct (understood_exists os) as [gs U].
  rewrite <- (proj1 (understood_parsed _ _) U). clear R U. assert (HE : hinet h_empty) by (intros b []).
  destruct gs as [|g gs].
  - cbn [map init_bindaddrs]. apply all_safe; auto. right. eexists. split; [left; reflexivity|discriminate].
  - rewrite init_split by discriminate.
    destruct (split_cases (g :: gs)) as [[_ SP]|[(_ & SP & _)|(_ & gi & hi & ge & he & SP & _)]]; rewrite SP; clear SP.
    + apply all_safe; auto. right. exists (to_arg g). split; [left; reflexivity|discriminate].
    + discriminate.
    + destruct (match l_adv0 c, l_adv1 c with Some _, None => true | _, _ => false end); [discriminate|].
      destruct (bare_dec gi) as [BI|BI]; [|rewrite (bridge_addr_label _ _ _ gi) by auto; discriminate].
      rewrite (bridge_addr_bare _ _ _ gi) by auto.
      pose proof (host2_safe rs nr h_empty hi (v6 gi) None (l_adv0 c) Fa HE) as [S1 S2].
      destruct (host2 rs nr h_empty hi (v6 gi) None (l_adv0 c)) as [t1 [p0| |]]; cbn [fst snd] in *; try congruence.
      destruct (bare_dec ge) as [BE|BE]; [|rewrite (bridge_addr_label _ _ _ ge) by auto; discriminate].
      rewrite (bridge_addr_bare _ _ _ ge) by auto.
      pose proof (host2_safe rs nr t1 he (v6 ge) None (l_adv1 c) Fa S2) as [S3 S4].
      destruct (host2 rs nr t1 he (v6 ge) None (l_adv1 c)) as [t2 [p1| |]]; cbn [fst snd] in *; try congruence.
      apply all_safe; auto. left; discriminate.
Qed.

(** ** The address in an answer *)

Lemma host_null_iff a : host_null a = true <-> null_host a.
Proof.
  destruct a as [h q|h q|f]; cbn.
  - apply Z.eqb_eq.
  - rewrite forallb_forall, Forall_forall. split; intros H x I; specialize (H x I); lia.
  - split; [discriminate|tauto].
Qed.
Lemma is6_family a : inet a = true -> is6 a = negb (family a =? AF_INET).
Proof. destruct a; cbn; auto. discriminate. Qed.
Lemma answer_says ntop es b0 b1 bm i e port t : all_inet es -> nth_error es i = Some e ->
  (answer_text ntop (mkConf (rep es) b0 b1 bm) i port = Some t <-> says ntop e port t).
Proof.
  intros AI N. unfold answer_text. cbn [c_h rep h_bs b_list h_adv]. rewrite find_objs, N. cbn [b_addr].
  assert (A : nth i (map e_adv es) None = e_adv e) by (apply nth_error_nth; rewrite nth_error_map, N; reflexivity).
  unfold str in *. rewrite A. assert (IN : inet (e_addr e) = true).
  { unfold all_inet in AI. rewrite Forall_forall in AI. apply AI. eapply nth_error_In; eauto. }
  unfold says. rewrite (is6_family _ IN). destruct (host_null (e_addr e)) eqn:H.
  - apply host_null_iff in H. split; [intros [= <-]; auto|]. intros [[_ ->]|[C _]]; auto; tauto.
  - assert (H' : ~ null_host (e_addr e)) by (intros C; apply host_null_iff in C; congruence).
    destruct (family (e_addr e) =? AF_INET); cbn [negb]; (split; [intros [= <-]; right; auto|intros [[C _]|[_ ->]]; [tauto|auto]]).
Qed.
Lemma answer_none ntop es b0 b1 bm i port : nth_error es i = None -> answer_text ntop (mkConf (rep es) b0 b1 bm) i port = None.
Proof. intros N. unfold answer_text. cbn [c_h rep h_bs b_list h_adv]. rewrite find_objs, N. auto. Qed.

Lemma label2_obj es l : NoDup (labels_of es) ->
  match obj_of (label2bindaddr (rev (objs es)) l) with
  | Some i => exists e, nth_error es i = Some e /\ e_label e = Some l /\ forall e', In e' es -> e_label e' = Some l -> e' = e
  | None => forall e, In e es -> e_label e <> Some l
  end.
Proof.
  intros ND. destruct (in_dec (list_eq_dec Z.eq_dec) l (labels_of es)) as [I|I].
  - destruct (label2_known es l I) as (i & -> & e & N & L). cbn. exists e. repeat split; auto. intros e' I' L'.
    apply nth_error_split in N as (l1 & l2 & -> & _). rewrite labels_app in ND. cbn in ND. rewrite L in ND. cbn in ND.
    apply NoDup_remove_2 in ND. rewrite in_app_iff in ND. apply in_app_iff in I' as [I'|[<-|I']]; auto; destruct ND.
    + left. apply in_labels; eauto.
    + right. apply in_labels; eauto.
  - rewrite (label2_unknown es l I). cbn. intros e I' L. apply I, in_labels; eauto.
Qed.
Lemma foraf_obj es f : all_inet es ->
  match obj_of (bindaddr4af (rev (objs es)) (af_of f)) with
  | Some i => exists e, nth_error es i = Some e /\ last_of_family es (match f with OptsModel.INET => false | _ => true end) e
  | None => forall e, ~ last_of_family es (match f with OptsModel.INET => false | _ => true end) e
  end.
Proof.
  induction es as [|e es IH] using rev_ind; intros AI.
  - cbn. intros e (l1 & l2 & E & _). destruct l1; discriminate.
  - rewrite objs_snoc, rev_unit. cbn [bindaddr4af b_addr b_id]. apply Forall_app in AI as [A1 A2]. inversion A2 as [|? ? A3 _]; subst.
    assert (X : (family (e_addr e) =? af_of f) = Bool.eqb (is6 (e_addr e)) (match f with OptsModel.INET => false | _ => true end)).
    { destruct (e_addr e), f; try reflexivity; discriminate A3. }
    rewrite X. destruct (Bool.eqb_spec (is6 (e_addr e)) (match f with OptsModel.INET => false | _ => true end)) as [Y|Y].
    + cbn. exists e. rewrite nth_error_app2, Nat.sub_diag by lia. split; auto. exists es, []. auto.
    + specialize (IH A1). destruct (obj_of _) as [i|].
      * destruct IH as (e' & N & es1 & es2 & -> & F1 & F2). exists e'. split.
        -- rewrite nth_error_app1; auto. apply nth_error_Some. congruence.
        -- exists es1, (es2 ++ [e]). rewrite <- app_assoc. split; auto. split; auto. apply Forall_app; auto.
      * intros e' (es1 & es2 & E & F1 & F2). destruct es2 as [|z es2 _] using rev_ind.
        -- apply app_inj_tail in E as [_ ->]. auto.
        -- rewrite app_comm_cons, app_assoc in E. apply app_inj_tail in E as [-> <-]. apply Forall_app in F2 as [F2 _].
           apply (IH e'). exists es1, es2; auto.
Qed.

Lemma last_of_family_fun es f e e' : last_of_family es f e -> last_of_family es f e' -> e = e'.
Proof.
  intros (a1 & a2 & E & F & N) (b1 & b2 & E' & F' & N'). rewrite E in E'. clear E es.
  revert b1 E'. induction a1 as [|x a1 IH]; intros [|y b1] E'; cbn in E'; injection E' as H1 H2; subst; auto.
  - exfalso. apply Forall_app in N as [_ N]. inversion N; auto.
  - exfalso. apply Forall_app in N' as [_ N']. inversion N'; auto.
  - eauto.
Qed.
Lemma wanted_fun es b1 ms e e' : NoDup (labels_of es) -> wanted es b1 ms e -> wanted es b1 ms e' -> e = e'.
Proof.
  intros ND H H'. destruct H as [l e L I EL|e L D (i & B1 & N)|e L D D1 N|e L D N F|x e L D N F LF];
    destruct H' as [l' e' L' I' EL'|e' L' D' (i' & B1' & N')|e' L' D' D1' N'|e' L' D' N' F'|x' e' L' D' N' F' LF']; try congruence.
  - assert (l' = l) by congruence. subst l'. pose proof (label2_obj es l ND) as X. destruct (obj_of _) as [i|].
    + destruct X as (y & _ & _ & U). rewrite (U _ I EL), (U _ I' EL'). auto.
    + destruct (X _ I EL).
  - rewrite D' in D. discriminate D.
  - rewrite D' in D. discriminate D.
  - rewrite D in D'. discriminate D'.
  - rewrite D in D'. discriminate D'.
  - eapply last_of_family_fun; eauto.
Qed.

Definition cf (es : list entry) (b1 : option nat) (bm : bool) : conf := mkConf (rep es) (Some 0%nat) b1 bm.

Section answer.
  Context (es : list entry) (b1 : option nat) (bm : bool) (more : OptsModel.env).
  Context (AI : all_inet es) (ND : NoDup (labels_of es)) (e0 : entry) (E0 : nth_error es 0 = Some e0).
  Context (B1 : forall i, b1 = Some i -> exists e, nth_error es i = Some e).
  Local Notation E := (env_of (cf es b1 bm) 0 more).

  Lemma chosen_label l : OptsSpec.chosen E (OptsSpec.Label l) <> None <-> exists e, In e es /\ e_label e = Some l.
  Proof.
    cbn [OptsSpec.chosen env_of OptsModel.label2 cf c_h rep h_bs b_list]. pose proof (label2_obj es l ND) as X. destruct (obj_of _) as [i|].
    - destruct X as (e & N & L & _). split; [|discriminate]. intros _. exists e. split; auto. eapply nth_error_In; eauto.
    - split; [congruence|]. intros (e & I & L). destruct (X _ I L).
  Qed.

  Lemma good_iff before ms : OptsModel.mem2 more = true -> no_address ms -> (OptsSpec.all_good E before ms <->
    (directions ms <> [] -> b1 <> None) /\ (directions ms <> [] -> length (filter OptsSpec.is_dir before) + length (directions ms) <= 2)%nat /\
    (filter OptsSpec.is_codecs ms <> [] -> length (filter OptsSpec.is_codecs before) + length (filter OptsSpec.is_codecs ms) <= 1)%nat /\
    Forall (fun m => match m with
                   | OptsSpec.Ptime v => 0 < OptsSpec.stored v < 1000
                   | OptsSpec.Label l => exists e, In e es /\ e_label e = Some l
                   | _ => True end) ms).
  Proof.
    intros M2. revert before. induction ms as [|m ms IH]; intros before NA; [cbn; split; auto; intros _; repeat split; try congruence; constructor|].
    inversion NA as [|? ? NM NA']; subst. cbn [OptsSpec.all_good]. rewrite IH by auto. rewrite !filter_app, !app_length.
    assert (M2' : OptsModel.mem2 E = true) by exact M2. rewrite Forall_cons_iff.
    assert (L0 : forall (l : list OptsSpec.mod_), l = [] <-> length l = 0%nat) by (intros []; cbn; split; congruence).
    assert (L1 : forall (l : list bool), l = [] <-> length l = 0%nat) by (intros []; cbn; split; congruence).
    destruct m; try tauto; cbn [OptsSpec.good_after directions flat_map app filter OptsSpec.is_dir OptsSpec.is_codecs length]; fold (directions ms);
      rewrite ?L0, ?L1; cbn [length]; try rewrite chosen_label; cbn [OptsModel.bind1 env_of cf c_b1]; try rewrite M2'; intuition (try congruence; try lia).
  Qed.

  Lemma asked_label ms : no_address ms -> OptsSpec.all_good E [] ms ->
    OptsSpec.asked E ms = match last_label ms None with Some l => obj_of (label2bindaddr (rev (objs es)) l) | None => None end.
  Proof.
    intros NA AG. unfold OptsSpec.asked. generalize (@nil OptsSpec.mod_) AG. clear AG.
    assert (G : forall d dl, d = match dl with Some l => obj_of (label2bindaddr (rev (objs es)) l) | None => None end ->
       forall before, OptsSpec.all_good E before ms -> OptsSpec.last_of (OptsSpec.local_of E) ms d = match last_label ms dl with Some l => obj_of (label2bindaddr (rev (objs es)) l) | None => None end).
    { induction ms as [|m ms IH]; intros d dl D before AG; [exact D|]. inversion NA as [|? ? NM NA']; subst. destruct AG as [G AG].
      cbn [OptsSpec.last_of last_label]. eapply IH; eauto. unfold OptsSpec.local_of, OptsSpec.good_after in *.
      destruct m; cbn [label_of OptsSpec.chosen] in *; try tauto; try reflexivity.
      destruct (OptsModel.label2 E l) as [i|] eqn:X; [|congruence]. cbn [env_of OptsModel.label2 cf c_h rep h_bs b_list] in X. auto. }
    intros l. apply G; auto.
  Qed.

  Lemma dirs_map ms : (directions ms <> [] -> b1 <> None) ->
    OptsSpec.dirs E ms = map (fun x : bool => if x then match b1 with Some i => i | None => 0%nat end else 0%nat) (directions ms).
  Proof.
    intros H. unfold OptsSpec.dirs. cbn [OptsModel.bind1 OptsModel.bind0 env_of cf c_b1].
    induction ms as [|m ms IH]; auto. cbn [flat_map directions]. destruct m; cbn [app map]; auto.
    - destruct b1 as [i|]; [|destruct H; [discriminate|reflexivity]]. cbn [app]. f_equal. apply IH. discriminate.
    - f_equal. destruct b1; apply IH; intros D; cbn in H; [discriminate|]. apply H. discriminate.
  Qed.
  Lemma dir_filter ms : filter OptsSpec.is_dir ms = [] <-> directions ms = [].
  Proof. induction ms as [|m ms IH]; [tauto|]. destruct m; cbn [filter OptsSpec.is_dir directions flat_map app]; auto; split; discriminate. Qed.
  Lemma fam0 : OptsModel.fam_of E (OptsModel.bind0 E) = if is6 (e_addr e0) then OptsModel.INET6 else OptsModel.INET.
  Proof.
    cbn [env_of OptsModel.fam_of OptsModel.bind0]. unfold fam_at. cbn [cf c_h rep h_bs b_list]. rewrite find_objs, E0. cbn [b_addr].
    rewrite is6_family. { destruct (family (e_addr e0) =? AF_INET); reflexivity. }
    unfold all_inet in AI. rewrite Forall_forall in AI. apply AI. eapply nth_error_In; eauto.
  Qed.
  Lemma last_label_in ms d l : last_label ms d = Some l -> d = Some l \/ In (OptsSpec.Label l) ms.
  Proof.
    revert d; induction ms as [|m ms IH]; intros d; cbn [last_label]; auto. intros H. apply IH in H as [H|H]; [|cbn; auto].
    destruct m; cbn [label_of] in H; auto. injection H as <-. cbn; auto.
  Qed.

  Lemma accepted_wanted ms remote o : OptsModel.mem2 more = true -> no_address ms -> OptsSpec.all_good E [] ms -> OptsSpec.accepted E ms remote o ->
    exists e, wanted es b1 ms e /\ nth_error es (reply_obj o) = Some e.
  Proof.
    intros M2 NA AG ((_ & _ & _ & PF & _ & _ & _ & L0 & _) & A1 & A2 & _).
    assert (AK := asked_label ms NA AG). pose proof (proj1 (good_iff [] ms M2 NA) AG) as (DB & D2 & _ & FA). cbn [filter length Nat.add] in D2.
    rewrite (dirs_map ms DB) in L0. unfold OptsSpec.needs_family in *. rewrite AK, PF, fam0, dir_filter in *. unfold reply_obj. clear PF AG AK.
    change (OptsSpec.has (fun m => match m with OptsSpec.Six => true | _ => false end) ms) with (six ms) in *.
    destruct (last_label ms None) as [l|] eqn:LL.
    - destruct (last_label_in _ _ _ LL) as [X|X]; [discriminate|]. rewrite Forall_forall in FA. apply FA in X as (e & I & EL).
      pose proof (label2_obj es l ND) as Y. destruct (obj_of _) as [i|].
      + destruct Y as (e' & N & L' & U). rewrite A2 by (intros [C _]; discriminate). exists e'. split; auto. eapply want_label; eauto. eapply nth_error_In; eauto.
      + destruct (Y _ I EL).
    - destruct (directions ms) as [|d ds] eqn:D.
      + destruct (Bool.bool_dec (is6 (e_addr e0)) (six ms)) as [F|F].
        * rewrite A2, L0. 2:{ intros (_ & _ & C). rewrite F in C. congruence. }
          cbn [map nth env_of OptsModel.bind0]. exists e0. split; auto. apply want_first; auto.
        * destruct A1 as (a & FO & LA). { repeat split; auto. destruct (is6 (e_addr e0)), (six ms); congruence. }
          rewrite LA. cbn [env_of OptsModel.foraf cf c_h rep h_bs b_list] in FO.
          pose proof (foraf_obj es (if six ms then OptsModel.INET6 else OptsModel.INET) AI) as Y. rewrite FO in Y. destruct Y as (e & N & LF).
          exists e. split; auto. eapply want_other; eauto. destruct (six ms); exact LF.
      + rewrite A2, L0 by (intros (_ & C & _); discriminate). cbn [env_of OptsModel.bind0].
        destruct ds as [|d2 ds]; cbn [map nth].
        * exists e0. split; auto. apply want_int; auto; rewrite D; discriminate.
        * destruct d2.
          -- destruct b1 as [i|] eqn:BB; [|destruct DB; auto; discriminate]. destruct (B1 i eq_refl) as (e & N). exists e. split; auto.
             apply want_ext; auto; [rewrite D; reflexivity|eauto].
          -- exists e0. split; auto. apply want_int; auto; rewrite D; discriminate.
  Qed.

  Lemma wanted_accepted ms remote e : OptsModel.mem2 more = true -> no_address ms -> OptsSpec.all_good E [] ms -> served more remote -> wanted es b1 ms e ->
    exists o, OptsSpec.accepted E ms remote o.
  Proof.
    intros M2 NA AG (_ & _ & M3 & RM) W.
    set (pf := if six ms then OptsModel.INET6 else OptsModel.INET).
    set (nf := OptsSpec.asked E ms = None /\ filter OptsSpec.is_dir ms = [] /\ pf <> OptsModel.fam_of E (OptsModel.bind0 E)).
    assert (LA : exists la, (nf -> exists a, OptsModel.foraf E pf = Some a /\ la = Some a) /\ (~ nf -> la = OptsSpec.asked E ms)).
    { destruct (OptsModel.foraf E pf) as [a|] eqn:FO.
      - destruct (OptsSpec.asked E ms) as [x|] eqn:AK. { exists (Some x). split; auto. unfold nf. intros (C & _). discriminate. }
        destruct (filter OptsSpec.is_dir ms) as [|y ys] eqn:FD. 2:{ exists None. split; auto. unfold nf. intros (_ & C & _). discriminate. }
        assert (X : pf = OptsModel.fam_of E (OptsModel.bind0 E) \/ pf <> OptsModel.fam_of E (OptsModel.bind0 E)) by (destruct pf, (OptsModel.fam_of E (OptsModel.bind0 E)); auto; right; discriminate).
        destruct X as [X|X].
        + exists None. split; auto. unfold nf. tauto.
        + exists (Some a). split; eauto. unfold nf. tauto.
      - exists (OptsSpec.asked E ms). split; auto. intros (AK & FD & FF). exfalso. rewrite asked_label in AK by auto. rewrite fam0 in FF.
        apply dir_filter in FD. cbn [env_of OptsModel.foraf cf c_h rep h_bs b_list] in FO.
        pose proof (foraf_obj es pf AI) as Y. rewrite FO in Y.
        destruct W as [l e L I EL|e L D (i & _ & N)|e L D D1 N|e L D N F|x e L D N F LF]; try congruence.
        + rewrite L in AK. pose proof (label2_obj es l ND) as Z1. rewrite AK in Z1. destruct (Z1 _ I EL).
        + rewrite FD in D. discriminate D.
        + rewrite E0 in N. injection N as <-. apply FF. unfold pf. rewrite F. auto.
        + apply (Y e). unfold pf. destruct (six ms); exact LF. }
    destruct LA as (la & LA1 & LA2).
    assert (IA : exists ia oh, match remote with
      | None => ia = None /\ oh = false
      | Some (a, p) =>
          (OptsSpec.plausible pf a -> exists h q, OptsModel.resolve E pf a p = Some (h, q) /\
             (h = 0 -> ia = None /\ oh = true) /\
             (h <> 0 -> OptsModel.mem3 E = true /\ ia = Some ((h, q), (h, (q + 1) mod 65536)) /\ oh = false)) /\
          (~ OptsSpec.plausible pf a -> ia = None /\ oh = false)
      end).
    { destruct remote as [[a p]|]; [|eauto].
      assert (PD : OptsSpec.plausible pf a \/ ~ OptsSpec.plausible pf a) by (unfold OptsSpec.plausible; destruct pf; lia).
      destruct PD as [PD|PD].
      - destruct (RM pf PD) as ((h & q) & R). destruct (Z.eq_dec h 0) as [H|H].
        + exists None, true. split; [|tauto]. intros _. exists h, q. repeat split; auto; tauto.
        + exists (Some ((h, q), (h, (q + 1) mod 65536))), false. split; [|tauto]. intros _. exists h, q. repeat split; auto; tauto.
      - exists None, false. tauto. }
    destruct IA as (ia & oh & IA).
    eexists (OptsModel.mkOpts _ _ _ _ ia _ _ _ la pf _ oh). unfold OptsSpec.accepted, OptsSpec.meaning, OptsSpec.needs_family. cbn.
    split; [repeat split|]. split; [exact LA1|]. split; [exact LA2|]. exact IA.
  Qed.
End answer.

(** ** Together *)

Lemma entry_inet rs nr g e : families rs -> entry_of rs nr g e -> inet (e_addr e) = true.
Proof. intros Fa (_ & R & _). apply resolves_asked in R. eapply families_inet; eauto. Qed.
Lemma entries_inet rs nr gs es : families rs -> Forall2 (labelled_entry rs nr) gs es -> all_inet es.
Proof. intros Fa F. induction F as [|g e gs es [_ H] F IH]; constructor; auto. eapply entry_inet; eauto. Qed.
Lemma setup_good rs nr os es b1 : families rs -> setup rs nr os es b1 -> all_inet es /\ NoDup (labels_of es) /\ (exists e0, nth_error es 0 = Some e0) /\
  forall i, b1 = Some i -> exists e, nth_error es i = Some e.
Proof.
  intros Fa S. destruct S as [a NL RS|g gs' e es' U' NB EO F N|gs' fi hi fe he ai ae a0 a1 es' U' BR AD A01 RI RE FF NN SH|gs' fi hi fe he ai ae a0 a1 es' U' BR AD A01 RI RE FF NN SH].
  - apply resolves_asked in RS. apply families_inet in RS; auto. repeat split; cbn; eauto; try discriminate; repeat constructor; auto.
  - repeat split; cbn; eauto; try discriminate. constructor; [eapply entry_inet; eauto|eapply entries_inet; eauto].
  - apply resolves_asked in RI, RE. apply families_inet in RI, RE; auto. repeat split; eauto; cbn; eauto.
    + constructor; auto. constructor; auto. eapply entries_inet; eauto.
    + intros i [= <-]. cbn. eauto.
  - apply resolves_asked in RI. apply families_inet in RI; auto. repeat split; eauto; cbn; eauto.
    + constructor; auto. eapply entries_inet; eauto.
    + intros i [= <-]. cbn. eauto.
Qed.
Lemma nth_error_ext {A} (l l' : list A) : (forall i, nth_error l i = nth_error l' i) -> l = l'.
Proof.
  revert l'. induction l as [|x l IH]; intros [|y l'] H; auto.
  - specialize (H 0%nat). discriminate.
  - specialize (H 0%nat). discriminate.
  - pose proof (H 0%nat) as H0. injection H0 as ->. f_equal. apply IH. intros i. exact (H (S i)).
Qed.
Lemma shows_fun c es b1 es' b1' : shows c es b1 -> shows c es' b1' -> es = es' /\ b1 = b1'.
Proof. intros (_ & B & H) (_ & B' & H'). split; [|congruence]. apply nth_error_ext. intros i. congruence. Qed.
Lemma configure_exact rs nr os es b1 : families rs -> labels_not_empty os ->
  ((exists c, configure rs nr os = COk c /\ shows c es b1) <-> within_limits os /\ setup rs nr os es b1).
Proof.
  intros Fa LN. destruct (configure_cases rs nr os Fa LN) as [(W & es' & b1' & bm & S & E)|[E N]].
  - split.
    + intros (c & E' & SH). rewrite E in E'. injection E' as <-. destruct (shows_fun _ _ _ _ _ (shows_rep es' b1' bm) SH) as [<- <-]. auto.
    + intros (_ & S'). destruct (setup_fun _ _ _ _ _ _ _ (proj1 W) S S') as [<- <-]. eexists. split; [exact E|apply shows_rep].
  - split; [intros (c & E' & _); congruence|]. intros (W & S). destruct (N W _ _ S).
Qed.
Lemma configure_rep rs nr os es b1 c : families rs -> labels_not_empty os -> setup rs nr os es b1 -> configure rs nr os = COk c ->
  exists bm, c = cf es b1 bm.
Proof.
  intros Fa LN S E. destruct (configure_cases rs nr os Fa LN) as [(W & es' & b1' & bm & S' & E')|[E' N]]; [|congruence].
  rewrite E in E'. injection E' as ->. destruct (setup_fun _ _ _ _ _ _ _ (proj1 W) S S') as [<- <-]. exists bm. reflexivity.
Qed.
Lemma acceptable_good es b1 bm more ms : NoDup (labels_of es) -> OptsModel.mem2 more = true -> no_address ms ->
  (OptsSpec.all_good (env_of (cf es b1 bm) 0 more) [] ms <-> acceptable es b1 ms).
Proof.
  intros ND M2 NA. rewrite (good_iff es b1 bm more ND [] ms M2 NA). unfold acceptable. cbn [filter length Nat.add].
  destruct (directions ms) as [|d ds]; destruct (filter OptsSpec.is_codecs ms) as [|k ks]; cbn [length];
    (split; (intros (X1 & X2 & X3 & X4); split; [exact X1|]; split; [first [lia|apply X2; discriminate|intros _; exact X2]|]; split; [first [lia|apply X3; discriminate|intros _; exact X3]|exact X4])).
Qed.
Lemma answer_exact rs nr os c es b1 ntop more mods ms remote port t : families rs -> labels_not_empty os -> configure rs nr os = COk c -> setup rs nr os es b1 ->
  cstring mods -> OptsSpec.many mods ms [] -> no_address ms -> served more remote ->
  (update_new ntop c more mods remote port = Some t <-> acceptable es b1 ms /\ exists e, wanted es b1 ms e /\ says ntop e port t).
Proof.
  intros Fa LN C S CS MA NA SV. destruct (setup_good _ _ _ _ _ Fa S) as (AI & ND & (e0 & E0) & B1).
  destruct (configure_rep _ _ _ _ _ _ Fa LN S C) as (bm & ->). unfold update_new. cbn [cf c_b0]. fold (cf es b1 bm).
  destruct SV as (M1 & M2 & M3 & RM). split.
  - destruct (OptsModel.parse (env_of (cf es b1 bm) 0 more) (mods ++ [0]) remote) as [o| | |] eqn:P; try discriminate.
    apply (OptsProof.parse_ok_iff _ mods [] remote o CS) in P as (_ & ms' & MA' & AG & AC).
    assert (ms' = ms) by (eapply OptsProof.many_det; eauto). subst ms'. intros H. split; [apply (acceptable_good es b1 bm more); auto|].
    destruct (accepted_wanted es b1 bm more AI ND e0 E0 B1 ms remote o M2 NA AG AC) as (e & W & N). exists e. split; auto.
    eapply answer_says; eauto.
  - intros (AC & e & W & SY). apply (acceptable_good es b1 bm more) in AC; auto.
    destruct (wanted_accepted es b1 bm more AI ND e0 E0 ms remote e M2 NA AC) as (o & AO); auto. { repeat split; auto. }
    assert (P : OptsModel.parse (env_of (cf es b1 bm) 0 more) (mods ++ [0]) remote = OptsModel.OOk o).
    { apply (OptsProof.parse_ok_iff _ mods [] remote o CS). split; auto. exists ms. auto. }
    rewrite P. destruct (accepted_wanted es b1 bm more AI ND e0 E0 B1 ms remote o M2 NA AC AO) as (e' & W' & N).
    rewrite (wanted_fun _ _ _ _ _ ND W W') in SY. eapply answer_says; eauto.
Qed.
