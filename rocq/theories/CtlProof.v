From Verif Require Import Base Str CtlModel CtlSpec.

Lemma after_spec p : forall s, match after p s with Some t => s = p ++ t | None => forall t, s <> p ++ t end.
Proof.
  induction p as [|a p IH]; intros s; cbn [after]; [reflexivity|]. destruct s as [|b s]; [discriminate|].
  destruct (Z.eqb_spec a b) as [->|N]; [|intros t E; injection E; congruence]. specialize (IH s).
  destruct (after p s) as [t|]; [now rewrite IH | intros t E; injection E; apply IH].
Qed.
Lemma after_app p t : after p (p ++ t) = Some t.
Proof. induction p as [|a p IH]; cbn [after app]; [reflexivity|]. now rewrite Z.eqb_refl. Qed.

Lemma last_colon_spec s : match last_colon s with Some (h, p) => s = h ++ 58 :: p /\ ~ In 58 p | None => ~ In 58 s end.
Proof.
  induction s as [|c s IH]; cbn [last_colon]; [intros []|]. destruct (last_colon s) as [[h p]|].
  - destruct IH as [-> IH]. auto.
  - destruct (Z.eqb_spec c 58) as [->|N]; [auto|]. intros [E|E]; auto.
Qed.
Lemma last_colon_none s : ~ In 58 s -> last_colon s = None.
Proof.
  intros H. pose proof (last_colon_spec s) as X. destruct (last_colon s) as [[h p]|]; [|reflexivity]. destruct X as [-> _]. exfalso. apply H. apply in_or_app. right. now left.
Qed.
Lemma last_colon_app h p : ~ In 58 p -> last_colon (h ++ 58 :: p) = Some (h, p).
Proof.
  intros H. induction h as [|c h IH]; cbn [app last_colon]; [|now rewrite IH]. rewrite last_colon_none by assumption. reflexivity.
Qed.

Lemma fset_same f p v : fset f p v p = v.
Proof. unfold fset. now rewrite beq_refl. Qed.
Lemma fset_other f p v q : p <> q -> fset f p v q = f q.
Proof. intros H. unfold fset. now rewrite (proj2 (beq_neq p q) H). Qed.
Lemma unlink_same f p : unlink f p p = None \/ (f p = Some NDir /\ unlink f p p = Some NDir).
Proof. unfold unlink. destruct (f p) as [[]|] eqn:E; rewrite ?fset_same; auto. Qed.
Lemma unlink_other f p q : p <> q -> unlink f p q = f q.
Proof. intros H. unfold unlink. destruct (f p) as [[]|]; try apply fset_other; auto. Qed.

Lemma ask_same y : y_fs (fst (ask y)) = y_fs y /\ y_fd (fst (ask y)) = y_fd y.
Proof. unfold ask. destruct (y_ans y); auto. Qed.

Section Init.
  Context (own mode : bool) (resolves : ckind -> list Z -> list Z -> bool) (sysd_fd : option Z) (fdnum : list Z -> option Z).

  Ltac asks := repeat match goal with
    | |- context [ask ?y] => let H := fresh "A" in pose proof (ask_same y) as H; destruct (ask y) as [? []]; cbn [fst snd] in H; destruct H as [? ?]
    end.

  (** one UNIX socket *)
  Lemma ifsun_ok y path : let (y1, r) := init_ifsun own mode y path in
    (forall q, q <> path -> y_fs y1 q = y_fs y q) /\ y_fd y <= y_fd y1
    /\ match r with Some fd => y_fs y1 path = Some (NSock fd) /\ y_fd y <= fd < y_fd y1 | None => True end.
  Proof.
    unfold init_ifsun. destruct (108 <=? _); [repeat split; auto; lia|]. unfold new_fd, set_fs.
    set (y0 := CSys (unlink (y_fs y) path) (y_fd y) (y_ans y)).
    pose proof (ask_same y0) as A0. destruct (ask y0) as [y1 b1]. cbn [fst] in A0. destruct A0 as [A1 A2]. cbn [y0 y_fs y_fd] in A1, A2.
    destruct b1; [|rewrite A1, A2; repeat split; try lia; intros q N; apply unlink_other; congruence].
    set (y2 := CSys (y_fs y1) (y_fd y1 + 1) (y_ans y1)). pose proof (ask_same y2) as A3. destruct (ask y2) as [y3 b3]. cbn [fst] in A3. destruct A3 as [A3 A4].
    cbn [y2 y_fs y_fd] in A3, A4.
    assert (U : forall q, q <> path -> y_fs y3 q = y_fs y q) by (intros q N; rewrite A3, A1; apply unlink_other; congruence).
    destruct (match y_fs y3 path with None => b3 | Some _ => false end); [|repeat split; try assumption; lia].
    set (y4 := CSys (fset (y_fs y3) path (Some (NSock (y_fd y1)))) (y_fd y3) (y_ans y3)).
    assert (X : forall y5, y_fs y5 = y_fs y4 -> y_fd y5 = y_fd y4 ->
      (forall q, q <> path -> y_fs y5 q = y_fs y q) /\ y_fd y <= y_fd y5 /\ y_fs y5 path = Some (NSock (y_fd y1)) /\ y_fd y <= y_fd y1 < y_fd y5).
    { intros y5 E1 E2. rewrite E1, E2. cbn [y4 y_fs y_fd]. split; [intros q N; rewrite fset_other by congruence; auto|]. split; [lia|]. split; [apply fset_same|lia]. }
    assert (Y6 : forall b : bool, let '(y6, ok) := (if b then ask y4 else (y4, true)) in y_fs y6 = y_fs y4 /\ y_fd y6 = y_fd y4).
    { intros [|]; [|auto]. pose proof (ask_same y4) as A. destruct (ask y4) as [? ?]. exact A. }
    specialize (Y6 own). destruct (if own then ask y4 else (y4, true)) as [y6 ok1]. destruct Y6 as [F1 F2].
    destruct ok1; cbn [negb]; [|destruct (X y6 F1 F2) as (X1 & X2 & _); auto].
    assert (Y7 : forall b : bool, let '(y7, ok) := (if b then ask y6 else (y6, true)) in y_fs y7 = y_fs y4 /\ y_fd y7 = y_fd y4).
    { intros [|]; [|auto]. pose proof (ask_same y6) as A. destruct (ask y6) as [? ?]. cbn [fst] in A. destruct A. split; congruence. }
    specialize (Y7 mode). destruct (if mode then ask y6 else (y6, true)) as [y7 ok2]. destruct Y7 as [G1 G2].
    destruct ok2; cbn [negb]; [|destruct (X y7 G1 G2) as (X1 & X2 & _); auto].
    pose proof (ask_same y7) as A. destruct (ask y7) as [y8 ok3]. cbn [fst] in A. destruct A as [H1 H2].
    destruct (X y8 ltac:(congruence) ltac:(congruence)) as (X1 & X2 & X3 & X4). destruct ok3; auto.
  Qed.

  Lemma inet_ok y k s : let (y1, r) := init_inet resolves y k s in
    y_fs y1 = y_fs y /\ y_fd y <= y_fd y1 /\ match r with Some fd => y_fd y <= fd < y_fd y1 | None => True end.
  Proof.
    unfold init_inet. destruct (host_port s) as [h p]. destruct (resolves k h p); cbn [negb]; [|repeat split; lia].
    unfold new_fd. pose proof (ask_same y) as A. destruct (ask y) as [y1 b]. cbn [fst] in A. destruct A as [A1 A2].
    destruct b; [|rewrite A1, A2; repeat split; lia]. set (y2 := CSys (y_fs y1) (y_fd y1 + 1) (y_ans y1)).
    pose proof (ask_same y2) as A. destruct (ask y2) as [y3 b3]. cbn [fst] in A. destruct A as [A3 A4]. cbn [y2 y_fs y_fd] in A3, A4.
    destruct b3; cbn [negb]; [|repeat split; try congruence; lia].
    pose proof (ask_same y3) as A. destruct (ask y3) as [y4 b4]. cbn [fst] in A. destruct A as [A5 A6].
    destruct k; try destruct b4; repeat split; try congruence; lia.
  Qed.

  Lemma open_ok y c : 0 <= y_fd y -> let (y1, r) := open_sock own mode resolves sysd_fd fdnum y c in
    (forall q, (is_unix c = true -> q <> cs_text c) -> y_fs y1 q = y_fs y q) /\ y_fd y <= y_fd y1
    /\ (is_unix c = true -> match r with Some (i, o) => y_fs y1 (cs_text c) = Some (NSock i) /\ i = o | None => True end).
  Proof.
    intros H0. unfold open_sock, is_unix. destruct (cs_kind c).
    1, 2: pose proof (ifsun_ok y (cs_text c)) as X; destruct (init_ifsun own mode y (cs_text c)) as [y1 [fd|]]; destruct X as (X1 & X2 & X3); cbn [fst snd];
      (split; [intros q Q; apply X1, Q; reflexivity|]; split; [exact X2|]); intros _; [|exact Logic.I]; destruct X3 as [X3 X4]; destruct (Z.ltb_spec fd 0); [lia|auto].
    1-4: match goal with |- context [init_inet ?a ?b ?c ?d] => pose proof (inet_ok b c d) as X; destruct (init_inet a b c d) as [y1 r] end;
      destruct X as (X1 & X2 & X3); cbn [fst snd]; rewrite X1; (split; [auto|]; split; [exact X2|]); discriminate.
    all: cbn [fst snd]; split; [auto|]; split; [lia|]; discriminate.
  Qed.

  Lemma init_ok l : forall y, 0 <= y_fd y -> let (y1, r) := controlfd_init own mode resolves sysd_fd fdnum y l in
    (forall q, ~ unix_path l q -> y_fs y1 q = y_fs y q)
    /\ (NoDup (map cs_text (filter is_unix l)) ->
        match r with
        | Some fds => length fds = length l /\ forall n c i o, nth_error l n = Some c -> nth_error fds n = Some (i, o) -> is_unix c = true -> y_fs y1 (cs_text c) = Some (NSock i)
        | None => True
        end).
  Proof.
    induction l as [|c l IH]; intros y H0; cbn [controlfd_init].
    - split; [auto|]. intros _. split; [reflexivity|]. intros [|n] c i o E; discriminate.
    - pose proof (open_ok y c H0) as X. destruct (open_sock own mode resolves sysd_fd fdnum y c) as [y1 r]. destruct X as (X1 & X2 & X3).
      assert (U : forall q, ~ unix_path (c :: l) q -> (is_unix c = true -> q <> cs_text c) /\ ~ unix_path l q).
      { intros q N. split.
        - intros E ->. apply N. exists c. split; [now left|]. split; [|reflexivity]. unfold is_unix in E. destruct (cs_kind c); try discriminate; auto.
        - intros (c' & I1 & I2 & I3). apply N. exists c'. split; [now right|auto]. }
      destruct r as [fds|]; [|split; [intros q N; apply X1, U, N | auto]].
      pose proof (ask_same y1) as A. destruct (ask y1) as [y2 b]. cbn [fst] in A. destruct A as [A1 A2].
      destruct b; cbn [negb]; [|split; [intros q N; rewrite A1; apply X1, U, N | auto]].
      specialize (IH y2 ltac:(lia)). destruct (controlfd_init own mode resolves sysd_fd fdnum y2 l) as [y3 r]. destruct IH as [I1 I2]. split.
      + intros q N. rewrite I1 by (apply U, N). rewrite A1. apply X1, U, N.
      + intros ND. destruct r as [r|]; [|exact Logic.I]. cbn [filter] in ND.
        assert (ND2 : NoDup (map cs_text (filter is_unix l))) by (destruct (is_unix c); [now inversion ND | exact ND]).
        destruct (I2 ND2) as [L I3]. split; [cbn [length]; congruence|]. intros [|n] c' i o E1 E2 E3; cbn [nth_error] in E1, E2.
        * injection E1 as <-. injection E2 as E2. rewrite E3 in ND. subst fds. destruct (X3 E3) as [X4 ->].
          rewrite I1; [rewrite A1; exact X4|]. intros (c2 & J1 & J2 & J3). inversion ND as [|? ? N _]; subst. apply N. rewrite <- J3.
          apply in_map. apply filter_In. split; [exact J1|]. unfold is_unix. destruct J2 as [-> | ->]; reflexivity.
        * exact (I3 n c' i o E1 E2 E3).
  Qed.
End Init.

Lemma cleanup_other l : forall f q, ~ unix_path l q -> cleanup f l q = f q.
Proof.
  induction l as [|c l IH]; intros f q N; cbn [cleanup]; [reflexivity|].
  rewrite IH by (intros (c' & I1 & I2); apply N; exists c'; split; [now right | auto]). destruct (is_unix c) eqn:E; [|reflexivity].
  apply unlink_other. intros <-. apply N. exists c. split; [now left|]. split; [|reflexivity]. unfold is_unix in E. destruct (cs_kind c); try discriminate; auto.
Qed.
Lemma unlink_keeps f p q : f q = None -> unlink f p q = None.
Proof. intros H. unfold unlink. destruct (f p) as [[]|]; auto; unfold fset; destruct (beq p q); auto. Qed.
Lemma cleanup_none l : forall f q, f q = None -> cleanup f l q = None.
Proof. induction l as [|c l IH]; intros f q H; cbn [cleanup]; [exact H|]. apply IH. destruct (is_unix c); [now apply unlink_keeps | exact H]. Qed.
Lemma cleanup_gone l : forall f q, unix_path l q -> f q <> Some NDir -> cleanup f l q = None.
Proof.
  induction l as [|c l IH]; intros f q (c' & I1 & I2 & I3) N; [destruct I1|]. cbn [cleanup].
  assert (D : (if is_unix c then unlink f (cs_text c) else f) q <> Some NDir).
  { destruct (is_unix c); [|exact N]. unfold unlink. destruct (f (cs_text c)) as [[]|]; auto; unfold fset; destruct (beq (cs_text c) q); auto; discriminate. }
  destruct I1 as [->|I1]; [|apply IH; [exists c'; auto | exact D]].
  apply cleanup_none. assert (E : is_unix c' = true) by (unfold is_unix; destruct I2 as [-> | ->]; reflexivity). rewrite E. subst q.
  destruct (unlink_same f (cs_text c')) as [U|[U1 _]]; [exact U | congruence].
Qed.
