From Verif Require Import Base AddrModel BindModel BindSpec.
From Coq Require Import Arith.

Lemma ishostseq_inet a b : inet a = true -> inet b = true ->
  (ishostseq a b = Some true /\ same_host a b) \/ (ishostseq a b = Some false /\ ~ same_host a b).
Proof.
  unfold ishostseq, same_host; destruct a, b; cbn [family inet negb]; intros Ha H; try discriminate;
    unfold AF_INET, AF_INET6.
  - destruct (2 =? 2) eqn:E; [|lia]. cbn. destruct (host =? host0) eqn:F; [left|right]; split; auto; lia.
  - right; auto.
  - right; auto.
  - destruct (10 =? 10) eqn:E; [|lia]. cbn. destruct (bytes_eqb host host0) eqn:F; [left|right]; split; auto.
    + apply bytes_eqb_eq; auto.
    + intros ->. rewrite bytes_eqb_refl in F. discriminate.
Qed.

Lemma same_host_sym a b : same_host a b -> same_host b a.
Proof. destruct a, b; cbn; auto. Qed.
Lemma same_host_trans a b c : same_host a b -> same_host b c -> same_host a c.
Proof. destruct a, b, c; cbn; intros; try tauto; congruence. Qed.
Lemma same_host_refl a : inet a = true -> same_host a a.
Proof. destruct a; cbn; auto; discriminate. Qed.

(** Does this object answer this request? *)
Definition fits (b : baddr) (a : sockaddr) (pr : option str) : Prop :=
  same_host (b_addr b) a /\
  match pr with Some lb => sbytes lb = sbytes (b_label b) | None => True end.

Definition allinet (l : list baddr) : Prop := Forall (fun b => inet (b_addr b) = true) l.

Lemma find_addr_cases l a pr : allinet l -> inet a = true ->
  (exists l1 b l2, l = l1 ++ b :: l2 /\ find_addr l a pr = BObj (b_id b) /\ fits b a pr /\
                   Forall (fun x => ~ fits x a pr) l1) \/
  (find_addr l a pr = BNull /\ Forall (fun x => ~ fits x a pr) l).
Proof.
  intros L A; induction L as [|b t Hb Ht IH].
  - right; auto.
  - assert (NO : ~ fits b a pr -> find_addr (b :: t) a pr = find_addr t a pr).
    { intros N. cbn [find_addr].
      destruct (ishostseq_inet _ _ Hb A) as [[E S]|[E S]]; rewrite E; auto.
      destruct pr as [lb|].
      - unfold str_match. destruct (bytes_eqb (sbytes lb) (sbytes (b_label b))) eqn:F; cbn; auto.
        exfalso; apply N; split; auto. apply bytes_eqb_eq; auto.
      - exfalso; apply N; split; auto. }
    assert (YES : fits b a pr -> find_addr (b :: t) a pr = BObj (b_id b)).
    { intros [S M]. cbn [find_addr].
      destruct (ishostseq_inet _ _ Hb A) as [[E _]|[_ N]]; [|tauto]. rewrite E.
      destruct pr as [lb|]; auto. unfold str_match. rewrite M, bytes_eqb_refl. auto. }
    assert (D : fits b a pr \/ ~ fits b a pr).
    { unfold fits. destruct (ishostseq_inet _ _ Hb A) as [[_ S]|[_ S]]; [|tauto].
      destruct pr as [lb|]; [|tauto].
      destruct (list_eq_dec Z.eq_dec (sbytes lb) (sbytes (b_label b))); tauto. }
    destruct D as [D|D].
    + left. exists [], b, t. repeat split; try apply D; auto.
    + rewrite (NO D).
      destruct IH as [(l1 & c & l2 & -> & F & G & H)|[F G]].
      * left. exists (b :: l1), c, l2. repeat split; try apply G; auto.
      * right; auto.
Qed.

Lemma label2_cases l lb :
  (exists b, In b l /\ label2bindaddr l lb = BObj (b_id b) /\ b_label b = Some lb) \/
  (label2bindaddr l lb = BNull /\ Forall (fun b => b_label b <> Some lb) l).
Proof.
  induction l as [|b t IH]; cbn [label2bindaddr]; [right; auto|].
  destruct (b_label b) as [bl|] eqn:E.
  - unfold str_match; cbn [sbytes]. destruct (bytes_eqb bl lb) eqn:F.
    + apply bytes_eqb_eq in F; subst. left; exists b; cbn; auto.
    + assert (N : b_label b <> Some lb).
      { intros X. rewrite X in E. injection E as <-. rewrite bytes_eqb_refl in F; discriminate. }
      destruct IH as [(c & I & L & M)|[L M]]; [left; exists c; cbn; auto|right; split; auto].
  - assert (N : b_label b <> Some lb) by (rewrite E; discriminate).
    destruct IH as [(c & I & L & M)|[L M]]; [left; exists c; cbn; auto|right; split; auto].
Qed.

(** The invariant: identities are fresh, one object per host and label, one host per label. *)
Record inv (s : bstate) : Prop := {
  iv_inet : allinet (b_list s);
  iv_id : Forall (fun b => (b_id b < b_next s)%nat) (b_list s);
  iv_nodup : NoDup (map b_id (b_list s));
  iv_key : forall b c, In b (b_list s) -> In c (b_list s) ->
             same_host (b_addr b) (b_addr c) -> sbytes (b_label b) = sbytes (b_label c) -> b = c;
  iv_label : forall b c l, In b (b_list s) -> In c (b_list s) ->
             b_label b = Some l -> b_label c = Some l -> b = c
}.

Lemma inv_empty : inv b_empty.
Proof. split; cbn; try constructor; try tauto. Qed.

(** One call: either nothing changes, or one object is added in front. *)
Inductive grows (c : bcall) (s : bstate) : bstate -> bres -> Prop :=
| G_same r : grows c s s r
| G_new a pr ok :
    (c = CAddr a ok /\ pr = None) \/ (c = CHost (Some a) pr ok) ->
    Forall (fun x => ~ fits x a pr) (b_list s) ->
    (forall lb, pr = Some (Some lb) -> Forall (fun b => b_label b <> Some lb) (b_list s)) ->
    grows c s
      {| b_list := {| b_id := b_next s; b_addr := a;
                      b_label := match pr with Some lb => lb | None => None end |} :: b_list s;
         b_next := S (b_next s) |} (BObj (b_next s)).

Lemma addr2_grows c s a pr ok s' r : inv s -> inet a = true ->
  (c = CAddr a ok /\ pr = None) \/ (c = CHost (Some a) pr ok) ->
  (forall lb, pr = Some (Some lb) -> Forall (fun b => b_label b <> Some lb) (b_list s)) ->
  addr2bindaddr_i s a pr ok = (s', r) -> grows c s s' r.
Proof.
  intros V A C L E. unfold addr2bindaddr_i in E.
  destruct (find_addr_cases (b_list s) a pr (iv_inet _ V) A) as [(l1 & b & l2 & _ & F & _)|[F N]];
    rewrite F in E.
  - injection E as <- <-. constructor.
  - destruct ok; injection E as <- <-; [|constructor].
    econstructor; eauto.
Qed.

Lemma bstep_grows s c s' r : inv s -> inet_call c -> bstep s c = (s', r) -> grows c s s' r.
Proof.
  intros V A E. destruct c as [a ok|[a|] pr ok|lb|af]; cbn [bstep inet_call] in *.
  - eapply addr2_grows; eauto. discriminate.
  - unfold host2bindaddr in E.
    destruct pr as [[lb|]|].
    + destruct (label2_cases (b_list s) lb) as [(b & _ & L & _)|[L N]]; rewrite L in E.
      * injection E as <- <-; constructor.
      * eapply addr2_grows; eauto. intros lb' X. injection X as <-. auto.
    + eapply addr2_grows; eauto. discriminate.
    + eapply addr2_grows; eauto. discriminate.
  - unfold host2bindaddr in E. destruct (match pr with Some _ => _ | None => _ end) in E;
      injection E as <- <-; constructor.
  - injection E as <- <-; constructor.
  - injection E as <- <-; constructor.
Qed.

Lemma grows_inv c s s' r : inet_call c -> inv s -> grows c s s' r -> inv s'.
Proof.
  intros A V G; destruct G as [r|a pr ok C N L]; auto.
  assert (IA : inet a = true).
  { destruct C as [[-> _]| ->]; cbn in A; auto. }
  destruct V as [V1 V2 V3 V4 V5].
  split; cbn [b_list b_next].
  - constructor; auto.
  - constructor; cbn; auto. eapply Forall_impl; [|exact V2]. cbn; intros; lia.
  - cbn. constructor; auto. intros I. apply in_map_iff in I as (b & E & I).
    rewrite Forall_forall in V2. apply V2 in I. lia.
  - assert (K : forall c0, In c0 (b_list s) -> same_host a (b_addr c0) ->
                 sbytes (match pr with Some lb => lb | None => None end) = sbytes (b_label c0) -> False).
    { intros c0 I S M. rewrite Forall_forall in N. apply (N _ I). split; [apply same_host_sym; auto|].
      destruct pr; auto. }
    intros b c0 [<-|Ib] [<-|Ic] S M; auto.
    + exfalso; eapply K; eauto.
    + exfalso; eapply K; [exact Ib|apply same_host_sym; exact S|symmetry; exact M].
  - assert (K : forall c0 l, In c0 (b_list s) ->
        match pr with Some lb => lb | None => None end = Some l -> b_label c0 = Some l -> False).
    { intros c0 l I P Q. destruct pr as [[lb|]|]; try discriminate.
      injection P as ->. specialize (L l eq_refl). rewrite Forall_forall in L. eapply L; eauto. }
    intros b c0 l [<-|Ib] [<-|Ic]; cbn [b_label]; intros P Q; auto.
    + exfalso; eapply K; eauto.
    + exfalso; eapply K; eauto.
    + eapply V5; eauto.
Qed.

Lemma bstep_inv s c s' r : inv s -> inet_call c -> bstep s c = (s', r) -> inv s'.
Proof. intros V A E. eapply grows_inv; eauto using bstep_grows. Qed.

Lemma brun_app s c1 c2 :
  fst (brun s (c1 ++ c2)) = fst (brun (fst (brun s c1)) c2).
Proof.
  revert s; induction c1 as [|c t IH]; intros s; cbn [app brun fst]; auto.
  destruct (bstep s c) as [s1 r]. specialize (IH s1).
  destruct (brun s1 (t ++ c2)) as [x y], (brun s1 t) as [x' y']. cbn in *. exact IH.
Qed.

Lemma brun_cons s c t : fst (brun s (c :: t)) = fst (brun (fst (bstep s c)) t).
Proof.
  cbn [brun]. destruct (bstep s c) as [s1 r]. cbn [fst]. destruct (brun s1 t). reflexivity.
Qed.

Lemma brun_inv s cs : inv s -> Forall inet_call cs -> inv (fst (brun s cs)).
Proof.
  intros V F; revert s V; induction F as [|c t H F IH]; intros s V; [exact V|].
  rewrite brun_cons. apply IH. destruct (bstep s c) as [s1 r] eqn:E. eapply bstep_inv; eauto.
Qed.

(** Objects never go away or change. *)
Lemma bstep_keeps s c s' r : inv s -> inet_call c -> bstep s c = (s', r) ->
  incl (b_list s) (b_list s').
Proof.
  intros V A E. destruct (bstep_grows _ _ _ _ V A E); [apply incl_refl|].
  cbn. apply incl_tl, incl_refl.
Qed.
Lemma brun_keeps s cs : inv s -> Forall inet_call cs -> incl (b_list s) (b_list (fst (brun s cs))).
Proof.
  intros V F; revert s V; induction F as [|c t H F IH]; intros s V; [apply incl_refl|].
  rewrite brun_cons. destruct (bstep s c) as [s1 r] eqn:E. cbn [fst].
  eapply incl_tran; [eapply bstep_keeps; eauto|]. apply IH. eapply bstep_inv; eauto.
Qed.

(** What an answer [BObj p] to a request for an address means. *)
Lemma addr2_obj s a pr ok s' p : inv s -> inet a = true ->
  addr2bindaddr_i s a pr ok = (s', BObj p) ->
  exists b, In b (b_list s') /\ b_id b = p /\ fits b a pr.
Proof.
  intros V A E. unfold addr2bindaddr_i in E.
  destruct (find_addr_cases (b_list s) a pr (iv_inet _ V) A) as [(l1 & b & l2 & X & F & G & _)|[F N]];
    rewrite F in E.
  - injection E as <- <-. exists b. rewrite X. split; [apply in_elt|]; auto.
  - destruct ok; [|discriminate]. injection E as <- <-. eexists. cbn [b_list]. split; [left; reflexivity|].
    split; auto. split; cbn; [apply same_host_refl; auto|]. destruct pr; auto.
Qed.

Definition params_of (c : bcall) : option str :=
  match c with CHost _ pr _ => pr | _ => None end.

Lemma asks_obj s c a s' p : inv s -> inet_call c -> asks c a -> bstep s c = (s', BObj p) ->
  exists b, In b (b_list s') /\ b_id b = p /\ fits b a (params_of c).
Proof.
  intros V A Q E. destruct c as [a0 ok|[a0|] pr ok|lb|af]; cbn [bstep asks inet_call params_of] in *;
    try tauto; subst a0.
  - eapply addr2_obj; eauto.
  - unfold host2bindaddr in E. destruct (match pr with Some _ => _ | None => _ end) in E;
      [discriminate|]. eapply addr2_obj; eauto.
Qed.

Lemma nodup_id_eq l b c : NoDup (map b_id l) -> In b l -> In c l -> b_id b = b_id c -> b = c.
Proof.
  induction l as [|x t IH]; cbn; [tauto|]. intros N Ib Ic E. inversion N as [|? ? N1 N2]; subst.
  destruct Ib as [->|Ib], Ic as [->|Ic]; auto.
  - exfalso; apply N1. rewrite E. apply in_map; auto.
  - exfalso; apply N1. rewrite <- E. apply in_map; auto.
Qed.

Lemma fits_trans b a a' pr : fits b a pr -> same_host a a' -> fits b a' pr.
Proof. intros [S M] H; split; auto. eapply same_host_trans; eauto. Qed.

(** *** Same address, same object *)

Lemma first_fit_stable s c s' r a pr p :
  inv s -> inet_call c -> inet a = true -> bstep s c = (s', r) ->
  find_addr (b_list s) a pr = BObj p ->
  (pr = None -> ~ configures c a) ->
  find_addr (b_list s') a pr = BObj p.
Proof.
  intros V A IA E F Q.
  destruct (find_addr_cases (b_list s) a pr (iv_inet _ V) IA) as [(l1 & b & l2 & X & F' & G & H)|[F' _]];
    rewrite F' in F; [|discriminate]. injection F as <-.
  destruct (bstep_grows _ _ _ _ V A E) as [r|a0 pr0 ok C N L]; auto.
  cbn [b_list].
  assert (IA0 : inet a0 = true) by (destruct C as [[-> _]| ->]; cbn in A; auto).
  assert (D : ~ fits {| b_id := b_next s; b_addr := a0;
                        b_label := match pr0 with Some lb => lb | None => None end |} a pr).
  { intros [S M]. cbn in S, M.
    rewrite Forall_forall in N. assert (Ib : In b (b_list s)) by (rewrite X; apply in_elt).
    apply (N b Ib). destruct G as [GS GM].
    split; [eapply same_host_trans; [exact GS|apply same_host_sym; exact S]|].
    destruct pr0 as [lb0|]; auto.
    destruct pr as [lb|].
    - congruence.
    - exfalso. apply (Q eq_refl). destruct C as [[_ C]| ->]; [discriminate|]. cbn.
      apply same_host_sym; auto. }
  assert (AI : allinet ({| b_id := b_next s; b_addr := a0;
                        b_label := match pr0 with Some lb => lb | None => None end |} :: b_list s)).
  { constructor; auto. apply V. }
  destruct (find_addr_cases _ a pr AI IA) as [(m1 & b' & m2 & X' & F2 & G' & H')|[F2 N2]]; rewrite F2.
  - f_equal. destruct m1 as [|y m1]; cbn in X'.
    + injection X' as <- _. tauto.
    + injection X' as _ X'. inversion H' as [|? ? _ H'']; subst.
      (* both are the first fit of the same list *)
      assert (P : find_addr (b_list s) a pr = BObj (b_id b')).
      { destruct (find_addr_cases (b_list s) a pr (iv_inet _ V) IA)
          as [(k1 & z & k2 & X3 & F3 & G3 & H3)|[_ N3]].
        - rewrite F3. f_equal. rewrite X' in X3. clear -X3 G3 H3 G' H''.
          revert k1 X3 H3; induction m1 as [|w m1 IH]; intros [|v k1] X3 H3; cbn in X3.
          + injection X3 as -> _; auto.
          + injection X3 as -> _. inversion H3; subst; tauto.
          + injection X3 as -> _. inversion H''; subst; tauto.
          + injection X3 as -> X3. inversion H''; inversion H3; subst. eapply IH; eauto.
        - rewrite X' in N3. apply Forall_app in N3 as [_ N3]. inversion N3; subst; tauto. }
      congruence.
  - inversion N2 as [|? ? _ N3]; subst. rewrite X in N3.
    apply Forall_app in N3 as [_ N3]. inversion N3; subst; tauto.
Qed.

Lemma first_fit_run s cs a pr p :
  inv s -> Forall inet_call cs -> inet a = true ->
  find_addr (b_list s) a pr = BObj p ->
  (pr = None -> Forall (fun c => ~ configures c a) cs) ->
  find_addr (b_list (fst (brun s cs))) a pr = BObj p.
Proof.
  intros V F A E Q; revert s V E Q; induction F as [|c t H F IH]; intros s V E Q; auto.
  rewrite brun_cons. destruct (bstep s c) as [s1 r] eqn:B. cbn [fst].
  apply IH.
  - eapply bstep_inv; eauto.
  - eapply first_fit_stable; eauto. intros P. specialize (Q P). inversion Q; auto.
  - intros P. specialize (Q P). inversion Q; auto.
Qed.

Lemma find_addr_host l a a' pr : allinet l -> inet a = true -> inet a' = true -> same_host a a' ->
  find_addr l a pr = find_addr l a' pr.
Proof.
  intros L A A' S; induction L as [|b t Hb Ht IH]; cbn; auto.
  destruct (ishostseq_inet _ _ Hb A) as [[E H]|[E H]], (ishostseq_inet _ _ Hb A') as [[E' H']|[E' H']];
    rewrite E, E', IH; auto.
  - exfalso; apply H'. eapply same_host_trans; eauto.
  - exfalso; apply H. eapply same_host_trans; [exact H'|apply same_host_sym; auto].
Qed.

(** After an answer the object is the first fit. *)
Lemma addr2_first s a pr ok s' p : inv s -> inet a = true ->
  addr2bindaddr_i s a pr ok = (s', BObj p) -> find_addr (b_list s') a pr = BObj p.
Proof.
  intros V A E. unfold addr2bindaddr_i in E.
  destruct (find_addr (b_list s) a pr) eqn:F; try discriminate.
  - injection E as <- <-. auto.
  - destruct ok; [|discriminate]. injection E as <- <-. cbn [b_list find_addr b_addr b_label b_id].
    destruct (ishostseq_inet _ _ A A) as [[H _]|[_ N]]; [|exfalso; apply N, same_host_refl; auto].
    rewrite H. destruct pr as [lb|]; auto. unfold str_match. rewrite bytes_eqb_refl. auto.
Qed.

Lemma addr2_again s a pr ok p : find_addr (b_list s) a pr = BObj p ->
  snd (addr2bindaddr_i s a pr ok) = BObj p.
Proof. intros F. unfold addr2bindaddr_i. rewrite F. auto. Qed.

Lemma same_host_inet_l a b : same_host a b -> inet a = true.
Proof. destruct a, b; cbn; auto; tauto. Qed.
Lemma same_host_inet_r a b : same_host a b -> inet b = true.
Proof. destruct a, b; cbn; auto; tauto. Qed.

(** The two kinds of requests as one. *)
Lemma request_first s c a pr s' p : inv s ->
  (asks_any c a /\ pr = None) \/ (asks_plain c a /\ pr = Some None) ->
  bstep s c = (s', BObj p) -> find_addr (b_list s') a pr = BObj p /\ inv s'.
Proof.
  intros V Q E.
  assert (exists a' ok, same_host a a' /\ addr2bindaddr_i s a' pr ok = (s', BObj p) /\ inet_call c) as
    (a' & ok & S & E' & IC).
  { destruct Q as [[Q ->]|[Q ->]]; destruct c as [a0 ok|[a0|] [[lb|]|] ok|lb|af]; cbn in Q; try tauto;
      exists a0, ok; cbn [bstep host2bindaddr] in E; repeat split; auto; cbn; eauto using same_host_inet_r. }
  split; [|eapply bstep_inv; eauto].
  assert (V' : inv s') by (eapply bstep_inv; eauto).
  rewrite (find_addr_host _ a a' pr (iv_inet _ V')); eauto using same_host_inet_l, same_host_inet_r.
  exact (addr2_first s a' pr ok s' p V (same_host_inet_r _ _ S) E').
Qed.
Lemma request_again s c a pr p : inv s ->
  (asks_any c a /\ pr = None) \/ (asks_plain c a /\ pr = Some None) ->
  find_addr (b_list s) a pr = BObj p -> snd (bstep s c) = BObj p.
Proof.
  intros V Q F.
  assert (exists a' ok, same_host a a' /\ bstep s c = addr2bindaddr_i s a' pr ok) as (a' & ok & S & E).
  { destruct Q as [[Q ->]|[Q ->]]; destruct c as [a0 ok|[a0|] [[lb|]|] ok|lb|af]; cbn in Q; try tauto;
      exists a0, ok; split; auto. }
  rewrite E. apply addr2_again.
  rewrite <- (find_addr_host _ a a' pr (iv_inet _ V)); eauto using same_host_inet_l, same_host_inet_r.
Qed.

Lemma answer_step pre c : exists s', bstep (fst (brun b_empty pre)) c = (s', answer pre c) /\
  fst (brun b_empty (pre ++ [c])) = s'.
Proof.
  unfold answer. destruct (bstep (fst (brun b_empty pre)) c) as [s' r] eqn:E.
  exists s'. split; auto. rewrite brun_app, brun_cons, E. reflexivity.
Qed.

Lemma reach_inv pre : Forall inet_call pre -> inv (fst (brun b_empty pre)).
Proof. apply brun_inv, inv_empty. Qed.

Lemma again_lemma pre c1 mid c2 a (pr : option str) p :
  Forall inet_call (pre ++ c1 :: mid) ->
  (asks_any c1 a /\ asks_any c2 a /\ pr = None /\ Forall (fun c => ~ configures c a) mid) \/
  (asks_plain c1 a /\ asks_plain c2 a /\ pr = Some None) ->
  answer pre c1 = BObj p -> answer (pre ++ c1 :: mid) c2 = BObj p.
Proof.
  intros F Q E. apply Forall_app in F as [F1 F2]. inversion F2 as [|? ? F3 F4]; subst.
  destruct (answer_step pre c1) as (s' & B & R). rewrite E in B.
  destruct (request_first (fst (brun b_empty pre)) c1 a pr s' p (reach_inv _ F1)) as [G V].
  { destruct Q as [(?&?&?&?)|(?&?&?)]; auto. }
  { exact B. }
  unfold answer. change (pre ++ c1 :: mid) with (pre ++ [c1] ++ mid).
  rewrite app_assoc, brun_app, R.
  apply request_again with (a := a) (pr := pr).
  - apply brun_inv; auto.
  - destruct Q as [(?&?&?&?)|(?&?&?)]; auto.
  - apply first_fit_run; auto.
    + destruct Q as [(Q&_)|(Q&_)]; destruct c1 as [a0 ok|[a0|] [[lb|]|] ok|lb|af]; cbn in Q; try tauto;
        eauto using same_host_inet_l.
    + intros P. destruct Q as [(?&?&?&?)|(?&?&?)]; auto. congruence.
Qed.

(** *** Different addresses, different objects *)

Lemma obj_addr_lemma pre c mid a p :
  Forall inet_call (pre ++ c :: mid) -> asks c a -> answer pre c = BObj p ->
  exists x, addr_of (pre ++ c :: mid) p = Some x /\ same_host x a.
Proof.
  intros F Q E. apply Forall_app in F as [F1 F2]. inversion F2 as [|? ? F3 F4]; subst.
  destruct (answer_step pre c) as (s' & B & R). rewrite E in B.
  pose proof (reach_inv _ F1) as V.
  destruct (asks_obj _ _ _ _ _ V F3 Q B) as (b & I & Eb & (S & _)).
  assert (V' : inv s') by (eapply bstep_inv; eauto).
  unfold addr_of. change (pre ++ c :: mid) with (pre ++ [c] ++ mid).
  rewrite app_assoc, brun_app, R.
  pose proof (brun_keeps s' mid V' F4 _ I) as I'.
  pose proof (brun_inv s' mid V' F4) as V2.
  destruct (find (fun b => (b_id b =? p)%nat) (b_list (fst (brun s' mid)))) as [b'|] eqn:D.
  - apply find_some in D as [D1 D2]. apply Nat.eqb_eq in D2.
    assert (b' = b) as ->.
    { eapply nodup_id_eq; [apply (iv_nodup _ V2)| | |]; auto. congruence. }
    exists (b_addr b). auto.
  - exfalso. eapply find_none in D; [|exact I']. cbn in D. rewrite Eb, Nat.eqb_refl in D. discriminate.
Qed.

Lemma different_lemma pre c1 mid c2 a1 a2 p :
  Forall inet_call (pre ++ c1 :: mid ++ [c2]) -> asks c1 a1 -> asks c2 a2 ->
  answer pre c1 = BObj p -> answer (pre ++ c1 :: mid) c2 = BObj p -> same_host a1 a2.
Proof.
  intros F Q1 Q2 E1 E2.
  destruct (obj_addr_lemma pre c1 (mid ++ [c2]) a1 p F Q1 E1) as (x & X & S).
  assert (F' : Forall inet_call ((pre ++ c1 :: mid) ++ [c2])) by (rewrite <- app_assoc; exact F).
  destruct (obj_addr_lemma (pre ++ c1 :: mid) c2 [] a2 p F' Q2 E2) as (y & Y & S').
  rewrite <- app_assoc in Y. cbn [app] in Y. rewrite X in Y. injection Y as <-.
  eapply same_host_trans; [apply same_host_sym; exact S|exact S'].
Qed.

(** *** Labels *)

Lemma labels_asks c a l : labels c a l -> asks c a /\ params_of c = Some (Some l).
Proof. destruct c as [|[b|] [[l'|]|] ok| |]; cbn; try tauto. intros [-> ->]; auto. Qed.

(** A label set on an object is the label of the object. *)
Lemma labelled_obj s c a l s' p : inv s -> inet_call c -> labels c a l -> l <> [] ->
  bstep s c = (s', BObj p) ->
  exists b, In b (b_list s') /\ b_id b = p /\ b_label b = Some l.
Proof.
  intros V A Q N E. destruct (labels_asks _ _ _ Q) as [Q1 Q2].
  destruct (asks_obj _ _ _ _ _ V A Q1 E) as (b & I & Eb & _ & M).
  rewrite Q2 in M. cbn in M.
  exists b; repeat split; auto. destruct (b_label b); cbn in M; congruence.
Qed.

Lemma label_unique s b l : inv s -> In b (b_list s) -> b_label b = Some l ->
  label2bindaddr (b_list s) l = BObj (b_id b).
Proof.
  intros V I E. destruct (label2_cases (b_list s) l) as [(c & Ic & L & M)|[_ N]].
  - rewrite L. f_equal. f_equal. eapply (iv_label _ V); eauto.
  - rewrite Forall_forall in N. exfalso; eapply N; eauto.
Qed.

Lemma label_stable_lemma pre c mid a l p :
  Forall inet_call (pre ++ c :: mid) -> labels c a l -> l <> [] ->
  answer pre c = BObj p -> answer (pre ++ c :: mid) (CLabel l) = BObj p.
Proof.
  intros F Q N E. apply Forall_app in F as [F1 F2]. inversion F2 as [|? ? F3 F4]; subst.
  destruct (answer_step pre c) as (s' & B & R). rewrite E in B.
  pose proof (reach_inv _ F1) as V.
  destruct (labelled_obj _ _ _ _ _ _ V F3 Q N B) as (b & I & Eb & L).
  assert (V' : inv s') by (eapply bstep_inv; eauto).
  unfold answer. change (pre ++ c :: mid) with (pre ++ [c] ++ mid).
  rewrite app_assoc, brun_app, R. cbn [bstep snd].
  rewrite <- Eb. apply label_unique; auto.
  - apply brun_inv; auto.
  - apply brun_keeps; auto.
Qed.

(** Every labelled object was labelled by some call. *)
Lemma label_origin cs b l : Forall inet_call cs ->
  In b (b_list (fst (brun b_empty cs))) -> b_label b = Some l ->
  exists pre c mid a, cs = pre ++ c :: mid /\ labels c a l /\ answer pre c = BObj (b_id b).
Proof.
  intros F. induction cs as [|c t IH] using rev_ind; [cbn; tauto|].
  apply Forall_app in F as [F1 F2]. inversion F2 as [|? ? F3 _]; subst.
  destruct (answer_step t c) as (s' & B & R). rewrite R. intros I L.
  remember (answer t c) as rr eqn:RR. destruct (bstep_grows _ _ _ _ (reach_inv _ F1) F3 B) as [r|a pr ok C N M].
  - destruct (IH F1 I L) as (pre & c' & mid & a & -> & X & Y).
    exists pre, c', (mid ++ [c]), a. rewrite <- app_assoc. auto.
  - destruct I as [<-|I].
    + cbn in L. destruct pr as [[lb|]|]; try discriminate. injection L as ->.
      exists t, c, [], a. split; auto. split.
      * destruct C as [[_ C]| ->]; [discriminate|]. cbn; auto.
      * rewrite <- RR. auto.
    + destruct (IH F1 I L) as (pre & c' & mid & a' & -> & X & Y).
      exists pre, c', (mid ++ [c]), a'. rewrite <- app_assoc. auto.
Qed.

Lemma label_exact_lemma cs l p : Forall inet_call cs -> l <> [] ->
  answer cs (CLabel l) = BObj p <->
  exists pre c mid a, cs = pre ++ c :: mid /\ labels c a l /\ answer pre c = BObj p.
Proof.
  intros F N. split.
  - unfold answer at 1. cbn [bstep snd]. intros E.
    destruct (label2_cases (b_list (fst (brun b_empty cs))) l) as [(b & I & L & M)|[L _]];
      rewrite L in E; [|discriminate]. injection E as <-.
    apply label_origin; auto.
  - intros (pre & c & mid & a & -> & Q & E). eapply label_stable_lemma; eauto.
Qed.

Lemma duplicate_lemma pre c mid c2 a a2 l p :
  Forall inet_call (pre ++ c :: mid) -> labels c a l -> l <> [] -> answer pre c = BObj p ->
  labels c2 a2 l -> answer (pre ++ c :: mid) c2 = BNull /\
  fst (brun b_empty (pre ++ c :: mid ++ [c2])) = fst (brun b_empty (pre ++ c :: mid)).
Proof.
  intros F Q N E Q2. pose proof (label_stable_lemma _ _ _ _ _ _ F Q N E) as S.
  change (pre ++ c :: mid ++ [c2]) with (pre ++ (c :: mid) ++ [c2]). rewrite app_assoc, brun_app, brun_cons.
  cbn [brun fst].
  unfold answer in *. cbn [bstep snd] in S.
  destruct c2 as [|[b|] [[l'|]|] ok| |]; cbn in Q2; try tauto. destruct Q2 as [-> ->].
  cbn [bstep]. unfold host2bindaddr. rewrite S. auto.
Qed.

(** *** No abort *)
Lemma no_abort_lemma cs c : Forall inet_call cs -> inet_call c -> answer cs c <> BAbort.
Proof.
  intros F A. unfold answer. pose proof (reach_inv _ F) as V. set (s := fst (brun b_empty cs)) in *.
  assert (K : forall a pr ok, inet a = true -> snd (addr2bindaddr_i s a pr ok) <> BAbort).
  { intros a pr ok IA. unfold addr2bindaddr_i.
    destruct (find_addr_cases (b_list s) a pr (iv_inet _ V) IA) as [(?&?&?&?&->&_)|[-> _]]; cbn; [discriminate|].
    destruct ok; cbn; discriminate. }
  destruct c as [a ok|[a|] pr ok|lb|af]; cbn [bstep snd inet_call] in *.
  - auto.
  - unfold host2bindaddr. destruct (match pr with Some _ => _ | None => _ end); auto. cbn; discriminate.
  - unfold host2bindaddr. destruct (match pr with Some _ => _ | None => _ end); cbn; discriminate.
  - destruct (label2_cases (b_list s) lb) as [(?&?&->&_)|[-> _]]; discriminate.
  - generalize (b_list s); induction l as [|b t IH]; cbn; [discriminate|].
    destruct (family (b_addr b) =? af); auto. discriminate.
Qed.

(** *** By family *)
Lemma foraf_lemma cs af : Forall inet_call cs ->
  (exists p x, answer cs (CFor af) = BObj p /\ addr_of cs p = Some x /\ family x = af) \/
  (answer cs (CFor af) = BNull /\ forall p x, addr_of cs p = Some x -> family x <> af).
Proof.
  intros F. pose proof (reach_inv _ F) as V. unfold answer, addr_of. cbn [bstep snd].
  pose proof (iv_nodup _ V) as ND. revert ND. generalize (b_list (fst (brun b_empty cs))).
  clear. induction l as [|b t IH]; intros ND.
  - right; cbn; split; auto. discriminate.
  - cbn [bindaddr4af map] in *. inversion ND as [|? ? N1 N2]; subst.
    destruct (family (b_addr b) =? af) eqn:E.
    + left. exists (b_id b), (b_addr b). cbn. rewrite Nat.eqb_refl. repeat split; auto. lia.
    + destruct (IH N2) as [(p & x & A & B & C)|[A B]].
      * left. exists p, x. repeat split; auto. cbn.
        destruct (b_id b =? p)%nat eqn:D; auto.
        apply Nat.eqb_eq in D. subst p. exfalso. apply N1.
        destruct (find (fun b0 => (b_id b0 =? b_id b)%nat) t) as [y|] eqn:G; [|discriminate].
        apply find_some in G as [G1 G2]. apply Nat.eqb_eq in G2. rewrite <- G2. apply in_map; auto.
      * right; split; auto. intros p x. cbn. destruct (b_id b =? p)%nat; [|apply B].
        intros X; injection X as <-. lia.
Qed.
