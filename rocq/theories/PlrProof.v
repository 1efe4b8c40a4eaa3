(** Proofs about announcements. *)
From Verif Require Import Base PlrModel PlrSpec.

Lemma mem_in u l : mem u l = true <-> In u l.
Proof.
  unfold mem. rewrite existsb_exists. split.
  - intros (x & H & E). apply Nat.eqb_eq in E. subst. exact H.
  - intros H. exists u. split; [exact H|apply Nat.eqb_refl].
Qed.
Lemma mem_not u l : mem u l = false <-> ~ In u l.
Proof. rewrite <- mem_in. destruct (mem u l); split; congruence. Qed.
Lemma in_del u v l : In v (del u l) <-> In v l /\ v <> u.
Proof.
  unfold del. rewrite filter_In. split; intros (A & B); split; auto.
  - intros ->. rewrite Nat.eqb_refl in B. discriminate.
  - destruct (Nat.eqb_spec u v); [congruence|reflexivity].
Qed.
Lemma uid_is_true s u : uid_is s u = true <-> uid s = Some u.
Proof.
  unfold uid_is. destruct (uid s) as [v|]; [|split; congruence].
  rewrite Nat.eqb_eq. split; congruence.
Qed.
Lemma uid_is_false s u : uid_is s u = false <-> uid s <> Some u.
Proof. rewrite <- uid_is_true. destruct (uid_is s u); split; congruence. Qed.

Local Arguments del : simpl never.
Local Arguments mem : simpl never.

(** * All schedules *)

Definition cmd_ok (s : st) : Prop :=
  match cmd s with
  | CIdle | CRead _ => True
  | CUnregIn u _ =>
      uid s = Some u \/ (uid s = None /\ (In u (tact s) -> srv s = VDel u))
  | CUnregAct u _ =>
      tin s = [] /\ (uid s = Some u \/ (uid s = None /\ (In u (tact s) -> srv s = VDel u)))
  | CClear u _ => tin s = [] /\ uid s = Some u /\ (drops s >= 1)%nat /\ ~ In u (tact s) /\
                  (slock s = LFree \/ slock s = LMove)
  | CCreate => tin s = []
  | CReg => tin s = [] /\ slock s = LPlay /\ (drops s >= 1)%nat /\
            exists u, uid s = Some u /\ ~ In u (tact s)
  end.

Definition srv_ok (s : st) : Prop :=
  match srv s with
  | VIdle | VLoop | VSend None => True
  | VSend (Some u) | VEof u => In u (tact s)
  | VDel u => In u (tact s) /\ uid s <> Some u
  end.

Definition lock_ok (s : st) : Prop :=
  match slock s with
  | LFree => sendable s = true -> inact s = false
  | LPlay => cmd s = CReg /\ (sendable s = true -> inact s = false)
  | LMove => inact s = true /\ sendable s = true
  | LTransit u => inact s = true /\ sendable s = true /\ uid s = Some u /\ ~ In u (tact s) /\
                  tin s = [] /\ (drops s >= 1)%nat
  end.

Definition fresh_ok (s : st) : Prop :=
  (forall u, In u (tact s) -> (u < nextu s)%nat) /\ (forall u, uid s = Some u -> (u < nextu s)%nat).

Definition tab_ok (s : st) : Prop :=
  (tin s = [] \/ exists u, tin s = [u] /\ uid s = Some u /\ inact s = true /\ ~ In u (tact s) /\
                           (drops s >= 1)%nat) /\
  (forall u, uid s = Some u -> In u (tact s) -> (drops s >= 1)%nat).

Definition good (s : st) : Prop := cmd_ok s /\ srv_ok s /\ lock_ok s /\ fresh_ok s /\ tab_ok s.

Lemma good_init : good init.
Proof.
  unfold good, cmd_ok, srv_ok, lock_ok, fresh_ok, tab_ok, init. cbn.
  repeat split; try discriminate; try tauto.
Qed.

Ltac unf := unfold good, cmd_ok, srv_ok, lock_ok, fresh_ok, tab_ok in *.
Ltac bool_hyps :=
  repeat match goal with
  | H : mem _ _ = true |- _ => apply mem_in in H
  | H : mem _ _ = false |- _ => apply mem_not in H
  | H : uid_is _ _ = true |- _ => apply uid_is_true in H; cbn in H
  | H : uid_is _ _ = false |- _ => apply uid_is_false in H; cbn in H
  | H : negb ?b = true |- _ => apply Bool.negb_true_iff in H
  | H : negb ?b = false |- _ => apply Bool.negb_false_iff in H
  | H : ?a || ?b = true |- _ => apply Bool.orb_true_iff in H
  end.

Ltac fin1 :=
  repeat match goal with
  | H : exists _, _ |- _ => destruct H
  | H : _ /\ _ |- _ => destruct H
  | H : Some _ = Some _ |- _ => injection H as H; subst
  | H : _ \/ (exists _, _) |- _ => destruct H
  end; subst; cbn [In] in *; rewrite ?in_del in *.
Ltac fin :=
  try solve [
    fin1; try congruence; try tauto; repeat match goal with |- _ /\ _ => split end;
    first [ congruence | tauto | lia | assumption | intuition (subst; try congruence; try lia; eauto; fail) | eauto 8 ] ].

Lemma good_cmd s a b : good s ->
  match step_cmd s a b with Abort => False | Go s1 _ => good s1 end.
Proof.
  intros G. destruct s as [U I Sd D N Ti Ta C V L].
  unfold step_cmd, after_stop, slock_free, table_free, unreg_drop. cbn [cmd uid slock srv drops tin tact inact].
  destruct C as [|p|u p|u p|u p| |].
  - exact G.
  - destruct L; try exact G. destruct U as [u|]; [|destruct p]; unf; cbn in *; fin.
  - destruct (mem u Ti) eqn:E; bool_hyps.
    + unf; cbn in *. destruct G as (G1 & G2 & G3 & G4 & G5 & G6).
      destruct G5 as [->|(w & -> & E2 & E3 & E4 & E5)]; [contradiction|].
      destruct E as [->|[]]. subst U.
      assert (T : del u [u] = []) by (unfold del; cbn; rewrite Nat.eqb_refl; reflexivity).
      rewrite T. destruct L; fin.
    + unf; cbn in *. destruct G as (G1 & G2 & G3 & G4 & G5 & G6).
      assert (Ti = []) as ->.
      { destruct G5 as [->|(w & -> & E2 & E3 & E4 & E5)]; [reflexivity|]. exfalso. apply E.
        destruct G1 as [G1|(G1 & _)]; [left; congruence|congruence]. }
      destruct L; fin.
  - destruct V; try exact G. destruct (mem u Ta) eqn:E; bool_hyps.
    + unf; cbn in *. destruct G as ((-> & G1) & G2 & G3 & (G4 & G4') & G5 & G6).
      destruct G1 as [->|(_ & G1)]; [|specialize (G1 E); discriminate].
      destruct L.
      * repeat split; fin; try (intros; rewrite in_del in *; fin).
      * destruct G3. discriminate.
      * repeat split; fin; try (intros; rewrite in_del in *; fin).
      * fin.
    + destruct p; unf; cbn in *; destruct L; fin.
  - destruct L; try exact G. destruct D as [|D].
    { unf; cbn in *; fin. }
    destruct (uid_is (set_drops (mkSt U I Sd (S D) N Ti Ta (CClear u p) V LFree) D) u) eqn:E; bool_hyps;
      destruct p; unf; cbn in *; fin; destruct V; fin.
  - destruct L; try exact G. destruct a; cbn; [|unf; cbn in *; fin].
    destruct b; cbn; unf; cbn in *; destruct G as (-> & G2 & G3 & (G4 & G4') & G5 & G6).
    + repeat split; auto.
      * lia.
      * exists N. split; [reflexivity|]. intros H. apply G4 in H. lia.
      * destruct V as [| |[w|]|w|w]; auto. destruct G2 as (G2 & _). split; [exact G2|]. apply G4 in G2. intros [= ->]. lia.
      * destruct Sd; auto; discriminate.
      * intros u H. apply G4 in H. lia.
      * intros u [= <-]. lia.
      * intros; lia.
    + repeat split; auto.
      * destruct V as [| |[w|]|w|w]; auto. destruct G2 as (G2 & _). split; [exact G2|]. apply G4 in G2. intros [= ->]. lia.
      * destruct Sd; auto; discriminate.
      * intros u H. apply G4 in H. lia.
      * intros u [= <-]. lia.
      * intros u [= <-] H. apply G4 in H. lia.
  - unf; cbn in *. destruct G as ((-> & -> & D1 & w & -> & Nw) & G2 & (_ & G3) & (G4 & G4') & G5 & G6).
    destruct b.
    + destruct I.
      * cbn. repeat split; auto.
        right. exists w. auto.
      * destruct V; cbn; repeat split; auto; try (intros H0; discriminate); fin.
    + destruct D as [|D]; [lia|].
      destruct I; cbn [orb].
      * cbn. repeat split; auto. intros u [= <-] K. contradiction.
      * destruct V; cbn; repeat split; fin; try (intros u [= <-] K; contradiction).
Qed.

Lemma good_srv c s o : good s ->
  match step_srv c s o with Abort => False | Go s1 _ => good s1 end.
Proof.
  intros G. destruct s as [U I Sd D N Ti Ta C V L].
  destruct o; cbn [step_srv srv]; try exact G; destruct V as [| |[w|]|w|w]; try exact G.
  - unf; cbn in *; destruct C, L; fin.
  - cbn [tact]. destruct (mem u Ta) eqn:E; bool_hyps; [|exact G]. unf; cbn in *; destruct C, L; fin.
  - destruct c; [|exact G]. unf; cbn in *; destruct C, L; fin.
  - cbn [tact]. destruct (mem u Ta) eqn:E; bool_hyps; [|exact G]. unf; cbn in *; destruct C, L; fin.
  - cbn [slock_free slock]. destruct L; try exact G. unf; cbn in *; destruct C; fin.
  - cbn [slock_free slock]. destruct L; try exact G. unf; cbn in *; destruct C; fin.
  - cbn [slock_free slock]. destruct L; try exact G.
    destruct (uid_is (mkSt U I Sd D N Ti Ta C (VEof w) LFree) w) eqn:E; bool_hyps.
    + subst U. unfold unreg_drop. cbn [drops].
      unf; cbn in *. destruct G as (G1 & G2 & G3 & (G4 & G4') & G5 & G6).
      specialize (G6 w eq_refl G2). destruct D as [|D]; [lia|].
      assert (Ti = []) as ->.
      { destruct G5 as [->|(w2 & -> & E2 & E3 & E4 & E5)]; [reflexivity|]. congruence. }
      cbn. repeat split; auto; try congruence.
      * destruct C; fin.
      * destruct Sd; auto; discriminate.
    + unf; cbn in *. destruct G as (G1 & G2 & G3 & (G4 & G4') & G5 & G6).
      destruct C; fin.
  - unf; cbn in *. destruct G as (G1 & (G2 & G2') & G3 & (G4 & G4') & G5 & G6).
    repeat split; auto.
    + destruct C; auto.
      * destruct G1 as [G1|(G1 & G1')]; [left; exact G1|right]. split; [exact G1|].
        rewrite in_del. intros (K & K2). specialize (G1' K). congruence.
      * destruct G1 as (GT & [G1|(G1 & G1')]); (split; [exact GT|]); [left; exact G1|right]. split; [exact G1|].
        rewrite in_del. intros (K & K2). specialize (G1' K). congruence.
      * rewrite in_del. tauto.
      * destruct G1 as (A1 & A2 & A3 & x & A4 & A5). repeat split; auto. exists x. rewrite in_del. tauto.
    + destruct L; auto. rewrite in_del. tauto.
    + intros u. rewrite in_del. intros (K & _). auto.
    + destruct G5 as [G5|(x & A1 & A2 & A3 & A4 & A5)]; [left; exact G5|right]. exists x. rewrite in_del. tauto.
    + intros u E. rewrite in_del. intros (K & _). eauto.
  - unf; cbn in *; destruct C, L; fin.
Qed.

Lemma good_send s o : good s ->
  match step_send s o with Abort => False | Go s1 _ => good s1 end.
Proof.
  intros G. destruct s as [U I Sd D N Ti Ta C V L].
  destruct o; cbn [step_send slock]; try exact G; destruct L as [| | |w]; try exact G.
  - cbn. destruct b, I; cbn; unf; cbn in *; destruct C; fin.
  - cbn [uid]. destruct U as [u|].
    + cbn [tin]. destruct (mem u Ti) eqn:E; bool_hyps.
      * unf; cbn in *. destruct G as (G1 & G2 & G3 & (G4 & G4') & G5 & G6).
        destruct G5 as [->|(w2 & -> & E2 & E3 & E4 & E5)]; [contradiction|].
        destruct E as [->|[]].
        assert (T : del u [u] = []) by (unfold del; cbn; rewrite Nat.eqb_refl; reflexivity).
        rewrite T. destruct C; fin.
      * unf; cbn in *. destruct G as (G1 & G2 & G3 & (G4 & G4') & G5 & G6).
        assert (Ti = []) as ->.
        { destruct G5 as [->|(w2 & -> & E2 & E3 & E4 & E5)]; [reflexivity|].
          exfalso. apply E. left. congruence. }
        destruct C; fin.
    + unf; cbn in *. destruct G as (G1 & G2 & G3 & (G4 & G4') & G5 & G6).
      assert (Ti = []) as ->.
      { destruct G5 as [->|(w2 & -> & E2 & E3 & E4 & E5)]; [reflexivity|]. congruence. }
      destruct C; fin.
  - cbn [table_free srv]. destruct V; try exact G.
    unf; cbn in *. destruct G as (G1 & G2 & (G3 & G3s & -> & G3n & -> & G3d) & (G4 & G4') & G5 & G6).
    repeat split; auto.
    + destruct C; fin.
    + intros u [<-|H]; auto.
Qed.

Lemma good_step c s o : good s ->
  match step c s o with Abort => False | Go s1 _ => good s1 end.
Proof.
  intros G. destruct o; cbn [step]; try (apply good_srv; exact G); try (apply good_send; exact G).
  - destruct s as [U I Sd D N Ti Ta C V L]. destruct C; try exact G.
    unf; cbn in *; destruct L; fin.
  - destruct s as [U I Sd D N Ti Ta C V L]. destruct C; try exact G.
    unf; cbn in *; destruct L; fin.
  - apply good_cmd. exact G.
Qed.

Lemma good_run c os : forall s, good s ->
  match run c s os with Abort => False | Go s1 _ => good s1 end.
Proof.
  induction os as [|o os IH]; intros s G; cbn [run]; [exact G|].
  pose proof (good_step c s o G) as K. destruct (step c s o) as [s1 e1|]; [|contradiction].
  specialize (IH s1 K). destruct (run c s1 os); exact IH.
Qed.

(** * Undisturbed schedules *)

(** No running player, but for one that is just being deleted. *)
Definition none_runs (Ta : list nat) (V : vpc) : Prop := Ta = [] \/ exists v, Ta = [v] /\ V = VDel v.

(** The situations of the stream. [acc]: the player the last answered command has started; [fl]:
    whether things could not be registered at some time. *)
Inductive phase (acc : option nat) (fl : bool) : st -> Prop :=
| ph_none U I Sd N Ta C V L :
    none_runs Ta V -> (L = LFree \/ L = LMove) ->
    match C with CClear _ _ | CReg => False | _ => True end ->
    (fl = false -> U = None) ->
    phase acc fl (mkSt U I Sd 0 N [] Ta C V L)
| ph_wait u I Sd N Ta C V L :
    none_runs Ta V -> (L = LFree \/ L = LMove) ->
    match C with CIdle | CRead _ => True | CUnregIn v _ => v = u | _ => False end ->
    acc = Some u ->
    phase acc fl (mkSt (Some u) I Sd 1 N [u] Ta C V L)
| ph_carry u I Sd N Ta C V :
    none_runs Ta V ->
    match C with CIdle | CRead _ => True | _ => False end ->
    acc = Some u ->
    phase acc fl (mkSt (Some u) I Sd 1 N [] Ta C V (LTransit u))
| ph_run u Sd N C V :
    V <> VDel u ->
    match C with CIdle | CRead _ => True | CUnregIn v _ | CUnregAct v _ => v = u | _ => False end ->
    acc = Some u ->
    phase acc fl (mkSt (Some u) false Sd 1 N [] [u] C V LFree)
| ph_clear u p I Sd N Ta V L :
    none_runs Ta V -> (L = LFree \/ L = LMove) ->
    phase acc fl (mkSt (Some u) I Sd 1 N [] Ta (CClear u p) V L)
| ph_reg u I Sd N Ta V :
    none_runs Ta V ->
    phase acc fl (mkSt (Some u) I Sd 1 N [] Ta CReg V LPlay).

Definition answers (acc : option nat) (es : list event) : option nat := last_answer acc es.

Lemma none_runs_idle Ta : none_runs Ta VIdle -> Ta = [].
Proof. intros [H|(v & _ & H)]; [exact H|discriminate]. Qed.
Lemma none_runs_loop Ta V : none_runs Ta V -> Ta = [] -> forall V', none_runs Ta V'.
Proof. intros _ -> V'. left. reflexivity. Qed.
Lemma none_runs_nil V : none_runs [] V.
Proof. left. reflexivity. Qed.
#[local] Hint Resolve none_runs_nil : core.

Lemma del_self u : del u [u] = [].
Proof. unfold del. cbn. rewrite Nat.eqb_refl. reflexivity. Qed.
Lemma mem_self u : mem u [u] = true.
Proof. unfold mem. cbn. rewrite Nat.eqb_refl. reflexivity. Qed.
Lemma mem_nil u : mem u [] = false.
Proof. reflexivity. Qed.
Lemma uid_is_self u I Sd D N Ti Ta C V L : uid_is (mkSt (Some u) I Sd D N Ti Ta C V L) u = true.
Proof. unfold uid_is. cbn. apply Nat.eqb_refl. Qed.

Definition ok_step (acc : option nat) (fl : bool) (r : res) : Prop :=
  match r with
  | Abort => False
  | Go s1 es => ~ (stopping s1 /\ carrying s1) ->
                phase (last_answer acc es) fl s1 /\ from_latest acc es
  end.

Ltac stay H := cbn; intros _; split; [exact H|exact Logic.I].

Lemma phase_cmd acc fl s a b : good s -> phase acc fl s -> ok_step acc (fl || negb b) (step_cmd s a b).
Proof.
  intros G P. 
  assert (P' : phase acc (fl || negb b) s).
  { destruct P; constructor; cbn; auto. intros E. apply H2. destruct fl; [discriminate|reflexivity]. }
  destruct P as [U In Sd N Ta C V L T HL HC HU | u In Sd N Ta C V L T HL HC HA
                | u In Sd N Ta C V T HC HA | u Sd N C V HV HC HA | u p In Sd N Ta V L T HL | u In Sd N Ta V T];
  unfold step_cmd, after_stop, slock_free, table_free, unreg_drop;
  cbn [cmd uid slock srv drops tin tact inact].
  - destruct C as [|p|u p|u p|u p| |]; try contradiction; cbn [cmd].
    + stay P'.
    + destruct HL as [-> | ->]; [|stay P']. destruct U as [u|]; [|destruct p]; cbn; (intros _; split; [|exact Logic.I]);
        constructor; cbn; auto; intros E; apply HU; destruct fl; auto; discriminate.
    + rewrite mem_nil. cbn. intros _; split; [|exact Logic.I]. constructor; cbn; auto.
      intros E; apply HU; destruct fl; auto; discriminate.
    + destruct V; try (stay P'). apply none_runs_idle in T. subst Ta. rewrite mem_nil.
      destruct p; cbn; (intros _; split; [|exact Logic.I]); constructor; cbn; auto; intros E; apply HU; destruct fl; auto; discriminate.
    + destruct HL as [-> | ->]; [|stay P'].
      destruct a; cbn; [|intros _; split; [|exact Logic.I]; constructor; cbn; auto; intros E; apply HU; destruct fl; auto; discriminate].
      destruct b; cbn.
      * intros _; split; [|exact Logic.I]. apply ph_reg; cbn; auto.
      * intros _; split; [|exact Logic.I]. constructor; cbn; auto. destruct fl; discriminate.
  - destruct C as [|p|v p|v p|v p| |]; try contradiction; cbn [cmd].
    + stay P'.
    + destruct HL as [-> | ->]; [|stay P']. cbn. intros _; split; [|exact Logic.I]. constructor; cbn; auto.
    + subst v. rewrite mem_self, del_self. cbn. intros _; split; [|exact Logic.I]. apply ph_clear; cbn; auto.
  - destruct C as [|p|v p|v p|v p| |]; try contradiction; cbn [cmd]; stay P'.
  - destruct C as [|p|v p|v p|v p| |]; try contradiction; cbn [cmd].
    + stay P'.
    + cbn. intros _; split; [|exact Logic.I]. constructor; cbn; auto.
    + subst v. rewrite mem_nil. cbn. intros _; split; [|exact Logic.I]. constructor; cbn; auto.
    + subst v. destruct V; try (stay P'). rewrite mem_self, del_self. cbn. intros _; split; [|exact Logic.I].
      apply ph_clear; cbn; auto.
  - destruct HL as [-> | ->]; [|stay P']. match goal with |- context [uid_is ?x u] => rewrite (proj2 (uid_is_true x u) eq_refl) end.
    destruct p; cbn; (intros _; split; [|exact Logic.I]); constructor; cbn; auto.
  - destruct b.
    + destruct In.
      * cbn. intros _; split; [|exact Logic.I]. constructor; cbn; auto.
      * destruct V; try (stay P'). apply none_runs_idle in T. subst Ta. cbn. intros _; split; [|exact Logic.I].
        constructor; cbn; auto; discriminate.
    + destruct In; cbn [orb].
      * cbn. intros _; split; [|exact Logic.I]. constructor; cbn; auto. destruct fl; discriminate.
      * destruct V; try (stay P'). cbn. intros _; split; [|exact Logic.I]. constructor; cbn; auto. destruct fl; discriminate.
Qed.

Lemma none_runs_srv u Ta V : none_runs Ta V -> In u Ta -> V = VDel u.
Proof. intros [->|(v & -> & ->)]; [contradiction|]. intros [->|[]]. reflexivity. Qed.

(** A turn of the player thread in a situation where no player runs. *)
Lemma phase_srv c acc fl s o : good s -> phase acc fl s -> ok_step acc fl (step_srv c s o).
Proof.
  intros G P. pose proof P as P'.
  destruct P as [U In Sd N Ta C V L T HL HC HU | u In Sd N Ta C V L T HL HC HA
                | u In Sd N Ta C V T HC HA | u Sd N C V HV HC HA | u p In Sd N Ta V L T HL | u In Sd N Ta V T].
  4: {
    destruct o; cbn [step_srv srv]; try (stay P'); destruct V as [| |[w|]|w|w]; try (stay P').
    - cbn. intros _; split; [|exact Logic.I]. constructor; cbn; auto; discriminate.
    - cbn [tact]. destruct (mem u0 [u]) eqn:E; [|stay P']. cbn. intros _; split; [|exact Logic.I]. constructor; cbn; auto; discriminate.
    - destruct c; [|stay P']. cbn. intros _; split; [|exact Logic.I]. constructor; cbn; auto; discriminate.
    - cbn [tact]. destruct (mem u0 [u]) eqn:E; [|stay P']. cbn. intros _; split; [|exact Logic.I]. constructor; cbn; auto; discriminate.
    - destruct G as (_ & G & _). cbn in G. destruct G as [<-|[]].
      cbn. destruct Sd; cbn; intros _; (split; [|auto]); constructor; cbn; auto; discriminate.
    - cbn. intros _; split; [|exact Logic.I]. constructor; cbn; auto; discriminate.
    - destruct G as (_ & G & _). cbn in G. destruct G as [<-|[]].
      cbn [slock_free slock]. rewrite uid_is_self. cbn. intros _; split; [|exact Logic.I].
      destruct C; try contradiction; (constructor; cbn; [right; exists u; auto|auto|auto|auto]).
    - destruct G as (_ & G & _). cbn in G. destruct G as (G & K). destruct G as [<-|[]]. congruence.
    - cbn. intros _; split; [|exact Logic.I]. constructor; cbn; auto; discriminate.
  }
  all: assert (HT : Ta = [] \/ exists v, Ta = [v] /\ V = VDel v) by exact T;
       destruct HT as [-> | (v & -> & ->)];
       [ destruct G as (_ & G & _); cbn in G;
         destruct o; cbn [step_srv srv]; try (stay P'); destruct V as [| |[w|]|w|w]; try (stay P');
         try contradiction; try (destruct G as (G & _); contradiction)
       | destruct o; cbn [step_srv srv]; try (stay P') ].
  all: try (cbn; rewrite ?del_self; intros _; split; [constructor; cbn; auto|exact Logic.I]; fail).
  all: try (cbn [tact]; rewrite mem_nil; stay P').
  all: try (destruct c; [|stay P']; cbn; intros _; split; [constructor; cbn; auto|exact Logic.I]; fail).
  all: cbn; try (destruct HL as [-> | ->]); cbn; intros _; split; auto; constructor; cbn; auto.
Qed.

Lemma phase_send acc fl s o : good s -> phase acc fl s -> ok_step acc fl (step_send s o).
Proof.
  intros G P. pose proof P as P'.
  destruct P as [U In Sd N Ta C V L T HL HC HU | u In Sd N Ta C V L T HL HC HA
                | u In Sd N Ta C V T HC HA | u Sd N C V HV HC HA | u p In Sd N Ta V L T HL | u In Sd N Ta V T];
  destruct o; cbn [step_send slock]; try (stay P').
  - destruct HL as [-> | ->]; [|stay P']. cbn. destruct (b && In); cbn; (intros _; split; [constructor; cbn; auto|exact Logic.I]).
  - destruct HL as [-> | ->]; [stay P'|]. cbn. destruct U; cbn; rewrite ?mem_nil; cbn; (intros _; split; [constructor; cbn; auto|exact Logic.I]).
  - destruct HL as [-> | ->]; [|stay P']. cbn. destruct (b && In); cbn; (intros _; split; [constructor; cbn; auto|exact Logic.I]).
  - destruct HL as [-> | ->]; [stay P'|]. cbn [uid tin]. rewrite mem_self, del_self. cbn.
    intros K. split; [|exact Logic.I]. constructor; cbn; auto.
    destruct C; try contradiction; auto. cbn in K. tauto.
  - cbn [table_free srv]. destruct V; try (stay P'). apply none_runs_idle in T. subst Ta.
    cbn. intros _; split; [|exact Logic.I]. constructor; [discriminate| |auto]. destruct C; try contradiction; auto.
  - cbn. rewrite Bool.andb_false_r. cbn. intros _; split; [|exact Logic.I]. constructor; cbn; auto.
  - destruct HL as [-> | ->]; [|stay P']. cbn. destruct (b && In); cbn; (intros _; split; [constructor; cbn; auto|exact Logic.I]).
  - destruct HL as [-> | ->]; [stay P'|]. cbn. rewrite ?mem_nil; cbn; (intros _; split; [constructor; cbn; auto|exact Logic.I]).
Qed.

Definition lucky (o : op) : bool := match o with OCmd _ b => b | _ => true end.

Lemma phase_step c acc fl s o : good s -> phase acc fl s -> ok_step acc (fl || negb (lucky o)) (step c s o).
Proof.
  intros G P. destruct o; cbn [step lucky negb]; rewrite ?Bool.orb_false_r;
    try (apply phase_srv; assumption); try (apply phase_send; assumption).
  - pose proof P as P'. destruct P; cbn; try (stay P'); destruct C; try contradiction; try (stay P'); cbn; intros _; (split; [constructor; cbn; auto|exact Logic.I]).
  - pose proof P as P'. destruct P; cbn; try (stay P'); destruct C; try contradiction; try (stay P'); cbn; intros _; (split; [constructor; cbn; auto|exact Logic.I]).
  - apply phase_cmd; assumption.
Qed.

Lemma last_answer_app es1 : forall acc es2, last_answer acc (es1 ++ es2) = last_answer (last_answer acc es1) es2.
Proof. induction es1 as [|e es1 IH]; intros acc es2; cbn; [reflexivity|]. destruct e; apply IH. Qed.
Lemma from_latest_app es1 : forall acc es2,
  from_latest acc es1 -> from_latest (last_answer acc es1) es2 -> from_latest acc (es1 ++ es2).
Proof.
  induction es1 as [|e es1 IH]; intros acc es2 A B; cbn in *; [exact B|].
  destruct e; try (apply IH; assumption). destruct A as (A & A'). split; [exact A|]. apply IH; assumption.
Qed.

Lemma phase_run c os : forall acc fl s, good s -> phase acc fl s -> undisturbed c s os ->
  match run c s os with
  | Abort => False
  | Go s1 es => good s1 /\ phase (last_answer acc es) (fl || negb (forallb lucky os)) s1 /\ from_latest acc es
  end.
Proof.
  induction os as [|o os IH]; intros acc fl s G P D; cbn [run].
  { cbn. rewrite Bool.orb_false_r. auto. }
  cbn [undisturbed] in D. destruct D as (_ & D).
  pose proof (good_step c s o G) as K. pose proof (phase_step c acc fl s o G P) as Q.
  destruct (step c s o) as [s1 e1|]; [|contradiction]. cbn [ok_step] in Q.
  assert (D1 : ~ (stopping s1 /\ carrying s1)) by (destruct os; cbn in D; tauto).
  destruct (Q D1) as (Q1 & Q2).
  specialize (IH (last_answer acc e1) _ s1 K Q1 D).
  destruct (run c s1 os) as [s2 e2|]; [|contradiction].
  destruct IH as (I1 & I2 & I3). rewrite last_answer_app. split; [exact I1|]. split.
  - cbn [forallb]. replace (fl || negb (lucky o && forallb lucky os)) with ((fl || negb (lucky o)) || negb (forallb lucky os)).
    + exact I2.
    + destruct fl, (lucky o), (forallb lucky os); reflexivity.
  - apply from_latest_app; assumption.
Qed.

Lemma phase_init : phase None false init.
Proof. unfold init. constructor; cbn; auto. Qed.

(** Without copying, the player thread waits for the stream only on behalf of its own players. *)
Ltac crack E :=
  repeat (match type of E with
          | context [if ?b then _ else _] => destruct b
          | context [match ?b with _ => _ end] => destruct b
          end; cbn in E);
  try discriminate; injection E as <- <-; cbn.

Lemma cmd_keeps_srv s a b s1 es : step_cmd s a b = Go s1 es -> srv s1 = srv s.
Proof.
  intros E. destruct s as [U I Sd D N Ti Ta C V L].
  destruct D as [|D]; unfold step_cmd, after_stop, unreg_drop, slock_free, table_free in E; cbn in E;
  crack E; reflexivity.
Qed.
Lemma send_keeps_srv s o s1 es : step_send s o = Go s1 es -> srv s1 = srv s.
Proof.
  intros E. destruct s as [U I Sd D N Ti Ta C V L].
  unfold step_send, table_free in E. cbn in E. crack E; reflexivity.
Qed.
Lemma no_other_step s o s1 es :
  match srv s with VSend None => False | _ => True end ->
  step false s o = Go s1 es -> match srv s1 with VSend None => False | _ => True end.
Proof.
  intros H E. destruct o; cbn [step] in E;
    try (destruct (cmd s); injection E as <- <-; exact H);
    try (rewrite (cmd_keeps_srv _ _ _ _ _ E); exact H);
    try (rewrite (send_keeps_srv _ _ _ _ E); exact H);
    destruct s as [U I Sd D N Ti Ta C V L]; cbn in H; destruct D as [|D]; unfold step_srv, slock_free, unreg_drop in E; cbn in E;
    destruct V as [| |[w|]|w|w]; try contradiction; crack E; exact Logic.I.
Qed.

Lemma deadlock_step c s o s1 e1 : good s -> deadlocked s -> step c s o = Go s1 e1 ->
  deadlocked s1 /\ srv s1 = srv s /\ slock s1 = slock s.
Proof.
  intros (GC & _ & GL & _) D E. unfold cmd_ok, lock_ok in *.
  destruct s as [U I Sd Dr N Ti Ta C V L]. unfold deadlocked, wants_stream, wants_table in *. cbn in *.
  destruct D as (D1 & D2).
  destruct L as [| | |x]; try contradiction; (destruct V as [| |w|w|w]; try contradiction);
    (destruct C as [|p|u p|u p|u p| |];
     try (exfalso; destruct GL; congruence);
     try (exfalso; destruct GC as (_ & _ & _ & _ & [K|K]); discriminate);
     try (exfalso; destruct GC as (_ & K & _); discriminate));
    destruct o; cbn in E; try subst I; try (destruct w as [w|]; cbn in E);
    try (destruct U as [U|]; cbn in E);
    try (match type of E with context [mem ?a ?b] => destruct (mem a b); cbn in E end);
    try (destruct registered; cbn in E);
    injection E as <- <-; cbn; auto.
Qed.

Lemma deadlock_run c os : forall s, good s -> deadlocked s -> forall s' es, run c s os = Go s' es ->
  deadlocked s' /\ srv s' = srv s /\ slock s' = slock s.
Proof.
  induction os as [|o os IH]; intros s G D s' es E; cbn [run] in E.
  - assert (s = s') as <- by congruence. auto.
  - pose proof (good_step c s o G) as K. destruct (step c s o) as [s1 e1|] eqn:E1; [|discriminate].
    destruct (run c s1 os) as [s2 e2|] eqn:E2; [|discriminate]. assert (s2 = s') as -> by congruence.
    destruct (deadlock_step c s o s1 e1 G D E1) as (D1 & A & B).
    destruct (IH s1 K D1 s' e2 E2) as (D2 & A2 & B2). rewrite A2, B2. auto.
Qed.

Lemma run_app c os1 : forall s os2 s1 e1, run c s os1 = Go s1 e1 ->
  run c s (os1 ++ os2) = match run c s1 os2 with Go s2 e2 => Go s2 (e1 ++ e2) | Abort => Abort end.
Proof.
  induction os1 as [|o os1 IH]; intros s os2 s1 e1 E; cbn [run app] in *.
  - injection E as <- <-. destruct (run c s os2); reflexivity.
  - destruct (step c s o) as [s0 e0|]; [|discriminate].
    destruct (run c s0 os1) as [s3 e3|] eqn:E3; [|discriminate]. injection E as <- <-.
    rewrite (IH s0 os2 s3 e3 E3). destruct (run c s3 os2); [|reflexivity]. rewrite app_assoc. reflexivity.
Qed.

(** First the player thread gives up the lock of the table. *)
Lemma settle1 acc fl s : good s -> phase acc fl s ->
  match srv s with VSend None => False | _ => True end ->
  exists s' es', run false s [OSrv; OSrv; OTurnEnd] = Go s' es' /\ srv s' = VIdle /\ phase acc fl s' /\
                 slock s' = slock s.
Proof.
  intros (_ & GS & _) P NV. unfold srv_ok in GS.
  destruct P as [U In' Sd N Ta C V L T HL HC HU | u In' Sd N Ta C V L T HL HC HA
                | u In' Sd N Ta C V T HC HA | u Sd N C V HV HC HA | u p In' Sd N Ta V L T HL | u In' Sd N Ta V T];
    cbn [srv tact] in *.
  4: {
    destruct V as [| |[w|]|w|w]; try contradiction; cbn in GS;
      try (destruct GS as [<-|[]]); try (destruct GS as ([<-|[]] & _); congruence); cbn.
    - eexists; eexists; split; [reflexivity|]. cbn. split; [reflexivity|]. split; [constructor; cbn; auto; discriminate|reflexivity].
    - eexists; eexists; split; [reflexivity|]. cbn. split; [reflexivity|]. split; [constructor; cbn; auto; discriminate|reflexivity].
    - eexists; eexists; split; [reflexivity|]. cbn. split; [reflexivity|]. split; [constructor; cbn; auto; discriminate|reflexivity].
    - rewrite Nat.eqb_refl. cbn. rewrite del_self.
      eexists; eexists; split; [reflexivity|]. cbn. split; [reflexivity|]. split; [|reflexivity].
      constructor; cbn; auto. destruct C; auto. }
  all: destruct T as [->|(v & -> & ->)];
    [ destruct V as [| |[w|]|w|w]; try contradiction; try (destruct GS; contradiction) | ];
    cbn; rewrite ?del_self;
    (eexists; eexists; split; [reflexivity|]; cbn; split; [reflexivity|]; split; [constructor; cbn; auto|reflexivity]).
Qed.

(** Then a thread that has to start a player does so. *)
Lemma settle2 acc fl s : phase acc fl s -> srv s = VIdle ->
  exists s' es', run false s [OMove; OMove] = Go s' es' /\ srv s' = VIdle /\ phase acc fl s' /\
                 (slock s' = LFree \/ cmd s' = CReg).
Proof.
  intros P V0.
  destruct P as [U In' Sd N Ta C V L T HL HC HU | u In' Sd N Ta C V L T HL HC HA
                | u In' Sd N Ta C V T HC HA | u Sd N C V HV HC HA | u p In' Sd N Ta V L T HL | u In' Sd N Ta V T];
    cbn [srv] in V0; subst V; try (apply none_runs_idle in T; subst Ta); try (destruct HL as [-> | ->]); try destruct U as [U|];
    cbn; rewrite ?mem_self, ?mem_nil, ?del_self; cbn;
    (eexists; eexists; split; [reflexivity|]; cbn; split; [reflexivity|]; split; [constructor; cbn; auto; try discriminate; try (destruct C; try contradiction; auto; fail)|auto]).
Qed.

Definition rank (C : cpc) : nat :=
  match C with CIdle => 0 | CReg => 1 | CCreate => 2 | CClear _ _ => 3 | CUnregAct _ _ => 4 | CUnregIn _ _ => 5 | CRead _ => 6 end.

(** Then the command thread goes on, with nobody in its way. *)
Lemma settle_cmd acc fl s : good s -> phase acc fl s -> srv s = VIdle -> (slock s = LFree \/ cmd s = CReg) ->
  exists s' es' acc', step_cmd s true true = Go s' es' /\ good s' /\ phase acc' fl s' /\ srv s' = VIdle /\
     (slock s' = LFree \/ cmd s' = CReg) /\ (rank (cmd s') <= pred (rank (cmd s)))%nat.
Proof.
  intros G P V0 HL. pose proof (good_cmd s true true G) as G'. pose proof (phase_cmd acc fl s true true G P) as P'.
  cbn [negb] in P'. rewrite Bool.orb_false_r in P'.
  destruct (step_cmd s true true) as [s' es'|] eqn:E; [|contradiction].
  exists s', es', (last_answer acc es'). split; [reflexivity|]. split; [exact G'|].
  assert (K : srv s' = srv s) by (eapply cmd_keeps_srv; exact E).
  assert (R : (slock s' = LFree \/ cmd s' = CReg) /\ (rank (cmd s') <= pred (rank (cmd s)))%nat).
  { clear - E V0 HL P. destruct s as [U I Sd D N Ti Ta C V L]. cbn in V0, HL. subst V.
    destruct C as [|p|u p|u p|u p| |]; cbn in E.
    - injection E as <- <-. cbn. auto.
    - destruct HL as [->|]; [|discriminate]. cbn in E. destruct U; [|destruct p]; cbn in E; injection E as <- <-; cbn; split; auto; lia.
    - destruct HL as [->|]; [|discriminate]. destruct (mem u Ti); injection E as <- <-; cbn; split; auto; lia.
    - destruct HL as [->|]; [|discriminate]. destruct (mem u Ta); [|destruct p]; cbn in E; injection E as <- <-; cbn; split; auto; lia.
    - destruct HL as [->|]; [|discriminate]. cbn in E. destruct D; cbn in E; [discriminate|].
      destruct (uid_is _ u); destruct p; cbn in E; injection E as <- <-; cbn; split; auto; lia.
    - destruct HL as [->|]; [|discriminate]. cbn in E. injection E as <- <-. cbn. auto.
    - inversion P; subst; try contradiction. cbn in E. destruct I; cbn in E; injection E as <- <-; cbn; split; auto; lia. }
  destruct R as (R1 & R2). split; [|split; [congruence|split; [exact R1|exact R2]]].
  apply P'. intros (_ & K2). unfold carrying in K2. destruct R1 as [R1|R1]; [rewrite R1 in K2; exact K2|].
  clear - G' K2 R1. destruct G' as (G & _). unfold cmd_ok in G. rewrite R1 in G. destruct G as (_ & G & _). rewrite G in K2. exact K2.
Qed.

Lemma settle_cmds n : forall acc fl s, good s -> phase acc fl s -> srv s = VIdle -> (slock s = LFree \/ cmd s = CReg) ->
  (rank (cmd s) <= n)%nat ->
  exists s' es', run false s (repeat (OCmd true true) n) = Go s' es' /\ quiet s'.
Proof.
  induction n as [|n IH]; intros acc fl s G P V0 HL R.
  - exists s, []. split; [reflexivity|]. unfold quiet. destruct HL as [HL|HL].
    + destruct (cmd s); cbn in R; try lia. auto.
    + rewrite HL in R. cbn in R. lia.
  - cbn [repeat run step].
    destruct (settle_cmd acc fl s G P V0 HL) as (s1 & e1 & a1 & E & G1 & P1 & V1 & L1 & R1).
    rewrite E. destruct (IH a1 fl s1 G1 P1 V1 L1 ltac:(lia)) as (s2 & e2 & E2 & Q).
    rewrite E2. eauto.
Qed.

Lemma settle_phase acc fl s : good s -> phase acc fl s ->
  match srv s with VSend None => False | _ => True end ->
  exists s' es', run false s settle = Go s' es' /\ quiet s'.
Proof.
  intros G P NV. unfold settle. change [OSrv; OSrv; OTurnEnd; OMove; OMove] with ([OSrv; OSrv; OTurnEnd] ++ [OMove; OMove]).
  destruct (settle1 acc fl s G P NV) as (s1 & e1 & E1 & V1 & P1 & _).
  pose proof (good_run false [OSrv; OSrv; OTurnEnd] s G) as G1. rewrite E1 in G1.
  destruct (settle2 acc fl s1 P1 V1) as (s2 & e2 & E2 & V2 & P2 & L2).
  pose proof (good_run false [OMove; OMove] s1 G1) as G2. rewrite E2 in G2.
  destruct (settle_cmds 7 acc fl s2 G2 P2 V2 L2) as (s3 & e3 & E3 & Q).
  { destruct (cmd s2); cbn; lia. }
  rewrite <- app_assoc, (run_app _ _ _ _ _ _ E1), (run_app _ _ _ _ _ _ E2), E3. eauto.
Qed.

Lemma no_other_run os : forall s s' es,
  match srv s with VSend None => False | _ => True end ->
  run false s os = Go s' es -> match srv s' with VSend None => False | _ => True end.
Proof.
  induction os as [|o os IH]; intros s s' es H E; cbn [run] in E.
  - assert (s = s') as <- by congruence. exact H.
  - destruct (step false s o) as [s1 e1|] eqn:E1; [|discriminate].
    destruct (run false s1 os) as [s2 e2|] eqn:E2; [|discriminate].
    assert (s2 = s') as -> by congruence.
    exact (IH s1 s' e2 (no_other_step s o s1 e1 H E1) E2).
Qed.
