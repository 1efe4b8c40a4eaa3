(** Proofs about the wake-up thread. *)
From Verif Require Import Base WakeModel WakeSpec.

Lemma run_app e a : forall s b, run e s (a ++ b) = match run e s a with Some (s1, t1) => match run e s1 b with Some (s2, t2) => Some (s2, t1 ++ t2) | None => None end | None => None end.
Proof.
  induction a as [|o a IH]; intros s b; cbn [run app]; [destruct (run e s b) as [[? ?]|]; reflexivity|].
  destruct (step e s o) as [[s1 ev]|]; [|reflexivity]. rewrite IH. destruct (run e s1 a) as [[s2 t1]|]; [|reflexivity]. destruct (run e s2 b) as [[s3 t2]|]; [|reflexivity]. rewrite app_assoc. reflexivity.
Qed.
Lemma nudges_app a b : nudges (a ++ b) = nudges a + nudges b.
Proof. induction a as [|[] a IH]; cbn [nudges app]; lia. Qed.
Lemma nudges_nonneg a : 0 <= nudges a.
Proof. induction a as [|[] a IH]; cbn [nudges]; lia. Qed.

Lemma snoc_split (tr : list event) ev a b : tr ++ [ev] = a ++ ENudge :: b -> (b = [] /\ ev = ENudge /\ a = tr) \/ (exists b', b = b' ++ [ev] /\ tr = a ++ ENudge :: b').
Proof.
  induction b as [|x b _] using rev_ind.
  - intros E. apply app_inj_tail in E. left. intuition congruence.
  - intros E. change (a ++ ENudge :: b ++ [x]) with (a ++ (ENudge :: b) ++ [x]) in E. rewrite app_assoc in E. apply app_inj_tail in E. destruct E as [E ->]. right. exists b. split; [reflexivity|exact E].
Qed.
(** All nudges up to number [v] are delivered *)
Definition doneR (v : Z) (tr : list event) : Prop := forall a b, tr = a ++ ENudge :: b -> nudges a < v -> exists t w, In (ERtp t w) b /\ nudges a < w.
Definition doneC (v : Z) (tr : list event) : Prop := forall a b, tr = a ++ ENudge :: b -> nudges a < v -> exists t w, In (ERtcp t w) b /\ nudges a < w.
Lemma doneR_snoc v tr ev : v <= nudges tr -> doneR v tr -> doneR v (tr ++ [ev]).
Proof. intros V D a b E L. destruct (snoc_split _ _ _ _ E) as [(-> & -> & ->)|(b' & -> & E')]; [lia|]. destruct (D a b' E' L) as (t & w & I0 & W). exists t, w. split; [apply in_or_app; left; exact I0|exact W]. Qed.
Lemma doneC_snoc v tr ev : v <= nudges tr -> doneC v tr -> doneC v (tr ++ [ev]).
Proof. intros V D a b E L. destruct (snoc_split _ _ _ _ E) as [(-> & -> & ->)|(b' & -> & E')]; [lia|]. destruct (D a b' E' L) as (t & w & I0 & W). exists t, w. split; [apply in_or_app; left; exact I0|exact W]. Qed.
Lemma doneR_write v tr t : doneR v (tr ++ [ERtp t v]).
Proof. intros a b E L. destruct (snoc_split _ _ _ _ E) as [(-> & X & ->)|(b' & -> & E')]; [discriminate|]. exists t, v. split; [apply in_or_app; right; left; reflexivity|exact L]. Qed.
Lemma doneC_write v tr t : doneC v (tr ++ [ERtcp t v]).
Proof. intros a b E L. destruct (snoc_split _ _ _ _ E) as [(-> & X & ->)|(b' & -> & E')]; [discriminate|]. exists t, v. split; [apply in_or_app; right; left; reflexivity|exact L]. Qed.

Definition idle (p : pc) : bool := match p with Top | Sleep | SleepT | Ended | Spin => true | _ => false end.
Definition inv (e : env) (s : st) (tr : list event) : Prop :=
  requested s = nudges tr /\ 0 <= delivered s <= l_req s /\ l_req s <= requested s /\
  match at_ s with
  | Write1 => delivered s = l_req s
  | Write2 => delivered s = l_req s /\ doneR (l_req s) tr
  | Stamp => delivered s = l_req s /\ doneR (l_req s) tr /\ doneC (l_req s) tr
  | _ => doneR (delivered s) tr /\ doneC (delivered s) tr /\ (wake_at s = 0 -> l_req s = delivered s) /\ (wake_at s <> 0 -> delivered s < l_req s /\ 0 < last s /\ wake_at s = last s + ival e)
  end /\
  (at_ s = Sleep -> wake_at s = 0 /\ (woken s = false -> l_req s = requested s)) /\ (at_ s = SleepT -> wake_at s <> 0) /\ (at_ s = Spin -> bad e (wake_at s) = true).

Lemma inv0 e : inv e start [].
Proof. unfold inv, start. cbn. split; [reflexivity|]. split; [lia|]. split; [lia|]. split; [split; [|split; [|split; [reflexivity|lia]]]; intros [|] b E; discriminate|]. repeat split; discriminate. Qed.

Lemma check_inv e s now s' ev tr : 0 <= ival e -> inv e s tr -> idle (at_ s) = true -> check e s now = (s', ev) -> inv e s' (tr ++ ev).
Proof.
  intros P (RQ & D & L & B & B1 & B2) ID E. assert (B0 : doneR (delivered s) tr /\ doneC (delivered s) tr /\ (wake_at s = 0 -> l_req s = delivered s) /\ (wake_at s <> 0 -> delivered s < l_req s /\ 0 < last s /\ wake_at s = last s + ival e)) by (destruct (at_ s); try discriminate ID; exact B).
  clear B. destruct B0 as (DR & DC & W0 & W1). unfold check in E.
  destruct (running s && (l_req s =? requested s)) eqn:G.
  - injection E as <- <-. rewrite app_nil_r. apply andb_true_iff in G. destruct G as [_ G]. apply Z.eqb_eq in G. unfold inv. cbn. split; [exact RQ|]. split; [lia|]. split; [lia|].
    destruct (Z.eqb_spec (wake_at s) 0) as [W|W].
    + split; [auto|]. repeat split; try discriminate; auto.
    + destruct (bad e (wake_at s)) eqn:BD; (split; [auto|]; repeat split; try discriminate; auto).
  - destruct (running s) eqn:RN; cbn [negb] in E.
    + cbn [andb] in G. apply Z.eqb_neq in G. destruct ((0 <? last s) && (now - last s <? ival e)) eqn:T; injection E as <- <-; rewrite app_nil_r; unfold inv, deliver; cbn.
      * split; [exact RQ|]. split; [lia|]. split; [lia|]. split; [|repeat split; discriminate]. split; [exact DR|]. split; [exact DC|]. split; lia.
      * split; [exact RQ|]. split; [lia|]. split; [lia|]. split; [reflexivity|]. repeat split; discriminate.
    + injection E as <- <-. unfold inv. cbn. rewrite nudges_app. cbn. split; [lia|]. split; [lia|]. split; [lia|]. split; [|repeat split; discriminate].
      split; [apply doneR_snoc; [lia|exact DR]|]. split; [apply doneC_snoc; [lia|exact DC]|]. auto.
Qed.
Lemma inv_step e s tr o s' ev : 0 <= ival e -> inv e s tr -> step e s o = Some (s', ev) -> inv e s' (tr ++ ev).
Proof.
  intros P I0 E. destruct o as [| |now mono sp]; cbn [step] in E.
  - unfold nudge in E.
    assert (X : at_ s <> Spin -> s' = mkSt (requested s + 1) (delivered s) true (running s) (at_ s) (l_req s) (last s) (wake_at s) -> ev = [ENudge] -> inv e s' (tr ++ ev)).
    { destruct I0 as (RQ & D & L & B & B1 & B2 & B3). intros NS -> ->. unfold inv. cbn. rewrite nudges_app. cbn. split; [lia|]. split; [lia|]. split; [lia|]. split; [|split; [|split]].
      - destruct (at_ s); try exact B; try (congruence); try (destruct B as (A & BB & C); split; [apply doneR_snoc; [lia|exact A]|split; [apply doneC_snoc; [lia|exact BB]|exact C]]).
        + destruct B as (A & BB). split; [exact A|apply doneR_snoc; [lia|exact BB]].
        + destruct B as (A & BB & C). split; [exact A|]. split; [apply doneR_snoc; [lia|exact BB]|apply doneC_snoc; [lia|exact C]].
      - intros AS. split; [apply B1; exact AS|discriminate].
      - exact B2.
      - exact B3. }
    destruct (at_ s) eqn:A; try (destruct (requested s =? 2147483647); [discriminate|]; injection E as <- <-; apply X; congruence).
    injection E as <- <-. rewrite app_nil_r. exact I0.
  - injection E as <- <-. destruct I0 as (RQ & D & L & B & B1 & B2). unfold inv. cbn. rewrite nudges_app. cbn. split; [lia|]. split; [lia|]. split; [lia|]. split; [|auto].
    destruct (at_ s); try exact B; try (destruct B as (A & BB & C); split; [apply doneR_snoc; [lia|exact A]|split; [apply doneC_snoc; [lia|exact BB]|exact C]]).
    + destruct B as (A & BB). split; [exact A|apply doneR_snoc; [lia|exact BB]].
    + destruct B as (A & BB & C). split; [exact A|]. split; [apply doneR_snoc; [lia|exact BB]|apply doneC_snoc; [lia|exact C]].
  - assert (E' : work e s now mono sp = (s', ev)) by congruence. clear E. unfold work in E'. destruct (at_ s) eqn:A.
    + eapply check_inv; [exact P|exact I0|rewrite A; reflexivity|exact E'].
    + destruct (woken s || sp); [eapply check_inv; [exact P|exact I0|rewrite A; reflexivity|exact E']|]. injection E' as <- <-. rewrite app_nil_r. exact I0.
    + destruct (wake_at s <=? mono).
      * injection E' as <- <-. rewrite app_nil_r. destruct I0 as (RQ & D & L & B & B1 & B2). unfold inv, deliver. cbn. split; [exact RQ|]. split; [lia|]. split; [lia|]. split; [reflexivity|]. repeat split; discriminate.
      * destruct (woken s || sp); [eapply check_inv; [exact P|exact I0|rewrite A; reflexivity|exact E']|]. injection E' as <- <-. rewrite app_nil_r. exact I0.
    + injection E' as <- <-. destruct I0 as (RQ & D & L & B & B1 & B2). rewrite A in B. unfold inv. cbn. rewrite nudges_app. cbn. split; [lia|]. split; [lia|]. split; [lia|]. split; [|repeat split; discriminate]. split; [exact B|apply doneR_write].
    + injection E' as <- <-. destruct I0 as (RQ & D & L & B & B1 & B2). rewrite A in B. destruct B as (B & DR). unfold inv. cbn. rewrite nudges_app. cbn. split; [lia|]. split; [lia|]. split; [lia|]. split; [|repeat split; discriminate]. split; [exact B|]. split; [apply doneR_snoc; [lia|exact DR]|apply doneC_write].
    + injection E' as <- <-. rewrite app_nil_r. destruct I0 as (RQ & D & L & B & B1 & B2). rewrite A in B. destruct B as (B & DR & DC). unfold inv. cbn. split; [lia|]. split; [lia|]. split; [lia|]. split; [|repeat split; discriminate]. rewrite B. split; [exact DR|]. split; [exact DC|]. split; [lia|lia].
    + injection E' as <- <-. rewrite app_nil_r. exact I0.
    + destruct (running s); [injection E' as <- <-; rewrite app_nil_r; exact I0|]. eapply check_inv; [exact P|exact I0|rewrite A; reflexivity|exact E'].
Qed.
Lemma inv_run e os : 0 <= ival e -> forall s tr, run e start os = Some (s, tr) -> inv e s tr.
Proof.
  intros P. induction os as [|o os IH] using rev_ind; intros s tr E; [injection E as <- <-; apply inv0|].
  rewrite run_app in E. destruct (run e start os) as [[s1 t1]|]; [|discriminate]. cbn [run] in E. destruct (step e s1 o) as [[s2 ev]|] eqn:ST; [|discriminate].
  injection E as <- <-. rewrite app_nil_r. apply (inv_step e s1 t1 o s2 ev P (IH _ _ eq_refl) ST).
Qed.
Lemma inv_delivered e s tr : inv e s tr -> at_ s = Sleep -> woken s = false -> all_delivered tr.
Proof.
  intros (RQ & D & L & B & B1 & _) A W a b E. rewrite A in B. destruct B as (DR & DC & W0 & _). destruct (B1 A) as (WA & LR). specialize (W0 WA). specialize (LR W).
  assert (N : nudges a < delivered s) by (rewrite <- W0, LR, RQ, E, nudges_app; cbn [nudges]; pose proof (nudges_nonneg b); lia).
  destruct (DR a b E N) as (t & v & I1 & V1). destruct (DC a b E N) as (t' & v' & I2 & V2). exists t, v, t', v'. auto.
Qed.

(** No overflow with fewer than 2^31 nudges *)
Lemma run_total e os : forall s, requested s + count_nudges os < 2147483648 -> exists s' tr, run e s os = Some (s', tr).
Proof.
  induction os as [|o os IH]; intros s H; [exists s, []; reflexivity|]. cbn [run].
  assert (X : exists s1 ev, step e s o = Some (s1, ev) /\ requested s1 + count_nudges os < 2147483648).
  { assert (CN : 0 <= count_nudges os) by (clear; induction os as [|[] os IH]; cbn [count_nudges]; lia).
    destruct o as [| |now mono sp]; cbn [step count_nudges] in *.
    - unfold nudge. destruct (at_ s); try (destruct (Z.eqb_spec (requested s) 2147483647); [lia|]; eexists _, _; split; [reflexivity|cbn [requested]; lia]).
    - eexists _, _. split; [reflexivity|exact H].
    - destruct (work e s now mono sp) as [s1 ev] eqn:W. exists s1, ev. split; [reflexivity|]. replace (requested s1) with (requested s); [exact H|].
      unfold work, check, deliver in W. destruct (at_ s); repeat match type of W with context [if ?c then _ else _] => destruct c end; injection W as <- <-; reflexivity. }
  destruct X as (s1 & ev & -> & H1). destruct (IH s1 H1) as (s' & tr & ->). eauto.
Qed.

(** Progress *)
Definition ready (N T : Z) (e : env) (s : st) : Prop := delivered s < N /\ last s + ival e <= T /\ running s = true /\ N <= requested s.
Definition ph (N T : Z) (e : env) (k : nat) (s : st) (tr : list event) : Prop :=
  match k with
  | 0%nat => doneR N tr /\ doneC N tr
  | 1%nat => at_ s = Write2 /\ N <= l_req s
  | 2%nat => at_ s = Write1 /\ N <= l_req s
  | 3%nat => ready N T e s /\ (at_ s = Top /\ l_req s <> requested s \/ at_ s = SleepT \/ at_ s = Sleep /\ woken s = true /\ l_req s <> requested s)
  | 4%nat => ready N T e s /\ at_ s = Top /\ l_req s = requested s /\ wake_at s <> 0
  | _ => False
  end.
Lemma doneR_le v w tr : w <= v -> doneR v tr -> doneR w tr.
Proof. intros L D a b E H. apply (D a b E). lia. Qed.
Lemma doneC_le v w tr : w <= v -> doneC v tr -> doneC w tr.
Proof. intros L D a b E H. apply (D a b E). lia. Qed.
Lemma done_more N s s' e o tr ev : N <= nudges tr -> doneR N tr -> doneC N tr -> step e s o = Some (s', ev) -> doneR N (tr ++ ev) /\ doneC N (tr ++ ev).
Proof.
  intros L R C E. assert (X : ev = [] \/ exists x, ev = [x]).
  { destruct o as [| |now mono sp]; cbn [step] in E.
    - unfold nudge in E. destruct (at_ s); try (destruct (requested s =? 2147483647); [discriminate|]); injection E as _ <-; eauto.
    - injection E as _ <-. eauto.
    - assert (E' : work e s now mono sp = (s', ev)) by congruence. clear E. unfold work, check in E'. destruct (at_ s); repeat match type of E' with context [if ?c then _ else _] => destruct c end; injection E' as _ <-; eauto. }
  destruct X as [-> | [x ->]]; [rewrite app_nil_r; auto|]. split; [apply doneR_snoc|apply doneC_snoc]; auto.
Qed.
Lemma ph_step N T e k s tr o s' ev : 0 <= ival e -> (forall t, bad e t = false) -> inv e s tr -> N <= nudges tr -> ph N T e k s tr -> runs_after T o -> step e s o = Some (s', ev) ->
  exists k', ph N T e k' s' (tr ++ ev) /\ (k' <= k - match o with Work _ _ _ => 1 | _ => 0 end)%nat.
Proof.
  intros P BD I0 LN H RA E. pose proof I0 as (RQ & D & L & B & B1 & B2 & B3).
  destruct k as [|[|[|[|[|k]]]]]; cbn [ph] in H.
  - destruct H as [R C]. exists 0%nat. split; [exact (done_more _ _ _ _ _ _ _ LN R C E)|lia].
  - destruct H as [A NL]. destruct o as [| |now mono sp]; cbn [step] in E; [|destruct RA|].
    + unfold nudge in E. rewrite A in E. destruct (requested s =? 2147483647); [discriminate|]. injection E as <- <-. exists 1%nat. split; [split; [reflexivity|exact NL]|lia].
    + unfold work in E. rewrite A in *. injection E as <- <-. destruct B as [_ B]. exists 0%nat. split; [|lia]. cbn [ph]. split; [apply doneR_snoc; [exact LN|exact (doneR_le _ _ _ NL B)]|exact (doneC_le _ _ _ NL (doneC_write _ _ _))].
  - destruct H as [A NL]. destruct o as [| |now mono sp]; cbn [step] in E; [|destruct RA|].
    + unfold nudge in E. rewrite A in E. destruct (requested s =? 2147483647); [discriminate|]. injection E as <- <-. exists 2%nat. split; [split; [reflexivity|exact NL]|lia].
    + unfold work in E. rewrite A in *. injection E as <- <-. exists 1%nat. split; [split; [reflexivity|exact NL]|lia].
  - destruct H as [(RD & RT & RN & RR) H]. destruct o as [| |now mono sp]; cbn [step] in E; [|destruct RA|].
    + exists 3%nat. split; [|lia]. assert (NS : at_ s <> Spin) by (destruct H as [[A _]|[A|[A _]]]; congruence). unfold nudge in E.
      assert (E' : (if requested s =? 2147483647 then None else Some (mkSt (requested s + 1) (delivered s) true (running s) (at_ s) (l_req s) (last s) (wake_at s), [ENudge])) = Some (s', ev)) by (destruct (at_ s); try exact E; congruence).
      destruct (requested s =? 2147483647); [discriminate|]. injection E' as <- <-. cbn [ph]. unfold ready. cbn. split; [repeat split; lia || assumption|].
      destruct H as [[A X]|[A|(A & W & X)]]; [left; split; [exact A|lia]|right; left; exact A|right; right; repeat split; [exact A|lia]].
    + assert (CK : l_req s <> requested s -> check e s now = (deliver s (requested s), [])).
      { intros NE. unfold check. rewrite RN. apply Z.eqb_neq in NE. rewrite NE. cbn [andb negb]. destruct RA as [RA _]. destruct (Z.ltb_spec (now - last s) (ival e)); [lia|]. rewrite andb_false_r. reflexivity. }
      assert (G : (s', ev) = (deliver s (requested s), [])).
      { unfold work in E. destruct H as [[A X]|[A|(A & W & X)]]; rewrite A in *.
        - rewrite (CK X) in E. congruence.
        - destruct B as (_ & _ & _ & B). specialize (B (B2 eq_refl)). destruct RA as [_ RA]. destruct (Z.leb_spec (wake_at s) mono); [congruence|lia].
        - rewrite W, (CK X) in E. cbn [orb] in E. congruence. }
      injection G as -> ->. exists 2%nat. split; [|lia]. cbn [ph deliver at_ l_req]. split; [reflexivity|exact RR].
  - destruct H as [(RD & RT & RN & RR) (A & X & W)]. destruct o as [| |now mono sp]; cbn [step] in E; [|destruct RA|].
    + unfold nudge in E. rewrite A in E. destruct (requested s =? 2147483647); [discriminate|]. injection E as <- <-. exists 3%nat. split; [|lia]. cbn [ph]. unfold ready. cbn. split; [repeat split; lia || assumption|]. left. split; [reflexivity|lia].
    + unfold work in E. rewrite A in E. unfold check in E. rewrite RN, X, Z.eqb_refl, BD in E. cbn [andb] in E. apply Z.eqb_neq in W. rewrite W in E. injection E as <- <-. exists 3%nat. split; [|lia]. cbn [ph]. unfold ready. cbn. split; [repeat split; lia || assumption|]. right. left. reflexivity.
  - destruct H.
Qed.
Lemma ph_run N T e os : 0 <= ival e -> (forall t, bad e t = false) -> forall k s tr s' tr', inv e s tr -> N <= nudges tr -> ph N T e k s tr -> Forall (runs_after T) os -> (k <= count_work os)%nat ->
  run e s os = Some (s', tr') -> doneR N (tr ++ tr') /\ doneC N (tr ++ tr').
Proof.
  intros P BD. induction os as [|o os IH]; intros k s tr s' tr' I0 LN H RA C E; cbn [run count_work] in *.
  - injection E as <- <-. rewrite app_nil_r. destruct k; [exact H|lia].
  - destruct (step e s o) as [[s1 ev]|] eqn:ST; [|discriminate]. destruct (run e s1 os) as [[s2 t2]|] eqn:R2; [|discriminate]. injection E as <- <-.
    destruct (ph_step _ _ _ _ _ _ _ _ _ P BD I0 LN H (Forall_inv RA) ST) as (k' & H' & K'). rewrite app_assoc. apply (IH k' s1 (tr ++ ev) s2 t2).
    + exact (inv_step _ _ _ _ _ _ P I0 ST).
    + rewrite nudges_app. pose proof (nudges_nonneg ev). lia.
    + exact H'.
    + exact (Forall_inv_tail RA).
    + destruct o; lia.
    + exact R2.
Qed.
Lemma ph_start e s tr T : 0 <= ival e -> (forall t, bad e t = false) -> inv e s tr -> running s = true -> at_ s <> Ended -> idle (at_ s) = true -> last s + ival e <= T -> exists k, (k <= 4)%nat /\ ph (nudges tr) T e k s tr.
Proof.
  intros P BD (RQ & D & L & B & B1 & B2 & B3) RN NE ID LT.
  destruct (Z.le_gt_cases (nudges tr) (delivered s)) as [LE|GT].
  - exists 0%nat. split; [lia|]. cbn [ph]. destruct (at_ s); try discriminate ID; destruct B as (A & C & _); (split; [exact (doneR_le _ _ _ LE A)|exact (doneC_le _ _ _ LE C)]).
  - assert (R : ready (nudges tr) T e s) by (unfold ready; repeat split; try assumption; lia).
    destruct (at_ s) eqn:A; try discriminate ID; try congruence.
    + destruct (Z.eq_dec (l_req s) (requested s)) as [X|X].
      * exists 4%nat. split; [lia|]. cbn [ph]. split; [exact R|]. split; [exact A|]. split; [exact X|]. destruct B as (_ & _ & B & _). intros W. specialize (B W). lia.
      * exists 3%nat. split; [lia|]. cbn [ph]. split; [exact R|]. left. auto.
    + exists 3%nat. split; [lia|]. cbn [ph]. split; [exact R|]. right. right. split; [exact A|]. destruct (B1 eq_refl) as (W & LR). destruct B as (_ & _ & B & _). specialize (B W). split; [|lia]. destruct (woken s); [reflexivity|]. specialize (LR eq_refl). lia.
    + exists 3%nat. split; [lia|]. cbn [ph]. split; [exact R|]. right. left. exact A.
    + specialize (B3 eq_refl). rewrite BD in B3. discriminate.
Qed.

(** Writing takes three steps *)
Definition wleft (p : pc) : nat := match p with Write1 => 3 | Write2 => 2 | Stamp => 1 | _ => 0 end.
Lemma writing e os : forall s s' tr, run e s os = Some (s', tr) -> (0 < wleft (at_ s))%nat -> count_work os = wleft (at_ s) -> at_ s' = Top.
Proof.
  induction os as [|o os IH]; intros s s' tr E W C; cbn [run count_work] in *; [lia|].
  destruct (step e s o) as [[s1 ev]|] eqn:ST; [|discriminate]. destruct (run e s1 os) as [[s2 t2]|] eqn:R2; [|discriminate]. injection E as <- <-.
  destruct o as [| |now mono sp]; cbn [step] in ST.
  - assert (at_ s1 = at_ s) by (unfold nudge in ST; destruct (at_ s) eqn:A; try (destruct (requested s =? 2147483647); [discriminate|]); injection ST as <- <-; exact A || reflexivity). apply (IH s1 s2 t2 R2); congruence.
  - injection ST as <- <-. apply (IH _ s2 t2 R2); assumption.
  - unfold work in ST. destruct (at_ s) eqn:A; cbn [wleft] in *; try lia; injection ST as <- <-.
    + apply (IH _ s2 t2 R2); cbn; lia.
    + apply (IH _ s2 t2 R2); cbn; lia.
    + assert (X : forall os s s' tr, run e s os = Some (s', tr) -> count_work os = 0%nat -> at_ s = Top -> at_ s' = Top).
      { clear. induction os as [|o os IH]; intros s s' tr E C A; cbn [run count_work] in *; [congruence|]. destruct (step e s o) as [[s1 ev]|] eqn:ST; [|discriminate]. destruct (run e s1 os) as [[s2 t2]|] eqn:R2; [|discriminate]. injection E as <- <-.
        apply (IH s1 s2 t2 R2); [destruct o; [exact C|exact C|discriminate]|]. destruct o; cbn [step] in ST; [|injection ST as <- <-; exact A|discriminate]. unfold nudge in ST. rewrite A in ST. destruct (requested s =? 2147483647); [discriminate|]. injection ST as <- <-. reflexivity. }
      apply (X _ _ _ _ R2); [lia|reflexivity].
Qed.

(** The end *)
Definition eleft (p : pc) : nat := match p with SleepT => 5 | Write1 => 4 | Write2 => 3 | Stamp => 2 | Ended => 0 | _ => 1 end.
Lemma ends e os : forall s s' tr, run e s os = Some (s', tr) -> running s = false -> (at_ s = Sleep \/ at_ s = SleepT -> woken s = true) -> (eleft (at_ s) <= count_work os)%nat ->
  at_ s' = Ended.
Proof.
  induction os as [|o os IH]; intros s s' tr E RN WK C; cbn [run count_work] in *.
  - injection E as <- <-. destruct (at_ s); cbn in C; try lia. reflexivity.
  - destruct (step e s o) as [[s1 ev]|] eqn:ST; [|discriminate]. destruct (run e s1 os) as [[s2 t2]|] eqn:R2; [|discriminate]. injection E as <- <-.
    destruct o as [| |now mono sp]; cbn [step] in ST.
    + apply (IH s1 s2 t2 R2); unfold nudge in ST; destruct (at_ s) eqn:A; try (destruct (requested s =? 2147483647); [discriminate|]); injection ST as <- <-; cbn; rewrite ?A; auto.
    + injection ST as <- <-. apply (IH _ s2 t2 R2); [reflexivity|exact WK|exact C].
    + assert (CK : check e s now = (mkSt (requested s) (delivered s) false (running s) Ended (l_req s) (last s) (wake_at s), [EEnd])) by (unfold check; rewrite RN; reflexivity).
      assert (E' : work e s now mono sp = (s1, ev)) by congruence. clear ST. apply (IH s1 s2 t2 R2); unfold work in E'; destruct (at_ s) eqn:A; rewrite ?CK, ?WK in E' by auto; cbn [orb] in E'; try rewrite RN in E';
      try destruct (wake_at s <=? mono); try (injection E' as <- <-); unfold deliver in *; cbn in *; try rewrite A; cbn; try exact RN; try lia; try (intros [X|X]; discriminate).
Qed.

(** Spacing *)
Notation apart := spaced.
Lemma apart_nil d : apart d [].
Proof. intros [|] x b y c E; discriminate. Qed.
Lemma apart_snoc d l y : apart d l -> Forall (fun x => snd x < snd y /\ fst x + d <= fst y) l -> apart d (l ++ [y]).
Proof.
  intros A F a x b z c E. destruct c as [|w c _] using rev_ind.
  - replace (a ++ x :: b ++ [z]) with ((a ++ x :: b) ++ [z]) in E by (rewrite <- app_assoc; reflexivity). apply app_inj_tail in E. destruct E as [-> ->]. rewrite Forall_forall in F. apply F. apply in_or_app. right. left. reflexivity.
  - replace (a ++ x :: b ++ z :: c ++ [w]) with ((a ++ x :: b ++ z :: c) ++ [w]) in E by (rewrite <- !app_assoc; cbn [app]; rewrite <- !app_assoc; reflexivity). apply app_inj_tail in E. destruct E as [-> _]. exact (A a x b z c eq_refl).
Qed.
Lemma rtp_app a b : rtp_wakes (a ++ b) = rtp_wakes a ++ rtp_wakes b.
Proof. induction a as [|[] a IH]; cbn [rtp_wakes app]; rewrite ?IH; reflexivity. Qed.
Lemma rtcp_app a b : rtcp_wakes (a ++ b) = rtcp_wakes a ++ rtcp_wakes b.
Proof. induction a as [|[] a IH]; cbn [rtcp_wakes app]; rewrite ?IH; reflexivity. Qed.

Definition below (v t : Z) (l : list (Z * Z)) : Prop := Forall (fun x => snd x <= v /\ fst x <= t) l.
Definition clear_ (d v t : Z) (l : list (Z * Z)) : Prop := Forall (fun x => snd x < v /\ fst x + d <= t) l.
Definition sp (e : env) (t0 : Z) (s : st) (tr : list event) : Prop :=
  let R := rtp_wakes tr in let C := rtcp_wakes tr in
  apart (ival e) R /\ apart (ival e) C /\ 0 < t0 /\ 0 <= last s <= t0 /\
  match at_ s with
  | Write1 => clear_ (ival e) (l_req s) t0 R /\ clear_ (ival e) (l_req s) t0 C /\ map snd R = map snd C
  | Write2 => below (l_req s) t0 R /\ clear_ (ival e) (l_req s) t0 C /\ map snd R = map snd C ++ [l_req s]
  | Stamp => below (l_req s) t0 R /\ below (l_req s) t0 C /\ map snd R = map snd C
  | _ => below (delivered s) (last s) R /\ below (delivered s) (last s) C /\ map snd R = map snd C /\ (last s = 0 -> R = [] /\ C = [])
  end.
Lemma below_le v t v' t' l : v <= v' -> t <= t' -> below v t l -> below v' t' l.
Proof. intros A B. apply Forall_impl. intros x [C D]. lia. Qed.
Lemma clear_le d v t v' t' l : v <= v' -> t <= t' -> clear_ d v t l -> clear_ d v' t' l.
Proof. intros A B. apply Forall_impl. intros x [C D]. lia. Qed.
Lemma below_clear d v t v' t' l : v < v' -> t + d <= t' -> below v t l -> clear_ d v' t' l.
Proof. intros A B. apply Forall_impl. intros x [C D]. lia. Qed.

Lemma sp_later e t0 t1 s tr : t0 <= t1 -> sp e t0 s tr -> sp e t1 s tr.
Proof.
  intros L (A & B & P & Q & M). split; [exact A|]. split; [exact B|]. split; [lia|]. split; [lia|]. destruct (at_ s); try exact M.
  - destruct M as (M1 & M2 & M3). split; [eapply clear_le; [| |exact M1]; lia|]. split; [eapply clear_le; [| |exact M2]; lia|exact M3].
  - destruct M as (M1 & M2 & M3). split; [eapply below_le; [| |exact M1]; lia|]. split; [eapply clear_le; [| |exact M2]; lia|exact M3].
  - destruct M as (M1 & M2 & M3). split; [eapply below_le; [| |exact M1]; lia|]. split; [eapply below_le; [| |exact M2]; lia|exact M3].
Qed.
(** events other than writes *)
Lemma sp_quiet e t0 s s' tr ev : rtp_wakes ev = [] -> rtcp_wakes ev = [] -> (at_ s' = at_ s \/ idle (at_ s) = true /\ idle (at_ s') = true) -> l_req s' = l_req s \/ idle (at_ s) = true -> delivered s' = delivered s -> last s' = last s ->
  sp e t0 s tr -> sp e t0 s' (tr ++ ev).
Proof.
  intros R C A L D LS H. unfold sp in *. rewrite rtp_app, rtcp_app, R, C, !app_nil_r, D, LS.
  destruct A as [A|[A A']].
  - rewrite A. destruct L as [L|L]; [rewrite L; exact H|]. destruct (at_ s); try discriminate L; exact H.
  - destruct (at_ s); try discriminate A; destruct (at_ s'); try discriminate A'; exact H.
Qed.
Lemma sp_deliver e t0 s tr now : inv e s tr -> sp e t0 s tr -> t0 <= now -> idle (at_ s) = true -> delivered s < requested s -> (last s = 0 \/ last s + ival e <= now) -> sp e now (deliver s (requested s)) tr.
Proof.
  intros I0 H T ID DR LT. assert (SP := H). unfold sp in H |- *. destruct H as (A & B & P & Q & M). cbn [at_ l_req deliver last]. split; [exact A|]. split; [exact B|]. split; [lia|]. split; [lia|].
  assert (M' : below (delivered s) (last s) (rtp_wakes tr) /\ below (delivered s) (last s) (rtcp_wakes tr) /\ map snd (rtp_wakes tr) = map snd (rtcp_wakes tr) /\ (last s = 0 -> rtp_wakes tr = [] /\ rtcp_wakes tr = [])) by (destruct (at_ s); try discriminate ID; exact M).
  destruct M' as (M1 & M2 & M3 & M4). destruct LT as [L0|L1].
  - destruct (M4 L0) as [-> ->]. repeat split; constructor.
  - split; [eapply below_clear; [| |exact M1]; lia|]. split; [eapply below_clear; [| |exact M2]; lia|exact M3].
Qed.
Lemma sp_check e t0 s tr now s' ev : 0 <= ival e -> inv e s tr -> sp e t0 s tr -> t0 <= now -> idle (at_ s) = true -> check e s now = (s', ev) -> sp e now s' (tr ++ ev).
Proof.
  intros P I0 H T ID E. pose proof I0 as (RQ & D & L & B & _). unfold check in E.
  destruct (running s && (l_req s =? requested s)) eqn:G.
  - injection E as <- <-. apply sp_quiet with (s := s); try reflexivity; [right; split; [exact ID|]; cbn; destruct (wake_at s =? 0); [reflexivity|destruct (bad e (wake_at s)); reflexivity]|left; reflexivity|exact (sp_later _ _ _ _ _ T H)].
  - destruct (running s) eqn:RN; cbn [negb] in E.
    + cbn [andb] in G. apply Z.eqb_neq in G. destruct ((0 <? last s) && (now - last s <? ival e)) eqn:TT; injection E as <- <-.
      * apply sp_quiet with (s := s); try reflexivity; [right; split; [exact ID|reflexivity]|right; exact ID|exact (sp_later _ _ _ _ _ T H)].
      * rewrite app_nil_r. apply (sp_deliver e t0 s tr now I0 H T ID); [lia|]. destruct H as (_ & _ & _ & Q & _). lia.
    + injection E as <- <-. apply sp_quiet with (s := s); try reflexivity; [right; split; [exact ID|reflexivity]|left; reflexivity|exact (sp_later _ _ _ _ _ T H)].
Qed.
Lemma sp_step e t0 s tr o s' ev : 0 <= ival e -> inv e s tr -> sp e t0 s tr -> clock_from t0 [o] -> step e s o = Some (s', ev) ->
  sp e (match o with Work now _ _ => now | _ => t0 end) s' (tr ++ ev).
Proof.
  intros P I0 H CL E. destruct o as [| |now mono spu]; cbn [step clock_from] in *.
  - unfold nudge in E. destruct (at_ s) eqn:A; try (destruct (requested s =? 2147483647); [discriminate|]); injection E as <- <-; (apply sp_quiet with (s := s); cbn; rewrite ?A; auto).
  - injection E as <- <-. apply sp_quiet with (s := s); cbn; auto.
  - destruct CL as (T & MN & _). assert (E' : work e s now mono spu = (s', ev)) by congruence. clear E. unfold work in E'.
    assert (NOP : s' = s -> ev = [] -> sp e now s' (tr ++ ev)) by (intros -> ->; rewrite app_nil_r; exact (sp_later _ _ _ _ _ T H)).
    pose proof I0 as (RQ & D & L & B & B1 & B2 & B3).
    destruct (at_ s) eqn:A.
    + eapply sp_check; [exact P|exact I0|exact H|exact T|rewrite A; reflexivity|exact E'].
    + destruct (woken s || spu); [eapply sp_check; [exact P|exact I0|exact H|exact T|rewrite A; reflexivity|exact E']|]. injection E' as <- <-. apply NOP; reflexivity.
    + destruct (Z.leb_spec (wake_at s) mono) as [LE|GT].
      * injection E' as <- <-. rewrite app_nil_r. destruct B as (_ & _ & _ & B). specialize (B (B2 eq_refl)). apply (sp_deliver e t0 s tr now I0 H T); [rewrite A; reflexivity|lia|right; lia].
      * destruct (woken s || spu); [eapply sp_check; [exact P|exact I0|exact H|exact T|rewrite A; reflexivity|exact E']|]. injection E' as <- <-. apply NOP; reflexivity.
    + injection E' as <- <-. apply (sp_later _ _ now) in H; [|exact T]. unfold sp in *. rewrite A in H. cbn [at_ last l_req]. destruct H as (HA & HB & HP & HQ & H1 & H2 & H3).
      rewrite rtp_app, rtcp_app. cbn [rtp_wakes rtcp_wakes]. rewrite app_nil_r. split; [apply apart_snoc; [exact HA|exact H1]|]. split; [exact HB|]. split; [exact HP|]. split; [exact HQ|].
      split; [apply Forall_app; split; [eapply Forall_impl; [|exact H1]; cbn; intros; lia|repeat constructor; cbn; lia]|]. split; [exact H2|]. rewrite map_app, H3. reflexivity.
    + injection E' as <- <-. apply (sp_later _ _ now) in H; [|exact T]. unfold sp in *. rewrite A in H. cbn [at_ last l_req]. destruct H as (HA & HB & HP & HQ & H1 & H2 & H3).
      rewrite rtp_app, rtcp_app. cbn [rtp_wakes rtcp_wakes]. rewrite app_nil_r. split; [exact HA|]. split; [apply apart_snoc; [exact HB|exact H2]|]. split; [exact HP|]. split; [exact HQ|].
      split; [exact H1|]. split; [apply Forall_app; split; [eapply Forall_impl; [|exact H2]; cbn; intros; lia|repeat constructor; cbn; lia]|]. rewrite map_app, H3. reflexivity.
    + injection E' as <- <-. rewrite app_nil_r. apply (sp_later _ _ now) in H; [|exact T]. unfold sp in *. rewrite A in H. cbn [at_ last l_req delivered]. destruct B as (B & _). rewrite B. intuition lia.
    + injection E' as <- <-. apply NOP; reflexivity.
    + destruct (running s); [injection E' as <- <-; apply NOP; reflexivity|]. eapply sp_check; [exact P|exact I0|exact H|exact T|rewrite A; reflexivity|exact E'].
Qed.
Lemma sp_run e os : 0 <= ival e -> forall t0 s tr s' tr', inv e s tr -> sp e t0 s tr -> clock_from t0 os -> run e s os = Some (s', tr') -> exists t1, sp e t1 s' (tr ++ tr').
Proof.
  intros P. induction os as [|o os IH]; intros t0 s tr s' tr' I0 H CL E; cbn [run] in E; [injection E as <- <-; rewrite app_nil_r; eauto|].
  destruct (step e s o) as [[s1 ev]|] eqn:ST; [|discriminate]. destruct (run e s1 os) as [[s2 t2]|] eqn:R2; [|discriminate]. injection E as <- <-. rewrite app_assoc.
  eapply (IH (match o with Work now _ _ => now | _ => t0 end)); [exact (inv_step _ _ _ _ _ _ P I0 ST)| | |exact R2].
  - apply (sp_step e t0 s tr o s1 ev P I0 H); [|exact ST]. destruct o; cbn [clock_from] in *; intuition.
  - destruct o; cbn [clock_from] in *; intuition.
Qed.
Lemma sp0 e : sp e 1 start [].
Proof. unfold sp, start. cbn. split; [apply apart_nil|]. split; [apply apart_nil|]. split; [lia|]. split; [lia|]. repeat split; constructor. Qed.
