From Verif Require Import Base SyslModel SyslSpec.

Fixpoint chain (nx : nat -> option nat) (h : option nat) (l : list nat) : Prop :=
  match l with [] => h = None | i :: l => h = Some i /\ chain nx (nx i) l end.

Lemma fupd_same {A} (f : nat -> A) i v : fupd f i v i = v.
Proof. unfold fupd. now rewrite Nat.eqb_refl. Qed.
Lemma fupd_other {A} (f : nat -> A) i j v : i <> j -> fupd f i v j = f j.
Proof. intros H. unfold fupd. destruct (Nat.eqb_spec i j); congruence. Qed.

Lemma chain_fupd nx i v l : forall h, ~ In i l -> chain nx h l -> chain (fupd nx i v) h l.
Proof.
  induction l as [|j l IH]; intros h N C; cbn [chain] in *; [exact C|]. destruct C as [-> C]. split; [reflexivity|].
  rewrite fupd_other by (intros ->; apply N; now left). apply IH; [intros I; apply N; now right | exact C].
Qed.
Lemma chain_snoc nx i l : forall h t, chain nx h (l ++ [t]) -> NoDup (l ++ [t]) -> ~ In i (l ++ [t]) ->
  chain (fupd (fupd nx i None) t (Some i)) h ((l ++ [t]) ++ [i]).
Proof.
  induction l as [|j l IH]; intros h t C ND N; cbn [app chain] in *.
  - destruct C as [-> _]. split; [reflexivity|]. rewrite fupd_same. split; [reflexivity|].
    rewrite fupd_other by (intros ->; apply N; now left). apply fupd_same.
  - destruct C as [-> C]. inversion ND as [|? ? N1 ND1]; subst. split; [reflexivity|].
    rewrite fupd_other by (intros ->; apply N1; apply in_or_app; right; now left). rewrite fupd_other by (intros ->; apply N; now left).
    apply IH; [exact C | exact ND1 | intros I; apply N; now right].
Qed.
Lemma chain_seq size : forall n k, (k + n = size)%nat ->
  chain (fun i => if (S i <? size)%nat then Some (S i) else None) (match n with O => None | _ => Some k end) (seq k n).
Proof.
  induction n as [|n IH]; intros k E; cbn [seq chain]; [reflexivity|]. split; [reflexivity|]. specialize (IH (S k) ltac:(lia)).
  destruct n as [|n]; destruct (Nat.ltb_spec (S k) size); try lia; exact IH.
Qed.

Lemma drop_nth_in {A} (l : list A) : forall n x, nth_error l n = Some x -> exists l1 l2, l = l1 ++ x :: l2 /\ drop_nth n l = l1 ++ l2 /\ length l1 = n.
Proof.
  induction l as [|y l IH]; intros [|n] x E; try discriminate; cbn [nth_error drop_nth] in *.
  - injection E as ->. exists [], l. auto.
  - destruct (IH n x E) as (l1 & l2 & -> & E2 & L). exists (y :: l1), l2. cbn [app length]. rewrite E2. auto.
Qed.
Lemma drop_nth_map {A B} (f : A -> B) l : forall n, map f (drop_nth n l) = drop_nth n (map f l).
Proof. induction l as [|y l IH]; intros [|n]; cbn [drop_nth map]; auto. now rewrite IH. Qed.

Definition winf (w : worker) : list nat := match w with WHas i | WDone i => [i] | _ => [] end.
Definition wrel (d : nat -> line) (w : worker) (b : bwork) : Prop :=
  match w, b with WIdle, BIdle => True | WHas i, BHas l => d i = l | WDone _, BDone => True | WExit, BExit => True | _, _ => False end.

Record rel (s : st) (b : ab) (fl ql : list nat) : Prop := Rel {
  r_fl : chain (nxt s) (fre s) fl;
  r_ql : chain (nxt s) (qh s) ql;
  r_t : forall l t, ql = l ++ [t] -> qt s = Some t;
  r_nd : NoDup (fl ++ held s ++ winf (wrk s) ++ ql);
  r_len : length fl = b_free b;
  r_held : map (dat s) (held s) = b_held b;
  r_q : map (dat s) ql = b_q b;
  r_w : wrel (dat s) (wrk s) (b_w b);
  r_out : out s = b_out b;
  r_drop : drp s = b_drop b }.

Lemma map_fupd {A} (d : nat -> A) i v l : ~ In i l -> map (fupd d i v) l = map d l.
Proof. intros N. apply map_ext_in. intros j I. apply fupd_other. congruence. Qed.

Lemma rel_get wait l s b fl ql : rel s b fl ql -> exists fl', rel (get_free wait l s)
  (match b_free b with
   | O => if wait then b else Ab O (b_held b) (b_q b) (b_w b) (b_out b) (b_drop b + 1) (b_put b)
   | S n => Ab n (b_held b ++ [l]) (b_q b) (b_w b) (b_out b) (b_drop b) (b_put b)
   end) fl' ql.
Proof.
  intros [F Q T ND L H M W O D]. unfold get_free. destruct fl as [|i fl]; cbn [chain length] in F, L.
  - rewrite F, <- L. exists []. destruct wait; split; cbn [nxt dat fre qh qt drp held wrk out b_free b_held b_q b_w b_out b_drop chain]; auto; congruence.
  - destruct F as [-> F]. rewrite <- L. exists fl. cbn [app] in ND. inversion ND as [|? ? N1 ND1]; subst.
    rewrite !in_app_iff in N1.
    split; cbn [nxt dat fre qh qt drp held wrk out b_free b_held b_q b_w b_out b_drop]; auto.
    + rewrite <- app_assoc. cbn [app]. apply (NoDup_Add (a := i) (l := fl ++ held s ++ winf (wrk s) ++ ql)).
      * rewrite !app_assoc. rewrite <- (app_assoc (fl ++ held s)). apply Add_app.
      * rewrite !in_app_iff. auto.
    + rewrite map_app. cbn [map]. rewrite fupd_same, map_fupd, H; [reflexivity | tauto].
    + rewrite map_fupd; [exact M | tauto].
    + unfold wrel, winf in *. destruct (wrk s), (b_w b); auto. rewrite fupd_other; [exact W|]. intros ->. apply N1. right. right. left. now left.
Qed.

Lemma rel_put n s b fl ql : rel s b fl ql -> exists ql', rel (put_item n s) (b_step b (OPut n)) fl ql'.
Proof.
  intros R. pose proof R as [F Q T ND L H M W O D]. unfold put_item, b_step. rewrite <- H, nth_error_map.
  destruct (nth_error (held s) n) as [i|] eqn:E; cbn [option_map]; [|exists ql; exact R].
  destruct (drop_nth_in _ _ _ E) as (l1 & l2 & E1 & E2 & _).
  assert (ND2 : NoDup (fl ++ (l1 ++ l2) ++ winf (wrk s) ++ ql) /\ ~ In i (fl ++ (l1 ++ l2) ++ winf (wrk s) ++ ql)).
  { rewrite E1 in ND. rewrite <- !app_assoc in *. cbn [app] in ND. rewrite app_assoc in ND. rewrite (app_assoc fl). apply NoDup_remove in ND. exact ND. }
  destruct ND2 as [ND2 NI]. assert (NI2 := NI). rewrite !in_app_iff in NI2.
  assert (NDq : NoDup (fl ++ (l1 ++ l2) ++ winf (wrk s) ++ ql ++ [i])).
  { apply (NoDup_Add (a := i) (l := fl ++ (l1 ++ l2) ++ winf (wrk s) ++ ql)); [|split; assumption].
    replace (fl ++ (l1 ++ l2) ++ winf (wrk s) ++ ql ++ [i]) with ((fl ++ (l1 ++ l2) ++ winf (wrk s) ++ ql) ++ [i]) by (now rewrite <- !app_assoc).
    generalize (fl ++ (l1 ++ l2) ++ winf (wrk s) ++ ql). intros L0. pose proof (Add_app i L0 []) as X. now rewrite app_nil_r in X. }
  exists (ql ++ [i]). destruct ql as [|j ql0] eqn:EQ.
  - cbn [chain] in Q. rewrite Q. split; cbn [nxt dat fre qh qt drp held wrk out b_free b_held b_q b_w b_out b_drop app chain]; auto.
    + apply chain_fupd; [tauto | exact F].
    + split; [reflexivity | apply fupd_same].
    + intros l t E3. destruct l as [|x l]; [injection E3 as ->; reflexivity | destruct l; discriminate].
    + rewrite E2. exact NDq.
    + apply drop_nth_map.
    + cbn [map] in M |- *. now rewrite <- M.
  - rewrite <- EQ in *. assert (X : qh s = Some j) by (rewrite EQ in Q; apply Q). rewrite X.
    destruct (exists_last (l := ql)) as (l & t & ET); [rewrite EQ; discriminate|]. rewrite (T l t ET).
    assert (IT : In t ql) by (rewrite ET; apply in_or_app; right; now left).
    assert (NDf : ~ In t fl).
    { intros I. apply in_split in I. destruct I as (f1 & f2 & ->). rewrite <- app_assoc in ND2. cbn [app] in ND2. apply NoDup_remove_2 in ND2. apply ND2.
      rewrite !in_app_iff. tauto. }
    assert (NDql : NoDup ql).
    { clear - ND2. induction fl as [|x fl IH]; cbn [app] in ND2; [|inversion ND2; auto]. induction (l1 ++ l2) as [|x m IH]; cbn [app] in ND2; [|inversion ND2; auto].
      induction (winf (wrk s)) as [|x w IH]; cbn [app] in ND2; [exact ND2 | inversion ND2; auto]. }
    split; cbn [nxt dat fre qh qt drp held wrk out b_free b_held b_q b_w b_out b_drop]; auto.
    + apply chain_fupd; [exact NDf|]. apply chain_fupd; [tauto | exact F].
    + rewrite ET in *. rewrite <- X. apply chain_snoc; [exact Q | exact NDql | tauto].
    + intros l' t' E3. apply app_inj_tail in E3. now destruct E3 as [_ ->].
    + rewrite E2. exact NDq.
    + apply drop_nth_map.
    + rewrite map_app, M. reflexivity.
Qed.

Lemma rel_step s b fl ql o : rel s b fl ql -> exists fl' ql', rel (step s o) (b_step b o) fl' ql'.
Proof.
  intros R. destruct o as [p t| |n| | |]; cbn [step b_step].
  - destruct (rel_get false (Some (p, t)) s b fl ql R) as (fl' & R'). exists fl', ql. exact R'.
  - destruct (rel_get true None s b fl ql R) as (fl' & R'). exists fl', ql. destruct (b_free b); exact R'.
  - destruct (rel_put n s b fl ql R) as (ql' & R'). exists fl, ql'. exact R'.
  - pose proof R as [F Q T ND L H M W O D]. unfold take. unfold wrel in W. destruct (wrk s) eqn:EW, (b_w b) eqn:EB; try contradiction; try (exists fl, ql; exact R).
    destruct ql as [|i ql]; cbn [chain] in Q; [rewrite Q; cbn [map] in M; rewrite <- M; exists fl, []; exact R|]. destruct Q as [-> Q].
    cbn [map] in M. rewrite <- M. exists fl, ql. split; cbn [nxt dat fre qh qt drp held wrk out b_free b_held b_q b_w b_out b_drop wrel winf]; auto.
    intros l t E. apply (T (i :: l) t). now rewrite E.
  - pose proof R as [F Q T ND L H M W O D]. unfold write. unfold wrel in W. destruct (wrk s) eqn:EW, (b_w b) eqn:EB; try contradiction; try (exists fl, ql; exact R).
    rewrite W. exists fl, ql. cbn [winf] in ND.
    destruct l as [l|]; split; cbn [nxt dat fre qh qt drp held wrk out b_free b_held b_q b_w b_out b_drop wrel winf]; auto; [now rewrite O|].
    cbn [app] in *. rewrite app_assoc in *. now apply NoDup_remove_1 in ND.
  - pose proof R as [F Q T ND L H M W O D]. unfold give_back. unfold wrel in W. destruct (wrk s) eqn:EW, (b_w b) eqn:EB; try contradiction; try (exists fl, ql; exact R).
    cbn [winf app] in ND. assert (X := ND). rewrite app_assoc in X. apply NoDup_remove in X. destruct X as [X1 X2]. rewrite <- app_assoc in X1, X2. assert (X3 := X2). rewrite !in_app_iff in X3.
    exists (i :: fl), ql. split; cbn [nxt dat fre qh qt drp held wrk out b_free b_held b_q b_w b_out b_drop wrel winf chain app length]; auto.
    + split; [reflexivity|]. rewrite fupd_same. apply chain_fupd; [tauto | exact F].
    + apply chain_fupd; [tauto | exact Q].
    + constructor; assumption.
Qed.

Lemma rel_init size : rel (init size) (b_init size) (seq 0 size) [].
Proof.
  split; cbn [init b_init nxt dat fre qh qt drp held wrk out b_free b_held b_q b_w b_out b_drop wrel winf chain app map]; auto.
  - apply (chain_seq size size 0). reflexivity.
  - intros l t E. destruct l; discriminate.
  - rewrite app_nil_r. apply seq_NoDup.
  - apply seq_length.
Qed.
Lemma rel_run l : forall s b fl ql, rel s b fl ql -> exists fl' ql', rel (run s l) (b_run b l) fl' ql'.
Proof.
  induction l as [|o l IH]; intros s b fl ql R; [exists fl, ql; exact R|]. destruct (rel_step s b fl ql o R) as (fl' & ql' & R').
  exact (IH _ _ _ _ R').
Qed.

(** the log without pointers *)
Definition inv (size : nat) (b : ab) : Prop :=
  b_put b = map Some (b_out b) ++ taken (b_w b) ++ b_q b
  /\ (b_free b + length (b_held b) + length (b_q b) + match b_w b with BIdle => 0 | _ => 1 end = size)%nat.
Lemma drop_nth_len {A} (l : list A) n x : nth_error l n = Some x -> S (length (drop_nth n l)) = length l.
Proof. intros E. destruct (drop_nth_in l n x E) as (l1 & l2 & -> & -> & _). rewrite !app_length. cbn [length]. lia. Qed.
Lemma inv_step size b o : inv size b -> inv size (b_step b o).
Proof.
  intros [I1 I2]. unfold inv. destruct o as [p t| |n| | |]; cbn [b_step].
  - destruct (b_free b); cbn [b_free b_held b_q b_w b_out b_put]; rewrite ?app_length; cbn [length]; split; auto; lia.
  - destruct (b_free b) eqn:E; cbn [b_free b_held b_q b_w b_out b_put]; rewrite ?E, ?app_length; cbn [length]; split; auto; lia.
  - destruct (nth_error (b_held b) n) as [l|] eqn:E; [|auto]. apply drop_nth_len in E. cbn [b_free b_held b_q b_w b_out b_put]. rewrite app_length. cbn [length].
    split; [rewrite I1, <- !app_assoc; reflexivity | lia].
  - destruct (b_w b) eqn:W; try (rewrite W; auto). destruct (b_q b) as [|l q] eqn:Q; [rewrite W, Q; auto|]. cbn [b_free b_held b_q b_w b_out b_put taken app length] in *. split; [exact I1 | lia].
  - destruct (b_w b) as [|[l|]| |] eqn:W; try (rewrite W; auto); cbn [b_free b_held b_q b_w b_out b_put taken app length] in *; [|auto].
    split; [|exact I2]. rewrite map_app, <- app_assoc. exact I1.
  - destruct (b_w b) eqn:W; try (rewrite W; auto). cbn [b_free b_held b_q b_w b_out b_put taken app length] in *. split; [exact I1 | lia].
Qed.
Lemma inv_run size l : forall b, inv size b -> inv size (b_run b l).
Proof. induction l as [|o l IH]; intros b H; [exact H|]. apply IH, inv_step, H. Qed.
Lemma inv_init size : inv size (b_init size).
Proof. unfold inv, b_init. cbn [b_put b_out b_w b_q b_free b_held map taken app length]. split; [reflexivity | lia]. Qed.
