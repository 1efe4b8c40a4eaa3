From Coq Require Import Permutation.
From Verif Require Import Base RtpModel RtpSpec RtpProof RszModel RszSpec RszProof.

(** * Quantities that splitting and joining keep *)
Record additive {X} (E : sp -> Prop) (F : sp -> list X) : Prop := {
  ad_join : forall a b, E a -> E b -> joinable a b -> E (join a b) /\ F (join a b) = F a ++ F b;
  ad_cut : forall p b k, E p -> cut p b k -> E (head p b k) /\ E (tail p b k) /\ F p = F (head p b k) ++ F (tail p b k);
  ad_unm : forall p, E p -> E (unm p) /\ F (unm p) = F p;
  ad_seq : forall p s, E p -> E (withseq p s) /\ F (withseq p s) = F p }.
Definition flat {X} (F : sp -> list X) (l : list sp) : list X := concat (map F l).
Lemma flat_app {X} (F : sp -> list X) a b : flat F (a ++ b) = flat F a ++ flat F b.
Proof. unfold flat. rewrite map_app, concat_app. reflexivity. Qed.
Lemma flat_cons {X} (F : sp -> list X) a b : flat F (a :: b) = F a ++ flat F b.
Proof. reflexivity. Qed.

Lemma ext_add {X} E (F : sp -> list X) : additive E F -> forall c q x q', ext c q x q' -> E c -> Forall E q ->
  E x /\ Forall E q' /\ F x ++ flat F q' = F c ++ flat F q.
Proof.
  intros A c q x q' H. induction H as [c q|c p q x q' J H IH|c p q b k J C]; intros EC EQ.
  - auto.
  - inversion EQ; subst. destruct (ad_join _ _ A c p) as (E1 & E2); [assumption..|]. destruct IH as (I1 & I2 & I3); [assumption..|].
    split; [assumption|]. split; [assumption|]. rewrite I3, E2, flat_cons, <- app_assoc. reflexivity.
  - inversion EQ; subst. destruct (ad_cut _ _ A p b k) as (C1 & C2 & C3); [assumption..|].
    assert (J' : joinable c (head p b k)) by exact J. destruct (ad_join _ _ A c (head p b k)) as (E1 & E2); [assumption..|].
    split; [assumption|]. split; [constructor; assumption|]. rewrite E2, !flat_cons, C3, <- !app_assoc. reflexivity.
Qed.
Lemma pull_add {X} E (F : sp -> list X) q x q' : additive E F -> pull q x q' -> Forall E q -> E x /\ Forall E q' /\ F x ++ flat F q' = flat F q.
Proof.
  intros A H EQ. destruct H as [p q x q' H|p q b k C]; inversion EQ; subst.
  - destruct (ext_add E F A _ _ _ _ H) as (I1 & I2 & I3); [assumption..|]. auto.
  - destruct (ad_unm _ _ A p) as (U1 & U2); [assumption|]. destruct (ad_cut _ _ A (unm p) b k) as (C1 & C2 & C3); [assumption|exact C|].
    destruct (ad_cut _ _ A p b k) as (D1 & D2 & D3); [assumption|exact C|].
    assert (HU : F (head p b k) = F (head (unm p) b k)).
    { destruct (ad_unm _ _ A (head p b k) D1) as (_ & V). rewrite <- V. reflexivity. }
    split; [assumption|]. split; [constructor; assumption|]. rewrite !flat_cons, <- U2, C3, HU, <- app_assoc. reflexivity.
Qed.

(** * Every history *)
Definition balanced (ins outs q : list sp) : Prop :=
  forall X (E : sp -> Prop) (F : sp -> list X), additive E F -> Forall E ins ->
    Forall E q /\ Forall E outs /\ Permutation (flat F outs ++ flat F q) (flat F ins).
Lemma balanced_step a b a' ins outs : astep a b a' -> balanced ins outs (a_q a) -> balanced (ins ++ ains [b]) (outs ++ aouts [b]) (a_q a').
Proof.
  intros ST B X E F A EI. apply Forall_app in EI. destruct EI as (EI & EB). destruct (B X E F A EI) as (EQ & EO & P). clear B.
  destruct ST as [a|a r L|a p L|a x q' seq PU SE]; cbn [ains aouts a_q] in *; rewrite ?app_nil_r; auto.
  - destruct (place_split p (a_q a)) as (q1 & q2 & E1 & E2). rewrite E2. rewrite E1 in EQ, P. apply Forall_app in EQ. inversion EB; subst.
    split; [apply Forall_app; split; [apply EQ|constructor; [assumption|apply EQ]]|]. split; [assumption|].
    rewrite !flat_app, flat_cons in *. cbn [flat map concat]. rewrite app_nil_r. rewrite <- P.
    rewrite <- !app_assoc. do 2 apply Permutation_app_head. apply Permutation_app_comm.
  - destruct (pull_add E F _ _ _ A PU EQ) as (I1 & I2 & I3). destruct (ad_seq _ _ A x seq I1) as (S1 & S2).
    split; [assumption|]. split; [apply Forall_app; split; [assumption|constructor; [assumption|constructor]]|].
    rewrite flat_app. cbn [flat map concat]. rewrite app_nil_r, S2, <- app_assoc. fold (flat F q'). rewrite I3. exact P.
Qed.
Lemma ains_app a b : ains (a ++ b) = ains a ++ ains b.
Proof. induction a as [|[]]; cbn; rewrite ?IHa; reflexivity. Qed.
Lemma aouts_app a b : aouts (a ++ b) = aouts a ++ aouts b.
Proof. induction a as [|[]]; cbn; rewrite ?IHa; reflexivity. Qed.
Lemma ains_cons b l : ains (b :: l) = ains [b] ++ ains l. Proof. apply (ains_app [b] l). Qed.
Lemma aouts_cons b l : aouts (b :: l) = aouts [b] ++ aouts l. Proof. apply (aouts_app [b] l). Qed.

Lemma balanced_run a l a' : arun a l a' -> forall ins outs, balanced ins outs (a_q a) -> balanced (ins ++ ains l) (outs ++ aouts l) (a_q a').
Proof.
  induction 1 as [a|a b a1 l a2 ST _ IH]; intros ins outs B.
  - cbn. rewrite !app_nil_r. exact B.
  - rewrite ains_cons, aouts_cons, !app_assoc. apply IH. eapply balanced_step; eassumption.
Qed.

(** * One source: the order *)
Definition endp (p : sp) : Z := u32 (r_ts (fst p) + snd p).
Definition tail_of (o p : sp) : Prop := exists k, 0 < k < snd o /\ r_ts (fst p) = u32 (r_ts (fst o) + k) /\ snd p = snd o - k.
Lemma cut_tail_of p b k : cut p b k -> tail_of p (tail p b k).
Proof. intros (_ & K & _). exists k. repeat split; try apply K. Qed.
Lemma u32_mid a b : u32 (u32 a + b) = u32 (a + b).
Proof. unfold u32. rewrite Zplus_mod_idemp_l. reflexivity. Qed.
Lemma tail_of_end o p : tail_of o p -> endp p = endp o.
Proof. intros (k & _ & T & N). unfold endp. rewrite T, N, u32_mid. f_equal. lia. Qed.
Lemma tail_of_trans o p p' : tail_of o p -> tail_of p p' -> tail_of o p'.
Proof. intros (k & K & T & N) (k' & K' & T' & N'). exists (k + k'). split; [lia|]. split; [|lia]. rewrite T', T, u32_mid. f_equal. lia. Qed.

Lemma ext_end c q x q' : ext c q x q' ->
  (exists pre y, c :: q = pre ++ y :: q' /\ endp x = endp y) \/
  (exists pre y t p', q = pre ++ y :: t /\ q' = p' :: t /\ tail_of y p' /\ endp x = r_ts (fst p')).
Proof.
  assert (JE : forall c p, joinable c p -> endp (join c p) = endp p).
  { intros c0 p (_ & J & _). unfold endp. cbn [join joinp with_pl fst snd r_ts]. rewrite <- J, u32_mid. f_equal. lia. }
  induction 1 as [c q|c p q x q' J H IH|c p q b k J C].
  - left. exists [], c. auto.
  - destruct IH as [(pre & y & E1 & E2)|(pre & y & t & p' & E1 & E2 & E3 & E4)].
    + left. destruct pre as [|y0 pre]; cbn [app] in E1; injection E1 as E1 E1'.
      * subst y q. exists [c], p. split; [reflexivity|]. rewrite E2. apply JE, J.
      * exists (c :: p :: pre), y. split; [cbn [app]; rewrite E1'; reflexivity|exact E2].
    + right. exists (p :: pre), y, t, p'. split; [cbn [app]; rewrite E1; reflexivity|auto].
  - right. exists [], p, q, (tail p b k). split; [reflexivity|]. split; [reflexivity|]. split; [apply cut_tail_of with (1 := C)|].
    destruct J as (_ & J & _). unfold endp. cbn [join joinp head headp tail tailp with_pl with_ts fst snd r_ts]. rewrite <- J, u32_mid. f_equal. lia.
Qed.
Lemma pull_end q x q' : pull q x q' ->
  (exists pre y, q = pre ++ y :: q' /\ endp x = endp y) \/
  (exists pre y t p', q = pre ++ y :: t /\ q' = p' :: t /\ tail_of y p' /\ endp x = r_ts (fst p')).
Proof.
  destruct 1 as [p q x q' H|p q b k C].
  - destruct (ext_end _ _ _ _ H) as [L|(pre & y & t & p' & E1 & E2 & E3 & E4)]; [left; exact L|].
    right. exists (p :: pre), y, t, p'. rewrite E1. auto.
  - right. exists [], p, q, (tail (unm p) b k). split; [reflexivity|]. split; [reflexivity|]. split; [apply (cut_tail_of (unm p) b k C)|]. reflexivity.
Qed.

(** the queue [q], in terms of whole packets [oq]: the first may have been sent in part *)
Definition whole (last : option Z) (oq q : list sp) : Prop :=
  q = oq \/ exists o t p, oq = o :: t /\ q = p :: t /\ tail_of o p /\ last = Some (r_ts (fst p)).
Definition dist (base ts : Z) : Z := u32 (ts - base).
Definition LIM : Z := 2146435072.
Definition windowed (base : Z) (l : list sp) : Prop := Forall (fun p => since base (fst p) < LIM /\ nsok p) l.
(** packets of which something was sent *)
Definition begun (dn oq q : list sp) (p : sp) : Prop := In p dn \/ exists t x, oq = p :: t /\ q = x :: t /\ tail_of p x.

Record ordered (base ssrc : Z) (a : abs) (ins outs dn oq : list sp) : Prop := {
  o_whole : whole (a_last a) oq (a_q a);
  o_perm : Permutation (dn ++ oq) ins;
  o_flat : forall X (E : sp -> Prop) (F : sp -> list X), additive E F -> Forall E ins ->
    Forall E (a_q a) /\ flat F outs ++ flat F (a_q a) = flat F (dn ++ oq);
  o_ssrc : a_ssrc a = None \/ a_ssrc a = Some ssrc;
  o_time : windowed base ins -> map fst (dn ++ oq) = by_time base (map fst ins) /\
    (forall l, a_last a = Some l -> dist base l < 2147483648 /\ forall p, begun dn oq (a_q a) p -> since base (fst p) <= dist base l) /\
    (a_last a = None -> dn = []) }.

(** ** sorting *)
Fixpoint sorted (base : Z) (l : list rtp_pkt) : Prop :=
  match l with [] => True | x :: t => Forall (fun y => since base x <= since base y) t /\ sorted base t end.
Lemma insert_perm base r l : Permutation (insert base r l) (r :: l).
Proof. induction l as [|x t IH]; cbn [insert]; [reflexivity|]. destruct (_ <? _); [reflexivity|]. rewrite IH. apply perm_swap. Qed.
Lemma insert_sorted base r l : sorted base l -> sorted base (insert base r l).
Proof.
  induction l as [|x t IH]; cbn [insert sorted]; [intros _; split; [constructor|exact Logic.I]|]. intros (H & S).
  destruct (Z.ltb_spec (since base r) (since base x)) as [LT|GE]; cbn [sorted].
  - split; [|split; assumption]. constructor; [lia|]. eapply Forall_impl; [|exact H]. cbn. intros. lia.
  - split; [|apply IH, S]. eapply Permutation_Forall; [symmetry; apply insert_perm|]. constructor; [lia|exact H].
Qed.
Lemma by_time_snoc base l r : by_time base (l ++ [r]) = insert base r (by_time base l).
Proof. unfold by_time. rewrite fold_left_app. reflexivity. Qed.
Lemma by_time_sorted base l : sorted base (by_time base l).
Proof. induction l as [|r l IH] using rev_ind; [exact Logic.I|]. rewrite by_time_snoc. apply insert_sorted, IH. Qed.
Lemma sorted_app base a b : sorted base (a ++ b) -> sorted base a /\ sorted base b.
Proof.
  induction a as [|x a IH]; cbn [app sorted]; [auto|]. intros (H & S). apply Forall_app in H. destruct (IH S). tauto.
Qed.
Lemma insert_after base r a b : Forall (fun x => since base x <= since base r) a -> insert base r (a ++ b) = a ++ insert base r b.
Proof. induction 1 as [|x a H _ IH]; cbn [app insert]; [reflexivity|]. destruct (Z.ltb_spec (since base r) (since base x)); [lia|]. rewrite IH. reflexivity. Qed.
Lemma insert_end base r l : Forall (fun x => since base x <= since base r) l -> insert base r l = l ++ [r].
Proof. intros H. rewrite <- (app_nil_r l) at 1. rewrite insert_after by exact H. reflexivity. Qed.
Lemma insert_before base r a x : since base r < since base x -> insert base r (a ++ [x]) = insert base r a ++ [x].
Proof.
  intros L. induction a as [|y a IH]; cbn [app insert].
  - destruct (Z.ltb_spec (since base r) (since base x)); [reflexivity|lia].
  - destruct (_ <? _); [reflexivity|]. rewrite IH. reflexivity.
Qed.

Lemma ts_less_dist base a b : dist base a < 2147483648 -> dist base b < 2147483648 -> ts_less a b = (dist base a <? dist base b).
Proof.
  unfold dist, ts_less. intros A B.
  assert (E : u32 (a - b) = u32 (u32 (a - base) - u32 (b - base))).
  { unfold u32. rewrite <- Zminus_mod. f_equal. lia. }
  rewrite E. pose proof (u32_range (a - base)). pose proof (u32_range (b - base)).
  generalize dependent (u32 (a - base)). generalize dependent (u32 (b - base)). intros y B1 B2 x A1 E A2. clear E.
  unfold u32. destruct (Z.ltb_spec x y).
  - replace ((x - y) mod 4294967296) with (x - y + 4294967296); [lia|]. apply (Z.mod_unique _ _ (-1)); lia.
  - rewrite Z.mod_small by lia. lia.
Qed.

Lemma aplace_insert base p rq : since base (fst p) < 2147483648 -> Forall (fun x => since base (fst x) < 2147483648) rq -> sorted base (map fst (rev rq)) ->
  map fst (rev (aplace p rq)) = insert base (fst p) (map fst (rev rq)).
Proof.
  intros P. induction rq as [|x t IH]; intros W S; cbn [aplace rev map]; [reflexivity|].
  inversion W as [|x' t' W1 W2]; subst. cbn [rev] in S. rewrite map_app in S. cbn [map] in S.
  rewrite (ts_less_dist base) by assumption. fold (since base (fst p)) (since base (fst x)). unfold since in *. unfold dist in *.
  destruct (Z.ltb_spec (u32 (r_ts (fst p) - base)) (u32 (r_ts (fst x) - base))) as [LT|GE]; cbn [rev]; rewrite !map_app; cbn [map].
  - rewrite IH; [|assumption|apply (sorted_app _ _ _ S)]. rewrite insert_before; [reflexivity|exact LT].
  - rewrite insert_end; [rewrite <- app_assoc; reflexivity|]. apply Forall_app. split; [|constructor; [exact GE|constructor]].
    clear - S GE. induction (map fst (rev t)) as [|y l IHl]; [constructor|]. cbn [app sorted] in S. destruct S as (H & S).
    constructor; [|apply IHl, S]. apply Forall_app in H. destruct H as (_ & H). inversion H; subst. unfold since in *. lia.
Qed.
Lemma place_insert base p q : since base (fst p) < 2147483648 -> Forall (fun x => since base (fst x) < 2147483648) q -> sorted base (map fst q) ->
  map fst (rev (aplace p (rev q))) = insert base (fst p) (map fst q).
Proof.
  intros P W S. rewrite (aplace_insert base p (rev q) P); [rewrite rev_involutive; reflexivity|apply Forall_rev; assumption|rewrite rev_involutive; assumption].
Qed.
Lemma aplace_last (p x : sp) rt : ts_less (r_ts (fst p)) (r_ts (fst x)) = false -> aplace p (rt ++ [x]) = aplace p rt ++ [x].
Proof.
  intros L. induction rt as [|y rt IH]; cbn [app aplace]; [rewrite L; reflexivity|].
  destruct (ts_less (r_ts (fst p)) (r_ts (fst y))); [rewrite IH|]; reflexivity.
Qed.

Lemma flat_mid {X} (F : sp -> list X) a b : flat F (a ++ b) = flat F a ++ flat F b. Proof. apply flat_app. Qed.

Lemma dist_end base (p : sp) j : since base (fst p) < LIM -> 0 <= j <= 491520 -> dist base (u32 (r_ts (fst p) + j)) = since base (fst p) + j.
Proof.
  intros L J. unfold dist, since, LIM in *. pose proof (u32_range (r_ts (fst p) - base)) as R.
  unfold u32 at 1. unfold u32 at 1. rewrite Zminus_mod_idemp_l.
  replace (r_ts (fst p) + j - base) with (r_ts (fst p) - base + j) by lia. rewrite <- Zplus_mod_idemp_l. fold (u32 (r_ts (fst p) - base)).
  apply Z.mod_small. lia.
Qed.

Lemma kept_one a ssrc r : a_ssrc a = None \/ a_ssrc a = Some ssrc -> r_ssrc r = ssrc -> kept a r = a_last a.
Proof. intros [H|H] <-; unfold kept; rewrite H; [reflexivity|]. rewrite Z.eqb_refl. reflexivity. Qed.

(** what remains of the queue after a packet was taken from it, in terms of whole packets *)
Lemma pull_whole last oq q x q' : whole last oq q -> pull q x q' ->
  exists dn' oq', oq = dn' ++ oq' /\ whole (Some (endp x)) oq' q' /\
    exists o j, (j = snd o \/ 0 < j < snd o) /\ endp x = u32 (r_ts (fst o) + j) /\
      ((exists pre, dn' = pre ++ [o] /\ q' = oq') \/ (exists t p, oq' = o :: t /\ q' = p :: t /\ tail_of o p)).
Proof.
  intros W PU.
  (* the queue and the whole packets, element by element *)
  assert (SP : forall pre y t, q = pre ++ y :: t -> exists pre' o, oq = pre' ++ o :: t /\ (o = y \/ tail_of o y)).
  { intros pre y t E. destruct W as [W|(o & t' & p & E1 & E2 & T & _)].
    - exists pre, y. rewrite <- W. auto.
    - rewrite E2 in E. destruct pre as [|p0 pre]; cbn [app] in E; injection E as Ea Eb.
      + subst p t'. exists [], o. auto.
      + subst p0 t'. exists (o :: pre), y. rewrite E1. auto. }
  destruct (pull_end _ _ _ PU) as [(pre & y & E1 & E2)|(pre & y & t & p' & E1 & E2 & T & E4)].
  - destruct (SP _ _ _ E1) as (pre' & o & E3 & L). exists (pre' ++ [o]), q'. split; [rewrite <- app_assoc; exact E3|]. split; [left; reflexivity|].
    exists o, (snd o). split; [auto|]. split; [rewrite E2; destruct L as [->|L]; [reflexivity|exact (tail_of_end _ _ L)]|]. left. eauto.
  - destruct (SP _ _ _ E1) as (pre' & o & E3 & L). assert (TO : tail_of o p') by (destruct L as [->|L]; [exact T|exact (tail_of_trans _ _ _ L T)]).
    exists pre', (o :: t). split; [exact E3|]. split; [right; exists o, t, p'; rewrite E4; auto|].
    pose proof TO as (k & K1 & K2 & K3). exists o, k. split; [auto|]. split; [congruence|]. right. eauto.
Qed.

Definition src_of (b : aobs) : option Z := match b with AIn p => Some (r_ssrc (fst p)) | ALate r => Some (r_ssrc r) | _ => None end.

Lemma since_small base (l : list sp) : windowed base l -> Forall (fun x => since base (fst x) < 2147483648) l.
Proof. unfold windowed, LIM. apply Forall_impl. intros a (H & _). lia. Qed.
Lemma perm_win base (l l' : list sp) : Permutation l l' -> windowed base l -> windowed base l'.
Proof. intros P. unfold windowed. apply Permutation_Forall. exact P. Qed.

Lemma ordered_step base ssrc a b a' ins outs dn oq : astep a b a' -> (src_of b = None \/ src_of b = Some ssrc) -> ordered base ssrc a ins outs dn oq ->
  exists dn' oq', ordered base ssrc a' (ins ++ ains [b]) (outs ++ aouts [b]) dn' oq'.
Proof.
  intros ST SRC [W P F SS T]. destruct ST as [a|a r L|a p L|a x q' seq PU SE]; cbn [ains aouts src_of] in *; rewrite ?app_nil_r.
  - exists dn, oq. constructor; assumption.
  - exists dn, oq. destruct SRC as [X|X]; [discriminate|injection X as X]. rewrite (kept_one a ssrc r SS X), X.
    constructor; cbn [a_q a_last a_ssrc]; auto.
  - destruct SRC as [X|X]; [discriminate|injection X as X]. unfold late in L. rewrite (kept_one a ssrc _ SS X) in *. rewrite X.
    assert (NEW : exists oq', whole (a_last a) oq' (rev (aplace p (rev (a_q a)))) /\ 
              (exists u v, oq = u ++ v /\ oq' = u ++ p :: v) /\
              (exists u v, a_q a = u ++ v /\ rev (aplace p (rev (a_q a))) = u ++ p :: v) /\
              (forall X (G : sp -> list X) l, l ++ flat G (a_q a) = flat G dn ++ flat G oq -> l ++ flat G (rev (aplace p (rev (a_q a)))) = flat G dn ++ flat G oq') /\
              (windowed base (ins ++ [p]) -> map fst (dn ++ oq') = insert base (fst p) (map fst (dn ++ oq)) /\
                 (forall y, begun dn oq' (rev (aplace p (rev (a_q a)))) y -> begun dn oq (a_q a) y))).
    { assert (BEG : windowed base (ins ++ [p]) -> forall y, begun dn oq (a_q a) y -> since base (fst y) <= since base (fst p)).
      { intros WI y BE. apply Forall_app in WI. destruct WI as (W1 & W2). inversion W2 as [|p' l' W3 W4]; subst.
        destruct (T W1) as (_ & T2 & T3). destruct (a_last a) as [l|] eqn:LA.
        - destruct (T2 l eq_refl) as (TL & TB). specialize (TB y BE).
          rewrite (ts_less_dist base) in L by (try exact TL; unfold dist; fold (since base (fst p)); unfold LIM in W3; lia).
          unfold dist at 1 in L. fold (since base (fst p)) in L. lia.
        - exfalso. destruct BE as [BE|(t & x & B1 & B2 & B3)]; [rewrite (T3 eq_refl) in BE; exact BE|].
          destruct W as [W|(o & t' & p0 & _ & _ & _ & E)]; [|discriminate]. rewrite W, B1 in B2. injection B2 as ->. destruct B3 as (k & K & K2 & K3). lia. }
      destruct W as [W|(o & t & x & E1 & E2 & TO & E3)].
      - exists (rev (aplace p (rev (a_q a)))). split; [left; reflexivity|]. destruct (place_split p (a_q a)) as (u & v & S1 & S2).
        split; [exists u, v; rewrite <- W, S2; auto|]. split; [exists u, v; auto|].
        assert (NB : forall y, begun dn (rev (aplace p (rev (a_q a)))) (rev (aplace p (rev (a_q a)))) y -> begun dn oq (a_q a) y).
        { intros y [BE|(t & x & B1 & B2 & (k & K & K2 & K3))]; [left; exact BE|]. rewrite B1 in B2. injection B2 as B2. subst x. lia. }
        split.
        + intros X0 G l EQ. rewrite <- W in EQ. apply app_inv_tail in EQ. rewrite EQ. reflexivity.
        + intros WI. split; [|exact NB]. rewrite !map_app. rewrite insert_after.
          2:{ apply Forall_forall. intros y IY. apply in_map_iff in IY. destruct IY as (z & <- & IZ). apply (BEG WI). left. exact IZ. }
          f_equal. rewrite W. pose proof WI as WI2. apply Forall_app in WI. destruct WI as (W1 & W2). inversion W2 as [|p' l' W3 W4]; subst.
          apply place_insert.
          * unfold LIM in W3. lia.
          * apply (Permutation_sym) in P. pose proof (since_small _ _ (perm_win _ _ _ P W1)) as SM. apply Forall_app in SM. apply SM.
          * destruct (T W1) as (T1 & _). pose proof (by_time_sorted base (map fst ins)) as SO. rewrite <- T1, map_app in SO. apply (sorted_app _ _ _ SO).
      - rewrite E3 in L. assert (RQ : rev (aplace p (rev (a_q a))) = x :: rev (aplace p (rev t))).
        { rewrite E2. cbn [rev]. rewrite aplace_last by exact L. rewrite rev_app_distr. reflexivity. }
        rewrite RQ. exists (o :: rev (aplace p (rev t))). split; [right; exists o, (rev (aplace p (rev t))), x; auto|].
        destruct (place_split p t) as (u & v & S1 & S2). split; [exists (o :: u), v; rewrite E1, S1 at 1; rewrite S2; auto|].
        split; [exists (x :: u), v; rewrite E2, S1 at 1; rewrite S2; auto|]. split.
        + intros X0 G l EQ. rewrite E1, E2 in EQ. rewrite !flat_cons in *. rewrite !app_assoc in *. apply app_inv_tail in EQ. rewrite EQ. reflexivity.
        + intros WI. split.
          * rewrite E1, !map_app. cbn [map]. rewrite insert_after.
            2:{ apply Forall_forall. intros y IY. apply in_map_iff in IY. destruct IY as (z & <- & IZ). apply (BEG WI). left. exact IZ. }
            f_equal. cbn [insert]. assert (SO : since base (fst o) <= since base (fst p)) by (apply (BEG WI); right; exists t, x; auto).
            destruct (Z.ltb_spec (since base (fst p)) (since base (fst o))); [lia|]. f_equal.
            apply Forall_app in WI. destruct WI as (W1 & W2). inversion W2 as [|p' l' W3 W4]; subst. apply place_insert.
            -- unfold LIM in W3. lia.
            -- apply (Permutation_sym) in P. pose proof (since_small _ _ (perm_win _ _ _ P W1)) as SM. apply Forall_app in SM. destruct SM as (_ & SM). inversion SM; assumption.
            -- destruct (T W1) as (T1 & _). pose proof (by_time_sorted base (map fst ins)) as SO2. rewrite <- T1, map_app in SO2. apply sorted_app in SO2. apply SO2.
          * intros y [BE|(t' & x' & B1 & B2 & B3)]; [left; exact BE|]. injection B1 as B1 B1'. subst y. right. exists t, x. injection B2 as B2 _. subst x'. auto. }
    destruct NEW as (oq' & N1 & (u & v & N2 & N3) & (u' & v' & N4 & N5) & N6 & N7).
    exists dn, oq'. constructor; cbn [a_q a_last a_ssrc].
    + exact N1.
    + rewrite N3. rewrite N2 in P. transitivity (p :: (dn ++ u) ++ v).
      * rewrite app_assoc. symmetry. apply Permutation_middle.
      * rewrite <- Permutation_cons_append. constructor. rewrite <- app_assoc. exact P.
    + intros X0 E G A EI. apply Forall_app in EI. destruct EI as (EI & EP). inversion EP as [|p' l' EP1 _]; subst p' l'.
      destruct (F X0 E G A EI) as (EQ & EF). split.
      * rewrite N5. rewrite N4 in EQ. apply Forall_app in EQ. apply Forall_app. split; [apply EQ|constructor; [assumption|apply EQ]].
      * rewrite flat_app. apply N6. rewrite EF, flat_app. reflexivity.
    + right. reflexivity.
    + intros WI. destruct (N7 WI) as (N8 & N9). pose proof WI as WI'. apply Forall_app in WI'. destruct WI' as (W1 & _). destruct (T W1) as (T1 & T2 & T3).
      split; [rewrite N8, T1, map_app, <- by_time_snoc; reflexivity|]. split; [|exact T3].
      intros l LE. destruct (T2 l LE) as (TL & TB). split; [exact TL|]. intros y BE. apply TB, N9, BE.
  - destruct (pull_whole _ _ _ _ _ W PU) as (dn' & oq' & E1 & W' & o & j & J & EP & FIN).
    exists (dn ++ dn'), oq'. constructor; cbn [a_q a_last a_ssrc].
    + exact W'.
    + rewrite <- app_assoc, <- E1. exact P.
    + intros X E G A EI. destruct (F X E G A EI) as (EQ & EF). destruct (pull_add E G _ _ _ A PU EQ) as (I1 & I2 & I3).
      destruct (ad_seq _ _ A x seq I1) as (_ & S2). split; [exact I2|]. rewrite flat_app. cbn [flat map concat]. rewrite app_nil_r, S2.
      fold (flat G q'). rewrite <- app_assoc, I3, EF, <- app_assoc, <- E1. reflexivity.
    + exact SS.
    + intros WI. destruct (T WI) as (T1 & T2 & T3). split; [rewrite <- app_assoc, <- E1; exact T1|]. split; [|discriminate].
      intros l LE. injection LE as <-. fold (endp x). rewrite EP.
      assert (IO : In o oq).
      { rewrite E1. apply in_or_app. destruct FIN as [(pre & -> & _)|(t & p & -> & _)]; [left; apply in_or_app; right; left; reflexivity|right; left; reflexivity]. }
      pose proof (perm_win _ _ _ (Permutation_sym P) WI) as WP. apply Forall_app in WP. destruct WP as (_ & WP).
      unfold windowed in WP. rewrite Forall_forall in WP. destruct (WP o IO) as (OL & (_ & ON & _)).
      rewrite dist_end by (try assumption; lia). split; [unfold LIM in OL; lia|].
      intros y BE. assert (since base (fst y) <= since base (fst o)); [|lia].
      pose proof (by_time_sorted base (map fst ins)) as SO. rewrite <- T1, E1, !map_app in SO.
      assert (LESS : forall l1 l2 u, sorted base (l1 ++ u :: l2) -> forall w, In w l1 -> since base w <= since base u).
      { clear. induction l1 as [|a l1 IH]; intros l2 u S w IW; [destruct IW|]. cbn [app sorted] in S. destruct S as (H & S). destruct IW as [<-|IW].
        - rewrite Forall_forall in H. apply H. apply in_or_app. right. left. reflexivity.
        - exact (IH _ _ S _ IW). }
      destruct FIN as [(pre & D1 & Q1)|(t & p & O1 & Q1 & TO)].
      * destruct BE as [BE|(t & x' & B1 & B2 & (k & K1 & K2 & K3))]; [|rewrite Q1, B1 in B2; injection B2 as ->; lia].
        rewrite D1, map_app in SO. cbn [map] in SO. rewrite <- app_assoc in SO. cbn [app] in SO. rewrite app_assoc in SO.
        rewrite D1, app_assoc in BE. apply in_app_or in BE. destruct BE as [BE|[<-|[]]]; [|lia]. apply (LESS _ _ _ SO). rewrite <- map_app. apply in_map. exact BE.
      * destruct BE as [BE|(t' & x' & B1 & B2 & B3)].
        -- rewrite O1 in SO. cbn [map] in SO. rewrite app_assoc in SO. apply (LESS _ _ _ SO). rewrite <- map_app. apply in_map. exact BE.
        -- rewrite O1 in B1. injection B1 as -> _. lia.
Qed.

Lemma ordered_run base ssrc a l a' : arun a l a' -> Forall (fun b => src_of b = None \/ src_of b = Some ssrc) l ->
  forall ins outs dn oq, ordered base ssrc a ins outs dn oq -> exists dn' oq', ordered base ssrc a' (ins ++ ains l) (outs ++ aouts l) dn' oq'.
Proof.
  induction 1 as [a|a b a1 l a2 ST _ IH]; intros SR ins outs dn oq OR.
  - cbn. rewrite !app_nil_r. eauto.
  - inversion SR as [|b' l' S1 S2]; subst. destruct (ordered_step _ _ _ _ _ _ _ _ _ ST S1 OR) as (dn1 & oq1 & OR1).
    rewrite ains_cons, aouts_cons, !app_assoc. eapply IH; eassumption.
Qed.
Lemma ordered0 base ssrc : ordered base ssrc a0 [] [] [] [].
Proof.
  constructor; cbn; auto.
  - left. reflexivity.
  - intros _. split; [reflexivity|]. split; [discriminate|reflexivity].
Qed.

(** * Bytes *)
Definition bytes_of (p : sp) : list (Z * Z) := map (pair (r_pt (fst p))) (r_payload (fst p)).
Lemma add_bytes : additive (fun _ => True) bytes_of.
Proof.
  constructor; intros; (split; [exact Logic.I|]); try reflexivity.
  - destruct H1 as (PT & _). unfold bytes_of, join, joinp. cbn [fst with_pl r_pt r_payload]. rewrite map_app, PT. reflexivity.
  - split; [exact Logic.I|]. unfold bytes_of, head, tail, headp, tailp. cbn [fst with_pl with_ts r_pt r_payload].
    rewrite <- map_app, firstn_skipn. reflexivity.
Qed.
(** no padding *)
Lemma add_pad : additive (fun p => r_pad (fst p) = []) (fun _ => @nil Z).
Proof. constructor; intros; auto. Qed.
(** source and payload type *)
Lemma add_src ssrc : additive (fun p => r_ssrc (fst p) = ssrc) (fun _ => @nil Z).
Proof. constructor; intros; auto. Qed.

(** * Frames *)
Definition flen (pt ch : Z) : nat :=
  Z.to_nat (if pt =? 18 then 10 else if pt =? 3 then 33
            else if pt =? 4 then (if ch mod 4 =? 0 then 24 else if ch mod 4 =? 1 then 20 else if ch mod 4 =? 2 then 4 else 1) else 1).
Fixpoint fsplit (fuel : nat) (pt : Z) (pl : list Z) : list (list Z) :=
  match fuel with
  | O => []
  | S f => match pl with [] => [] | ch :: _ => firstn (flen pt ch) pl :: fsplit f pt (skipn (flen pt ch) pl) end
  end.
Lemma full_flen pt ch f : full pt (ch :: f) -> length (ch :: f) = flen pt ch /\ (0 < length (ch :: f))%nat.
Proof.
  unfold full, flen. intros H. destruct (pt =? 18); [lia|]. destruct (pt =? 3); [lia|]. destruct (pt =? 4); [|lia].
  destruct (ch mod 4 =? 0); [lia|]. destruct (ch mod 4 =? 1); [lia|]. destruct (ch mod 4 =? 2); lia.
Qed.
Lemma framed_split pt pl fs : framed pt pl fs -> forall fuel, (length pl <= fuel)%nat -> fsplit fuel pt pl = fs.
Proof.
  induction 1 as [|f l fs FU FR IH|f E L]; intros fuel LE.
  - destruct fuel; reflexivity.
  - destruct f as [|ch f]; [destruct FU|]. destruct (full_flen _ _ _ FU) as (FL & FP). rewrite app_length in LE.
    destruct fuel as [|fuel]; [lia|]. cbn [fsplit app]. change (ch :: f ++ l) with ((ch :: f) ++ l).
    rewrite <- FL. rewrite firstn_app, Nat.sub_diag, firstn_all, firstn_O, app_nil_r. rewrite skipn_app_len by reflexivity.
    rewrite IH by lia. reflexivity.
  - destruct f as [|ch f]; [cbn in L; lia|]. destruct fuel as [|fuel]; [cbn in LE; lia|]. cbn [fsplit].
    unfold flen. rewrite E. cbn [Z.eqb Pos.eqb]. rewrite firstn_all2 by lia. rewrite skipn_all2 by lia. destruct fuel; reflexivity.
Qed.
Lemma framed_ten pl fs : framed 18 pl fs -> 10 * (Z.of_nat (length fs) - 1) < Z.of_nat (length pl) <= 10 * Z.of_nat (length fs).
Proof.
  remember 18 as pt eqn:PT. induction 1 as [|f l fs FU FR IH|f E L]; cbn [length]; [lia| |lia].
  destruct f as [|ch f]; [destruct FU|]. unfold full in FU. rewrite PT in FU. cbn [Z.eqb Pos.eqb] in FU. rewrite app_length. lia.
Qed.
Lemma framed_join pt a b fa fb : framed pt a fa -> framed pt b fb -> (pt = 18 -> Z.of_nat (length a) mod 10 = 0) -> framed pt (a ++ b) (fa ++ fb).
Proof.
  induction 1 as [|f l fs FU FR IH|f E L]; intros FB TEN; cbn [app].
  - exact FB.
  - rewrite <- app_assoc. constructor; [exact FU|]. apply IH; [exact FB|]. intros E. specialize (TEN E). rewrite app_length in TEN.
    destruct f as [|ch f]; [destruct FU|]. unfold full in FU. rewrite E in FU. cbn [Z.eqb Pos.eqb] in FU. lia.
  - specialize (TEN E). lia.
Qed.
Definition fbytes (fs : list (list Z)) : nat := length (concat fs).
Lemma framed_cut pt pl fs : framed pt pl fs -> forall j, (j < length fs)%nat ->
  framed pt (firstn (fbytes (firstn j fs)) pl) (firstn j fs) /\ framed pt (skipn (fbytes (firstn j fs)) pl) (skipn j fs).
Proof.
  induction 1 as [|f l fs FU FR IH|f E L]; intros j J.
  - cbn in J. lia.
  - destruct j as [|j]; [cbn; split; constructor; assumption|]. cbn [length] in J. destruct (IH j ltac:(lia)) as (I1 & I2).
    unfold fbytes in *. cbn [firstn concat skipn]. rewrite app_length. split.
    + rewrite firstn_app_2. constructor; assumption.
    + rewrite <- skipn_skipn'. rewrite skipn_app_len by reflexivity. exact I2.
  - cbn [length] in J. replace j with O by lia. cbn. split; [constructor|apply fr_last; assumption].
Qed.
Definition unit_len (pt : Z) : Z := if pt =? 18 then 10 else if pt =? 3 then 33 else 1.
Lemma framed_len pt pl fs : pt <> 4 -> framed pt pl fs -> forall j, (j < length fs)%nat -> Z.of_nat (fbytes (firstn j fs)) = unit_len pt * Z.of_nat j.
Proof.
  intros N4. induction 1 as [|f l fs FU FR IH|f E L]; intros j J; cbn [length] in J; [lia| |replace j with O by lia; cbn; lia].
  destruct j as [|j]; [cbn; lia|]. unfold fbytes in *. cbn [firstn concat]. rewrite app_length, Nat2Z.inj_add, IH by lia.
  destruct f as [|ch f]; [destruct FU|]. unfold full in FU. unfold unit_len in *.
  destruct (pt =? 18); [lia|]. destruct (pt =? 3); [lia|]. destruct (Z.eqb_spec pt 4); [lia|]. lia.
Qed.
Lemma framed_total pt pl fs : pt <> 4 -> pt <> 18 -> framed pt pl fs -> Z.of_nat (length pl) = unit_len pt * Z.of_nat (length fs).
Proof.
  intros N4 N18. induction 1 as [|f l fs FU FR IH|f E L]; [cbn; lia| |lia].
  rewrite app_length, Nat2Z.inj_add, IH. cbn [length]. destruct f as [|ch f]; [destruct FU|]. unfold full in FU. unfold unit_len in *.
  destruct (Z.eqb_spec pt 18); [lia|]. destruct (pt =? 3); [lia|]. destruct (Z.eqb_spec pt 4); lia.
Qed.
Lemma framed_walk pl fs b j : framed 4 pl fs -> walk pl b j -> b < Z.of_nat (length pl) -> (j < length fs)%nat /\ b = Z.of_nat (fbytes (firstn j fs)).
Proof.
  intros FR W. revert fs FR. induction W as [pl|ch l len b j H W IH]; intros fs FR LT.
  - split; [|reflexivity]. destruct FR; cbn in *; lia.
  - inversion FR as [|f l0 fs0 FU FR0 PL E2|f E L]; [|lia]. subst fs.
    destruct f as [|ch' f]; [destruct FU|]. cbn [app] in PL. injection PL as -> PL.
    assert (FL : Z.of_nat (length (ch :: f)) = len).
    { unfold full in FU. cbn [Z.eqb Pos.eqb] in FU. destruct (Z.eqb_spec (ch mod 4) 0); [lia|]. destruct (Z.eqb_spec (ch mod 4) 1); [lia|]. destruct (Z.eqb_spec (ch mod 4) 2); lia. }
    assert (SK : skipn (Z.to_nat len) (ch :: l) = l0).
    { rewrite <- PL. change (ch :: f ++ l0) with ((ch :: f) ++ l0). apply skipn_app_len. lia. }
    rewrite SK in IH. destruct (IH fs0 FR0) as (I1 & I2); [rewrite <- PL in LT; cbn [length] in LT, FL; rewrite app_length in LT; lia|].
    cbn [length]. split; [lia|]. unfold fbytes in *. cbn [firstn concat]. rewrite app_length. lia.
Qed.
Lemma framed_g723 pl fs : framed 4 pl fs -> g723_frames pl (Z.of_nat (length fs)).
Proof.
  remember 4 as pt eqn:PT. induction 1 as [|f l fs FU FR IH|f E L]; [constructor| |lia]. subst pt.
  destruct f as [|ch f]; [destruct FU|]. unfold full in FU. cbn [Z.eqb Pos.eqb] in FU.
  cbn [length app]. rewrite Nat2Z.inj_succ. apply g723_frame with (len := Z.of_nat (length (ch :: f))).
  - destruct (Z.eqb_spec (ch mod 4) 0); [lia|]. destruct (Z.eqb_spec (ch mod 4) 1); [lia|]. destruct (Z.eqb_spec (ch mod 4) 2); lia.
  - rewrite Nat2Z.id. change (ch :: f ++ l) with ((ch :: f) ++ l). rewrite skipn_app_len by reflexivity. apply IH.
Qed.

Definition simple_pt (pt : Z) : Prop := pt = 0 \/ pt = 8 \/ pt = 18 \/ pt = 3 \/ pt = 4.
Definition exact_p (p : sp) : Prop := simple_pt (r_pt (fst p)) /\ exists fs, framed (r_pt (fst p)) (r_payload (fst p)) fs /\ snd p = duration (r_pt (fst p)) * Z.of_nat (length fs).
Definition stamps (p : sp) : list (Z * list Z) := stamp (duration (r_pt (fst p))) (r_ts (fst p)) (fsplit (length (r_payload (fst p))) (r_pt (fst p)) (r_payload (fst p))).

Lemma ns_exact r n fs : nsok (r, n) -> r_pt r <> 9 -> framed (r_pt r) (r_payload r) fs -> exact_p (r, n).
Proof.
  intros (NE & NB & N) N9 FR. cbn [fst snd] in *. unfold exact_p, simple_pt. cbn [fst snd]. split; [lia|]. exists fs. split; [exact FR|]. unfold duration, plen in *.
  destruct N as [[P E]|[[P E]|[[P E]|[[P E]|[P (f & G & E)]]]]]; [|lia| | |].
  - pose proof (framed_total (r_pt r) _ _ ltac:(lia) ltac:(lia) FR) as T. unfold unit_len in T. destruct P as [P|P]; rewrite P in *; cbn [Z.eqb Pos.eqb] in *; lia.
  - rewrite P in *. cbn [Z.eqb Pos.eqb]. pose proof (framed_ten _ _ FR). lia.
  - pose proof (framed_total (r_pt r) _ _ ltac:(lia) ltac:(lia) FR) as T. unfold unit_len in T. rewrite P in *. cbn [Z.eqb Pos.eqb] in *. lia.
  - rewrite P in *. cbn [Z.eqb Pos.eqb]. rewrite (g723_det _ _ G _ (framed_g723 _ _ FR)) in E. exact E.
Qed.

Lemma stamp_app d ts a b : stamp d ts (a ++ b) = stamp d ts a ++ stamp d (ts + d * Z.of_nat (length a)) b.
Proof.
  revert ts. induction a as [|f a IH]; intros ts; cbn [app stamp length]; [f_equal; lia|]. rewrite IH. do 3 f_equal. lia.
Qed.
Lemma stamp_u32 d ts ts' l : u32 ts = u32 ts' -> stamp d ts l = stamp d ts' l.
Proof.
  revert ts ts'. induction l as [|f l IH]; intros ts ts' E; cbn [stamp]; [reflexivity|]. rewrite E. f_equal. apply IH.
  unfold u32 in *. rewrite <- Zplus_mod_idemp_l, E, Zplus_mod_idemp_l. reflexivity.
Qed.
Lemma u32_u32 x : u32 (u32 x) = u32 x. Proof. unfold u32. apply Zmod_mod. Qed.

Lemma exact_cut p b k : exact_p p -> cut p b k -> exists j fs, framed (r_pt (fst p)) (r_payload (fst p)) fs /\ (j < length fs)%nat /\
  b = Z.of_nat (fbytes (firstn j fs)) /\ k = duration (r_pt (fst p)) * Z.of_nat j /\ snd p = duration (r_pt (fst p)) * Z.of_nat (length fs).
Proof.
  intros (PT & fs & FR & N) (B & K & C). unfold plen, simple_pt in *.
  assert (CONST : r_pt (fst p) <> 4 -> b mod unit_len (r_pt (fst p)) = 0 -> k = duration (r_pt (fst p)) * (b / unit_len (r_pt (fst p))) ->
     (Z.to_nat (b / unit_len (r_pt (fst p))) < length fs)%nat -> exists j fs, framed (r_pt (fst p)) (r_payload (fst p)) fs /\ (j < length fs)%nat /\
  b = Z.of_nat (fbytes (firstn j fs)) /\ k = duration (r_pt (fst p)) * Z.of_nat j /\ snd p = duration (r_pt (fst p)) * Z.of_nat (length fs)).
  { intros N4 M KK J. exists (Z.to_nat (b / unit_len (r_pt (fst p)))), fs. split; [exact FR|]. split; [exact J|].
    assert (UP : 0 < unit_len (r_pt (fst p))) by (unfold unit_len; destruct (_ =? 18); [lia|]; destruct (_ =? 3); lia).
    pose proof (Z.div_pos b _ (proj1 B) UP). rewrite (framed_len _ _ _ N4 FR _ J). rewrite Z2Nat.id by assumption.
    split; [|split; assumption]. pose proof (Z.div_mod b (unit_len (r_pt (fst p))) ltac:(lia)). lia. }
  destruct C as [[P E]|[[P E]|[[P E]|[[P E]|[P E]]]]]; [|lia| | |].
  - pose proof (framed_total (r_pt (fst p)) _ _ ltac:(lia) ltac:(lia) FR) as T. apply CONST; unfold unit_len, duration in *; destruct P as [P|P]; rewrite P in *; cbn [Z.eqb Pos.eqb] in *; try lia; rewrite ?Z.div_1_r, ?Z.mod_1_r; lia.
  - apply CONST; [lia|..]; rewrite P in *; unfold unit_len, duration in *; cbn [Z.eqb Pos.eqb] in *; [lia|lia|]. pose proof (framed_ten _ _ FR). lia.
  - pose proof (framed_total (r_pt (fst p)) _ _ ltac:(lia) ltac:(lia) FR) as T. apply CONST; [lia|..]; rewrite P in *; unfold unit_len, duration in *; cbn [Z.eqb Pos.eqb] in *; lia.
  - destruct E as (j & E & W). rewrite P in *. destruct (framed_walk _ _ _ _ FR W) as (J & BB); [lia|]. exists j, fs. unfold duration in *. cbn [Z.eqb Pos.eqb] in *. auto.
Qed.

Lemma stamps_eq p fs : framed (r_pt (fst p)) (r_payload (fst p)) fs -> stamps p = stamp (duration (r_pt (fst p))) (r_ts (fst p)) fs.
Proof. intros FR. unfold stamps. rewrite (framed_split _ _ _ FR) by lia. reflexivity. Qed.

Lemma add_stamps : additive exact_p stamps.
Proof.
  constructor.
  - intros a b (PA & fa & FA & NA) (PB & fb & FB & NB) (PT & TS & TEN). rewrite <- PT in FB, NB.
    assert (FJ : framed (r_pt (fst (join a b))) (r_payload (fst (join a b))) (fa ++ fb)) by (apply framed_join; assumption).
    split.
    + split; [exact PA|]. exists (fa ++ fb). split; [exact FJ|]. cbn [join joinp fst snd with_pl r_pt]. rewrite app_length, NA, NB. lia.
    + rewrite (stamps_eq _ _ FJ), (stamps_eq _ _ FA). rewrite (stamps_eq b fb) by (rewrite <- PT; exact FB). cbn [join joinp fst with_pl r_pt r_ts].
      rewrite stamp_app. f_equal. rewrite <- PT. apply stamp_u32. rewrite <- TS, NA, u32_u32. reflexivity.
  - intros p b k EP C. destruct (exact_cut p b k EP C) as (j & fs & FR & J & B & K & N). destruct (framed_cut _ _ _ FR j J) as (F1 & F2).
    assert (ZB : Z.to_nat b = fbytes (firstn j fs)) by lia. rewrite <- ZB in F1, F2.
    assert (H1 : framed (r_pt (fst (head p b k))) (r_payload (fst (head p b k))) (firstn j fs)) by exact F1.
    assert (H2 : framed (r_pt (fst (tail p b k))) (r_payload (fst (tail p b k))) (skipn j fs)) by exact F2.
    split; [|split].
    + split; [apply EP|]. exists (firstn j fs). split; [exact H1|]. cbn [head headp fst snd with_pl r_pt]. rewrite firstn_length, K. lia.
    + split; [apply EP|]. exists (skipn j fs). split; [exact H2|]. cbn [tail tailp fst snd with_pl with_ts r_pt]. rewrite skipn_length, K, N. lia.
    + rewrite (stamps_eq _ _ FR), (stamps_eq _ _ H1), (stamps_eq _ _ H2). cbn [head headp tail tailp fst snd with_pl with_ts r_pt r_ts].
      rewrite <- (firstn_skipn j fs) at 1. rewrite stamp_app. f_equal. apply stamp_u32. rewrite firstn_length, Nat.min_l by lia. rewrite <- K, u32_u32. reflexivity.
  - intros p EP. split; [exact EP|reflexivity].
  - intros p s EP. split; [exact EP|reflexivity].
Qed.

(** * Sequence numbers *)
Lemma pull_seqs (Q : Z -> Prop) q x q' : pull q x q' -> Forall (fun p => Q (r_seq (fst p))) q -> Q (r_seq (fst x)) /\ Forall (fun p => Q (r_seq (fst p))) q'.
Proof.
  assert (EX : forall c q x q', ext c q x q' -> Q (r_seq (fst c)) -> Forall (fun p => Q (r_seq (fst p))) q -> Q (r_seq (fst x)) /\ Forall (fun p => Q (r_seq (fst p))) q').
  { induction 1 as [c0 q0|c0 p q0 x0 q0' J H IH|c0 p q0 b k J C]; intros QC QQ; [auto| |].
    - inversion QQ; subst. apply IH; assumption.
    - inversion QQ; subst. split; [exact QC|]. constructor; assumption. }
  destruct 1 as [p q x q' H|p q b k C]; intros QQ; inversion QQ; subst; [eapply EX; eassumption|]. split; [assumption|]. constructor; assumption.
Qed.
Lemma seq_run (Q : Z -> Prop) a l a' : arun a l a' -> Forall (fun p => Q (r_seq (fst p))) (ains l) -> Forall (fun p => Q (r_seq (fst p))) (a_q a) ->
  numbered (map fst (aouts l)) /\
  forall p t, aouts l = p :: t -> match a_seq a with Some v => r_seq (fst p) = v | None => Q (r_seq (fst p)) end.
Proof.
  induction 1 as [a|a b a1 l a2 ST _ IH]; intros QI QQ.
  - split; [intros i x y H; destruct i; discriminate|discriminate].
  - rewrite ains_cons in QI. apply Forall_app in QI. destruct QI as (QB & QI). specialize (IH QI).
    destruct ST as [a|a r L|a p L|a x q' seq PU SE]; cbn [aouts ains a_q a_seq] in *; auto.
    + apply IH. destruct (place_split p (a_q a)) as (u & v & E1 & E2). rewrite E2. rewrite E1 in QQ. apply Forall_app in QQ. inversion QB; subst.
      apply Forall_app. split; [apply QQ|constructor; [assumption|apply QQ]].
    + destruct (pull_seqs Q _ _ _ PU QQ) as (QX & QQ'). destruct (IH QQ') as (NU & HD). split.
      * intros i y z. destruct i as [|i]; cbn [map nth_error].
        -- intros E1 E2. injection E1 as <-. destruct (aouts l) as [|p t]; [discriminate|]. cbn [map nth_error] in E2. injection E2 as <-. rewrite (HD p t eq_refl). reflexivity.
        -- intros E1 E2. exact (NU i y z E1 E2).
      * intros p t E. injection E as <- _. destruct (a_seq a) as [v|]; subst seq; [reflexivity|exact QX].
Qed.

(** * Draining *)
Definition meas (q : list sp) : Z := zsum (fun p => 1 + snd p) q.
Lemma ext_meas c q x q' : ext c q x q' -> Forall nsok q -> meas q' <= meas q.
Proof.
  unfold meas. induction 1 as [c q|c p q x q' J H IH|c p q b k J C]; intros N; [lia| |]; inversion N as [|p' q1 (_ & N1 & _) N2]; subst; cbn [zsum].
  - specialize (IH N2). lia.
  - destruct C as (_ & K & _). cbn [tail snd]. lia.
Qed.
Lemma pull_meas q x q' : pull q x q' -> Forall nsok q -> meas q' < meas q.
Proof.
  destruct 1 as [p q x q' H|p q b k C]; intros N; inversion N as [|p' q1 (_ & N1 & _) N2]; subst.
  - pose proof (ext_meas _ _ _ _ H N2). unfold meas in *. cbn [zsum]. lia.
  - destruct C as (_ & K & _). unfold meas. cbn [zsum tail unm snd]. lia.
Qed.
Lemma meas_nonneg q : Forall nsok q -> 0 <= meas q.
Proof. unfold meas. induction 1 as [|p l (_ & N & _) _ IH]; cbn [zsum]; lia. Qed.
Lemma ts_less_refl x : ts_less x x = false.
Proof. unfold ts_less. rewrite Z.sub_diag. reflexivity. Qed.

(** a packet comes out when enough was gathered, or the first one has waited long enough *)
Lemma get_gives s a now : sim s a -> s_q s <> [] -> s_out s <= zsum snd (a_q a) \/
  (forall p, nth_error (s_q s) 0 = Some p -> u32 (now + match s_delta s with Some d => d | None => 0 end) = u32 (z_ts p + s_max s)) ->
  exists s' d a' x, step s (Get now true) = Some (s', OOut d) /\ sim s' a' /\ meas (a_q a') < meas (a_q a) /\ astep a (AOut x) a'.
Proof.
  intros SI NE HOW. pose proof SI as [Q NS LS SQ SS TO SR OU].
  destruct (step_sim s a (Get now true) SI Logic.I) as (s' & b & a' & ab & ST & S' & OB & AS).
  cbn [step] in ST. destruct (get s now true) as [[s1 o]|] eqn:G; [|discriminate].
  assert (SOME : exists z, o = Some z).
  { unfold get in G. destruct (s_q s) as [|z q] eqn:SQE; [congruence|].
    assert (W : (s_total s <? s_out s) && ts_less (u32 (now + match s_delta s with Some d => d | None => 0 end)) (u32 (z_ts z + s_max s)) = false).
    { destruct HOW as [H|H]; [rewrite TO; destruct (Z.ltb_spec (zsum snd (a_q a)) (s_out s)); [lia|reflexivity]|]. rewrite (H z eq_refl), ts_less_refl. apply andb_false_r. }
    rewrite W in G.
    destruct (agg_none (round_out (s_out s) (min_nsamples (z_pt z))) true (z :: q) (a_q a) (round_pos _ _ OU) Q NS) as (o' & q' & AG & HO).
    rewrite AG in G. destruct o' as [r|]; [injection G as <- <-; eauto|]. destruct HO as (_ & [X|X]); discriminate. }
  destruct SOME as (z & ->). injection ST as <- <-. exists s1, (wire z), a', (match ab with AOut p => p | _ => (mkRtp 0 0 0 0 0 [] None [] [], 0) end).
  cbn [step]. rewrite G. split; [reflexivity|]. split; [exact S'|]. inversion OB as [| | | |d p HP E1 E2]; subst ab. split; [|exact AS].
  inversion AS as [| | |a1 x q' seq PU SE E3 E4]; subst. cbn [a_q]. exact (pull_meas _ _ _ PU NS).
Qed.

Lemma drain_ok : forall (n : nat) s a, sim s a -> (Z.to_nat (meas (a_q a)) <= n)%nat ->
  exists gets s' tr a' atr, Forall is_get gets /\ run s gets = Some (s', tr) /\ s_q s' = [] /\ sim s' a' /\ Forall2 osim tr atr /\ arun a atr a' /\ taken tr = [].
Proof.
  assert (DONE : forall s a, sim s a -> s_q s = [] ->
    exists gets s' tr a' atr, Forall is_get gets /\ run s gets = Some (s', tr) /\ s_q s' = [] /\ sim s' a' /\ Forall2 osim tr atr /\ arun a atr a' /\ taken tr = []).
  { intros s a SI E. exists [], s, [], a, []. split; [constructor|]. split; [reflexivity|]. split; [exact E|]. split; [exact SI|]. split; [constructor|]. split; [constructor|reflexivity]. }
  induction n as [|n IH]; intros s a SI M; (destruct (s_q s) as [|z q] eqn:SQE; [exact (DONE s a SI SQE)|]).
  - exfalso. pose proof (m_q _ _ SI) as Q. rewrite SQE in Q. pose proof (m_ns _ _ SI) as N. destruct (a_q a) as [|p ps]; [inversion Q|].
    inversion N as [|p' q1 (_ & N1 & _) N2]; subst. pose proof (meas_nonneg _ N2). unfold meas in *. cbn [zsum] in *. lia.
  - set (now := u32 (z_ts z + s_max s - match s_delta s with Some d => d | None => 0 end)).
    destruct (get_gives s a now SI) as (s1 & d & a1 & x & ST & S1 & M1 & AS); [rewrite SQE; discriminate| |].
    { right. intros p E. rewrite SQE in E. injection E as <-. unfold now. rewrite u32_mid. f_equal. lia. }
    pose proof (meas_nonneg _ (m_ns _ _ S1)).
    destruct (IH s1 a1 S1 ltac:(lia)) as (gets & s2 & tr & a2 & atr & G & RN & Q2 & S2 & OS & AR & TK).
    destruct (step_sim s a (Get now true) SI Logic.I) as (s1' & b & a1' & ab & ST' & S1' & OB & AS'). rewrite ST in ST'. injection ST' as <- <-.
    destruct (IH s1 a1' S1') as (gets' & s2' & tr' & a2' & atr' & G' & RN' & Q2' & S2' & OS' & AR' & TK').
    { inversion OB as [| | | |d' p HP E1 E2]; subst ab. inversion AS' as [| | |a3 x3 q3 seq PU SE E3 E4]; subst. cbn [a_q].
      pose proof (pull_meas _ _ _ PU (m_ns _ _ SI)). pose proof (meas_nonneg _ (m_ns _ _ S1')). cbn [a_q] in *. lia. }
    exists (Get now true :: gets'), s2', (OOut d :: tr'), a2', (ab :: atr'). split; [constructor; [exact Logic.I|exact G']|].
    cbn [run]. rewrite ST, RN'. split; [reflexivity|]. split; [exact Q2'|]. split; [exact S2'|]. split; [constructor; assumption|]. split; [econstructor; eassumption|exact TK'].
Qed.

(** * From the abstract machine to datagrams *)
Lemma reach n os s tr : 0 < n -> Forall valid os -> run (resizer_new n) os = Some (s, tr) ->
  exists a atr, sim s a /\ Forall2 osim tr atr /\ arun a0 atr a.
Proof.
  intros N V R. destruct (run_sim os _ _ (sim0 n N) V) as (s' & tr' & a & atr & R' & SI & OS & AR). rewrite R in R'. injection R' as <- <-. eauto.
Qed.
Lemma forall2_is_in ds rs : Forall2 is ds rs -> forall r, In r rs -> exists d, In d ds /\ is d r.
Proof. induction 1 as [|d r ds rs H F IH]; intros r0 I0; [destruct I0|]. destruct I0 as [<-|I0]; [exists d; cbn; auto|]. destruct (IH _ I0) as (d' & ? & ?). exists d'. cbn. auto. Qed.
Lemma pad_in tr atr : Forall2 osim tr atr -> unpadded tr -> Forall (fun p => r_pad (fst p) = []) (ains atr).
Proof.
  intros OS U. destruct (osim_ins _ _ OS) as (IS & _). apply Forall_forall. intros p IP.
  destruct (forall2_is_in _ _ IS (fst p) (in_map fst _ _ IP)) as (d & ID & I). exact (U d (fst p) ID I).
Qed.
Lemma held_ok q ps : Forall2 repp q ps -> Forall (fun p => r_pad (fst p) = []) ps -> Forall2 is (map wire q) (map fst ps).
Proof. induction 1 as [|z p q ps R _ IH]; intros F; [constructor|]. inversion F; subst. constructor; [apply wire_ok; assumption|auto]. Qed.
Lemma flat_media l : flat bytes_of l = media (map fst l).
Proof. unfold flat, media. rewrite map_map. reflexivity. Qed.
Lemma one_src ssrc tr atr : Forall2 osim tr atr -> one_source ssrc tr -> Forall (fun b => src_of b = None \/ src_of b = Some ssrc) atr.
Proof.
  intros OS U. induction OS as [|b ab tr atr OB _ IH]; [constructor|]. constructor.
  - destruct OB as [d|d r IS|d p IS N| |d p IS]; cbn [src_of]; auto; right; f_equal.
    + apply (U d ELate r); [left; reflexivity|discriminate|exact IS].
    + apply (U d ETaken (fst p)); [left; reflexivity|discriminate|exact IS].
  - apply IH. intros d e r I0. apply (U d e r). right. exact I0.
Qed.
Lemma balanced0 : balanced [] [] (a_q a0).
Proof. intros X E F A _. repeat split; constructor. Qed.

Lemma exact_timed l : Forall exact_p l -> Forall2 timed (map fst l) (map stamps l).
Proof.
  induction 1 as [|p l (_ & fs & FR & _) _ IH]; [constructor|]. cbn [map]. constructor; [|exact IH]. exists fs. split; [exact FR|]. apply stamps_eq, FR.
Qed.
Lemma exact_ins l : Forall nsok l -> Forall (fun p => framable (fst p)) l -> Forall exact_p l.
Proof.
  induction 1 as [|p l N _ IH]; intros F; [constructor|]. inversion F as [|p' l' (N9 & fs & FR) F']; subst. constructor; [|auto].
  destruct p as [r n]. apply (ns_exact r n fs N N9 FR).
Qed.
Lemma exact_lasts p : exact_p p -> lasts (fst p) (snd p).
Proof. intros (_ & fs & FR & N). exists fs. auto. Qed.
Lemma framed_det pt pl f1 f2 : framed pt pl f1 -> framed pt pl f2 -> f1 = f2.
Proof. intros A B. rewrite <- (framed_split _ _ _ A (length pl)) by lia. apply (framed_split _ _ _ B). lia. Qed.
Lemma lasts_det r n m : lasts r n -> lasts r m -> n = m.
Proof. intros (f & F & ->) (g & G & ->). rewrite (framed_det _ _ _ _ F G). reflexivity. Qed.
Lemma Forall_fst (P : rtp_pkt -> Prop) (l : list sp) : Forall P (map fst l) <-> Forall (fun p => P (fst p)) l.
Proof. induction l as [|p l IH]; cbn; split; intros H; try constructor; inversion H; subst; try assumption; apply IH; assumption. Qed.
Lemma win_in base l : Forall nsok l -> window base (map fst l) -> windowed base l.
Proof.
  unfold window, windowed. intros N W. apply Forall_fst in W. rewrite Forall_forall in *. intros p IP. split; [exact (W p IP)|exact (N p IP)].
Qed.

Lemma last_run ssrc a l a' : arun a l a' -> Forall (fun b => src_of b = None \/ src_of b = Some ssrc) l -> (a_ssrc a = None \/ a_ssrc a = Some ssrc) ->
  (a_ssrc a' = None \/ a_ssrc a' = Some ssrc) /\ a_last a' = match rev (aouts l) with [] => a_last a | p :: _ => Some (endp p) end.
Proof.
  induction 1 as [a|a b a1 l a2 ST _ IH]; intros SR SS; [auto|]. inversion SR as [|b' l' S1 S2]; subst. rewrite aouts_cons, rev_app_distr.
  assert (A1 : (a_ssrc a1 = None \/ a_ssrc a1 = Some ssrc) /\ a_last a1 = match rev (aouts [b]) with [] => a_last a | p :: _ => Some (endp p) end).
  { destruct ST as [a|a r L|a p L|a x q' seq PU SE]; cbn [aouts rev app src_of a_ssrc a_last] in *; auto.
    - destruct S1 as [X|X]; [discriminate|injection X as X]. rewrite (kept_one a ssrc r SS X), X. auto.
    - destruct S1 as [X|X]; [discriminate|injection X as X]. rewrite (kept_one a ssrc _ SS X), X. auto. }
  destruct A1 as (A1 & A2). destruct (IH S2 A1) as (I1 & I2). split; [exact I1|]. rewrite I2. destruct (rev (aouts l)) as [|p t]; [exact A2|reflexivity].
Qed.

Lemma is_same d r r' : is d r -> is d r' -> r_ts r = r_ts r' /\ r_pt r = r_pt r' /\ r_payload r = r_payload r' /\ r_ssrc r = r_ssrc r'.
Proof.
  intros (W & E) (W' & E'). destruct (encode_parses r W) as (i & P & D1 & D2 & D3 & D4 & D5 & D6 & _). destruct (encode_parses r' W') as (i' & P' & D1' & D2' & D3' & D4' & D5' & D6' & _).
  rewrite E in P. rewrite E', P in P'. injection P' as <-. split; [congruence|]. split; [congruence|]. split; [|congruence].
  assert (X : pre r ++ r_payload r ++ r_pad r = pre r' ++ r_payload r' ++ r_pad r') by (rewrite <- !enc_pre; congruence).
  fold (pre r) in D1. fold (pre r') in D1'. apply (f_equal (skipn (length (pre r)))) in X.
  rewrite skipn_app_len in X by reflexivity. rewrite skipn_app_len in X by lia.
  apply (f_equal (firstn (length (r_payload r)))) in X. rewrite firstn_app, Nat.sub_diag, firstn_all, firstn_O, app_nil_r in X.
  replace (length (r_payload r)) with (length (r_payload r')) in X by lia. rewrite firstn_app, Nat.sub_diag, firstn_all, firstn_O, app_nil_r in X. exact X.
Qed.
Lemma lasts_same d r r' n : is d r -> is d r' -> lasts r n -> lasts r' n.
Proof. intros I1 I2. destruct (is_same _ _ _ I1 I2) as (_ & P & L & _). unfold lasts. rewrite P, L. auto. Qed.

Lemma enq_cases s d its s' e : enqueue s d its = Some (s', e) -> forall i, packet_parse d = POk i -> ri_nsamples i <> NS_UNKNOWN -> e <> EBack.
Proof.
  unfold enqueue. intros EN i PA NU. rewrite PA in EN. destruct (Z.eqb_spec (ri_nsamples i) NS_UNKNOWN) as [X|_]; [contradiction|]. cbv zeta in EN.
  apply (f_equal (fun o => match o with Some (_, x) => Some x | None => None end)) in EN.
  match type of EN with context [if ?c then Some (?s1, ELate) else Some (?s2, ETaken)] => generalize dependent s2; generalize dependent s1; generalize dependent c end.
  intros c s1 EN s2. destruct c; intros EN'; congruence.
Qed.
Lemma enq_out s d its s' e : enqueue s d its = Some (s', e) -> s_out s' = s_out s.
Proof.
  unfold enqueue. intros EN. destruct (packet_parse d) as [| |i]; [discriminate|congruence|].
  destruct (_ =? NS_UNKNOWN); [congruence|]. cbv zeta in EN.
  apply (f_equal (fun o => match o with Some (x, _) => s_out x | None => s_out s' end)) in EN. cbv beta iota in EN.
  match type of EN with context [if ?c then _ else _] => destruct c end; cbn [s_out] in EN; congruence.
Qed.
Lemma out_now n os s s' tr : s_out s = 8 * n -> run s os = Some (s', tr) -> s_out s' = 8 * ptime_now n os.
Proof.
  revert n s tr. induction os as [|o os IH]; intros n s tr E R; cbn [run ptime_now] in *; [congruence|].
  destruct (step s o) as [[s1 b]|] eqn:ST; [|discriminate]. destruct (run s1 os) as [[s2 t]|] eqn:R2; [|discriminate]. injection R as <- _.
  assert (S1 : s_out s1 = 8 * match o with SetPtime m => m | _ => n end).
  { destruct o as [d its|now mem|m]; cbn [step] in ST.
    - destruct (enqueue s d its) as [[s3 e]|] eqn:EN; [|discriminate]. injection ST as <- _. rewrite (enq_out _ _ _ _ _ EN). exact E.
    - unfold get in ST. destruct (s_q s); [injection ST as <- _; exact E|]. destruct (_ && _); [injection ST as <- _; exact E|].
      destruct (aggregate _ _ _ _) as [[[r|] q]|]; [| |discriminate]; injection ST as <- _; exact E.
    - injection ST as <- _. unfold set_ptime. cbn [s_out]. lia. }
  destruct o; eapply IH; eassumption.
Qed.

(** * The statements *)
Section Statements.
Context (ptime : Z) (os : list op) (s : rsz) (tr : list obs).
Context (PT : 0 < ptime) (VA : Forall valid os) (RUN : run (resizer_new ptime) os = Some (s, tr)) (UP : unpadded tr).

Lemma st_all : exists a atr, sim s a /\ Forall2 osim tr atr /\ arun a0 atr a /\
  Forall2 is (taken tr) (map fst (ains atr)) /\ Forall2 is (sent tr) (map fst (aouts atr)) /\ Forall2 is (map wire (s_q s)) (map fst (a_q a)) /\
  balanced (ains atr) (aouts atr) (a_q a) /\ Forall nsok (ains atr).
Proof.
  destruct (reach _ _ _ _ PT VA RUN) as (a & atr & SI & OS & AR). exists a, atr. split; [exact SI|]. split; [exact OS|]. split; [exact AR|].
  destruct (osim_ins _ _ OS) as (IS & NS). pose proof (balanced_run _ _ _ AR [] [] balanced0) as B. cbn [app] in B.
  destruct (B Z _ _ add_pad (pad_in _ _ OS UP)) as (PQ & PO & _).
  split; [exact IS|]. split; [exact (osim_outs _ _ OS PO)|]. split; [exact (held_ok _ _ (m_q _ _ SI) PQ)|]. split; assumption.
Qed.

Lemma st_media : exists ins outs held, Forall2 is (taken tr) ins /\ Forall2 is (sent tr) outs /\ Forall2 is (map wire (s_q s)) held /\
  Permutation (media outs ++ media held) (media ins).
Proof.
  destruct st_all as (a & atr & SI & OS & AR & I1 & I2 & I3 & B & NS). do 3 eexists. split; [exact I1|]. split; [exact I2|]. split; [exact I3|].
  rewrite <- !flat_media. apply (B _ _ _ add_bytes). apply Forall_forall. auto.
Qed.

Lemma st_timing : (forall d r, In d (taken tr) -> is d r -> framable r) ->
  exists ins outs held ti to th, Forall2 is (taken tr) ins /\ Forall2 is (sent tr) outs /\ Forall2 is (map wire (s_q s)) held /\
    Forall2 timed ins ti /\ Forall2 timed outs to /\ Forall2 timed held th /\ Permutation (concat to ++ concat th) (concat ti).
Proof.
  intros FR. destruct st_all as (a & atr & SI & OS & AR & I1 & I2 & I3 & B & NS).
  assert (EX : Forall exact_p (ains atr)).
  { apply exact_ins; [exact NS|]. apply Forall_forall. intros p IP. destruct (forall2_is_in _ _ I1 (fst p) (in_map fst _ _ IP)) as (d & ID & I). exact (FR d _ ID I). }
  destruct (B _ _ _ add_stamps EX) as (EQ & EO & P).
  do 6 eexists. split; [exact I1|]. split; [exact I2|]. split; [exact I3|]. split; [exact (exact_timed _ EX)|]. split; [exact (exact_timed _ EO)|]. split; [exact (exact_timed _ EQ)|exact P].
Qed.

Lemma st_order ssrc : one_source ssrc tr ->
  exists ins outs held order, Forall2 is (taken tr) ins /\ Forall2 is (sent tr) outs /\ Forall2 is (map wire (s_q s)) held /\
    Permutation order ins /\ media outs ++ media held = media order /\ Forall (fun r => r_ssrc r = ssrc) outs /\
    (forall base, window base ins -> media outs ++ media held = media (by_time base ins)) /\
    (forall base, window base ins -> Forall framable ins ->
       exists to th tord, Forall2 timed outs to /\ Forall2 timed held th /\ Forall2 timed (by_time base ins) tord /\ concat to ++ concat th = concat tord).
Proof.
  intros OSR. destruct st_all as (a & atr & SI & OS & AR & I1 & I2 & I3 & B & NS).
  pose proof (one_src _ _ _ OS OSR) as SRC.
  assert (ORD : forall base, exists dn oq, ordered base ssrc a (ains atr) (aouts atr) dn oq).
  { intros base. destruct (ordered_run base ssrc _ _ _ AR SRC [] [] [] [] (ordered0 base ssrc)) as (dn & oq & OR). exists dn, oq. exact OR. }
  assert (TR : Forall (fun _ : sp => True) (ains atr)) by (apply Forall_forall; auto).
  destruct (ORD 0) as (dn & oq & [OW OP OF OSS OT]).
  exists (map fst (ains atr)), (map fst (aouts atr)), (map fst (a_q a)), (map fst (dn ++ oq)).
  split; [exact I1|]. split; [exact I2|]. split; [exact I3|]. split; [apply Permutation_map; exact OP|]. split; [|split; [|split]].
  - rewrite <- !flat_media. apply (OF _ _ _ add_bytes TR).
  - apply Forall_fst. assert (SI2 : Forall (fun p => r_ssrc (fst p) = ssrc) (ains atr)).
    { clear - SRC. induction SRC as [|b l [H|H] _ IH]; [constructor| |]; destruct b; cbn [ains src_of] in *; try discriminate; try assumption. constructor; [congruence|assumption]. }
    apply (B _ _ _ (add_src ssrc) SI2).
  - intros base W. destruct (ORD base) as (dn' & oq' & [OW' OP' OF' OSS' OT']). rewrite <- !flat_media. destruct (OF' _ _ _ add_bytes TR) as (_ & ->).
    destruct (OT' (win_in _ _ NS W)) as (<- & _). apply flat_media.
  - intros base W FR. destruct (ORD base) as (dn' & oq' & [OW' OP' OF' OSS' OT']).
    assert (EX : Forall exact_p (ains atr)) by (apply exact_ins; [exact NS|apply Forall_fst; exact FR]).
    destruct (OF' _ _ _ add_stamps EX) as (EQ & FE). destruct (B _ _ _ add_stamps EX) as (_ & EO & _). destruct (OT' (win_in _ _ NS W)) as (<- & _).
    do 3 eexists. split; [exact (exact_timed _ EO)|]. split; [exact (exact_timed _ EQ)|]. split; [|exact FE].
    apply exact_timed. eapply Permutation_Forall; [symmetry; exact OP'|exact EX].
Qed.

Lemma st_seq : exists outs, Forall2 is (sent tr) outs /\ numbered outs /\
  forall o t, outs = o :: t -> exists d r, In d (taken tr) /\ is d r /\ r_seq o = r_seq r.
Proof.
  destruct st_all as (a & atr & SI & OS & AR & I1 & I2 & I3 & B & NS). exists (map fst (aouts atr)). split; [exact I2|].
  destruct (seq_run (fun v => exists d r, In d (taken tr) /\ is d r /\ v = r_seq r) _ _ _ AR) as (NU & HD).
  - apply Forall_forall. intros p IP. destruct (forall2_is_in _ _ I1 (fst p) (in_map fst _ _ IP)) as (d & ID & I). eauto.
  - constructor.
  - split; [exact NU|]. intros o t E. destruct (aouts atr) as [|p l]; [discriminate|]. injection E as <- _. exact (HD p l eq_refl).
Qed.

Lemma st_late ssrc d its r i : one_source ssrc tr -> (forall d r, In d (taken tr) -> is d r -> framable r) ->
  Forall byte d -> Z.of_nat (length d) <= 8192 -> is d r -> r_ssrc r = ssrc -> packet_parse d = POk i -> ri_nsamples i <> -1 ->
  exists s' e, step s (Enq d its) = Some (s', OEnq d e) /\ e <> EBack /\
    (e = ELate <-> exists l x o n, sent tr = l ++ [x] /\ is x o /\ lasts o n /\ earlier (r_ts r) (u32 (r_ts o + n))).
Proof.
  intros OSR FR BY LE IS SR PA NU. destruct st_all as (a & atr & SI & OS & AR & I1 & I2 & I3 & B & NS).
  assert (EX : Forall exact_p (ains atr)).
  { apply exact_ins; [exact NS|]. apply Forall_forall. intros p IP. destruct (forall2_is_in _ _ I1 (fst p) (in_map fst _ _ IP)) as (d' & ID & I). exact (FR d' _ ID I). }
  destruct (B _ _ _ add_stamps EX) as (_ & EO & _).
  destruct (last_run ssrc _ _ _ AR (one_src _ _ _ OS OSR) (or_introl eq_refl)) as (ASS & LA).
  destruct (step_sim s a (Enq d its) SI (conj BY LE)) as (s' & b & a' & ab & ST & S' & OB & AS).
  cbn [step] in *. destruct (enqueue s d its) as [[s1 e]|] eqn:EN; [|discriminate]. injection ST as <- <-. exists s1, e. split; [reflexivity|].
  assert (NB : e <> EBack).
  { exact (enq_cases _ _ _ _ _ EN i PA NU). }
  split; [exact NB|].
  assert (LATE : e = ELate <-> late a r = true).
  { inversion OB as [d0|d0 r0 IS0|d0 p0 IS0 N0| |]; subst.
    - exfalso. apply NB. reflexivity.
    - inversion AS as [|a1 r1 L| |]; subst. destruct (is_same _ _ _ IS IS0) as (T1 & _ & _ & T2). unfold late, kept in *. rewrite T1, T2. tauto.
    - inversion AS as [| |a1 p1 L|]; subst. destruct (is_same _ _ _ IS IS0) as (T1 & _ & _ & T2). unfold late, kept in *. rewrite T1, T2. split; [discriminate|congruence]. }
  rewrite LATE. unfold late. rewrite (kept_one a ssrc r ASS SR), LA. clear LATE LA.
  destruct (rev (aouts atr)) as [|p t] eqn:RV.
  - cbn [a_last a0]. split; [discriminate|]. intros (l & x & o & n & E & _). exfalso. apply (f_equal (@rev _)) in RV. rewrite rev_involutive in RV. rewrite RV in I2.
    rewrite E in I2. inversion I2 as [E3|]. destruct l; discriminate.
  - apply (f_equal (@rev _)) in RV. rewrite rev_involutive in RV. cbn [rev] in RV. rewrite RV in I2, EO. rewrite map_app in I2. cbn [map] in I2.
    apply Forall2_app_inv_r in I2. destruct I2 as (l1 & l2 & F1 & F2 & E). inversion F2 as [|x o' l3 l4 IX F3]; subst. inversion F3; subst.
    apply Forall_app in EO. destruct EO as (_ & EO). inversion EO as [|p' l5 EP _]; subst. pose proof (exact_lasts _ EP) as LP. unfold ts_less, earlier. fold (endp p).
    split.
    + intros H. exists l1, x, (fst p), (snd p). split; [exact E|]. split; [exact IX|]. split; [exact LP|]. unfold endp in H. lia.
    + intros (l & x' & o & n & E' & IX' & LO & H). rewrite E in E'. apply app_inj_tail in E'. destruct E' as (_ & <-).
      destruct (is_same _ _ _ IX IX') as (T1 & _). pose proof (lasts_det _ _ _ LP (lasts_same _ _ _ _ IX' IX LO)) as T2. unfold endp. rewrite T1, T2. lia.
Qed.

Lemma st_full held ns now : (forall d r, In d (taken tr) -> is d r -> framable r) -> Forall2 is (map wire (s_q s)) held -> Forall2 lasts held ns -> held <> [] ->
  8 * ptime_now ptime os <= zsum (fun n => n) ns -> exists s' d, step s (Get now true) = Some (s', OOut d).
Proof.
  intros FR HE LA NE FU. destruct st_all as (a & atr & SI & OS & AR & I1 & I2 & I3 & B & NS).
  assert (EX : Forall exact_p (ains atr)).
  { apply exact_ins; [exact NS|]. apply Forall_forall. intros p IP. destruct (forall2_is_in _ _ I1 (fst p) (in_map fst _ _ IP)) as (d' & ID & I). exact (FR d' _ ID I). }
  destruct (B _ _ _ add_stamps EX) as (EQ & _).
  assert (SM : zsum snd (a_q a) = zsum (fun n => n) ns).
  { clear - HE LA I3 EQ. revert held ns I3 HE LA. generalize (map wire (s_q s)). induction EQ as [|p q EP _ IH]; intros ds held ns I3 HE LA; cbn [map] in I3; inversion I3; subst; inversion HE; subst; inversion LA; subst; [reflexivity|].
    cbn [zsum]. erewrite IH by eassumption. f_equal. eapply lasts_det; [apply exact_lasts; exact EP|]. eapply lasts_same; [| |eassumption]; eassumption. }
  destruct (get_gives s a now SI) as (s1 & d & a1 & x & ST & _).
  - intros E. rewrite E in HE. inversion HE; subst. congruence.
  - left. rewrite SM. rewrite (out_now ptime os (resizer_new ptime) s tr); [exact FU|unfold resizer_new, set_ptime; cbn [s_out]; lia|exact RUN].
  - eauto.
Qed.
End Statements.

Lemma st_drain ptime os s tr : 0 < ptime -> Forall valid os -> run (resizer_new ptime) os = Some (s, tr) ->
  exists gets s' tr', Forall is_get gets /\ run s gets = Some (s', tr') /\ s_q s' = [].
Proof.
  intros PT VA RUN. destruct (reach _ _ _ _ PT VA RUN) as (a & atr & SI & OS & AR).
  destruct (drain_ok _ s a SI (Nat.le_refl _)) as (gets & s' & tr' & a' & atr' & G & R & Q & _). eauto 6.
Qed.

Lemma is_pad d r r' : is d r -> is d r' -> r_pad r = r_pad r'.
Proof.
  intros I1 I2. destruct (is_same _ _ _ I1 I2) as (_ & _ & PL & _). destruct I1 as (W & E). destruct I2 as (W' & E').
  destruct (encode_parses r W) as (i & P & D1 & _). destruct (encode_parses r' W') as (i' & P' & D1' & _).
  rewrite E in P. rewrite E', P in P'. injection P' as <-. fold (pre r) in D1. fold (pre r') in D1'.
  assert (X : pre r ++ r_payload r ++ r_pad r = pre r' ++ r_payload r' ++ r_pad r') by (rewrite <- !enc_pre; congruence).
  apply (f_equal (skipn (length (pre r)))) in X. rewrite skipn_app_len in X by reflexivity. rewrite skipn_app_len in X by lia.
  rewrite PL in X. apply app_inv_head in X. exact X.
Qed.
Lemma bytes_ok l : forallb (fun b => (0 <=? b) && (b <? 256)) l = true -> Forall byte l.
Proof. intros H. rewrite forallb_forall in H. apply Forall_forall. intros b IB. specialize (H b IB). unfold byte. lia. Qed.
(** no packet at all *)
Lemma not_packet d c : parse_raw d = PErr c -> forall r, ~ is d r.
Proof. intros P r (W & E). destruct (encode_parses r W) as (i & Q & _). rewrite E, P in Q. discriminate. Qed.
Lemma valid_ok os : forallb (fun o => match o with Enq d _ => forallb (fun b => (0 <=? b) && (b <? 256)) d && (Z.of_nat (length d) <=? 8192) | Get _ _ => true | SetPtime n => (0 <? n) && (n <? 1000) end) os = true -> Forall valid os.
Proof.
  intros H. rewrite forallb_forall in H. apply Forall_forall. intros o IO. specialize (H o IO). destruct o as [d its| |n]; cbn [valid]; [|exact Logic.I|lia].
  apply andb_prop in H. destruct H as (H1 & H2). split; [apply bytes_ok; exact H1|lia].
Qed.
Lemma late_stamp a b : Permutation a b -> forallb (fun t => t <? 1320) a = forallb (fun t => t <? 1320) b.
Proof. induction 1; cbn [forallb]; try congruence. destruct (x <? 1320), (y <? 1320); reflexivity. Qed.
