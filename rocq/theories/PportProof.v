From Verif Require Import Base PportModel PportSpec.

Lemma zlen_app {A} (a b : list A) : zlen (a ++ b) = zlen a + zlen b.
Proof. unfold zlen. rewrite app_length. lia. Qed.
Lemma zlen_nonneg {A} (a : list A) : 0 <= zlen a.
Proof. unfold zlen. lia. Qed.
Lemma zlen_cons {A} (x : A) (a : list A) : zlen (x :: a) = zlen a + 1.
Proof. unfold zlen. cbn [length]. lia. Qed.
Lemma zlen_firstn {A} n (l : list A) : zlen (firstn n l) = Z.min (Z.of_nat n) (zlen l).
Proof. unfold zlen. rewrite firstn_length. lia. Qed.
Lemma zlen_skipn {A} n (l : list A) : zlen (skipn n l) = Z.max 0 (zlen l - Z.of_nat n).
Proof. unfold zlen. rewrite skipn_length. lia. Qed.

Lemma fm_map {A B C} (f : B -> list C) (g : A -> B) (h : A -> list C) l : (forall x, f (g x) = h x) -> flat_map f (map g l) = flat_map h l.
Proof. intros H. induction l; cbn; auto. rewrite H, IHl. auto. Qed.
Lemma fm_id {A} (l : list A) : flat_map (fun x => [x]) l = l.
Proof. induction l; cbn; congruence. Qed.
Lemma fm_nil {A B} (l : list A) : flat_map (fun _ => @nil B) l = [].
Proof. induction l; cbn; auto. Qed.
Lemma fm_map_id {B C} (f : B -> list C) (g : C -> B) l : (forall x, f (g x) = [x]) -> flat_map f (map g l) = l.
Proof. intros H. rewrite (fm_map f g (fun x => [x])); auto. apply fm_id. Qed.
Lemma fm_map_nil {B C} (f : B -> list C) (g : C -> B) l : (forall x, f (g x) = []) -> flat_map f (map g l) = [].
Proof. intros H. rewrite (fm_map f g (fun _ => [])); auto. apply fm_nil. Qed.

(** Accepted so far, and accepted before the last successful flush *)
Definition flstep (p : Z * Z) (e : event) : Z * Z :=
  match e with Accepted _ => (fst p + 1, snd p) | FlushOk => (fst p, fst p) | _ => p end.
Definition flcount (es : list event) : Z * Z := fold_left flstep es (0, 0).
Lemma flcount_app a b : flcount (a ++ b) = fold_left flstep b (flcount a).
Proof. apply fold_left_app. Qed.
Lemma fl_fst es : fst (flcount es) = zlen (accepted es).
Proof.
  unfold flcount, accepted. cut (forall p, fst (fold_left flstep es p) = fst p + zlen (flat_map (fun e => match e with Accepted p => [p] | _ => [] end) es)).
  { intros H. rewrite H. cbn. lia. }
  induction es as [|e es IH]; intros p; cbn [fold_left flat_map]; [unfold zlen; cbn; lia|].
  rewrite IH, zlen_app. destruct e; cbn [flstep fst]; try change (zlen (@nil pkt)) with 0; rewrite ?zlen_cons; try change (zlen (@nil pkt)) with 0; lia.
Qed.
Lemma fl_mono es : forall p q, snd p <= fst p -> snd p >= q -> snd (fold_left flstep es p) >= q /\ snd (fold_left flstep es p) <= fst (fold_left flstep es p).
Proof.
  induction es as [|e es IH]; intros p q L H; cbn [fold_left]; [lia|]. apply IH; destruct e; cbn; lia.
Qed.
Lemma fl_before e1 e2 : zlen (accepted e1) <= snd (flcount (e1 ++ FlushOk :: e2)).
Proof.
  rewrite flcount_app. cbn [fold_left flstep]. rewrite fl_fst.
  destruct (fl_mono e2 (zlen (accepted e1), zlen (accepted e1)) (zlen (accepted e1))); cbn; lia.
Qed.
Lemma fl_le es : snd (flcount es) <= fst (flcount es).
Proof. unfold flcount. pose proof (zlen_nonneg (accepted es)). destruct (fl_mono es (0, 0) 0); cbn; lia. Qed.

Lemma split_app {A} (a b c d : list A) (x : A) : a ++ b = c ++ x :: d -> (exists d', a = c ++ x :: d' ) \/ (exists c', b = c' ++ x :: d /\ c = a ++ c').
Proof.
  revert c. induction a as [|y a IH]; intros c E; cbn in E; [right; exists c; auto|].
  destruct c as [|z c]; cbn in E; injection E as -> E; [left; exists a; auto|].
  destruct (IH _ E) as [(d' & ->)|(c' & -> & ->)]; [left; exists d'; auto|right; exists c'; auto].
Qed.

Definition worked (k : wpc) : bool := match k with KHandle _ | KPop => true | _ => false end.
Section proof.
  Context (cap : Z) (tso : bool) (CP : 0 < cap).

  Lemma take_spec fails rest : forall n c ps r c' e, take fails n rest c = (ps, r, c', e) ->
    accepted e = [] /\ left_out e = [] /\ took e = [] /\ dealt e = [] /\ sent e = [] /\ entered e = ps /\ left_in e = [] /\
    datas rest = settled e ++ datas r /\ zlen ps <= Z.of_nat n /\ zlen r <= zlen rest /\ (r <> [] -> zlen rest - zlen r >= Z.of_nat n) /\
    (forall p, fold_left flstep e p = p) /\ (forall q y, fold_left (fun r e => match e with Registered q' x => if q =? q' then Some x else r | Unregistered q' => if q =? q' then None else r | _ => r end) e y = y) /\
    (forall p x, ~ In (Handled p x) e /\ ~ In (NoStream p) e) /\ ~ In Ended e /\
    (c_lc c' = c_lc c /\ (c_flush c = true -> c_flush c' = true) /\ (c_term c = true -> c_term c' = true) /\
     (In WTerm rest -> In WTerm r \/ c_term c' = true) /\ (forall x, In x r -> In x rest) /\ (~ In WTerm rest -> c_term c' = c_term c) /\
     (forall q, In (WFlush q) rest -> q >= c_lc c -> In (WFlush q) r \/ c_flush c' = true)) /\
    ((0 < n)%nat -> rest <> [] -> zlen r < zlen rest) /\ (n = O -> r = rest).
  Proof.
    induction rest as [|w t IH]; intros n c ps r c' e T; cbn [take] in T.
    - injection T as <- <- <- <-. cbn. repeat split; auto; try lia; try tauto; contradiction.
    - destruct n as [|n'].
      + injection T as <- <- <- <-. cbn [accepted left_out took dealt sent settled entered left_in flat_map fold_left]. change (zlen (@nil pkt)) with 0.
        repeat split; auto; try lia; try tauto.
      + assert (D : forall X, take fails (S n') t X = (ps, r, c', e) -> c_lc X = c_lc c -> (c_flush c = true -> c_flush X = true) -> (c_term c = true -> c_term X = true) ->
            (w = WTerm -> c_term X = true) -> (w <> WTerm -> c_term X = c_term c) -> (forall q, w = WFlush q -> q >= c_lc c -> c_flush X = true) -> (forall p, w <> WData p) ->
            accepted e = [] /\ left_out e = [] /\ took e = [] /\ dealt e = [] /\ sent e = [] /\ entered e = ps /\ left_in e = [] /\
            datas (w :: t) = settled e ++ datas r /\ zlen ps <= Z.of_nat (S n') /\ zlen r <= zlen (w :: t) /\ (r <> [] -> zlen (w :: t) - zlen r >= Z.of_nat (S n')) /\
            (forall p, fold_left flstep e p = p) /\ (forall q y, fold_left (fun r e => match e with Registered q' x => if q =? q' then Some x else r | Unregistered q' => if q =? q' then None else r | _ => r end) e y = y) /\
            (forall p x, ~ In (Handled p x) e /\ ~ In (NoStream p) e) /\ ~ In Ended e /\
            (c_lc c' = c_lc c /\ (c_flush c = true -> c_flush c' = true) /\ (c_term c = true -> c_term c' = true) /\
             (In WTerm (w :: t) -> In WTerm r \/ c_term c' = true) /\ (forall x, In x r -> In x (w :: t)) /\ (~ In WTerm (w :: t) -> c_term c' = c_term c) /\
             (forall q, In (WFlush q) (w :: t) -> q >= c_lc c -> In (WFlush q) r \/ c_flush c' = true)) /\
            ((0 < S n')%nat -> w :: t <> [] -> zlen r < zlen (w :: t)) /\ (S n' = O -> r = w :: t)).
        { intros X TX X1 X2 X3 X4 X5 X6 X7. destruct (IH _ _ _ _ _ _ TX) as (a1 & a2 & a3 & a4 & a5 & a6 & a7 & a8 & a9 & a10 & a11 & a12 & a13 & a14 & a14' & (b1 & b2 & b3 & b4 & b4' & b5 & b6) & a15 & a16).
          rewrite zlen_cons. repeat split; auto; try lia; try (apply a14; auto); try congruence.
          - rewrite <- a8. unfold datas. cbn [flat_map]. destruct w; auto. exfalso. eapply X7; eauto.
          - intros [->|I]; auto.
          - intros x I. right. auto.
          - intros N. rewrite b5; [apply X5|]; intros E; apply N; [left|right]; auto.
          - intros q [->|I] Q; [right; apply b2; eapply X6; eauto|]. apply b6; auto. lia. }
        destruct w as [| |q|p].
        * apply (D _ T); cbn; auto; try congruence.
        * apply (D _ T); auto; congruence.
        * apply (D _ T); destruct (q >=? c_lc c) eqn:Q; cbn; auto; try congruence; intros q0 [= ->]; auto. lia.
        * clear D. destruct (fails p).
          -- destruct (take fails (S n') t c) as [[[ps1 r1] c1] e1] eqn:TX. injection T as <- <- <- <-.
             destruct (IH _ _ _ _ _ _ TX) as (a1 & a2 & a3 & a4 & a5 & a6 & a7 & a8 & a9 & a10 & a11 & a12 & a13 & a14 & a14' & (b1 & b2 & b3 & b4 & b4' & b5 & b6) & a15 & a16).
             rewrite zlen_cons. cbn [accepted left_out took dealt sent settled entered left_in flat_map fold_left flstep datas app].
             repeat split; auto; try lia; try congruence.
             ++ rewrite <- app_assoc. f_equal. exact a8.
             ++ intros [E|I]; [discriminate|]. destruct (a14 p0 x); auto.
             ++ intros [E|I]; [discriminate|]. destruct (a14 p0 x); auto.
             ++ intros [E|I]; [discriminate|]. auto.
             ++ intros [E|I]; [discriminate|]. auto.
             ++ intros x I. right. auto.
             ++ intros N. apply b5. intros I. apply N. right; auto.
             ++ intros q [E|I] Q; [discriminate|]. auto.
          -- destruct (take fails n' t c) as [[[ps1 r1] c1] e1] eqn:TX. injection T as <- <- <- <-.
             destruct (IH _ _ _ _ _ _ TX) as (a1 & a2 & a3 & a4 & a5 & a6 & a7 & a8 & a9 & a10 & a11 & a12 & a13 & a14 & a14' & (b1 & b2 & b3 & b4 & b4' & b5 & b6) & a15 & a16).
             rewrite !zlen_cons. cbn [accepted left_out took dealt sent settled entered left_in flat_map fold_left flstep datas app].
             repeat split; auto; try lia; try congruence.
             ++ cbn. f_equal. exact a6.
             ++ rewrite <- app_assoc. f_equal. exact a8.
             ++ intros [E|I]; [discriminate|]. destruct (a14 p0 x); auto.
             ++ intros [E|I]; [discriminate|]. destruct (a14 p0 x); auto.
             ++ intros [E|I]; [discriminate|]. auto.
             ++ intros [E|I]; [discriminate|]. auto.
             ++ intros x I. right. auto.
             ++ intros N. apply b5. intros I. apply N. right; auto.
             ++ intros q [E|I] Q; [discriminate|]. auto.
  Qed.

  Definition reg1 (port : Z) (r : option Z) (e : event) : option Z :=
    match e with Registered q x => if port =? q then Some x else r | Unregistered q => if port =? q then None else r | _ => r end.
  Lemma registered_app a b port : registered (a ++ b) port = fold_left (reg1 port) b (registered a port).
  Proof. unfold registered. rewrite fold_left_app. reflexivity. Qed.
  Lemma reg_id e : (forall q r, reg1 q r e = r) -> True.
  Proof. auto. Qed.
  Lemma reg_map {A} (g : A -> event) l port r : (forall x r, reg1 port r (g x) = r) -> fold_left (reg1 port) (map g l) r = r.
  Proof. intros H. revert r. induction l; intros r; cbn; auto. rewrite H. auto. Qed.
  Lemma fl_map {A} (g : A -> event) l r : (forall x r, flstep r (g x) = r) -> fold_left flstep (map g l) r = r.
  Proof. intros H. revert r. induction l; intros r; cbn; auto. rewrite H. auto. Qed.

  Definition HOK (es : list event) : Prop := forall e1 e2 p x, es = e1 ++ Handled p x :: e2 -> registered e1 (pport p) = Some x.
  Definition NOK (es : list event) : Prop := forall e1 e2 p, es = e1 ++ NoStream p :: e2 -> registered e1 (pport p) = None.
  Lemma hok_app es e : HOK es -> (forall p x, ~ In (Handled p x) e) -> HOK (es ++ e).
  Proof.
    intros H N e1 e2 p x E. apply split_app in E as [(d & E)|(c & E & _)]; [eapply H; eauto|].
    exfalso. apply (N p x). rewrite E. apply in_or_app. right. left. auto.
  Qed.
  Lemma nok_app es e : NOK es -> (forall p, ~ In (NoStream p) e) -> NOK (es ++ e).
  Proof.
    intros H N e1 e2 p E. apply split_app in E as [(d & E)|(c & E & _)]; [eapply H; eauto|].
    exfalso. apply (N p). rewrite E. apply in_or_app. right. left. auto.
  Qed.

  Definition wctx (k : wpc) : option ctx := match k with KSee _ _ c | KPut _ _ _ c | KMake _ _ c => Some c | _ => None end.
  Definition wok (s : st) : Prop :=
    match wrk s with
    | KSee rest nd c => rest <> [] /\ 0 <= nd <= cap /\ nd + zlen rest <= cap + (cap - zlen (inq s))
    | KPut rest r nd c => rest <> [] /\ 0 <= nd <= cap /\ nd + zlen rest <= cap + r /\ 0 <= r <= cap - zlen (inq s)
    | KMake rest nd c => rest <> [] /\ 0 <= nd /\ nd + zlen rest <= cap
    | _ => True
    end.
  Definition noterm (s : st) : Prop :=
    ~ In WTerm (pq s) /\ ~ In WTerm (work s) /\ wrk s <> KDead /\ forall c, wctx (wrk s) = Some c -> c_term c = false.
  Record Inv (s : st) (es : list event) : Prop := {
    i_acc : accepted es = left_out es ++ out s ++ concat (sb s);
    i_took : took es = dealt es ++ hand s;
    i_sent : sent es = settled es ++ datas (work s) ++ datas (pq s);
    i_ent : entered es = left_in es ++ inq s;
    i_out : zlen (out s) + zlen (concat (sb s)) <= cap;
    i_in : zlen (inq s) <= cap;
    i_pq : zlen (pq s) <= cap + 1;
    i_sb : tso = false -> sb s = [];
    i_reg : forall port, streams s port = registered es port;
    i_wrk : wok s;
    i_over : overrun s = false;
    i_hok : HOK es;
    i_nok : NOK es;
    i_run : lc s = out_run s;
    i_ctx : forall c, wctx (wrk s) = Some c -> c_lc c = out_run s;
    i_term : alive s = true -> noterm s
  }.
  Lemma inv_init : Inv init [].
  Proof.
    constructor; cbn; auto; try (unfold zlen; cbn; lia); try discriminate.
    - intros e1 e2 p x E. destruct e1; discriminate.
    - intros e1 e2 p E. destruct e1; discriminate.
    - intros _. repeat split; auto; cbn; try discriminate; auto.
  Qed.

  Lemma room_iff s : (1 <=? room cap s) = true <-> zlen (out s) + zlen (concat (sb s)) < cap.
  Proof. unfold room. lia. Qed.
  Lemma datas_app a b : datas (a ++ b) = datas a ++ datas b.
  Proof. apply flat_map_app. Qed.
  Lemma datas_split n q : datas (firstn n q) ++ datas (skipn n q) = datas q.
  Proof. rewrite <- datas_app, firstn_skipn. auto. Qed.
  Lemma in_map_not {A} (g : A -> event) l e : (forall x, g x <> e) -> ~ In e (map g l).
  Proof. intros H I. apply in_map_iff in I as (x & E & _). eapply H; eauto. Qed.
End proof.

Ltac ev := unfold accepted, left_out, took, dealt, sent, settled, entered, left_in in *; rewrite ?flat_map_app in *;
  repeat first [rewrite fm_map_id by (intros; reflexivity) | rewrite fm_map_nil by (intros; reflexivity)]; cbn [flat_map]; rewrite ?app_nil_r in *.
Ltac regs := intros; rewrite registered_app, ?fold_left_app; repeat (rewrite reg_map by (intros; reflexivity)); cbn [fold_left reg1]; auto.
Ltac notin := intros; rewrite ?in_app_iff, ?in_map_iff; cbn [In]; let H := fresh in intros H; repeat match goal with H : _ \/ _ |- _ => destruct H | H : exists _, _ |- _ => destruct H | H : _ /\ _ |- _ => destruct H end; solve [discriminate | contradiction].


Section proof2.
  Context (cap : Z) (tso : bool) (CP : 0 < cap).
  Notation Inv := (Inv cap tso).

  Ltac mk I := destruct I; constructor; cbn [with_out with_inq with_pq with_app with_wrk with_last with_streams with_run with_overrun
     out sb inq pq out_run lc lastf streams app wrk overrun] in *; ev; try assumption; try (intros; discriminate).
  Ltac rest := try (apply hok_app; [assumption|]; notin; fail); try (apply nok_app; [assumption|]; notin; fail); try (regs; fail).

  Lemma concat_snoc {A} (b : list (list A)) x : concat (b ++ [x]) = concat b ++ x.
  Proof. rewrite concat_app. cbn. rewrite app_nil_r. auto. Qed.

  Lemma accept_inv s es ps l : Inv s es -> zlen (out s) + zlen (concat (sb s)) + zlen ps <= cap -> Inv (accept tso s ps) (es ++ map Accepted ps ++ map Refused l).
  Proof.
    intros I R. unfold accept. destruct tso eqn:T; mk I; rest.
    - rewrite i_acc0, concat_snoc, !app_assoc. auto.
    - rewrite concat_snoc, zlen_app. lia.
    - pose proof (i_sb0 eq_refl) as SB0; rewrite SB0 in *. rewrite i_acc0. cbn [concat]. rewrite ?app_nil_r, app_assoc. auto.
    - pose proof (i_sb0 eq_refl) as SB0; rewrite SB0 in *. rewrite zlen_app. cbn [concat] in *. lia.
  Qed.
  Lemma with_app_inv s es a : Inv s es -> (match a with AJoin | AGone => False | _ => True end) -> alive s = true -> Inv (with_app s a) es.
  Proof. intros I A L. mk I. intros _. apply i_term0; auto. Qed.
  Lemma nothing_inv s es e : Inv s es -> (exists p, e = Refused p \/ e = Lost p \/ e = NotSent p) \/ e = FlushOk \/ e = FlushFailed -> Inv s (es ++ [e]).
  Proof. intros I E. destruct E as [(p & [->|[->| ->]])|[->| ->]]; mk I; rest. Qed.

  Lemma step_inv s es a : Inv s es -> Inv (fst (step cap tso s a)) (es ++ snd (step cap tso s a)).
  Proof.
    intros I. destruct a as [p|p|ps| | |ok| |n|p ok|port x ok|port|f|]; cbn [step].
    - unfold u_push. destruct (app s) eqn:A; cbn [fst snd]; rewrite app_nil_r; auto. apply with_app_inv; auto. unfold alive. rewrite A. auto.
    - unfold u_try_push. destruct (app s) eqn:A; cbn [fst snd]; rewrite ?app_nil_r; auto. destruct (1 <=? room cap s) eqn:R; cbn [fst snd].
      + apply (accept_inv s es [p] []); auto. apply room_iff in R. unfold zlen in *. cbn [length]. lia.
      + apply nothing_inv; eauto.
    - unfold u_try_push_many. destruct (app s) eqn:A; cbn [fst snd]; rewrite ?app_nil_r; auto.
      destruct (firstn (Z.to_nat (room cap s)) ps) as [|p0 now] eqn:F.
      + mk I; rest.
      + rewrite <- F. apply accept_inv; auto. rewrite zlen_firstn. destruct I. unfold room. lia.
    - unfold u_flush. destruct (app s) eqn:A; cbn [fst snd]; rewrite ?app_nil_r; auto.
      destruct (lastf s) as [l|]; [destruct (out_run s =? l)|]; cbn [fst snd]; rewrite ?app_nil_r; [apply nothing_inv; auto| |]; apply with_app_inv; auto; unfold alive; rewrite A; auto.
    - unfold u_dtor. destruct (app s) eqn:A; cbn [fst snd]; rewrite ?app_nil_r; auto. unfold pq_full. destruct (Z.geb_spec (zlen (pq s)) (cap + 1)).
      + mk I; rest.
      + mk I; rest.
        * rewrite datas_app. cbn. rewrite app_nil_r. auto.
        * rewrite zlen_app. unfold zlen in *; cbn [length]; lia.
    - unfold u_step. destruct (app s) as [|p|p|seen| |] eqn:A; cbn [fst snd]; rewrite ?app_nil_r; auto.
      + destruct (1 <=? room cap s) eqn:R; cbn [fst snd]; rewrite ?app_nil_r.
        * assert (I1 : Inv (accept tso s [p]) (es ++ [Accepted p])).
          { apply (accept_inv s es [p] []); auto. apply room_iff in R. unfold zlen in *. cbn [length]. lia. }
          apply with_app_inv; auto. unfold accept, alive. destruct tso; cbn [with_out app]; rewrite A; auto.
        * apply with_app_inv; auto. unfold alive. rewrite A. auto.
      + destruct (sb s) as [|b bs] eqn:SB; cbn [fst snd]; rewrite ?app_nil_r; auto. destruct (out s) as [|q o] eqn:O; cbn [fst snd].
        * apply nothing_inv; eauto. apply with_app_inv; auto. unfold alive. rewrite A. auto.
        * assert (AL : alive s = true) by (unfold alive; rewrite A; auto). destruct I. rewrite SB, O in *. constructor; cbn [with_app with_out out sb inq pq out_run lc lastf streams app wrk overrun] in *; ev; try assumption; rest.
          -- rewrite i_acc0. cbn. rewrite ?app_nil_r, <- app_assoc. auto.
          -- cbn [concat] in *. rewrite zlen_cons in i_out0. lia.
          -- intros _. apply i_term0; auto.
      + assert (AL : alive s = true) by (unfold alive; rewrite A; auto). destruct (sb s) as [|b bs] eqn:SB; cbn [fst snd]; rewrite ?app_nil_r; auto. unfold pq_full. destruct (ok && negb (zlen (pq s) >=? cap + 1)) eqn:OK; cbn [fst snd].
        * mk I; rest.
          -- rewrite datas_app. cbn. rewrite app_nil_r. auto.
          -- rewrite zlen_app. unfold zlen in *; cbn [length]; lia.
          -- intros _. destruct (i_term0 AL) as (t1 & t2 & t3 & t4). split; auto. cbn [with_pq with_last with_app pq]. rewrite in_app_iff. intros [X|[X|[]]]; auto. discriminate.
        * apply nothing_inv; auto. apply with_app_inv; auto.
      + destruct (wrk s) eqn:W; cbn [fst snd]; rewrite ?app_nil_r; auto. destruct (sb s) as [|b bs] eqn:SB; cbn [fst snd]; rewrite ?app_nil_r; auto.
        destruct I. rewrite SB in *. unfold hand, work in *. rewrite W in *. constructor; cbn [with_app with_pq with_inq with_out out sb inq pq out_run lc lastf streams app wrk overrun] in *; ev; try assumption; rest; unfold hand, work, wok; cbn [with_app with_pq with_inq with_out wrk pq]; rewrite ?W; try (unfold zlen; cbn; lia); try (rewrite ?app_nil_r; auto; fail).
        all: try discriminate; auto.
    - unfold u_commit. destruct (sb s) as [|b bs] eqn:SB; cbn [fst snd]; rewrite ?app_nil_r; auto.
      destruct I. rewrite SB in *. constructor; cbn [with_out out sb inq pq out_run lc lastf streams app wrk overrun] in *; ev; try assumption; rest.
      + rewrite i_acc0. cbn [concat]. rewrite <- !app_assoc. auto.
      + rewrite zlen_app. cbn [concat] in i_out0. rewrite zlen_app in i_out0. lia.
      + intros T. specialize (i_sb0 T). discriminate.
    - unfold u_pop. destruct (alive s) eqn:AL; cbn [fst snd]; rewrite ?app_nil_r; auto. mk I; rest.
      + rewrite i_ent0, <- app_assoc, firstn_skipn. auto.
      + rewrite zlen_skipn. pose proof (zlen_nonneg (inq s)). lia.
      + unfold wok in *. cbn [with_inq wrk inq]. pose proof (zlen_nonneg (inq s)). destruct (wrk s); auto; rewrite zlen_skipn; intuition lia.
    - unfold e_send. destruct (alive s) eqn:AL; cbn [fst snd]; rewrite ?app_nil_r; auto. unfold pq_full. destruct (ok && negb (zlen (pq s) >=? cap + 1)) eqn:OK; cbn [fst snd].
      + mk I; rest.
        * rewrite i_sent0, datas_app, <- !app_assoc. auto.
        * rewrite zlen_app. unfold zlen in *; cbn [length]; lia.
        * intros _. destruct (i_term0 AL) as (t1 & t2 & t3 & t4). split; auto. cbn [with_pq pq]. rewrite in_app_iff. intros [X|[X|[]]]; auto. discriminate.
      + apply nothing_inv; eauto 6.
    - unfold e_reg. destruct (alive s) eqn:AL; cbn [fst snd]; rewrite ?app_nil_r; auto. destruct (streams s port) eqn:SP; cbn [fst snd]; rewrite ?app_nil_r; auto.
      unfold pq_full. destruct (ok && negb (zlen (pq s) >=? cap + 1)) eqn:OK; cbn [fst snd]; rewrite ?app_nil_r; auto.
      mk I; rest.
      + rewrite datas_app. cbn. rewrite app_nil_r. auto.
      + rewrite zlen_app. unfold zlen in *; cbn [length]; lia.
      + intros q. rewrite registered_app. cbn [fold_left reg1]. unfold fset. destruct (q =? port); auto.
      + intros _. destruct (i_term0 AL) as (t1 & t2 & t3 & t4). split; auto. cbn [with_pq with_streams pq]. rewrite in_app_iff. intros [X|[X|[]]]; auto. discriminate.
    - unfold e_unreg. destruct (alive s) eqn:AL; cbn [fst snd]; rewrite ?app_nil_r; auto. mk I; rest.
      intros q. rewrite registered_app. cbn [fold_left reg1]. unfold fset. destruct (q =? port); auto.
    - unfold k_step. destruct (wrk s) as [|rst nd c|rst r nd c|rst nd c| | |ps|] eqn:W.
      + destruct (pq s) as [|w q] eqn:Q; cbn [fst snd]; rewrite ?app_nil_r; auto. rewrite <- Q in *.
        destruct I. unfold hand, work, wok, noterm, work in *. rewrite W in *. constructor; cbn [with_wrk with_pq with_inq with_out out sb inq pq out_run lc lastf streams app wrk overrun] in *; ev; try assumption; unfold hand, work, wok, noterm, work; cbn [with_wrk with_pq with_inq with_out wrk pq inq wctx]; auto.
        * rewrite i_sent0. cbn. rewrite datas_split. auto.
        * rewrite zlen_skipn. pose proof (zlen_nonneg (pq s)). lia.
        * split; [|split; [lia|]]. { rewrite Q. destruct (Z.to_nat cap) eqn:E; [lia|]. cbn. discriminate. } rewrite zlen_firstn. lia.
        * intros c0 [= <-]. auto.
        * intros AL. destruct (i_term0 AL) as (t1 & t2 & t3 & t4). rewrite <- (firstn_skipn (Z.to_nat cap) (pq s)) in t1. rewrite in_app_iff in t1. repeat split; auto; try discriminate. intros c0 [= <-]. auto.
      + cbn [fst snd]; rewrite ?app_nil_r.
        destruct I. unfold hand, work, wok, noterm, work in *. rewrite W in *. constructor; cbn [with_wrk with_pq with_inq with_out out sb inq pq out_run lc lastf streams app wrk overrun] in *; ev; try assumption; unfold hand, work, wok, noterm, work; cbn [with_wrk with_pq with_inq with_out wrk pq inq wctx]; auto.
        * repeat split; try tauto; lia.
        * intros AL. destruct (i_term0 AL) as (t1 & t2 & t3 & t4). repeat split; auto; discriminate.
      + destruct (take f (Z.to_nat r) rst c) as [[[ps rst'] c'] e] eqn:T. cbn [fst snd].
        destruct (take_spec cap _ _ _ _ _ _ _ _ T) as (a1 & a2 & a3 & a4 & a5 & a6 & a7 & a8 & a9 & a10 & a11 & a12 & a13 & a14 & a14' & (b1 & b2 & b3 & b4 & b4' & b5 & b6) & a15 & a16).
        destruct I. unfold hand, work, wok, noterm, work in *. rewrite W in *.
        assert (FH : match finish c' with KHandle x => x | _ => [] end = []) by (unfold finish; destruct (c_term c'), (c_flush c'); auto).
        assert (FW : match finish c' with KSee x _ _ | KPut x _ _ _ | KMake x _ _ => x | _ => [] end = []) by (unfold finish; destruct (c_term c'), (c_flush c'); auto).
        assert (FC : wctx (finish c') = None) by (unfold finish; destruct (c_term c'), (c_flush c'); auto).
        constructor; cbn [with_wrk with_pq with_inq with_out out sb inq pq out_run lc lastf streams app wrk overrun] in *; unfold accepted, left_out, took, dealt, sent, settled, entered, left_in in *; rewrite ?flat_map_app; try assumption; unfold hand, work, wok, noterm, work; cbn [with_wrk with_pq with_inq with_out wrk pq inq wctx]; auto; rewrite ?a1, ?a2, ?a3, ?a4, ?a5, ?a6, ?a7, ?app_nil_r; auto.
        * rewrite i_took0. destruct rst'; rewrite ?FH; auto.
        * rewrite i_sent0, a8. destruct rst'; rewrite ?FW; cbn [datas flat_map]; rewrite ?app_nil_r, <- ?app_assoc; auto.
        * rewrite i_ent0, <- app_assoc. auto.
        * rewrite zlen_app. lia.
        * intros q. rewrite registered_app. unfold reg1. rewrite a13. auto.
        * destruct rst' as [|w' rst']; [unfold finish; destruct (c_term c'), (c_flush c'); auto|]. split; [discriminate|]. split; [lia|]. specialize (a11 ltac:(discriminate)). lia.
        * apply hok_app; auto. intros p x. apply (a14 p x).
        * apply nok_app; auto. intros p. apply (a14 p 0).
        * intros c0 E. destruct rst'; [congruence|]. cbn in E. injection E as <-. rewrite b1. auto.
        * intros AL. destruct (i_term0 AL) as (t1 & t2 & t3 & t4). assert (CT : c_term c' = false) by (rewrite b5; auto).
          repeat split; auto.
          -- destruct rst'; [rewrite FW; auto|]. intros X. apply t2. auto.
          -- destruct rst'; [unfold finish; rewrite CT; destruct (c_flush c'); discriminate|discriminate].
          -- intros c0 E. destruct rst'; [congruence|]. cbn in E. injection E as <-. auto.
      + cbn [fst snd]. set (k := Nat.min (length rst) (length (inq s))).
        destruct I. unfold hand, work, wok, noterm, work in *. rewrite W in *. constructor; cbn [with_wrk with_overrun with_pq with_inq with_out out sb inq pq out_run lc lastf streams app wrk overrun] in *; ev; try assumption; unfold hand, work, wok, noterm, work; cbn [with_wrk with_overrun with_pq with_inq with_out wrk pq inq wctx]; auto; rest.
        * rewrite i_ent0, <- app_assoc, firstn_skipn. auto.
        * rewrite zlen_skipn. pose proof (zlen_nonneg (inq s)). lia.
        * assert (K : Z.of_nat k = Z.min (zlen rst) (zlen (inq s))) by (unfold k, zlen; lia). rewrite zlen_skipn. pose proof (zlen_nonneg (inq s)). pose proof (zlen_nonneg rst). repeat split; try tauto; lia.
        * assert (K : Z.of_nat k = Z.min (zlen rst) (zlen (inq s))) by (unfold k, zlen; lia). rewrite i_over0. lia.
        * intros AL. destruct (i_term0 AL) as (t1 & t2 & t3 & t4). repeat split; auto; discriminate.
      + cbn [fst snd]; rewrite ?app_nil_r. destruct I. unfold hand, work, wok, noterm, work in *. rewrite W in *. constructor; cbn [with_wrk with_run with_pq with_inq with_out out sb inq pq out_run lc lastf streams app wrk overrun] in *; ev; try assumption; unfold hand, work, wok, noterm, work; cbn [with_wrk with_run with_pq with_inq with_out wrk pq inq wctx]; auto; try discriminate.
        intros AL. destruct (i_term0 AL) as (t1 & t2 & t3 & t4). repeat split; auto; discriminate.
      + destruct (out s) as [|q o] eqn:O; cbn [fst snd]; rewrite ?app_nil_r.
        * destruct I. unfold hand, work, wok, noterm, work in *. rewrite W, O in *. constructor; cbn [with_wrk with_run with_pq with_inq with_out out sb inq pq out_run lc lastf streams app wrk overrun] in *; ev; rewrite ?O; try assumption; unfold hand, work, wok, noterm, work; cbn [with_wrk with_run with_pq with_inq with_out wrk pq inq wctx]; auto; try discriminate.
          intros AL. destruct (i_term0 AL) as (t1 & t2 & t3 & t4). repeat split; auto; discriminate.
        * rewrite <- O in *. destruct I. unfold hand, work, wok, noterm, work in *. rewrite W in *. constructor; cbn [with_wrk with_run with_pq with_inq with_out out sb inq pq out_run lc lastf streams app wrk overrun] in *; ev; try assumption; unfold hand, work, wok, noterm, work; cbn [with_wrk with_run with_pq with_inq with_out wrk pq inq wctx]; auto; try discriminate; rest.
          -- rewrite i_acc0, <- !app_assoc. f_equal. rewrite (app_assoc (firstn _ _)), firstn_skipn. auto.
          -- rewrite i_took0. auto.
          -- rewrite zlen_skipn. pose proof (zlen_nonneg (out s)). pose proof (zlen_nonneg (concat (sb s))). lia.
          -- intros AL. destruct (i_term0 AL) as (t1 & t2 & t3 & t4). repeat split; auto; discriminate.
      + destruct ps as [|p ps]; cbn [fst snd]; rewrite ?app_nil_r.
        * destruct I. unfold hand, work, wok, noterm, work in *. rewrite W in *. constructor; cbn [with_wrk with_run with_pq with_inq with_out out sb inq pq out_run lc lastf streams app wrk overrun] in *; ev; try assumption; unfold hand, work, wok, noterm, work; cbn [with_wrk with_run with_pq with_inq with_out wrk pq inq wctx]; auto; try discriminate.
          intros AL. destruct (i_term0 AL) as (t1 & t2 & t3 & t4). repeat split; auto; discriminate.
        * destruct I. unfold hand, work, wok, noterm, work in *. rewrite W in *. pose proof (i_reg0 (pport p)) as SR.
          constructor; cbn [with_wrk with_run with_pq with_inq with_out out sb inq pq out_run lc lastf streams app wrk overrun] in *; unfold hand, work, wok, noterm, work; cbn [with_wrk with_run with_pq with_inq with_out wrk pq inq wctx]; auto; try discriminate.
          all: try (destruct (streams s (pport p)); ev; try assumption; try (rewrite i_took0, <- app_assoc; auto); fail).
          -- intros q. rewrite registered_app. destruct (streams s (pport p)); cbn [fold_left reg1]; auto.
          -- destruct (streams s (pport p)) as [x0|]; [|apply hok_app; auto; notin].
             intros e1 e2 p1 x E. apply split_app in E as [(d & E)|(c & E & ->)]; [eapply i_hok0; eauto|].
             destruct c as [|? [|? ?]]; cbn in E; try discriminate. injection E as -> -> _. rewrite app_nil_r. auto.
          -- destruct (streams s (pport p)) as [x0|]; [apply nok_app; auto; notin|].
             intros e1 e2 p1 E. apply split_app in E as [(d & E)|(c & E & ->)]; [eapply i_nok0; eauto|].
             destruct c as [|? [|? ?]]; cbn in E; try discriminate. injection E as -> _. rewrite app_nil_r. auto.
          -- intros AL. destruct (i_term0 AL) as (t1 & t2 & t3 & t4). repeat split; auto; discriminate.
      + cbn [fst snd]; rewrite ?app_nil_r. auto.
    - unfold k_timer. destruct (wrk s) eqn:W; cbn [fst snd]; rewrite ?app_nil_r; auto.
      destruct I. unfold hand, work, wok, noterm, work in *. rewrite W in *. constructor; cbn [with_wrk with_run with_pq with_inq with_out out sb inq pq out_run lc lastf streams app wrk overrun] in *; ev; try assumption; unfold hand, work, wok, noterm, work; cbn [with_wrk with_run with_pq with_inq with_out wrk pq inq wctx]; auto; try discriminate.
      intros AL. destruct (i_term0 AL) as (t1 & t2 & t3 & t4). repeat split; auto; discriminate.
  Qed.

  Lemma run_inv acts : forall s es, Inv s es -> Inv (fst (run cap tso s acts)) (es ++ snd (run cap tso s acts)).
  Proof.
    induction acts as [|a acts IH]; intros s es I; cbn [run]; [cbn; rewrite app_nil_r; auto|].
    pose proof (step_inv s es a I) as I1. destruct (step cap tso s a) as [s1 e1]. cbn [fst snd] in I1. specialize (IH _ _ I1).
    destruct (run cap tso s1 acts) as [s2 e2]. cbn [fst snd] in *. rewrite app_assoc. exact IH.
  Qed.
End proof2.

(** A successful flush is followed by a drain *)
Section flush.
  Context (cap : Z) (CP : 0 < cap).
  Notation Inv := (Inv cap false).

  Definition pend (s : st) : Prop :=
    (exists q, In (WFlush q) (work s ++ pq s) /\ out_run s <= q) \/ (exists c, wctx (wrk s) = Some c /\ c_flush c = true) \/ wrk s = KIncr.
  Record FI (s : st) (es : list event) : Prop := {
    f1 : snd (flcount es) <= zlen (left_out es) \/ worked (wrk s) = true \/ pend s \/ wrk s = KDead;
    f0 : forall l, lastf s = Some l -> l <= out_run s;
    f2 : lastf s = Some (out_run s) -> pend s \/ wrk s = KDead;
    f3 : forall seen, app s = AFlush seen -> seen <= out_run s /\ (seen < out_run s -> zlen (left_out es) = zlen (accepted es) \/ worked (wrk s) = true)
  }.
  Lemma fi_init : FI init [].
  Proof. constructor; cbn; try discriminate. left. unfold zlen. cbn. lia. Qed.
  Lemma snd_same e : ~ In FlushOk e -> forall p, snd (fold_left flstep e p) = snd p.
  Proof.
    induction e as [|x e IH]; intros N p; cbn [fold_left]; auto. rewrite IH; [|intros H; apply N; right; auto].
    destruct x; auto. exfalso. apply N. left. auto.
  Qed.
  Lemma left_app a b : left_out (a ++ b) = left_out a ++ left_out b.
  Proof. apply flat_map_app. Qed.
  Lemma acc_app a b : accepted (a ++ b) = accepted a ++ accepted b.
  Proof. apply flat_map_app. Qed.
  Lemma pend_mono s s' x : wrk s' = wrk s -> out_run s' = out_run s -> pq s' = pq s ++ x -> pend s -> pend s'.
  Proof.
    intros W R Q [(q & I & G)|[C|K]]; unfold pend, work in *; rewrite W, R, Q.
    - left. exists q. split; auto. rewrite app_assoc, in_app_iff. auto.
    - right; left; auto.
    - right; right; auto.
  Qed.
  Lemma fi_same s s' es e x : FI s es -> wrk s' = wrk s -> out_run s' = out_run s -> lastf s' = lastf s -> pq s' = pq s ++ x ->
    ~ In FlushOk e -> (match app s' with AFlush seen => app s = AFlush seen /\ accepted e = [] /\ left_out e = [] | _ => True end) -> FI s' (es ++ e).
  Proof.
    intros [] W R L Q N A. pose proof (pend_mono s s' x W R Q) as PM. constructor; rewrite ?W, ?R, ?L.
    - rewrite flcount_app, snd_same by auto. rewrite left_app, zlen_app. pose proof (zlen_nonneg (left_out e)).
      destruct f4 as [F|[F|[F|F]]]; [left; lia|auto|auto|auto].
    - auto.
    - intros E. destruct (f6 E); auto.
    - intros seen E. rewrite E in A. destruct A as (A1 & A2 & A3). rewrite left_app, acc_app, A2, A3, !app_nil_r. auto.
  Qed.
  Ltac same y := eapply (fi_same _ _ _ _ y); [eassumption|reflexivity|reflexivity|reflexivity|rewrite ?app_nil_r; reflexivity|notin|].

  Lemma all_left s es : Inv s es -> out s = [] -> zlen (left_out es) = zlen (accepted es).
  Proof. intros [] O. rewrite i_acc0, O, (i_sb0 eq_refl). cbn. rewrite app_nil_r. auto. Qed.

  Lemma step_fi s es a : Inv s es -> FI s es -> FI (fst (step cap false s a)) (es ++ snd (step cap false s a)).
  Proof.
    intros I F. pose proof (i_sb _ _ _ _ I eq_refl) as SB. destruct a as [p|p|ps| | |ok| |n|p ok|port x ok|port|f|]; cbn [step].
    - unfold u_push. destruct (app s) eqn:A; cbn [fst snd]; rewrite ?app_nil_r; auto. rewrite <- (app_nil_r es). same (@nil pwi). cbn. auto.
    - unfold u_try_push. destruct (app s) eqn:A; cbn [fst snd]; rewrite ?app_nil_r; auto. destruct (1 <=? room cap s); cbn [fst snd accept]; same (@nil pwi); cbn [with_out app]; rewrite A; auto.
    - unfold u_try_push_many. destruct (app s) eqn:A; cbn [fst snd]; rewrite ?app_nil_r; auto.
      destruct (firstn (Z.to_nat (room cap s)) ps) as [|p0 now]; cbn [accept]; same (@nil pwi); cbn [with_out app]; rewrite A; auto.
    - unfold u_flush. destruct (app s) eqn:A; cbn [fst snd]; rewrite ?app_nil_r; auto. destruct F.
      assert (G : FI (with_app s (AFlush (out_run s))) es) by (constructor; auto; intros seen [= <-]; cbn; lia).
      destruct (lastf s) as [l|] eqn:L; [|cbn [fst snd]; rewrite app_nil_r; exact G]. destruct (Z.eqb_spec (out_run s) l); cbn [fst snd]; rewrite ?app_nil_r; [|exact G]. subst l.
      destruct (f6 eq_refl) as [H|H]; constructor; rewrite ?L; auto; rewrite A; discriminate.
    - unfold u_dtor. destruct (app s) eqn:A; cbn [fst snd]; rewrite ?app_nil_r; auto. rewrite <- (app_nil_r es). destruct (pq_full cap s); [same (@nil pwi)|same [WTerm]]; cbn; auto.
    - unfold u_step. destruct (app s) as [|p|p|seen| |] eqn:A; cbn [fst snd]; rewrite ?app_nil_r; auto.
      + destruct (1 <=? room cap s); cbn [fst snd accept]; same (@nil pwi); cbn; auto.
      + rewrite SB. destruct (out s) as [|q o]; cbn [fst snd]; same (@nil pwi); cbn; auto.
      + rewrite SB. destruct (ok && negb (pq_full cap s)); cbn [fst snd]; [|same (@nil pwi); cbn; auto].
        destruct F. destruct (f7 _ A) as (LE & CO). constructor; cbn [with_app with_last with_pq lastf out_run wrk app].
        * rewrite flcount_app. cbn [fold_left flstep snd]. rewrite fl_fst, left_app. cbn [left_out flat_map]. rewrite app_nil_r.
          destruct (Z.lt_ge_cases seen (out_run s)) as [LT|GE].
          -- destruct (CO LT) as [C|C]; [left; fold (left_out es); lia|auto].
          -- right. right. left. left. exists seen. split; [|exact GE]. unfold work. cbn [wrk pq with_app with_last with_pq]. rewrite !in_app_iff. cbn. auto.
        * intros l [= <-]. auto.
        * intros [= E]. left. left. exists seen. split; [|cbn; lia]. unfold work. cbn [wrk pq with_app with_last with_pq]. rewrite !in_app_iff. cbn. auto.
        * discriminate.
      + destruct (wrk s) eqn:W; cbn [fst snd]; rewrite ?app_nil_r; auto. rewrite SB. cbn [fst snd]. destruct F. constructor; cbn [with_app with_pq with_inq with_out lastf out_run wrk app]; auto; discriminate.
    - unfold u_commit. rewrite SB. cbn [fst snd]. rewrite app_nil_r. auto.
    - unfold u_pop. destruct (alive s); cbn [fst snd]; rewrite ?app_nil_r; auto. same (@nil pwi). cbn [with_inq app]. destruct (app s); auto. split; auto. ev. auto.
    - unfold e_send. destruct (alive s); cbn [fst snd]; rewrite ?app_nil_r; auto. destruct (ok && negb (pq_full cap s)); cbn [fst snd]; [same [WData p]|same (@nil pwi)]; cbn; destruct (app s); auto.
    - unfold e_reg. destruct (alive s); cbn [fst snd]; rewrite ?app_nil_r; auto. destruct (streams s port); cbn [fst snd]; rewrite ?app_nil_r; auto.
      destruct (ok && negb (pq_full cap s)); cbn [fst snd]; rewrite ?app_nil_r; auto. same [WNudge]; cbn; destruct (app s); auto.
    - unfold e_unreg. destruct (alive s); cbn [fst snd]; rewrite ?app_nil_r; auto. same (@nil pwi); cbn; destruct (app s); auto.
    - unfold k_step. destruct F. pose proof (i_ctx _ _ _ _ I) as IC. destruct (wrk s) as [|rst nd c|rst r nd c|rst nd c| | |ps|] eqn:W.
      + destruct (pq s) as [|w q] eqn:Q; cbn [fst snd]; rewrite ?app_nil_r; [constructor; rewrite ?W; auto|]. rewrite <- Q in *.
        set (s1 := with_wrk _ _). assert (PP : pend s -> pend s1).
        { intros [(q0 & X & G)|[(c & X & _)|X]]; [|rewrite W in X; discriminate|rewrite W in X; discriminate].
          left. exists q0. split; auto. unfold work in *. rewrite W in X. subst s1. cbn [with_wrk with_pq wrk pq]. rewrite firstn_skipn. auto. }
        constructor; auto.
        * destruct f4 as [H|[H|[H|H]]]; try discriminate; auto.
        * intros E. destruct (f6 E) as [H|H]; [auto|discriminate].
      + cbn [fst snd]; rewrite ?app_nil_r. set (s1 := with_wrk _ _). assert (PP : pend s -> pend s1).
        { intros [(q0 & X & G)|[(c0 & X & Y)|X]]; [|rewrite W in X|rewrite W in X; discriminate].
          - left. exists q0. split; auto. unfold work in *. rewrite W in X. exact X.
          - right. left. exists c0. auto. }
        constructor; auto.
        * destruct f4 as [H|[H|[H|H]]]; try discriminate; auto.
        * intros E. destruct (f6 E) as [H|H]; [auto|discriminate].
      + destruct (take f (Z.to_nat r) rst c) as [[[ps rst'] c'] e] eqn:T. cbn [fst snd].
        destruct (take_spec cap _ _ _ _ _ _ _ _ T) as (a1 & a2 & a3 & a4 & a5 & a6 & a7 & a8 & a9 & a10 & a11 & a12 & a13 & a14 & a14' & (b1 & b2 & b3 & b4 & b4' & b5 & b6) & a15 & a16).
        set (s1 := with_wrk _ _). assert (PP : pend s -> pend s1 \/ wrk s1 = KDead).
        { assert (FL : c_flush c' = true -> pend s1 \/ wrk s1 = KDead).
          { intros CF. subst s1. cbn [with_wrk with_inq wrk]. destruct rst'.
            - unfold finish. destruct (c_term c') eqn:CT; [auto|]. left. right. right. cbn [with_wrk with_inq wrk]. unfold finish. rewrite ?CT, ?CF. auto.
            - left. right. left. exists c'. auto. }
          intros [(q0 & X & G)|[(c0 & X & Y)|X]]; [|rewrite W in X|rewrite W in X; discriminate].
          - unfold work in X. rewrite W in X. apply in_app_iff in X as [X|X].
            + destruct (b6 q0 X) as [Y|Y]; [rewrite (IC c eq_refl); lia| |auto].
              left. left. exists q0. split; auto. unfold work. subst s1. cbn [with_wrk with_inq wrk pq]. destruct rst'; [contradiction|]. apply in_app_iff. auto.
            + left. left. exists q0. split; auto. apply in_app_iff. right. auto.
          - cbn in X. injection X as <-. auto. }
        assert (WK : worked (wrk s1) = false) by (subst s1; cbn [with_wrk wrk]; destruct rst'; auto; unfold finish; destruct (c_term c'), (c_flush c'); auto).
        constructor; auto.
        * rewrite flcount_app, a12, left_app, a2, app_nil_r. destruct f4 as [H|[H|[H|H]]]; try discriminate; auto.
        * intros E. destruct (f6 E) as [H|H]; [auto|discriminate].
        * intros seen E. destruct (f7 seen E) as (LE & CO). split; auto. intros LT. rewrite left_app, acc_app, a1, a2, !app_nil_r. destruct (CO LT); auto. discriminate.
      + cbn [fst snd]. set (k := Nat.min (length rst) (length (inq s))). set (s1 := with_wrk _ _). assert (PP : pend s -> pend s1).
        { intros [(q0 & X & G)|[(c0 & X & Y)|X]]; [|rewrite W in X|rewrite W in X; discriminate].
          - left. exists q0. split; auto. unfold work in *. rewrite W in X. exact X.
          - right. left. exists c0. auto. }
        assert (LD : left_out (map DropIn (firstn k (inq s))) = []) by (ev; auto). assert (AD : accepted (map DropIn (firstn k (inq s))) = []) by (ev; auto).
        constructor; auto.
        * rewrite flcount_app, fl_map, left_app, LD, app_nil_r by reflexivity. destruct f4 as [H|[H|[H|H]]]; try discriminate; auto.
        * intros E. destruct (f6 E) as [H|H]; [auto|discriminate].
        * intros seen E. destruct (f7 seen E) as (LE & CO). split; auto. intros LT. rewrite left_app, acc_app, LD, AD, !app_nil_r. destruct (CO LT); auto.
      + cbn [fst snd]; rewrite ?app_nil_r. constructor; cbn [with_wrk with_run wrk out_run lastf app worked]; auto.
        * intros l E. specialize (f5 l E). lia.
        * intros E. specialize (f5 _ E). lia.
        * intros seen E. destruct (f7 seen E). split; auto. lia.
      + destruct (out s) as [|q o] eqn:O; cbn [fst snd]; rewrite ?app_nil_r.
        * pose proof (all_left s es I O) as AL. pose proof (fl_le es). pose proof (fl_fst es). constructor; cbn [with_wrk wrk out_run lastf app worked]; auto.
          -- left. lia.
          -- intros E. destruct (f6 E) as [H1|H1]; [left|discriminate]. destruct H1 as [(q0 & X & G)|[(c0 & X & Y)|X]]; [|rewrite W in X; discriminate|rewrite W in X; discriminate].
             left. exists q0. split; auto. unfold work in *. rewrite W in X. exact X.
          -- intros seen E. destruct (f7 seen E). split; auto.
        * constructor; cbn [with_wrk with_out wrk out_run lastf app worked]; auto.
          -- intros E. destruct (f6 E) as [H1|H1]; [left|discriminate]. destruct H1 as [(q0 & X & G)|[(c0 & X & Y)|X]]; [|rewrite W in X; discriminate|rewrite W in X; discriminate].
             left. exists q0. split; auto. unfold work in *. rewrite W in X. exact X.
          -- intros seen E. destruct (f7 seen E). split; auto.
      + assert (PP : forall k, worked k = true -> wctx k = None -> (lastf s = Some (out_run s) -> pend (with_wrk s k) \/ k = KDead)).
        { intros k K1 K2 E. destruct (f6 E) as [H1|H1]; [left|discriminate]. destruct H1 as [(q0 & X & G)|[(c0 & X & Y)|X]]; [|rewrite W in X; discriminate|rewrite W in X; discriminate].
          left. exists q0. split; auto. unfold work in *. rewrite W in X. cbn in X. apply in_app_iff. right. exact X. }
        destruct ps as [|p ps]; cbn [fst snd]; rewrite ?app_nil_r; constructor; cbn [with_wrk wrk out_run lastf app worked]; auto.
        * intros seen E. destruct (f7 seen E). split; auto.
      + cbn [fst snd]. rewrite app_nil_r. constructor; rewrite ?W; auto.
    - unfold k_timer. destruct (wrk s) eqn:W; cbn [fst snd]; rewrite ?app_nil_r; auto. destruct F. rewrite W in *.
      constructor; cbn [with_wrk wrk out_run lastf app]; auto.
      + right. right. left. right. right. auto.
      + intros E. left. right. right. auto.
  Qed.
  Lemma run_fi acts : forall s es, Inv s es -> FI s es -> FI (fst (run cap false s acts)) (es ++ snd (run cap false s acts)).
  Proof.
    induction acts as [|a acts IH]; intros s es I F; cbn [run]; [cbn; rewrite app_nil_r; auto|].
    pose proof (step_inv cap false CP s es a I) as I1. pose proof (step_fi s es a I F) as F1. destruct (step cap false s a) as [s1 e1]. cbn [fst snd] in *. specialize (IH _ _ I1 F1).
    destruct (run cap false s1 acts) as [s2 e2]. cbn [fst snd] in *. rewrite app_assoc. exact IH.
  Qed.
  Lemma resting_flushed s es : Inv s es -> FI s es -> resting s -> snd (flcount es) <= zlen (left_out es).
  Proof.
    intros I [] [W Q]. destruct f4 as [F|[F|[F|F]]]; auto; rewrite ?W in F; try discriminate.
    destruct F as [(q & X & _)|[(c & X & _)|X]]; [|rewrite W in X; discriminate|rewrite W in X; discriminate].
    unfold work in X. rewrite W, Q in X. destruct X.
  Qed.
End flush.

(** The worker alone comes to rest *)
Section rest.
  Context (cap : Z) (tso : bool) (CP : 0 < cap).
  Notation Inv := (Inv cap tso).

  Definition mw (s : st) : Z :=
    match wrk s with
    | KWait | KDead => 0
    | KSee r _ _ => 10 * zlen r + (if cap - zlen (inq s) <=? 0 then 7 else 2)
    | KPut r k _ _ => 10 * zlen r + (if k <=? 0 then 6 else 1)
    | KMake r _ _ => 10 * zlen r + 5
    | KIncr => 2 | KPop => 1 | KHandle ps => 2 + zlen ps
    end.
  Definition measure (s : st) : Z := 20 * zlen (pq s) + 3 * zlen (out s) + mw s.
  Lemma nonempty {A} (l : list A) : l <> [] -> 1 <= zlen l.
  Proof. destruct l; [contradiction|]. rewrite zlen_cons. pose proof (zlen_nonneg l). lia. Qed.
  Lemma mw_nonneg s : 0 <= mw s.
  Proof. unfold mw. destruct (wrk s); try (pose proof (zlen_nonneg rest)); try (pose proof (zlen_nonneg ps)); repeat match goal with |- context [if ?b then _ else _] => destruct b end; lia. Qed.
  Lemma measure_nonneg s : 0 <= measure s.
  Proof. unfold measure. pose proof (mw_nonneg s). pose proof (zlen_nonneg (pq s)). pose proof (zlen_nonneg (out s)). lia. Qed.
  Lemma finish_mw s c : mw (with_wrk s (finish c)) <= 2.
  Proof. unfold mw, finish. cbn [with_wrk wrk]. destruct (c_term c), (c_flush c); lia. Qed.

  Lemma k_progress s es f : Inv s es -> resting s \/ wrk s = KDead \/ measure (fst (k_step cap s f)) < measure s.
  Proof.
    intros I. destruct I. unfold k_step, resting, wok in *. unfold measure at 2. unfold mw. pose proof (zlen_nonneg (pq s)) as NP. pose proof (zlen_nonneg (out s)) as NO. pose proof (zlen_nonneg (inq s)) as NI.
    destruct (wrk s) as [|rst nd c|rst r nd c|rst nd c| | |ps|] eqn:W; auto; [|right; right..].
    - destruct (pq s) as [|w q] eqn:Q; [auto|]. right. right. rewrite <- Q in *. assert (1 <= zlen (pq s)) by (rewrite Q, zlen_cons; pose proof (zlen_nonneg q); lia).
      cbn [fst]. unfold measure, mw. cbn [with_wrk with_pq pq out wrk inq]. rewrite zlen_skipn, zlen_firstn. destruct (cap - zlen (inq s) <=? 0); lia.
    - cbn [fst]. unfold measure, mw. cbn [with_wrk with_pq pq out wrk inq]. destruct (cap - zlen (inq s) <=? 0); lia.
    - destruct (take f (Z.to_nat r) rst c) as [[[ps rst'] c'] e] eqn:T. cbn [fst].
      destruct (take_spec cap _ _ _ _ _ _ _ _ T) as (_ & _ & _ & _ & _ & _ & _ & _ & _ & a10 & _ & _ & _ & _ & _ & _ & a15 & a16).
      destruct i_wrk0 as (RN & _ & _ & RR). pose proof (nonempty _ RN). unfold measure. cbn [with_wrk with_inq pq out].
      destruct rst' as [|w' t'].
      + pose proof (finish_mw (with_inq s (inq s ++ ps)) c') as FM. destruct (r <=? 0); lia.
      + unfold mw. cbn [with_wrk wrk]. destruct (Z.leb_spec r 0).
        * rewrite a16 by lia. lia.
        * specialize (a15 ltac:(lia) RN). lia.
    - destruct i_wrk0 as (RN & _ & _). pose proof (nonempty _ RN). cbn [fst]. unfold measure, mw. cbn [with_wrk with_overrun with_inq pq out wrk inq]. rewrite zlen_skipn.
      set (k := Nat.min (length rst) (length (inq s))). assert (K : Z.of_nat k = Z.min (zlen rst) (zlen (inq s))) by (unfold k, zlen; lia).
      destruct (Z.leb_spec (cap - Z.max 0 (zlen (inq s) - Z.of_nat k)) 0); lia.
    - cbn [fst]. unfold measure, mw. cbn. lia.
    - destruct (out s) as [|q o] eqn:O; [cbn [fst]; unfold measure, mw; cbn [with_wrk pq out wrk]; rewrite O; lia|]. rewrite <- O in *.
      assert (1 <= zlen (out s)) by (rewrite O, zlen_cons; pose proof (zlen_nonneg o); lia).
      cbn [fst]. unfold measure, mw. cbn [with_wrk with_out pq out wrk]. rewrite zlen_skipn, zlen_firstn. lia.
    - destruct ps as [|p ps]; cbn [fst]; unfold measure, mw; cbn [with_wrk pq out wrk]; rewrite ?zlen_cons; try change (zlen (@nil pkt)) with 0; lia.
  Qed.
  Lemma run_cons s a l : fst (run cap tso s (a :: l)) = fst (run cap tso (fst (step cap tso s a)) l).
  Proof. cbn [run]. destruct (step cap tso s a) as [s1 e1]. cbn [fst]. destruct (run cap tso s1 l). auto. Qed.
  Lemma worker_rests f : forall m s es, Inv s es -> (Z.to_nat (measure s) <= m)%nat ->
    exists n, let s' := fst (run cap tso s (repeat (KStep f) n)) in resting s' \/ wrk s' = KDead.
  Proof.
    induction m as [|m IH]; intros s es I M.
    - destruct (k_progress s es f I) as [R|[R|R]]; [exists O; auto|exists O; auto|]. pose proof (measure_nonneg (fst (k_step cap s f))). lia.
    - destruct (k_progress s es f I) as [R|[R|R]]; [exists O; auto|exists O; auto|].
      pose proof (step_inv cap tso CP s es (KStep f) I) as I1. cbn [step] in I1.
      destruct (IH _ _ I1) as (n & D). { pose proof (measure_nonneg (fst (k_step cap s f))). lia. }
      exists (S n). cbn [repeat]. rewrite run_cons. exact D.
  Qed.

  (** The end *)
  Definition dying (s : st) : Prop :=
    In WTerm (pq s) \/ In WTerm (work s) \/ (exists c, wctx (wrk s) = Some c /\ c_term c = true) \/ wrk s = KDead.
  Lemma k_dying s f : dying s -> dying (fst (k_step cap s f)).
  Proof.
    unfold dying, k_step, work. destruct (wrk s) as [|rst nd c|rst r nd c|rst nd c| | |ps|] eqn:W; cbn [wctx In].
    - intros [D|[[]|[(c & [=] & _)|[=]]]]. destruct (pq s) as [|w q] eqn:Q; [destruct D|]. rewrite <- Q in *. cbn [fst with_wrk with_pq pq wrk].
      rewrite <- (firstn_skipn (Z.to_nat cap) (pq s)) in D. apply in_app_iff in D as [D|D]; auto.
    - intros [D|[D|[(c0 & [= <-] & E)|[=]]]]; cbn [fst with_wrk pq wrk]; auto. right. right. left. exists c. auto.
    - destruct (take f (Z.to_nat r) rst c) as [[[ps rst'] c'] e] eqn:T. cbn [fst with_wrk with_inq pq wrk].
      destruct (take_spec cap _ _ _ _ _ _ _ _ T) as (_ & _ & _ & _ & _ & _ & _ & _ & _ & _ & _ & _ & _ & _ & _ & (_ & _ & b3 & b4 & _) & _).
      assert (CT : c_term c' = true -> dying (with_wrk (with_inq s (inq s ++ ps)) (match rst' with [] => finish c' | _ :: _ => KMake rst' nd c' end))).
      { intros CT. unfold dying. cbn [with_wrk wrk]. destruct rst'; [unfold finish; rewrite CT; auto|]. right. right. left. exists c'. auto. }
      intros [D|[D|[(c0 & [= <-] & E)|[=]]]]; auto.
      + destruct (b4 D) as [X|X]; [|apply CT; auto]. right. left. destruct rst'; [destruct X|exact X].
      + apply CT. auto.
    - intros [D|[D|[(c0 & [= <-] & E)|[=]]]]; cbn [fst with_wrk with_overrun with_inq pq wrk]; auto. right. right. left. exists c. auto.
    - intros [D|[[]|[(c & [=] & _)|[=]]]]; cbn [fst with_wrk with_run pq wrk]; auto.
    - intros [D|[[]|[(c & [=] & _)|[=]]]]; destruct (out s); cbn [fst with_wrk with_out pq wrk]; auto.
    - intros [D|[[]|[(c & [=] & _)|[=]]]]; destruct ps; cbn [fst with_wrk with_out pq wrk]; auto.
    - intros D. cbn [fst]. rewrite W. auto.
  Qed.
  Lemma k_app s f : app (fst (k_step cap s f)) = app s /\ sb (fst (k_step cap s f)) = sb s.
  Proof.
    unfold k_step. destruct (wrk s) as [|rst nd c|rst r nd c|rst nd c| | |ps|]; cbn [fst]; auto.
    - destruct (pq s); auto.
    - destruct (take f (Z.to_nat r) rst c) as [[[? ?] ?] ?]. auto.
    - destruct (out s); auto.
    - destruct ps; auto.
  Qed.
  Lemma join_step s a : app s = AJoin -> dying s ->
    (app (fst (step cap tso s a)) = AJoin /\ dying (fst (step cap tso s a))) \/ In Ended (snd (step cap tso s a)).
  Proof.
    intros A D. assert (AL : alive s = false) by (unfold alive; rewrite A; auto).
    destruct a as [p|p|ps| | |ok| |n|p ok|port x ok|port|f|]; cbn [step]; unfold u_push, u_try_push, u_try_push_many, u_flush, u_dtor, u_step, u_pop, e_send, e_reg, e_unreg; rewrite ?A, ?AL; cbn [fst snd]; auto.
    - destruct (wrk s) eqn:W; cbn [fst snd]; auto. destruct (sb s); cbn [fst snd]; auto. right. rewrite !in_app_iff. cbn. auto.
    - unfold u_commit. destruct (sb s); cbn [fst snd]; auto.
    - left. split; [rewrite (proj1 (k_app s f)); auto|apply k_dying; auto].
    - unfold k_timer. destruct (wrk s) eqn:W; cbn [fst snd]; auto. left. split; auto. unfold dying, work in *. rewrite W in *. cbn in *. intuition (try discriminate).
  Qed.
  Lemma join_run acts : forall s, app s = AJoin -> dying s ->
    (app (fst (run cap tso s acts)) = AJoin /\ dying (fst (run cap tso s acts))) \/ In Ended (snd (run cap tso s acts)).
  Proof.
    induction acts as [|a acts IH]; intros s A D; cbn [run]; [auto|]. pose proof (join_step s a A D) as J.
    destruct (step cap tso s a) as [s1 e1]. cbn [fst snd] in J. destruct J as [(A1 & D1)|E].
    - specialize (IH s1 A1 D1). destruct (run cap tso s1 acts) as [s2 e2]. cbn [fst snd] in *. rewrite in_app_iff. tauto.
    - destruct (run cap tso s1 acts) as [s2 e2]. cbn [fst snd]. rewrite in_app_iff. auto.
  Qed.
  Lemma commits n : forall s, let s' := fst (run cap tso s (repeat UCommit n)) in
    app s' = app s /\ wrk s' = wrk s /\ pq s' = pq s /\ sb s' = skipn n (sb s).
  Proof.
    induction n as [|n IH]; intros s; cbn [repeat]; [cbn; auto|]. rewrite run_cons. cbn zeta. destruct (IH (fst (step cap tso s UCommit))) as (a & b & c & d). rewrite a, b, c, d.
    cbn [step]. unfold u_commit. destruct (sb s) eqn:S; cbn [fst]; [rewrite S; rewrite skipn_nil; auto|]. cbn [with_out app wrk pq sb]. auto.
  Qed.
  Lemma ksteps n f : forall s, let s' := fst (run cap tso s (repeat (KStep f) n)) in app s' = app s /\ sb s' = sb s.
  Proof.
    induction n as [|n IH]; intros s; cbn [repeat]; [cbn; auto|]. rewrite run_cons. cbn zeta. destruct (IH (fst (step cap tso s (KStep f)))) as (a & b). rewrite a, b. cbn [step]. apply k_app.
  Qed.
  Lemma run_app s a b : run cap tso s (a ++ b) = (fst (run cap tso (fst (run cap tso s a)) b), snd (run cap tso s a) ++ snd (run cap tso (fst (run cap tso s a)) b)).
  Proof.
    revert s. induction a as [|x a IH]; intros s; cbn [List.app run fst snd]; [destruct (run cap tso s b); auto|].
    destruct (step cap tso s x) as [s1 e1]. rewrite IH. destruct (run cap tso s1 a) as [s2 e2]. cbn [fst snd]. rewrite <- app_assoc. auto.
  Qed.
  Lemma join_ends s es f : Inv s es -> app s = AJoin -> dying s ->
    exists n m, In Ended (snd (run cap tso s (repeat (KStep f) n ++ repeat UCommit m ++ [UStep true]))).
  Proof.
    intros I A D. destruct (worker_rests f _ s es I (Nat.le_refl _)) as (n & R). cbn zeta in R.
    exists n, (length (sb s)). set (s1 := fst (run cap tso s (repeat (KStep f) n))) in *.
    assert (D1 : dying s1). { subst s1. clear R I. revert s A D. induction n as [|n IH]; intros s A D; cbn [repeat]; [exact D|]. rewrite run_cons. apply IH; cbn [step]; [rewrite (proj1 (k_app s f)); auto|apply k_dying; auto]. }
    assert (W : wrk s1 = KDead).
    { destruct R as [[W Q]|W]; auto. exfalso. unfold dying, work in D1. rewrite W, Q in D1. destruct D1 as [[]|[[]|[(c & [=] & _)|[=]]]]. }
    destruct (ksteps n f s) as (A1 & B1). fold s1 in A1, B1. rewrite run_app. cbn [snd]. apply in_or_app. right. fold s1. rewrite run_app. cbn [snd]. apply in_or_app. right.
    destruct (commits (length (sb s)) s1) as (A2 & W2 & _ & B2). set (s2 := fst (run cap tso s1 (repeat UCommit (length (sb s))))) in *.
    cbn [run step]. unfold u_step. rewrite A2, A1, A, W2, W, B2, B1, skipn_all. cbn [snd]. rewrite !in_app_iff. cbn. auto 8.
  Qed.

  (** Without the signal the worker stays *)
  Lemma k_noterm s f : noterm s -> noterm (fst (k_step cap s f)).
  Proof.
    unfold noterm, k_step, work. destruct (wrk s) as [|rst nd c|rst r nd c|rst nd c| | |ps|] eqn:W; cbn [wctx]; intros (t1 & t2 & t3 & t4).
    - destruct (pq s) as [|w q] eqn:Q; [cbn [fst]; rewrite Q, W; cbn; repeat split; auto; discriminate|]. rewrite <- Q in *. cbn [fst with_wrk with_pq pq wrk wctx].
      rewrite <- (firstn_skipn (Z.to_nat cap) (pq s)) in t1. rewrite in_app_iff in t1. repeat split; auto; try discriminate. intros c [= <-]. auto.
    - cbn [fst with_wrk pq wrk wctx]. repeat split; auto. discriminate.
    - destruct (take f (Z.to_nat r) rst c) as [[[ps rst'] c'] e] eqn:T. cbn [fst with_wrk with_inq pq wrk].
      destruct (take_spec cap _ _ _ _ _ _ _ _ T) as (_ & _ & _ & _ & _ & _ & _ & _ & _ & _ & _ & _ & _ & _ & _ & (_ & _ & _ & _ & b4' & b5 & _) & _).
      assert (CT : c_term c' = false) by (rewrite b5; auto). repeat split; auto.
      + destruct rst'; [unfold finish; rewrite CT; destruct (c_flush c'); auto|]. intros X. apply t2. auto.
      + destruct rst'; [unfold finish; rewrite CT; destruct (c_flush c'); discriminate|discriminate].
      + destruct rst'; [unfold finish; rewrite CT; destruct (c_flush c'); discriminate|]. cbn. intros c0 [= <-]. auto.
    - cbn [fst with_wrk with_overrun with_inq pq wrk wctx]. repeat split; auto. discriminate.
    - cbn [fst with_wrk with_run pq wrk wctx]. repeat split; auto; discriminate.
    - destruct (out s); cbn [fst with_wrk with_out pq wrk wctx]; repeat split; auto; discriminate.
    - destruct ps; cbn [fst with_wrk with_out pq wrk wctx]; repeat split; auto; discriminate.
    - contradiction.
  Qed.
  Lemma hang_step s a : app s = AJoin -> noterm s -> app (fst (step cap tso s a)) = AJoin /\ noterm (fst (step cap tso s a)) /\ ~ In Ended (snd (step cap tso s a)).
  Proof.
    intros A D. assert (AL : alive s = false) by (unfold alive; rewrite A; auto). pose proof D as (t1 & t2 & t3 & t4).
    destruct a as [p|p|ps| | |ok| |n|p ok|port x ok|port|f|]; cbn [step]; unfold u_push, u_try_push, u_try_push_many, u_flush, u_dtor, u_step, u_pop, e_send, e_reg, e_unreg; rewrite ?A, ?AL; cbn [fst snd]; auto.
    - destruct (wrk s) eqn:W; cbn [fst snd]; auto. contradiction.
    - unfold u_commit. destruct (sb s); cbn [fst snd]; auto.
    - split; [rewrite (proj1 (k_app s f)); auto|]. split; [apply k_noterm; auto|].
      unfold k_step. destruct (wrk s) as [|rst nd c|rst r nd c|rst nd c| | |ps|]; cbn [snd]; auto.
      + destruct (pq s); auto.
      + destruct (take f (Z.to_nat r) rst c) as [[[ps rst'] c'] e] eqn:T. cbn [snd].
        destruct (take_spec cap _ _ _ _ _ _ _ _ T) as (_ & _ & _ & _ & _ & _ & _ & _ & _ & _ & _ & _ & _ & _ & a14' & _). auto.
      + apply in_map_not. discriminate.
      + destruct (out s); cbn [snd]; auto. apply in_map_not. discriminate.
      + destruct ps; cbn [snd]; auto. destruct (streams s (pport p)); cbn; intuition discriminate.
    - unfold k_timer. destruct (wrk s) eqn:W; cbn [fst snd]; auto. repeat split; auto; unfold noterm, work; cbn; try discriminate; auto.
  Qed.
  Lemma hang_run acts : forall s, app s = AJoin -> noterm s -> ~ In Ended (snd (run cap tso s acts)).
  Proof.
    induction acts as [|a acts IH]; intros s A D; cbn [run]; [auto|]. destruct (hang_step s a A D) as (A1 & D1 & N).
    destruct (step cap tso s a) as [s1 e1]. cbn [fst snd] in *. specialize (IH s1 A1 D1). destruct (run cap tso s1 acts). cbn [snd] in *. rewrite in_app_iff. tauto.
  Qed.
End rest.

(** Numbers of ports *)
Lemma alloc_inv ts : Z.of_nat (length ts) < 2 ^ 31 ->
  let s := run_alloc ts in
  waiting s = [] /\ counter s = (2 + 2 * Z.of_nat (length ts)) mod 2 ^ 32 /\ map fst (given s) = ts /\
  map snd (given s) = map (fun i => 2 + 2 * Z.of_nat i) (seq 0 (length ts)).
Proof.
  induction ts as [|t ts IH] using rev_ind; intros L; [cbn; auto|]. rewrite app_length in L. cbn [length] in L.
  specialize (IH ltac:(lia)). cbn zeta in IH |- *. unfold run_alloc in *. rewrite fold_left_app. cbn [fold_left]. set (s := fold_left alloc_step ts ports0) in *.
  destruct IH as (W & C & F & G). unfold alloc_step. rewrite W. cbn [existsb].
  change (2 ^ 31) with 2147483648 in *. change (2 ^ 32) with 4294967296 in *.
  assert (CV : counter s = 2 + 2 * Z.of_nat (length ts)) by (rewrite C; apply Z.mod_small; lia).
  destruct (Z.eqb_spec (counter s) 0); [lia|]. cbn [waiting counter given]. rewrite !map_app, F, G, app_length, seq_app. cbn [length seq map]. rewrite map_app. cbn [map].
  repeat split; auto; [rewrite CV; f_equal; lia|rewrite CV; f_equal].
Qed.

(** After the end *)
Section ended.
  Context (cap : Z) (tso : bool).
  Definition gone (s : st) : Prop := app s = AGone /\ wrk s = KDead /\ out s = [] /\ sb s = [] /\ inq s = [] /\ pq s = [].
  Lemma gone_step s a : gone s -> step cap tso s a = (s, []).
  Proof.
    intros (A & W & O & SB & Q & P). assert (AL : alive s = false) by (unfold alive; rewrite A; auto).
    destruct a; cbn [step]; unfold u_push, u_try_push, u_try_push_many, u_flush, u_dtor, u_step, u_pop, u_commit, e_send, e_reg, e_unreg, k_step, k_timer; rewrite ?A, ?AL, ?W, ?SB; auto.
  Qed.
  Lemma ended_step s a : In Ended (snd (step cap tso s a)) -> gone (fst (step cap tso s a)).
  Proof.
    assert (NM : forall {A} (g : A -> event) l, (forall x, g x <> Ended) -> ~ In Ended (map g l)) by (intros; apply in_map_not; auto).
    destruct a as [p|p|ps| | |ok| |n|p ok|port x ok|port|f|]; cbn [step]; unfold u_push, u_try_push, u_try_push_many, u_flush, u_dtor, u_step, u_pop, u_commit, e_send, e_reg, e_unreg, k_timer; intros E.
    - destruct (app s); destruct E.
    - destruct (app s); try (destruct E; fail). destruct (1 <=? room cap s); destruct E as [E|[]]; discriminate.
    - destruct (app s); try (destruct E; fail). cbn [snd] in E. apply in_app_iff in E as [E|E]; exfalso; revert E; apply NM; discriminate.
    - destruct (app s); try (destruct E; fail). destruct (lastf s); [destruct (out_run s =? z)|]; try (destruct E; fail). destruct E as [E|[]]; discriminate.
    - destruct (app s); destruct E.
    - destruct (app s) as [|p|p|seen| |]; try (destruct E; fail).
      + destruct (1 <=? room cap s); [destruct E as [E|[]]; discriminate|destruct E].
      + destruct (sb s); [|destruct E]. destruct (out s); destruct E as [E|[]]; discriminate.
      + destruct (sb s); [|destruct E]. destruct (ok && _); destruct E as [E|[]]; discriminate.
      + destruct (wrk s) eqn:W; try (destruct E; fail). destruct (sb s); [|destruct E]. cbn [fst]. unfold gone. cbn [with_app with_pq with_inq with_out app wrk out sb inq pq]. auto 8.
    - destruct (sb s); destruct E.
    - destruct (alive s); [|destruct E]. exfalso. revert E. cbn [snd]. apply NM. discriminate.
    - destruct (alive s); [|destruct E]. destruct (ok && _); destruct E as [E|[]]; discriminate.
    - destruct (alive s); [|destruct E]. destruct (streams s port); [destruct E|]. destruct (ok && _); [destruct E as [E|[]]; discriminate|destruct E].
    - destruct (alive s); [|destruct E]. destruct E as [E|[]]; discriminate.
    - exfalso. revert E. unfold k_step. destruct (wrk s) as [|rst nd c|rst r nd c|rst nd c| | |ps|]; cbn [snd]; auto.
      + destruct (pq s); auto.
      + destruct (take f (Z.to_nat r) rst c) as [[[ps rst'] c'] e] eqn:T. cbn [snd].
        destruct (take_spec cap _ _ _ _ _ _ _ _ T) as (_ & _ & _ & _ & _ & _ & _ & _ & _ & _ & _ & _ & _ & _ & a14' & _). auto.
      + apply NM. discriminate.
      + destruct (out s); cbn [snd]; auto. apply NM. discriminate.
      + destruct ps; cbn [snd]; auto. destruct (streams s (pport p)); cbn; intuition discriminate.
    - destruct (wrk s); destruct E.
  Qed.
  Lemma gone_run acts : forall s, gone s -> run cap tso s acts = (s, []).
  Proof. induction acts as [|a acts IH]; intros s G; cbn [run]; auto. rewrite gone_step, IH; auto. Qed.
  Lemma ended_run acts : forall s, In Ended (snd (run cap tso s acts)) -> gone (fst (run cap tso s acts)).
  Proof.
    induction acts as [|a acts IH]; intros s; cbn [run]; [intros []|]. pose proof (ended_step s a) as E. destruct (step cap tso s a) as [s1 e1]. cbn [fst snd] in E.
    specialize (IH s1). destruct (run cap tso s1 acts) as [s2 e2] eqn:R. cbn [fst snd] in *. rewrite in_app_iff. intros [X|X]; auto.
    rewrite gone_run in R by auto. injection R as <- <-. auto.
  Qed.
End ended.

Lemma prefix_of {A} (a b c d : list A) : a ++ b = c ++ d -> zlen c <= zlen a -> exists r, a = c ++ r.
Proof.
  unfold zlen. revert c. induction a as [|x a IH]; intros c E L.
  - destruct c; [exists []; auto|cbn in L; lia].
  - destruct c as [|y c]; [exists (x :: a); auto|]. cbn in E, L. injection E as -> E. destruct (IH c E) as (r & ->); [lia|]. exists r. auto.
Qed.
