(** Proofs about the accounting file: one call alone, and what goes wrong. *)
From Verif Require Import Base Str CsvModel CsvSpec CsvProof CsvProof2 CsvProof3 CsvProof4.

(** * The name of the node *)
Lemma nids_fresh ival l : forall n hist,
  0 < ival -> Forall (fun e => 0 < fst e /\ exists h, snd e = Some h) l ->
  (cn_next n = 0 \/ exists t, 0 < t /\ In (t, Some (cn_id n)) hist /\ cn_next n = t + ival) ->
  let n' := nids ival n l in
  (l = [] /\ n' = n) \/
  exists t, 0 < t /\ In (t, Some (cn_id n')) (hist ++ l) /\ cn_next n' = t + ival
    /\ fst (last l (0, None)) <= t + ival.
Proof.
  induction l as [|[d h] l IH]; intros n hist Hi F H n'; [left; split; reflexivity|right].
  inversion F as [|? ? [F1 [h' F2]] F3]; subst. cbn [fst snd] in *. subst h.
  assert (S1 : exists t, 0 < t /\ In (t, Some (cn_id (get_nid ival n d (Some h')))) (hist ++ [(d, Some h')])
            /\ cn_next (get_nid ival n d (Some h')) = t + ival /\ d <= t + ival).
  { unfold get_nid. destruct ((cn_next n =? 0) || (cn_next n <? d)) eqn:E.
    - exists d. cbn [cn_id cn_next]. split; [lia|]. split; [apply in_app_iff; right; left; reflexivity|]. lia.
    - destruct H as [H|(t & T1 & T2 & T3)]; [lia|]. exists t. split; [exact T1|].
      split; [apply in_app_iff; left; exact T2|]. lia. }
  destruct S1 as (t & T1 & T2 & T3 & T4).
  unfold n'. cbn [nids].
  destruct (IH (get_nid ival n d (Some h')) (hist ++ [(d, Some h')]) Hi F3) as [[-> E]|(t' & A1 & A2 & A3 & A4)].
  - right. exists t. auto.
  - rewrite E. exists t. cbn [last fst]. auto.
  - exists t'. split; [exact A1|]. split; [now rewrite <- app_assoc in A2|]. split; [exact A3|].
    destruct l as [|e l]; [|exact A4]. cbn in A4 |- *.
    cbn [nids] in A3, A2. lia.
Qed.

(** * One call alone *)
Lemma head_short : (s32 (Z.of_nat (length csv_head)) <? 0) = false.
Proof. vm_compute. reflexivity. Qed.
#[local] Opaque csv_head.
Lemma idle_run s p n : cp_pc (cy_proc s p) = PIdle -> crun s (repeat (ODo p ROk) n) = s.
Proof.
  intros H. induction n as [|n IH]; [reflexivity|]. cbn [repeat crun fold_left cstep].
  replace (do_step s p ROk) with s; [exact IH|]. unfold do_step. now rewrite H.
Qed.
Lemma crun_app s a b : crun s (a ++ b) = crun (crun s a) b.
Proof. unfold crun. apply fold_left_app. Qed.

Lemma lock_none s p i : cy_lock s i = None -> lock_free s p i = true.
Proof. unfold lock_free. now intros ->. Qed.

Lemma run_row s p r i off stt :
  cy_proc s p = CProc (PLock r) (FOpen i off) stt -> cy_lock s i = None ->
  (i < length (cy_data s))%nat -> (s32 off <? 0) = false ->
  let s' := crun s (repeat (ODo p ROk) 3) in
  cy_name s' = cy_name s /\ cp_pc (cy_proc s' p) = PIdle
  /\ fdata s' i = fdata s i ++ r /\ (forall j, j <> i -> fdata s' j = fdata s j)
  /\ cy_log s' = EWrote p r i :: cy_log s
  /\ cy_proc s' p = CProc PIdle (FOpen i (fend s' i)) stt /\ cy_lock s' i = None.
Proof.
  intros V L D O s'. unfold s'. cbn [repeat crun fold_left cstep].
  assert (E1 : do_step s p ROk = sproc (slock s i (Some p)) p (CProc (PWrite r) (FOpen i off) stt)).
  { unfold do_step. rewrite V. cbn [cp_pc cp_fd cp_stt]. now rewrite (lock_none s p i L), O. }
  rewrite E1. set (s1 := sproc _ _ _).
  assert (V1 : cy_proc s1 p = CProc (PWrite r) (FOpen i off) stt) by apply fset_same.
  assert (E2 : do_step s1 p ROk = slog (sproc (sappend s1 i r) p (CProc PUnlock (FOpen i (fend (sappend s1 i r) i)) stt)) [EWrote p r i]).
  { unfold do_step. rewrite V1. reflexivity. }
  rewrite E2. set (s2 := slog _ _).
  assert (V2 : cy_proc s2 p = CProc PUnlock (FOpen i (fend (sappend s1 i r) i)) stt) by apply fset_same.
  assert (E3 : do_step s2 p ROk = sproc (slock s2 i None) p (CProc PIdle (FOpen i (fend (sappend s1 i r) i)) stt)).
  { unfold do_step. rewrite V2. reflexivity. }
  rewrite E3.
  assert (F : forall j, fdata (sproc (slock s2 i None) p (CProc PIdle (FOpen i (fend (sappend s1 i r) i)) stt)) j = if Nat.eqb j i then fdata s i ++ r else fdata s j).
  { intros j. exact (fdata_upd s i (fdata s i ++ r) j D). }
  split; [reflexivity|]. split; [cbn [cy_proc sproc]; now rewrite fset_same|].
  split; [rewrite F, Nat.eqb_refl; reflexivity|].
  split; [intros j N; rewrite F; now rewrite (proj2 (Nat.eqb_neq j i) N)|].
  split; [reflexivity|]. split; [cbn [cy_proc sproc]; rewrite fset_same; reflexivity|].
  cbn [cy_lock sproc slock]. apply fset_same.
Qed.

Lemma run_open s p k i off stt :
  cy_proc s p = CProc (POLock k) (FOpen i off) stt -> off = 0 -> cy_lock s i = None ->
  (i < length (cy_data s))%nat ->
  let s' := crun s (repeat (ODo p ROk) 4) in
  cy_name s' = cy_name s
  /\ (exists off', cy_proc s' p = CProc (match k with Some r => PLock r | None => PIdle end) (FOpen i off') (Some i)
        /\ (s32 off' <? 0) = false)
  /\ fdata s' i = fdata s i ++ (match fdata s i with [] => csv_head | _ => [] end)
  /\ (forall j, j <> i -> fdata s' j = fdata s j)
  /\ length (cy_data s') = length (cy_data s) /\ cy_lock s' i = None /\ cy_log s' = cy_log s.
Proof.
  intros V -> L D s'. unfold s'. cbn [repeat crun fold_left cstep].
  assert (E1 : do_step s p ROk = slock (sproc s p (CProc (POFstat k) (FOpen i 0) stt)) i (Some p)).
  { unfold do_step. rewrite V. cbn [cp_pc cp_fd cp_stt]. now rewrite (lock_none s p i L). }
  rewrite E1. set (s1 := slock _ _ _).
  assert (V1 : cy_proc s1 p = CProc (POFstat k) (FOpen i 0) stt) by apply fset_same.
  assert (E2 : do_step s1 p ROk = sproc s1 p (CProc (POHead k (fend s1 i)) (FOpen i 0) (Some i))).
  { unfold do_step. rewrite V1. reflexivity. }
  rewrite E2. set (s2 := sproc s1 _ _).
  assert (V2 : cy_proc s2 p = CProc (POHead k (fend s1 i)) (FOpen i 0) (Some i)) by apply fset_same.
  change (fend s1 i) with (Z.of_nat (length (fdata s i))) in V2.
  assert (X : exists off' s3, do_step s2 p ROk = s3 /\ cy_proc s3 p = CProc (POUnlock k true) (FOpen i off') (Some i)
     /\ (s32 off' <? 0) = false /\ cy_name s3 = cy_name s
     /\ fdata s3 i = fdata s i ++ (match fdata s i with [] => csv_head | _ => [] end)
     /\ (forall j, j <> i -> fdata s3 j = fdata s j) /\ length (cy_data s3) = length (cy_data s) /\ cy_log s3 = cy_log s).
  { destruct (fdata s i) as [|c t] eqn:C.
    - exists (fend (sappend s2 i csv_head) i), (sproc (sappend s2 i csv_head) p (CProc (POUnlock k true) (FOpen i (fend (sappend s2 i csv_head) i)) (Some i))).
      assert (F : forall j, fdata (sappend s2 i csv_head) j = if Nat.eqb j i then csv_head else fdata s j).
      { intros j. transitivity (if Nat.eqb j i then fdata s i ++ csv_head else fdata s j); [exact (fdata_upd s i (fdata s i ++ csv_head) j D)|].
        rewrite C. reflexivity. }
      split; [|split; [cbn [cy_proc sproc]; apply fset_same|]].
      { unfold do_step. rewrite V2. reflexivity. }
      split. { unfold fend. rewrite F, Nat.eqb_refl. apply head_short. }
      split; [reflexivity|].
      split. { match goal with |- fdata ?a i = _ => change (fdata a i) with (fdata (sappend s2 i csv_head) i) end. now rewrite F, Nat.eqb_refl. }
      split. { intros j N. match goal with |- fdata ?a j = _ => change (fdata a j) with (fdata (sappend s2 i csv_head) j) end.
               now rewrite F, (proj2 (Nat.eqb_neq j i) N). }
      split; [cbn [cy_data sproc sappend sdata]; apply upd_length|reflexivity].
    - exists 0, (sproc s2 p (CProc (POUnlock k true) (FOpen i 0) (Some i))).
      split; [|split; [cbn [cy_proc sproc]; apply fset_same|]].
      { unfold do_step. rewrite V2. reflexivity. }
      split; [reflexivity|]. split; [reflexivity|]. rewrite app_nil_r. split; [exact C|]. auto. }
  destruct X as (off' & s3 & E3 & V3 & O3 & N3 & F3 & G3 & L3 & R3). rewrite E3.
  assert (E4 : do_step s3 p ROk = sproc (slock s3 i None) p (CProc (match k with Some r => PLock r | None => PIdle end) (FOpen i off') (Some i))).
  { unfold do_step. rewrite V3. cbn [cp_pc cp_fd cp_stt]. destruct k; reflexivity. }
  rewrite E4. split; [exact N3|]. split.
  { exists off'. split; [cbn [cy_proc sproc]; apply fset_same|exact O3]. }
  split; [exact F3|]. split; [exact G3|]. split; [exact L3|]. split; [cbn [cy_lock sproc slock]; apply fset_same|exact R3].
Qed.

Lemma crun_one s p x : crun s [ODo p x] = do_step s p x.
Proof. reflexivity. Qed.
Lemma rep_app {A} (x : A) a b : repeat x (a + b) = repeat x a ++ repeat x b.
Proof. apply repeat_app. Qed.

Lemma open_call s p r j off stt :
  cy_proc s p = CProc (POpen (Some r)) (FOpen j off) stt -> (forall i, cy_lock s i = None) ->
  (forall i, cy_name s = Some i -> (i < length (cy_data s))%nat) ->
  exists s1 i, do_step s p ROk = s1
    /\ cy_proc s1 p = CProc (POLock (Some r)) (FOpen i 0) stt /\ cy_lock s1 i = None /\ (i < length (cy_data s1))%nat
    /\ cy_name s1 = Some i /\ (forall a, fdata s1 a = fdata s a) /\ cy_log s1 = cy_log s
    /\ (cy_name s = Some i \/ (cy_name s = None /\ i = length (cy_data s))).
Proof.
  intros V L Hn.
  assert (K : forall i, cy_lock (sclose s p (FOpen j off)) i = None).
  { intros i. destruct (cy_lock (sclose s p (FOpen j off)) i) eqn:E; [|reflexivity].
    apply sclose_lock_p in E. rewrite L in E. discriminate. }
  assert (F : forall a, fdata (sclose s p (FOpen j off)) a = fdata s a).
  { intros a. unfold fdata. now rewrite sclose_data. }
  assert (G := sclose_log s p (FOpen j off)). cbn match in G.
  assert (D := sclose_data s p (FOpen j off)). assert (M := sclose_name s p (FOpen j off)).
  unfold do_step. rewrite V. cbn [cp_pc cp_fd cp_stt]. cbv zeta.
  set (c := sclose s p (FOpen j off)) in *. clearbody c.
  destruct (cy_name s) as [i|] eqn:N; rewrite M.
  - eexists. exists i. split; [reflexivity|]. split; [apply fset_same|]. split; [apply K|].
    split; [cbn [cy_data sproc]; rewrite D; now apply Hn|]. split; [exact M|]. split; [exact F|]. split; [exact G|].
    left. reflexivity.
  - eexists. exists (length (cy_data s)). rewrite D. split; [reflexivity|]. split; [apply fset_same|]. split; [apply K|].
    split; [cbn [cy_data sproc smake]; rewrite D, app_length; cbn; lia|]. split; [cbn [cy_name sproc smake]; now rewrite D|].
    split; [intros a; exact (eq_trans (fdata_make c a) (F a))|]. split; [exact G|]. right. split; reflexivity.
Qed.

Lemma run_reopen s p r j off stt :
  cy_proc s p = CProc (POpen (Some r)) (FOpen j off) stt -> (forall i, cy_lock s i = None) ->
  (forall i, cy_name s = Some i -> (i < length (cy_data s))%nat) ->
  exists s' i, crun s (repeat (ODo p ROk) 8) = s' /\ cy_name s' = Some i
    /\ (cy_name s = Some i \/ (cy_name s = None /\ i = length (cy_data s)))
    /\ fdata s' i = fdata s i ++ (match fdata s i with [] => csv_head | _ => [] end) ++ r
    /\ (forall a, a <> i -> fdata s' a = fdata s a)
    /\ cp_pc (cy_proc s' p) = PIdle /\ cy_log s' = EWrote p r i :: cy_log s.
Proof.
  intros V L Hn. destruct (open_call s p r j off stt V L Hn) as (s1 & i & E1 & V1 & L1 & D1 & N1 & F1 & R1 & Wh).
  rewrite (rep_app (ODo p ROk) 5 3 : repeat (ODo p ROk) 8 = _), (rep_app (ODo p ROk) 1 4 : repeat (ODo p ROk) 5 = [ODo p ROk] ++ _), !crun_app.
  rewrite crun_one, E1. clear E1.
  destruct (run_open s1 p (Some r) i 0 stt V1 eq_refl L1 D1) as (A1 & (off' & A2 & A3) & A4 & A5 & A6 & A7 & A8).
  set (s2 := crun s1 (repeat (ODo p ROk) 4)) in *. clearbody s2.
  destruct (run_row s2 p r i off' (Some i) A2 A7 ltac:(lia) A3) as (B1 & B2 & B3 & B4 & B5 & _ & _).
  set (s3 := crun s2 (repeat (ODo p ROk) 3)) in *. clearbody s3.
  exists s3, i. split; [reflexivity|].
  split; [congruence|]. split; [exact Wh|].
  split; [rewrite B3, A4, F1, <- app_assoc; reflexivity|].
  split; [intros a Na; rewrite B4, A5, F1 by exact Na; reflexivity|].
  split; [exact B2|]. rewrite B5, A8, R1. reflexivity.
Qed.

Lemma crun_cons s o l : crun s (o :: l) = crun (cstep s o) l.
Proof. reflexivity. Qed.

Lemma run_alone c0 s p r :
  sinv c0 s -> tiny s -> opened (cy_proc s p) -> cp_pc (cy_proc s p) = PIdle -> (forall i, cy_lock s i = None) ->
  exists s' i, crun s (OEnd p r :: repeat (ODo p ROk) 9) = s' /\ cy_name s' = Some i
    /\ (cy_name s = Some i \/ (cy_name s = None /\ i = length (cy_data s)))
    /\ fdata s' i = fdata s i ++ (match fdata s i with [] => csv_head | _ => [] end) ++ r
    /\ (forall j, j <> i -> fdata s' j = fdata s j)
    /\ cp_pc (cy_proc s' p) = PIdle /\ cy_log s' = EWrote p r i :: ECall p r :: cy_log s.
Proof.
  intros I T O V L. pose proof (si_proc _ _ I p) as P. pose proof (si_name _ _ I) as Hn.
  destruct (cy_proc s p) as [pc fd stt] eqn:Vp. cbn [cp_pc] in V. subst pc.
  unfold opened in O. cbn [cp_pc cp_fd] in O. destruct fd as [|j off|]; try contradiction.
  unfold pok in P. cbn [cp_pc cp_fd cp_stt] in P. destruct P as (P1 & P2 & P3 & ->).
  assert (O0 : (s32 off <? 0) = false) by (apply (s32_tiny off (fend s j)); [exact P2|apply T]).
  assert (X0 : exists s0, cstep s (OEnd p r) = s0 /\ cy_proc s0 p = CProc (PStat r) (FOpen j off) (Some j)
     /\ cy_name s0 = cy_name s /\ (forall i, cy_lock s0 i = None) /\ cy_data s0 = cy_data s /\ cy_log s0 = ECall p r :: cy_log s).
  { eexists. split; [reflexivity|]. unfold cstep. rewrite Vp. cbn [cp_pc cp_fd cp_stt].
    split; [apply fset_same|]. repeat split; auto. }
  destruct X0 as (s0 & E0 & V0 & N0 & L0 & D0 & R0). rewrite crun_cons, E0. clear E0.
  assert (F0 : forall a, fdata s0 a = fdata s a) by (intros a; unfold fdata; now rewrite D0).
  rewrite (rep_app (ODo p ROk) 1 8 : repeat (ODo p ROk) 9 = [ODo p ROk] ++ repeat (ODo p ROk) 8), crun_app, crun_one.
  assert (X1 : exists s1, do_step s0 p ROk = s1
     /\ cy_proc s1 p = CProc (if match cy_name s with Some i => Nat.eqb i j | None => false end then PLock r else POpen (Some r)) (FOpen j off) (Some j)
     /\ cy_name s1 = cy_name s /\ (forall i, cy_lock s1 i = None) /\ cy_data s1 = cy_data s /\ cy_log s1 = ECall p r :: cy_log s).
  { eexists. split; [reflexivity|]. unfold do_step. rewrite V0. cbn [cp_pc cp_fd cp_stt]. rewrite N0.
    destruct (cy_name s) as [i|] eqn:N; [destruct (Nat.eqb i j)|];
    (split; [apply fset_same|]); cbn [cy_name cy_lock cy_data cy_log sproc]; repeat split; auto. }
  destruct X1 as (s1 & E1 & V1 & N1 & L1 & D1 & R1). rewrite E1. clear E1.
  assert (F1 : forall a, fdata s1 a = fdata s a) by (intros a; unfold fdata; now rewrite D1).
  destruct (match cy_name s with Some i => Nat.eqb i j | None => false end) eqn:Eq.
  - destruct (cy_name s) as [i|] eqn:N; [|discriminate]. apply Nat.eqb_eq in Eq. subst i.
    rewrite (rep_app (ODo p ROk) 3 5 : repeat (ODo p ROk) 8 = _), crun_app.
    destruct (run_row s1 p r j off (Some j) V1 (L1 j) ltac:(rewrite D1; exact P1) O0) as (B1 & B2 & B3 & B4 & B5 & _ & _).
    set (s3 := crun s1 (repeat (ODo p ROk) 3)) in *. clearbody s3. rewrite idle_run by exact B2.
    exists s3, j. split; [reflexivity|]. split; [congruence|]. split; [left; reflexivity|].
    split. { rewrite B3, F1. destruct (fdata s j); [congruence|reflexivity]. }
    split; [intros a Na; rewrite B4, F1 by exact Na; reflexivity|]. split; [exact B2|]. rewrite B5, R1. reflexivity.
  - destruct (run_reopen s1 p r j off (Some j) V1 L1 ltac:(rewrite N1, D1; exact Hn)) as (s' & i & A1 & A2 & A3 & A4 & A5 & A6 & A7).
    exists s', i. split; [exact A1|]. split; [exact A2|]. rewrite N1, D1 in A3. split; [exact A3|].
    rewrite !F1 in A4. split; [exact A4|]. split; [intros a Na; rewrite A5, F1 by exact Na; reflexivity|].
    split; [exact A6|]. rewrite A7, R1. reflexivity.
Qed.

(** * What goes wrong *)

(** A file of 2 GiB. *)
Definition big_ops (r1 r2 : list Z) : list cop :=
  [OStart 0; ODo 0 ROk; ODo 0 ROk; ODo 0 ROk; ODo 0 ROk; ODo 0 ROk;
   OEnd 0 r1; ODo 0 ROk; ODo 0 ROk; ODo 0 ROk; ODo 0 ROk;
   OEnd 0 r2; ODo 0 ROk; ODo 0 ROk;
   OStart 1; ODo 1 ROk].
Lemma other_run p q n : forall s, q <> p -> cy_proc (crun s (repeat (ODo p ROk) n)) q = cy_proc s q.
Proof.
  induction n as [|n IH]; intros s N; [reflexivity|]. cbn [repeat]. rewrite crun_cons, IH by exact N.
  now apply do_other.
Qed.
Lemma end_call s p r fd stt : cy_proc s p = CProc PIdle fd stt ->
  exists s', cstep s (OEnd p r) = s' /\ cy_proc s' p = CProc (PStat r) fd stt /\ cy_name s' = cy_name s
    /\ cy_lock s' = cy_lock s /\ cy_data s' = cy_data s /\ cy_log s' = ECall p r :: cy_log s
    /\ (forall q, q <> p -> cy_proc s' q = cy_proc s q).
Proof.
  intros V. eexists. split; [reflexivity|]. unfold cstep. rewrite V. cbn [cp_pc cp_fd cp_stt].
  split; [apply fset_same|]. repeat split. intros q N. cbn [cy_proc slog sproc]. now apply fset_other.
Qed.
Lemma stat_same s p r fd i : cy_proc s p = CProc (PStat r) fd (Some i) -> cy_name s = Some i ->
  exists s', do_step s p ROk = s' /\ cy_proc s' p = CProc (PLock r) fd (Some i) /\ cy_name s' = cy_name s
    /\ cy_lock s' = cy_lock s /\ cy_data s' = cy_data s /\ cy_log s' = cy_log s
    /\ (forall q, q <> p -> cy_proc s' q = cy_proc s q).
Proof.
  intros V N. eexists. split; [reflexivity|]. unfold do_step. rewrite V. cbn [cp_pc cp_fd cp_stt]. rewrite N, Nat.eqb_refl.
  split; [apply fset_same|]. repeat split; auto. intros q Nq. cbn [cy_proc sproc]. now apply fset_other.
Qed.
Lemma big_run c r1 r2 :
  c <> [] -> (s32 (Z.of_nat (length (c ++ r1))) <? 0) = true ->
  let s := crun (cinit [c] (Some 0%nat)) (big_ops r1 r2) in
  cy_log s = [ELost 0 r2; ECall 0 r2; EWrote 0 r1 0; ECall 0 r1]
  /\ cy_lock s 0%nat = Some 0%nat /\ cp_pc (cy_proc s 0%nat) = PIdle
  /\ cy_proc s 1%nat = CProc (POLock None) (FOpen 0 0) None.
Proof.
  intros Hc H s. subst s.
  replace (big_ops r1 r2) with ([OStart 0; ODo 0 ROk] ++ repeat (ODo 0%nat ROk) 4 ++ [OEnd 0 r1; ODo 0 ROk]
     ++ repeat (ODo 0%nat ROk) 3 ++ [OEnd 0 r2; ODo 0 ROk; ODo 0 ROk; OStart 1; ODo 1 ROk]) by reflexivity.
  rewrite !crun_app.
  set (s1 := crun (cinit [c] (Some 0%nat)) [OStart 0; ODo 0 ROk]).
  assert (V1 : cy_proc s1 0%nat = CProc (POLock None) (FOpen 0 0) None) by reflexivity.
  assert (W1 : cy_proc s1 1%nat = CProc PNew FNone None) by reflexivity.
  assert (D1 : cy_data s1 = [c]) by reflexivity. assert (N1 : cy_name s1 = Some 0%nat) by reflexivity.
  assert (L1 : cy_lock s1 0%nat = None) by reflexivity. assert (G1 : cy_log s1 = []) by reflexivity.
  clearbody s1.
  destruct (run_open s1 0 None 0 0 None V1 eq_refl L1 ltac:(rewrite D1; cbn; lia)) as (A1 & (off & A2 & A3) & A4 & A5 & A6 & A7 & A8).
  pose proof (other_run 0 1 4 s1 ltac:(discriminate)) as W2.
  set (s2 := crun s1 (repeat (ODo 0%nat ROk) 4)) in *. clearbody s2. cbv zeta in A1, A2, A4, A6, A7, A8. rewrite W1 in W2.
  assert (F1 : fdata s1 0%nat = c) by (unfold fdata; now rewrite D1).
  rewrite F1 in A4. assert (F2 : fdata s2 0%nat = c) by (rewrite A4; destruct c; [congruence|apply app_nil_r]).
  destruct (end_call s2 0 r1 _ _ A2) as (s3 & E3 & V3 & N3 & L3 & D3 & G3 & O3). rewrite (crun_cons s2), E3, crun_one. clear E3.
  destruct (stat_same s3 0 r1 _ 0 V3 ltac:(congruence)) as (s4 & E4 & V4 & N4 & L4 & D4 & G4 & O4).
  rewrite E4. clear E4.
  destruct (run_row s4 0 r1 0 off (Some 0%nat) V4 ltac:(congruence) ltac:(rewrite D4, D3, A6, D1; cbn; lia) A3)
    as (B1 & B2 & B3 & B4 & B5 & B6 & B7).
  pose proof (other_run 0 1 3 s4 ltac:(discriminate)) as W5.
  set (s5 := crun s4 (repeat (ODo 0%nat ROk) 3)) in *. clearbody s5. cbv zeta in B1, B2, B3, B5, B6, B7.
  assert (F4 : fdata s4 0%nat = c) by (unfold fdata in *; now rewrite D4, D3).
  rewrite F4 in B3. unfold fend in B6. rewrite B3 in B6.
  destruct (end_call s5 0 r2 _ _ B6) as (s6 & E6 & V6 & N6 & L6 & D6 & G6 & O6). rewrite (crun_cons s5), E6, (crun_cons s6). clear E6.
  destruct (stat_same s6 0 r2 _ 0 V6 ltac:(congruence)) as (s7 & E7 & V7 & N7 & L7 & D7 & G7 & O7).
  replace (cstep s6 (ODo 0 ROk)) with s7 by (symmetry; exact E7). clear E7. rewrite !crun_cons.
  set (s8 := slog (sproc (slock s7 0 (Some 0%nat)) 0 (CProc PIdle (FOpen 0 (Z.of_nat (length (c ++ r1)))) (Some 0%nat))) [ELost 0 r2]).
  assert (E8 : cstep s7 (ODo 0 ROk) = s8).
  { unfold cstep, do_step. rewrite V7. cbn [cp_pc cp_fd cp_stt]. rewrite (lock_none s7 0 0) by congruence. now rewrite H. }
  rewrite E8.
  assert (W8 : cy_proc s8 1%nat = CProc PNew FNone None).
  { unfold s8. cbn [cy_proc slog sproc slock]. rewrite fset_other by discriminate.
    rewrite O7, O6, W5, O4, O3 by discriminate. exact W2. }
  assert (N8 : cy_name s8 = Some 0%nat) by (unfold s8; cbn [cy_name slog sproc slock]; congruence).
  assert (E9 : cstep s8 (OStart 1) = sproc s8 1 (CProc (POpen None) FNone None)) by (unfold cstep; now rewrite W8).
  rewrite E9.
  assert (E10 : cstep (sproc s8 1 (CProc (POpen None) FNone None)) (ODo 1 ROk)
                = sproc (sproc s8 1 (CProc (POpen None) FNone None)) 1 (CProc (POLock None) (FOpen 0 0) None)).
  { unfold cstep, do_step. cbn [cy_proc sproc]. rewrite fset_same. cbn [cp_pc cp_fd cp_stt sclose cy_name sproc]. now rewrite N8. }
  rewrite E10. cbn [crun fold_left].
  split. { cbn [cy_log sproc]. unfold s8. cbn [cy_log slog sproc slock app]. rewrite G7, G6, B5, G4, G3, A8, G1. reflexivity. }
  split; [reflexivity|]. split; [reflexivity|]. apply fset_same.
Qed.
