(** Proofs about the accounting file: whole rows under one header. *)
From Verif Require Import Base Str CsvModel CsvSpec CsvProof CsvProof2.

Definition pok (s : csys) (q : nat) (v : cproc) : Prop :=
  match cp_fd v with
  | FOpen i off =>
      (i < length (cy_data s))%nat /\ 0 <= off <= fend s i
      /\ match cp_pc v with
         | POLock _ => True
         | POFstat _ => cy_lock s i = Some q
         | POHead _ size => cy_lock s i = Some q /\ size = fend s i /\ cp_stt v = Some i
         | POUnlock _ g => cy_lock s i = Some q /\ g = true /\ fdata s i <> [] /\ cp_stt v = Some i
         | PWrite _ | PUnlock => cy_lock s i = Some q /\ fdata s i <> [] /\ cp_stt v = Some i
         | _ => fdata s i <> [] /\ cp_stt v = Some i
         end
  | _ =>
      match cp_pc v with
      | POLock _ | POFstat _ | POHead _ _ | POUnlock _ _ | PWrite _ | PUnlock => False
      | _ => True
      end
  end.

Lemma pok_frame s s' q v :
  (length (cy_data s) <= length (cy_data s'))%nat ->
  (forall i, fdata s' i = fdata s i \/ (exists t, fdata s' i = fdata s i ++ t /\ cy_lock s i <> Some q)) ->
  (forall i, cy_lock s i = Some q -> cy_lock s' i = Some q) ->
  pok s q v -> pok s' q v.
Proof.
  intros L D K P. unfold pok in *. destruct (cp_fd v) as [|i off|]; try exact P.
  destruct P as (P1 & P2 & P3). split; [lia|].
  specialize (D i). specialize (K i). unfold fend in *.
  assert (G : (length (fdata s i) <= length (fdata s' i))%nat).
  { destruct D as [->|(t & -> & _)]; [lia|]. rewrite app_length. lia. }
  split; [lia|].
  assert (M : fdata s i <> [] -> fdata s' i <> []).
  { intros H. destruct D as [->|(t & -> & _)]; [exact H|]. destruct (fdata s i); [congruence|discriminate]. }
  destruct (cp_pc v); try (intuition fail); try (destruct P3 as (A1 & A2); now auto).
  destruct P3 as (A1 & A2 & A3). split; [now auto|]. split; [|exact A3].
  destruct D as [D|(t & _ & D)]; [now rewrite D|congruence].
Qed.

(** The content of each file. *)
Definition fok (c0 : list (list Z)) (s : csys) (i : nat) : Prop :=
  exists hd, (hd = [] \/ (hd = csv_head /\ nth i c0 [] = []))
    /\ fdata s i = nth i c0 [] ++ hd ++ concat (rows_of i (cy_log s))
    /\ (rows_of i (cy_log s) <> [] -> nth i c0 [] ++ hd <> []).

Record sinv (c0 : list (list Z)) (s : csys) : Prop := {
  si_len : (length c0 <= length (cy_data s))%nat;
  si_name : forall i, cy_name s = Some i -> (i < length (cy_data s))%nat;
  si_proc : forall q, pok s q (cy_proc s q);
  si_file : forall i, fok c0 s i;
}.

Lemma fdata_upd s i t j : (i < length (cy_data s))%nat ->
  nth j (upd (cy_data s) i t) [] = if Nat.eqb j i then t else fdata s j.
Proof.
  intros H. unfold fdata. destruct (Nat.eqb_spec j i) as [->|N].
  - apply nth_error_nth. rewrite nth_error_upd_same; [reflexivity|exact H].
  - destruct (Nat.ltb_spec j (length (cy_data s))) as [Hj|Hj].
    + destruct (nth_error (cy_data s) j) as [x|] eqn:E; [|apply nth_error_None in E; lia].
      rewrite (nth_error_nth _ _ _ E). apply nth_error_nth. rewrite nth_error_upd_other by congruence. exact E.
    + rewrite !nth_overflow; [reflexivity|lia|rewrite upd_length; lia].
Qed.

Lemma head_ne : csv_head <> [].
Proof. discriminate. Qed.

(** A step by which only the process [p], the locks and the name change. *)
Lemma sinv_quiet c0 s s' p :
  sinv c0 s -> cy_data s' = cy_data s -> (forall i, rows_of i (cy_log s') = rows_of i (cy_log s)) ->
  (forall i, cy_name s' = Some i -> (i < length (cy_data s))%nat) ->
  (forall q, q <> p -> cy_proc s' q = cy_proc s q) ->
  (forall i q, q <> p -> cy_lock s i = Some q -> cy_lock s' i = Some q) ->
  pok s' p (cy_proc s' p) -> sinv c0 s'.
Proof.
  intros [I1 I2 I3 I4] D R N Q K P.
  assert (F : forall i, fdata s' i = fdata s i) by (intros i; unfold fdata; now rewrite D).
  constructor; rewrite ?D; auto.
  - intros q. destruct (Nat.eq_dec q p) as [->|E]; [exact P|]. rewrite Q by exact E.
    apply (pok_frame s); [rewrite D; lia| |auto|apply I3]. intros i. left. apply F.
  - intros i. destruct (I4 i) as (hd & H1 & H2 & H3). exists hd. rewrite F, R. auto.
Qed.

(** A step by which [p], which holds the lock of [i], appends to it. *)
Lemma sinv_append c0 s s' p i t :
  sinv c0 s -> (i < length (cy_data s))%nat -> cy_lock s i = Some p ->
  cy_data s' = upd (cy_data s) i (fdata s i ++ t) ->
  cy_name s' = cy_name s -> cy_lock s' = cy_lock s ->
  (forall q, q <> p -> cy_proc s' q = cy_proc s q) ->
  (forall j, j <> i -> rows_of j (cy_log s') = rows_of j (cy_log s)) ->
  fok c0 s' i ->
  pok s' p (cy_proc s' p) -> sinv c0 s'.
Proof.
  intros [I1 I2 I3 I4] Hi L D N K Q R C P.
  assert (F : forall j, fdata s' j = if Nat.eqb j i then fdata s i ++ t else fdata s j).
  { intros j. unfold fdata at 1. rewrite D. now apply fdata_upd. }
  constructor; rewrite ?D, ?upd_length, ?N; auto.
  - intros q. destruct (Nat.eq_dec q p) as [->|E]; [exact P|]. rewrite Q by exact E.
    apply (pok_frame s); [rewrite D, upd_length; lia| |rewrite K; auto|apply I3].
    intros j. rewrite F. destruct (Nat.eqb_spec j i) as [->|Nj]; [right|left; reflexivity].
    exists t. split; [reflexivity|congruence].
  - intros j. destruct (Nat.eq_dec j i) as [->|Nj]; [exact C|].
    destruct (I4 j) as (hd & H1 & H2 & H3). exists hd. rewrite F, R by exact Nj.
    rewrite (proj2 (Nat.eqb_neq j i) Nj). auto.
Qed.

Lemma fdata_make s j : fdata (smake s) j = fdata s j.
Proof.
  unfold fdata, smake. cbn [cy_data]. destruct (Nat.ltb_spec j (length (cy_data s))) as [H|H].
  - now rewrite app_nth1.
  - rewrite app_nth2 by exact H. rewrite (nth_overflow (cy_data s)) by exact H.
    destruct (j - length (cy_data s))%nat as [|[|k]]; reflexivity.
Qed.
Lemma sinv_make c0 s : sinv c0 s -> sinv c0 (smake s).
Proof.
  intros [I1 I2 I3 I4]. constructor.
  - cbn [cy_data smake]. rewrite app_length. cbn. lia.
  - intros i E. cbn in E. injection E as <-. cbn [cy_data smake]. rewrite app_length. cbn. lia.
  - intros q. apply (pok_frame s); [cbn [cy_data smake]; rewrite app_length; lia| |auto|apply I3].
    intros i. left. apply fdata_make.
  - intros i. destruct (I4 i) as (hd & H). exists hd. rewrite fdata_make. exact H.
Qed.

Lemma lock_free_other s p i q : lock_free s p i = true -> cy_lock s i = Some q -> q = p.
Proof. unfold lock_free. intros H E. rewrite E in H. now apply Nat.eqb_eq in H. Qed.

Lemma sclose_locks s p fd i q : q <> p -> cy_lock s i = Some q -> cy_lock (sclose s p fd) i = Some q.
Proof.
  intros N E. destruct fd as [|j off|]; cbn; try exact E.
  destruct (lock_free s p j) eqn:F; [|exact E]. cbn.
  unfold fset. destruct (Nat.eqb_spec i j) as [->|]; [|exact E].
  exfalso. apply N. eapply lock_free_other; eassumption.
Qed.
Lemma sclose_rows s p fd i : rows_of i (cy_log (sclose s p fd)) = rows_of i (cy_log s).
Proof. rewrite sclose_log. destruct fd; reflexivity. Qed.

Lemma sinv_failed c0 s p k fd stt :
  sinv c0 s ->
  (match fd with FOpen i off => (i < length (cy_data s))%nat /\ 0 <= off <= fend s i /\ fdata s i <> [] /\ stt = Some i | _ => True end) ->
  sinv c0 (open_failed s p k fd stt).
Proof.
  intros I F. destruct k as [r|]; cbn [open_failed].
  all: apply (sinv_quiet c0 s _ p I); cbn [cy_data cy_name cy_lock cy_proc cy_log slog sproc app rows_of]; auto;
    [apply (si_name _ _ I)|intros q Nq; now rewrite fset_other|];
    rewrite fset_same; unfold pok; cbn [cp_fd cp_pc cp_stt];
    destruct fd as [|i off|]; auto; destruct F as (F1 & F2 & F3 & F4); auto.
Qed.
Lemma sinv_close c0 s p fd k x stt :
  sinv c0 s -> cy_proc s p = CProc x fd stt ->
  (match fd with FOpen _ _ => False | _ => True end -> False) \/ True ->
  sinv c0 (open_failed (sclose s p fd) p k FStale stt) /\ sinv c0 (open_failed (sclose s p fd) p k FNone stt).
Proof.
  intros I V _. split; destruct k as [r|]; cbn [open_failed].
  all: apply (sinv_quiet c0 s _ p I); cbn [cy_data cy_name cy_lock cy_proc cy_log slog sproc app rows_of];
    rewrite ?sclose_data, ?sclose_proc, ?sclose_name, ?fset_same; auto;
    [intros i; apply sclose_rows|apply (si_name _ _ I)|intros q Nq; now rewrite fset_other
    |intros i q Nq; now apply sclose_locks|exact Logic.I].
Qed.

Lemma sinv_do c0 s p x :
  sinv c0 s -> match x with RShort _ => False | _ => True end ->
  match x with RErr => about_to_head s p = false | _ => True end ->
  sinv c0 (do_step s p x).
Proof.
  intros I W A. pose proof (si_proc _ _ I p) as P. unfold do_step, about_to_head in *.
  destruct (cy_proc s p) as [pc fd stt] eqn:V. cbn [cp_pc cp_fd cp_stt] in *.
  assert (Same : forall pc', (match fd with FOpen i off => fdata s i <> [] /\ stt = Some i | _ => True end -> pok s p (CProc pc' fd stt)) ->
            match fd with FOpen i off => fdata s i <> [] /\ stt = Some i | _ => True end ->
            sinv c0 (sproc s p (CProc pc' fd stt))).
  { intros pc' H1 H2. apply (sinv_quiet c0 s _ p I); cbn [cy_data cy_name cy_lock cy_proc cy_log sproc]; auto.
    - apply (si_name _ _ I).
    - intros q Nq. now rewrite fset_other.
    - rewrite fset_same. apply H1 in H2. exact H2. }
  destruct pc as [| | |r|k|k|k|k size|k g|r|r|]; try exact I.
  - (* stat *)
    assert (F : match fd with FOpen i off => fdata s i <> [] /\ stt = Some i | _ => True end).
    { unfold pok in P. cbn [cp_pc cp_fd cp_stt] in P. destruct fd; tauto. }
    assert (G : forall pc', match pc' with PLock _ | POpen _ => True | _ => False end -> sinv c0 (sproc s p (CProc pc' fd stt))).
    { intros pc' H. apply Same; [|exact F]. intros _. unfold pok in *. cbn [cp_pc cp_fd cp_stt] in *.
      destruct fd; destruct pc'; tauto. }
    destruct x; try (now apply G). destruct (cy_name s) as [i|]; [|now apply G].
    destruct stt as [j|]; [|now apply G]. destruct (Nat.eqb i j); now apply G.
  - (* open *)
    cbv zeta. destruct x; [|eapply sinv_close; eauto|contradiction].
    rewrite sclose_name. destruct (cy_name s) as [i|] eqn:N.
    + apply (sinv_quiet c0 s _ p I); cbn [cy_data cy_name cy_lock cy_proc cy_log sproc];
        rewrite ?sclose_data, ?sclose_proc, ?sclose_name, ?fset_same; auto.
      * intros j. apply sclose_rows.
      * apply (si_name _ _ I).
      * intros q Nq. now rewrite fset_other.
      * intros j q Nq. now apply sclose_locks.
      * unfold pok. cbn [cp_pc cp_fd cy_data sproc]. rewrite sclose_data. split; [now apply (si_name _ _ I)|].
        split; [unfold fend; lia|exact Logic.I].
    + rewrite sclose_data.
      assert (I' := sinv_make c0 s I).
      apply (sinv_quiet c0 (smake s) _ p I'); cbn [cy_data cy_name cy_lock cy_proc cy_log sproc smake];
        rewrite ?sclose_data, ?sclose_proc, ?sclose_name, ?fset_same; auto.
      * intros j. apply sclose_rows.
      * intros j E. injection E as <-. rewrite app_length. cbn. lia.
      * intros q Nq. now rewrite fset_other.
      * intros j q Nq. now apply sclose_locks.
      * unfold pok. cbn [cp_pc cp_fd cy_data sproc smake]. rewrite sclose_data, app_length. split; [cbn; lia|].
        split; [unfold fend; lia|exact Logic.I].
  - (* lock *)
    unfold pok in P. cbn [cp_pc cp_fd cp_stt] in P. destruct fd as [|i off|]; try contradiction.
    destruct P as (P1 & P2 & _).
    destruct x; [|eapply sinv_close; eauto|contradiction].
    destruct (lock_free s p i) eqn:L; [|exact I].
    apply (sinv_quiet c0 s _ p I); cbn [cy_data cy_name cy_lock cy_proc cy_log sproc slock]; auto.
    + apply (si_name _ _ I).
    + intros q Nq. now rewrite fset_other.
    + intros j q Nq E. unfold fset. destruct (Nat.eqb_spec j i) as [->|]; [|exact E].
      exfalso. apply Nq. eapply lock_free_other; eassumption.
    + rewrite fset_same. unfold pok. cbn [cp_pc cp_fd cy_data slock sproc cy_lock]. rewrite fset_same. auto.
  - (* fstat *)
    unfold pok in P. cbn [cp_pc cp_fd cp_stt] in P. destruct fd as [|i off|]; try contradiction.
    destruct P as (P1 & P2 & P3).
    destruct x; [|eapply sinv_close; eauto|contradiction].
    apply (sinv_quiet c0 s _ p I); cbn [cy_data cy_name cy_lock cy_proc cy_log sproc slock]; auto.
    + apply (si_name _ _ I).
    + intros q Nq. now rewrite fset_other.
    + rewrite fset_same. unfold pok. cbn [cp_pc cp_fd cy_data slock sproc cy_lock cp_stt]. auto.
  - (* header *)
    unfold pok in P. cbn [cp_pc cp_fd cp_stt] in P. destruct fd as [|i off|]; try contradiction.
    destruct P as (P1 & P2 & P3 & P4 & P5).
    destruct (size =? 0) eqn:Z0.
    + destruct x; [|congruence|contradiction]. cbv zeta.
      assert (E0 : fdata s i = []).
      { assert (length (fdata s i) = 0%nat) by (unfold fend in P4; lia). now apply length_zero_iff_nil. }
      assert (F : fdata (sappend s i csv_head) i = csv_head).
      { unfold fdata at 1. cbn [cy_data sappend sdata]. rewrite fdata_upd, Nat.eqb_refl by exact P1. now rewrite E0. }
      eapply (sinv_append c0 s _ p i csv_head I P1 P3); cbn [cy_data cy_name cy_lock cy_proc cy_log sproc sappend sdata]; auto.
      * intros q Nq. now rewrite fset_other.
      * destruct (si_file _ _ I i) as (hd & H1 & H2 & H3). rewrite E0 in H2.
        symmetry in H2. apply app_eq_nil in H2. destruct H2 as (H2 & H4). apply app_eq_nil in H4. destruct H4 as (H4 & H5).
        exists csv_head. split; [right; auto|]. cbn [cy_log sproc sappend sdata].
        change (fdata (sproc (sappend s i csv_head) p (CProc (POUnlock k true) (FOpen i (fend (sappend s i csv_head) i)) stt)) i)
          with (fdata (sappend s i csv_head) i).
        rewrite F, H2, H5, app_nil_r. split; [reflexivity|]. intros _. apply head_ne.
      * rewrite fset_same. unfold pok. cbn [cp_pc cp_fd cy_data sproc cy_lock cp_stt sappend sdata]. rewrite upd_length.
        split; [exact P1|]. split; [split; [unfold fend; lia|apply Z.le_refl]|]. split; [exact P3|]. split; [reflexivity|].
        split; [|exact P5]. match goal with |- ?a <> [] => change a with (fdata (sappend s i csv_head) i) end.
        rewrite F. apply head_ne.
    + apply (sinv_quiet c0 s _ p I); cbn [cy_data cy_name cy_lock cy_proc cy_log sproc slock]; auto.
      * apply (si_name _ _ I).
      * intros q Nq. now rewrite fset_other.
      * rewrite fset_same. unfold pok. cbn [cp_pc cp_fd cy_data slock sproc cy_lock cp_stt]. split; [exact P1|].
        split; [exact P2|]. split; [exact P3|]. split; [reflexivity|]. split; [|exact P5].
        intros E. unfold fend in P4. change (fdata s i = []) in E. rewrite E in P4. cbn in P4. lia.
  - (* unlock after opening *)
    unfold pok in P. cbn [cp_pc cp_fd cp_stt] in P. destruct fd as [|i off|]; try contradiction.
    destruct P as (P1 & P2 & P3 & -> & P4 & P5). cbv zeta.
    assert (G : forall pc', match pc' with PLock _ | PIdle => True | _ => False end ->
                  sinv c0 (sproc (slock s i None) p (CProc pc' (FOpen i off) stt))).
    { intros pc' H. apply (sinv_quiet c0 s _ p I); cbn [cy_data cy_name cy_lock cy_proc cy_log sproc slock]; auto.
      - apply (si_name _ _ I).
      - intros q Nq. now rewrite fset_other.
      - intros j q Nq E. unfold fset. destruct (Nat.eqb_spec j i) as [->|]; [congruence|exact E].
      - rewrite fset_same. unfold pok. cbn [cp_pc cp_fd cy_data slock sproc cy_lock cp_stt].
        split; [exact P1|]. split; [exact P2|]. destruct pc'; try contradiction; auto. }
    destruct k; now apply G.
  - (* lock for the row *)
    unfold pok in P. cbn [cp_pc cp_fd cp_stt] in P.
    assert (G : sinv c0 (slog (sproc s p (CProc PIdle fd stt)) [ELost p r])).
    { apply (sinv_quiet c0 s _ p I); cbn [cy_data cy_name cy_lock cy_proc cy_log sproc slock slog app rows_of]; auto.
      - apply (si_name _ _ I).
      - intros q Nq. now rewrite fset_other.
      - rewrite fset_same. unfold pok. cbn [cp_pc cp_fd cp_stt]. destruct fd; exact P || exact Logic.I. }
    destruct fd as [|i off|]; [exact G| |].
    + destruct x; [|exact G|contradiction]. destruct (lock_free s p i) eqn:L; [|exact I]. cbv zeta.
      assert (K : forall j q, q <> p -> cy_lock s j = Some q -> fset (cy_lock s) i (Some p) j = Some q).
      { intros j q Nq E. unfold fset. destruct (Nat.eqb_spec j i) as [->|]; [|exact E].
        exfalso. apply Nq. eapply lock_free_other; eassumption. }
      destruct P as (P1 & P2 & P3).
      destruct (s32 off <? 0);
      apply (sinv_quiet c0 s _ p I); cbn [cy_data cy_name cy_lock cy_proc cy_log sproc slock slog app rows_of]; auto;
        try apply (si_name _ _ I); try (intros q Nq; now rewrite fset_other);
        rewrite fset_same; unfold pok; cbn [cp_pc cp_fd cp_stt cy_lock slock sproc slog]; rewrite ?fset_same; auto.
    + apply (sinv_quiet c0 s _ p I); cbn [cy_data cy_name cy_lock cy_proc cy_log sproc slock slog app rows_of]; auto.
      * apply (si_name _ _ I).
      * intros q Nq. now rewrite fset_other.
      * rewrite fset_same. exact Logic.I.
  - (* the row *)
    unfold pok in P. cbn [cp_pc cp_fd cp_stt] in P. destruct fd as [|i off|]; try contradiction.
    destruct P as (P1 & P2 & P3 & P4 & P5). destruct x; [| |contradiction].
    2: { apply (sinv_quiet c0 s _ p I); cbn [cy_data cy_name cy_lock cy_proc cy_log sproc slock slog app rows_of]; auto.
         - apply (si_name _ _ I).
         - intros q Nq. now rewrite fset_other.
         - rewrite fset_same. unfold pok. cbn [cp_pc cp_fd cy_data slock sproc cy_lock cp_stt]. auto. }
    cbv zeta.
    assert (F : fdata (sappend s i r) i = fdata s i ++ r).
    { unfold fdata at 1. cbn [cy_data sappend sdata]. rewrite fdata_upd, Nat.eqb_refl by exact P1. reflexivity. }
    eapply (sinv_append c0 s _ p i r I P1 P3); cbn [cy_data cy_name cy_lock cy_proc cy_log sproc sappend sdata slog app]; auto.
    + intros q Nq. now rewrite fset_other.
    + intros j Nj. cbn [rows_of]. rewrite (proj2 (Nat.eqb_neq i j)) by congruence. reflexivity.
    + destruct (si_file _ _ I i) as (hd & H1 & H2 & H3). exists hd. split; [exact H1|].
      cbn [cy_log slog sproc sappend sdata app rows_of]. rewrite Nat.eqb_refl.
      match goal with |- fdata ?a i = _ /\ _ => change (fdata a i) with (fdata (sappend s i r) i) end.
      rewrite F, H2, concat_app. cbn [concat]. rewrite app_nil_r, <- !app_assoc. split; [reflexivity|].
      intros _. destruct (rows_of i (cy_log s)) eqn:E; [|apply H3; discriminate].
      rewrite H2 in P4. cbn [concat] in P4. now rewrite app_nil_r in P4.
    + rewrite fset_same. unfold pok. cbn [cp_pc cp_fd cy_data sproc cy_lock cp_stt sappend sdata slog]. rewrite upd_length.
      split; [exact P1|]. split; [split; [unfold fend; lia|apply Z.le_refl]|]. split; [exact P3|]. split; [|exact P5].
      match goal with |- ?a <> [] => change a with (fdata (sappend s i r) i) end.
      rewrite F. destruct (fdata s i); [congruence|discriminate].
  - (* unlock *)
    unfold pok in P. cbn [cp_pc cp_fd cp_stt] in P. destruct fd as [|i off|]; try contradiction.
    destruct P as (P1 & P2 & P3 & P4 & P5).
    apply (sinv_quiet c0 s _ p I); cbn [cy_data cy_name cy_lock cy_proc cy_log sproc slock]; auto.
    + apply (si_name _ _ I).
    + intros q Nq. now rewrite fset_other.
    + intros j q Nq E. unfold fset. destruct (Nat.eqb_spec j i) as [->|]; [congruence|exact E].
    + rewrite fset_same. unfold pok. cbn [cp_pc cp_fd cy_data slock sproc cy_lock cp_stt]. auto.
Qed.

Lemma sinv_step c0 s o :
  sinv c0 s -> writes_whole o -> match o with ODo p RErr => about_to_head s p = false | _ => True end ->
  sinv c0 (cstep s o).
Proof.
  intros I W H. destruct o as [p|p r|p x| |i| |i]; cbn [cstep].
  - pose proof (si_proc _ _ I p) as P. destruct (cy_proc s p) as [pc fd stt] eqn:V. cbn [cp_pc]. destruct pc; try exact I.
    apply (sinv_quiet c0 s _ p I); cbn [cy_data cy_name cy_lock cy_proc cy_log sproc]; auto.
    + apply (si_name _ _ I).
    + intros q Nq. now rewrite fset_other.
    + rewrite fset_same. exact Logic.I.
  - pose proof (si_proc _ _ I p) as P. destruct (cy_proc s p) as [pc fd stt] eqn:V. cbn [cp_pc]. destruct pc; try exact I.
    apply (sinv_quiet c0 s _ p I); cbn [cy_data cy_name cy_lock cy_proc cy_log sproc slog app rows_of]; auto.
    + apply (si_name _ _ I).
    + intros q Nq. now rewrite fset_other.
    + rewrite fset_same. unfold pok in *. cbn [cp_fd cp_pc cp_stt] in *. destruct fd; exact P.
  - apply sinv_do; [exact I| |exact H]. destruct x; auto.
  - destruct I as [I1 I2 I3 I4]. constructor; cbn [cy_data cy_name sname]; auto. discriminate.
  - destruct (Nat.ltb i (length (cy_data s))) eqn:L; [|exact I].
    destruct I as [I1 I2 I3 I4]. constructor; cbn [cy_data cy_name sname]; auto.
    intros j E. injection E as <-. now apply Nat.ltb_lt.
  - now apply sinv_make.
  - destruct W.
Qed.
Lemma sinv_run c0 l : forall s, sinv c0 s -> Forall writes_whole l -> heads_written s l -> sinv c0 (crun s l).
Proof.
  induction l as [|o l IH]; intros s I W H; [exact I|]. inversion W as [|? ? W1 W2]; subst. destruct H as [H1 H2].
  cbn. apply IH; auto. apply sinv_step; auto.
Qed.
Lemma sinv_init c0 name : sinv c0 (cinit c0 name).
Proof.
  constructor; cbn [cinit cy_name cy_data cy_proc].
  - lia.
  - intros i. destruct name as [j|]; [|discriminate]. destruct (Nat.ltb j (length c0)) eqn:L; [|discriminate]. intros E. injection E as <-. now apply Nat.ltb_lt.
  - intros q. exact Logic.I.
  - intros i. exists []. split; [left; reflexivity|]. cbn. rewrite app_nil_r. split; [reflexivity|congruence].
Qed.
