(** Proofs about the accounting file: several proxies and one file. *)
From Verif Require Import Base Str CsvModel CsvSpec CsvProof.

(** * Fates: unconditional *)

Lemma fset_same {A} (f : nat -> A) k v : fset f k v k = v.
Proof. unfold fset. now rewrite Nat.eqb_refl. Qed.
Lemma fset_other {A} (f : nat -> A) k v j : j <> k -> fset f k v j = f j.
Proof. unfold fset. intros H. destruct (Nat.eqb_spec j k); congruence. Qed.

Lemma sclose_proc s p fd : cy_proc (sclose s p fd) = cy_proc s.
Proof. destruct fd as [|i off|]; cbn; try reflexivity. destruct (lock_free s p i); reflexivity. Qed.
Lemma sclose_data s p fd : cy_data (sclose s p fd) = cy_data s.
Proof. destruct fd as [|i off|]; cbn; try reflexivity. destruct (lock_free s p i); reflexivity. Qed.
Lemma sclose_name s p fd : cy_name (sclose s p fd) = cy_name s.
Proof. destruct fd as [|i off|]; cbn; try reflexivity. destruct (lock_free s p i); reflexivity. Qed.
Lemma sclose_log s p fd : cy_log (sclose s p fd) = match fd with FStale => EForeign p :: cy_log s | _ => cy_log s end.
Proof. destruct fd as [|i off|]; cbn; try reflexivity. destruct (lock_free s p i); reflexivity. Qed.

Definition accounted (s : csys) (q : nat) : Prop :=
  map fst (fates q (cy_log s)) ++ in_hand (cy_proc s q) = ended q (cy_log s).

Ltac brk :=
  repeat match goal with
         | |- context [match ?x with _ => _ end] =>
             match x with
             | context [match _ with _ => _ end] => fail 1
             | _ => destruct x eqn:?
             end
         end.

Lemma accounted_do s p x q : accounted s q -> accounted (do_step s p x) q.
Proof.
  intros A. unfold accounted in *.
  destruct (Nat.eq_dec q p) as [->|N].
  - unfold do_step. destruct (cy_proc s p) as [pc fd stt] eqn:V. cbn [cp_pc cp_fd cp_stt].
    destruct pc as [| | |r|k|k|k|k size|k g|r|r|]; try (rewrite V in *; exact A);
    unfold open_failed, sappend; cbv zeta.
    all: try (destruct k as [r|]); try destruct fd as [|i off|]; try destruct x as [| |n];
      brk; cbn [cy_log cy_proc slog sproc slock smake sdata sname app cp_pc fates ended];
      rewrite ?sclose_log, ?sclose_proc, ?fset_same, ?V, ?Nat.eqb_refl in *;
      cbn [in_hand cp_pc fates ended] in *; rewrite ?map_app, ?app_nil_r in *; cbn [map fst app fates ended] in *;
      rewrite ?Nat.eqb_refl, ?map_app, ?app_nil_r in *; cbn [map fst] in *;
      exact A.
  - assert (E : forall a, cy_proc (do_step s p x) q = a <-> cy_proc s q = a).
    { intros a. unfold do_step. destruct (cy_proc s p) as [pc fd stt] eqn:V. cbn [cp_pc cp_fd cp_stt].
      destruct pc as [| | |r|k|k|k|k size|k g|r|r|]; try reflexivity;
      unfold open_failed, sappend; cbv zeta;
      brk; cbn [cy_log cy_proc slog sproc slock smake sdata sname];
      rewrite ?sclose_proc, ?fset_other by exact N; reflexivity. }
    rewrite (proj2 (E _) eq_refl).
    assert (Eq : Nat.eqb p q = false) by (apply Nat.eqb_neq; congruence).
    unfold do_step. destruct (cy_proc s p) as [pc fd stt] eqn:V. cbn [cp_pc cp_fd cp_stt].
    destruct pc as [| | |r|k|k|k|k size|k g|r|r|]; try exact A;
    unfold open_failed, sappend; cbv zeta;
    brk; cbn [cy_log cy_proc slog sproc slock smake sdata sname app];
    rewrite ?sclose_log; subst; cbn [fates ended]; rewrite ?Eq; try exact A;
    brk; cbn [fates ended]; rewrite ?Eq; exact A.
Qed.

Lemma accounted_step s o q : accounted s q -> accounted (cstep s o) q.
Proof.
  intros A. destruct o as [p|p r|p x| |i| |i]; cbn [cstep].
  - destruct (cy_proc s p) as [pc fd stt] eqn:V. cbn [cp_pc]. destruct pc; try exact A.
    unfold accounted in *. cbn [cy_log cy_proc sproc].
    destruct (Nat.eq_dec q p) as [->|N]; [rewrite fset_same, V in *; exact A|rewrite fset_other by exact N; exact A].
  - destruct (cy_proc s p) as [pc fd stt] eqn:V. cbn [cp_pc]. destruct pc; try exact A.
    unfold accounted in *. cbn [cy_log cy_proc sproc slog app fates ended].
    destruct (Nat.eq_dec q p) as [->|N].
    + rewrite fset_same, V, Nat.eqb_refl in *. cbn [in_hand cp_pc] in *. rewrite app_nil_r in A. now rewrite A.
    + rewrite fset_other by exact N. replace (Nat.eqb p q) with false by (symmetry; apply Nat.eqb_neq; congruence). exact A.
  - now apply accounted_do.
  - exact A.
  - destruct (Nat.ltb i (length (cy_data s))); exact A.
  - exact A.
  - exact A.
Qed.
Lemma accounted_run l : forall s q, accounted s q -> accounted (crun s l) q.
Proof. induction l as [|o l IH]; intros s q A; [exact A|]. cbn. apply IH, accounted_step, A. Qed.

(** * The calls left *)
Lemma do_other s p x q : q <> p -> cy_proc (do_step s p x) q = cy_proc s q.
Proof.
  intros N. unfold do_step. destruct (cy_proc s p) as [pc fd stt] eqn:V. cbn [cp_pc cp_fd cp_stt].
  destruct pc as [| | |r|k|k|k|k size|k g|r|r|]; try reflexivity;
  unfold open_failed, sappend; cbv zeta;
  brk; cbn [cy_log cy_proc slog sproc slock smake sdata sname];
  rewrite ?sclose_proc, ?fset_other by exact N; reflexivity.
Qed.
Lemma do_left s p x : do_step s p x = s \/ (calls_left (cy_proc (do_step s p x) p) < calls_left (cy_proc s p))%nat.
Proof.
  unfold do_step. destruct (cy_proc s p) as [pc fd stt] eqn:V. cbn [cp_pc cp_fd cp_stt].
  destruct pc as [| | |r|k|k|k|k size|k g|r|r|]; try (left; reflexivity);
  unfold open_failed, sappend; cbv zeta; brk; try (left; reflexivity);
  right; cbn [cy_log cy_proc slog sproc slock smake sdata sname];
  rewrite ?fset_same; unfold calls_left; cbn [cp_pc]; lia.
Qed.
