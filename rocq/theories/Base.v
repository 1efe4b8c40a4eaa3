(** Common definitions: machine integers, list updates, small lemmas. *)
From Coq Require Export ZArith List Lia Bool.
From Coq Require Export ZifyBool ZifyNat ZifyN.
Export ListNotations.
Ltac Zify.zify_post_hook ::= Z.div_mod_to_equations.

Open Scope Z_scope.

(** Two's complement conversions: C implementation-defined/atomic wrap-around. *)
Definition u16 (x : Z) : Z := x mod 65536.
Definition u32 (x : Z) : Z := x mod 4294967296.
Definition u64 (x : Z) : Z := x mod 18446744073709551616.
Definition s32 (x : Z) : Z := (x + 2147483648) mod 4294967296 - 2147483648.

Lemma u16_range x : 0 <= u16 x < 65536.
Proof. unfold u16; lia. Qed.
Lemma u32_range x : 0 <= u32 x < 4294967296.
Proof. unfold u32; lia. Qed.
Lemma u64_range x : 0 <= u64 x < 18446744073709551616.
Proof. unfold u64; lia. Qed.
Lemma u16_small x : 0 <= x < 65536 -> u16 x = x.
Proof. unfold u16; intros; apply Z.mod_small; lia. Qed.
Lemma u32_small x : 0 <= x < 4294967296 -> u32 x = x.
Proof. unfold u32; intros; apply Z.mod_small; lia. Qed.
Lemma u64_small x : 0 <= x < 18446744073709551616 -> u64 x = x.
Proof. unfold u64; intros; apply Z.mod_small; lia. Qed.
Lemma s32_small x : -2147483648 <= x < 2147483648 -> s32 x = x.
Proof. unfold s32; intros; rewrite Z.mod_small; lia. Qed.

(** [upd l i x]: [l[i] = x] (no change when [i] is out of range). *)
Fixpoint upd {A} (l : list A) (i : nat) (x : A) : list A :=
  match l, i with
  | [], _ => []
  | _ :: t, O => x :: t
  | h :: t, S i' => h :: upd t i' x
  end.

Lemma upd_length {A} (l : list A) i x : length (upd l i x) = length l.
Proof. revert i; induction l as [|h t IH]; intros [|i]; cbn; auto. Qed.

Lemma nth_error_upd_same {A} (l : list A) i x :
  (i < length l)%nat -> nth_error (upd l i x) i = Some x.
Proof.
  revert i; induction l as [|h t IH]; intros [|i]; cbn; intros H; try lia; auto.
  apply IH; lia.
Qed.

Lemma nth_error_upd_other {A} (l : list A) i j x :
  i <> j -> nth_error (upd l i x) j = nth_error l j.
Proof.
  revert i j; induction l as [|h t IH]; intros [|i] [|j]; cbn; intros H; auto; try lia.
Qed.

Lemma nth_upd_same {A} (l : list A) i x d :
  (i < length l)%nat -> nth i (upd l i x) d = x.
Proof.
  revert i; induction l as [|h t IH]; intros [|i]; cbn; intros H; try lia; auto.
  apply IH; lia.
Qed.

Lemma nth_upd_other {A} (l : list A) i j x d :
  i <> j -> nth j (upd l i x) d = nth j l d.
Proof.
  revert i j; induction l as [|h t IH]; intros [|i] [|j]; cbn; intros H; auto; try lia.
Qed.

Lemma upd_out {A} (l : list A) i x : (length l <= i)%nat -> upd l i x = l.
Proof.
  revert i; induction l as [|h t IH]; intros [|i]; cbn; intros H; auto; try lia.
  f_equal; apply IH; lia.
Qed.

Lemma upd_same_id {A} (l : list A) i x :
  nth_error l i = Some x -> upd l i x = l.
Proof.
  revert i; induction l as [|h t IH]; intros [|i]; cbn; intros H; try discriminate; auto.
  - congruence.
  - f_equal; auto.
Qed.

Lemma upd_app_l {A} (l1 l2 : list A) i x :
  (i < length l1)%nat -> upd (l1 ++ l2) i x = upd l1 i x ++ l2.
Proof.
  revert i; induction l1 as [|h t IH]; intros [|i]; cbn; intros H; try lia; auto.
  f_equal; apply IH; lia.
Qed.

Lemma upd_app_r {A} (l1 l2 : list A) i x :
  (length l1 <= i)%nat -> upd (l1 ++ l2) i x = l1 ++ upd l2 (i - length l1) x.
Proof.
  revert i; induction l1 as [|h t IH]; intros i; cbn; intros H.
  - f_equal; lia.
  - destruct i as [|i]; [lia|]. cbn. f_equal. apply IH; lia.
Qed.

(** Last [n] elements. *)
Definition lastn {A} (n : nat) (l : list A) : list A := skipn (length l - n) l.

Lemma lastn_all {A} n (l : list A) : (length l <= n)%nat -> lastn n l = l.
Proof. intros H; unfold lastn. replace (length l - n)%nat with O by lia; reflexivity. Qed.

Lemma lastn_length {A} n (l : list A) : length (lastn n l) = Nat.min n (length l).
Proof. unfold lastn; rewrite skipn_length; lia. Qed.

Lemma skipn_skipn' {A} (l : list A) : forall n m, skipn m (skipn n l) = skipn (n + m) l.
Proof.
  induction l as [|x l IH]; intros n m.
  - rewrite !skipn_nil. reflexivity.
  - destruct n; [reflexivity|]. cbn. apply IH.
Qed.

(** Store the bytes [bs] at offset [i] of the block [m]; [None] is an out of bounds store. *)
Definition store {A} (m : list A) (i : nat) (bs : list A) : option (list A) :=
  if (i + length bs <=? length m)%nat
  then Some (firstn i m ++ bs ++ skipn (i + length bs) m) else None.

Lemma store_length {A} (m m' : list A) i bs : store m i bs = Some m' -> length m' = length m.
Proof.
  unfold store. destruct (Nat.leb_spec (i + length bs) (length m)); [|discriminate].
  intros [= <-]. rewrite !app_length, firstn_length, skipn_length. lia.
Qed.

(** Sums over lists, and their change under a point update (used to count threads). *)
Fixpoint zsum {A} (f : A -> Z) (l : list A) : Z :=
  match l with [] => 0 | x :: t => f x + zsum f t end.

Lemma zsum_upd {A} (f : A -> Z) l i x y :
  nth_error l i = Some x -> zsum f (upd l i y) = zsum f l - f x + f y.
Proof.
  revert i; induction l as [|h t IH]; intros [|i]; cbn; intros H; try discriminate.
  - injection H as ->. lia.
  - rewrite (IH _ H). lia.
Qed.

Lemma zsum_nonneg {A} (f : A -> Z) l : (forall x, 0 <= f x) -> 0 <= zsum f l.
Proof. intros H. induction l as [|h t IH]; cbn; [lia|]. specialize (H h). lia. Qed.

Lemma zsum_app {A} (f : A -> Z) l1 l2 : zsum f (l1 ++ l2) = zsum f l1 + zsum f l2.
Proof. induction l1 as [|h t IH]; cbn; lia. Qed.

Lemma zsum_zero {A} (f : A -> Z) l : (forall x, In x l -> f x = 0) -> zsum f l = 0.
Proof.
  intros H. induction l as [|h t IH]; cbn; [lia|].
  rewrite (H h), IH; cbn; auto. intros x Hx; apply H; cbn; auto.
Qed.

Lemma zsum_ge_in {A} (f : A -> Z) l x : (forall y, 0 <= f y) -> In x l -> f x <= zsum f l.
Proof.
  intros H. induction l as [|h t IH]; cbn; [tauto|]. intros [->|Hx].
  - pose proof (zsum_nonneg f t H). lia.
  - specialize (IH Hx). specialize (H h). lia.
Qed.
