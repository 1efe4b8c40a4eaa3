(** Byte strings: literals, equality, decimal formatting. *)
From Verif Require Import Base.
From Coq Require String Ascii.
Export Coq.Strings.String.StringSyntax.
Delimit Scope string_scope with string.
Bind Scope string_scope with String.string.
Open Scope list_scope.
Open Scope Z_scope.

(** The bytes of a literal. *)
Definition B (s : String.string) : list Z := map (fun c => Z.of_N (Ascii.N_of_ascii c)) (String.list_ascii_of_string s).
Arguments B s%string_scope.

(** strcmp() == 0 for NUL-free strings. *)
Fixpoint beq (a b : list Z) : bool :=
  match a, b with
  | [], [] => true
  | x :: a, y :: b => (x =? y) && beq a b
  | _, _ => false
  end.

Lemma beq_eq a b : beq a b = true <-> a = b.
Proof.
  revert b. induction a as [|x a IH]; intros [|y b]; cbn; try (split; congruence).
  rewrite andb_true_iff, IH, Z.eqb_eq. split; [intros [-> ->]; reflexivity|intros [= -> ->]; auto].
Qed.
Lemma beq_refl a : beq a a = true.
Proof. apply beq_eq. reflexivity. Qed.
Lemma beq_neq a b : beq a b = false <-> a <> b.
Proof. rewrite <- beq_eq. destruct (beq a b); split; congruence. Qed.

(** %lu of printf() for a number below 2^64: at most 20 digits. *)
Fixpoint udec (fuel : nat) (n : Z) (acc : list Z) : list Z :=
  match fuel with
  | O => acc
  | S fuel => if n <? 10 then (48 + n) :: acc else udec fuel (n / 10) ((48 + n mod 10) :: acc)
  end.
Definition fmt_u (n : Z) : list Z := udec 20 n [].
(** %d of printf() *)
Definition fmt_d (n : Z) : list Z := if n <? 0 then 45 :: udec 20 (- n) [] else udec 20 n [].
