(** C12: theorems about the object registry. *)
From Verif Require Import Base HashModel HashSpec HashProof WeakrefModel WeakrefSpec WeakrefProof.

(** Every history of operations over two empty registries, for every hash function and every
    choice of callbacks, answers as the two lists do, and each registry has called its callbacks
    exactly when one was due. In particular no operation runs off the table. *)
Theorem registry_callbacks_exact : forall (hash : Z -> Z) (cf cl : bool * bool) os,
  let '((a, b), outs) := wr_run hash (wr_ctor (fst cf) (fst cl), wr_ctor (snd cf) (snd cl)) 0 os in
  exists l m, ws_exec cf cl 0 [] [] [] [] os outs l m (w_ev a) (w_ev b).
Proof.
  intros hash [f1 f2] [l1 l2] os. cbn [fst snd].
  assert (W : forall f l, WR hash (wr_ctor f l) []) by (intros; split; [apply (R_ctor Z.eqb hash Z.eqb_eq)|split; reflexivity]).
  destruct (wr_run_ok hash os (wr_ctor f1 l1) (wr_ctor f2 l2) [] [] 0 (W _ _) (W _ _)) as (l & m & H).
  - intros e [].
  - intros e [[]|[]].
  - cbn [w_first w_last wr_ctor] in H. destruct (wr_run _ _ _ _) as [[a b] outs]. exists l, m. exact H.
Qed.
Print Assumptions registry_callbacks_exact.

(** With both callbacks set, each registry's calls alternate, on_first first, and the last one
    made was on_first exactly when the registry is not empty. *)
Theorem registry_callbacks_alternate : forall (hash : Z -> Z) os,
  let '((a, b), outs) := wr_run hash (wr_ctor true true, wr_ctor true true) 0 os in
  exists l m, ws_exec (true, true) (true, true) 0 [] [] [] [] os outs l m (w_ev a) (w_ev b) /\
    alternating true (w_ev a) /\ alternating true (w_ev b) /\
    (Nat.even (length (w_ev a)) = true <-> l = []) /\ (Nat.even (length (w_ev b)) = true <-> m = []).
Proof.
  intros hash os. pose proof (registry_callbacks_exact hash (true, true) (true, true) os) as H. cbn [fst snd] in H.
  destruct (wr_run _ _ _ _) as [[a b] outs]. destruct H as (l & m & H). exists l, m. split; [exact H|].
  apply (exec_alternates _ _ _ _ _ _ _ _ _ _ _ _ _ H); try reflexivity; cbn; tauto.
Qed.
Print Assumptions registry_callbacks_alternate.

(** Two objects pass through both registries; a colliding hash. *)
Example registry_run :
  let '((a, b), outs) := wr_run (fun _ => 7) (wr_ctor true true, wr_ctor true true) 0
    [(false, WReg 5 50 true); (false, WReg 6 60 true); (false, WMove 5 true); (false, WUnreg 6); (true, WGet 5);
     (true, WMove 5 true); (false, WPurge); (false, WUnreg 5); (false, WReg 5 51 true); (false, WReg 5 52 true)] in
  outs = [WInt 0; WInt 0; WPtr (Some 50); WPtr (Some 60); WPtr (Some 50); WPtr (Some 50); WInt 1; WPtr None; WInt 0; WAbort] /\
  w_ev a = [true; false; true; false; true] /\ w_ev b = [true; false].
Proof. vm_compute. auto. Qed.
