From Verif Require Import Base RcvfModel RcvfSpec.

Lemma cut_spec len data : exists rest, data = cut len data ++ rest /\ (Z.of_nat (length data) <= len -> rest = []).
Proof.
  exists (skipn (Z.to_nat len) data). unfold cut. split; [symmetry; apply firstn_skipn|]. intros H. apply skipn_all2. lia.
Qed.
Lemma cut_len len data : 0 <= len -> Z.of_nat (length (cut len data)) <= len.
Proof. intros H. unfold cut. rewrite firstn_length. lia. Qed.

Lemma loop_dst l : forall t a, sent_to l a -> fst (cmsg_loop l t) = Some a.
Proof.
  intros t a (l1 & l2 & -> & N). revert t. induction l1 as [|m l1 IH]; intros t; cbn [app cmsg_loop]; [reflexivity|].
  assert (N' : forall b, ~ In (CDst b) l1) by (intros b I; apply (N b); now right).
  destruct m; [exfalso; apply (N a0); now left | apply IH, N' | apply IH, N'].
Qed.
Lemma loop_nodst l : forall t, (forall a, ~ In (CDst a) l) -> fst (cmsg_loop l t) = None.
Proof.
  induction l as [|m l IH]; intros t N; cbn [cmsg_loop]; [reflexivity|].
  assert (N' : forall b, ~ In (CDst b) l) by (intros b I; apply (N b); now right).
  destruct m; [exfalso; apply (N a); now left | apply IH, N' | apply IH, N'].
Qed.
Lemma loop_nostamp l : forall t, (forall s u, ~ In (CTime s u) (before_dst l)) -> snd (cmsg_loop l t) = t.
Proof.
  induction l as [|m l IH]; intros t N; cbn [cmsg_loop]; [reflexivity|]. destruct m; cbn [before_dst] in N.
  - reflexivity.
  - exfalso. apply (N sec usec). now left.
  - apply IH. intros s u I. apply (N s u). now right.
Qed.
Lemma loop_stamp l : forall t s u, stamped (before_dst l) s u -> snd (cmsg_loop l t) = (s, u).
Proof.
  induction l as [|m l IH]; intros t s u (l1 & l2 & E & N); [destruct l1; discriminate|].
  destruct m; cbn [before_dst] in E; [destruct l1; discriminate | |]; cbn [cmsg_loop].
  - destruct l1 as [|x l1]; cbn [app] in E.
    + injection E as -> -> E. apply loop_nostamp. rewrite E. exact N.
    + injection E as E1 E2. apply IH. exists l1, l2. auto.
  - destruct l1 as [|x l1]; cbn [app] in E; [discriminate|]. injection E as E1 E2. apply IH. exists l1, l2. auto.
Qed.
Lemma before_sub l m : In m (before_dst l) -> In m l.
Proof. induction l as [|x l IH]; cbn [before_dst]; [auto|]. destruct x; [intros [] | |]; intros [E|E]; [now left | right; auto | now left | right; auto]. Qed.
Lemma before_all l : (forall a, ~ In (CDst a) l) -> before_dst l = l.
Proof.
  induction l as [|x l IH]; intros N; cbn [before_dst]; [reflexivity|]. destruct x; [exfalso; apply (N a); now left | |];
    (f_equal; apply IH; intros b I; apply (N b); now right).
Qed.

Lemma drain_ok q : exists n q', drain q (S (length q)) = Some (q', n) /\
  exists ds, n = Z.of_nat (length ds) /\ (q = map IPkt ds /\ q' = [] \/ q = map IPkt ds ++ IErr :: q').
Proof.
  induction q as [|i q IH]; cbn [length].
  - exists 0, []. split; [reflexivity|]. exists []. auto.
  - destruct i as [d|].
    + destruct IH as (n & q' & E & ds & L & C). exists (n + 1), q'. split.
      * change (drain (IPkt d :: q) (S (S (length q)))) with (match drain q (S (length q)) with Some (q, n) => Some (q, n + 1) | None => None end). now rewrite E.
      * exists (d :: ds). split; [cbn [length]; lia|]. destruct C as [[-> ->]| ->]; [left|right]; auto.
    + exists 0, q. split; [reflexivity|]. exists []. auto.
Qed.
