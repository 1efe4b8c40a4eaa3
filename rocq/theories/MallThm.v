(** C72: objects and their counters in memory. *)
From Verif Require Import Base MallModel MallSpec MallProof.

(** rtpp_rzmalloc: the layout, and the object is zero but for the pointer to the counter *)
Theorem mall_rzmalloc oalign osize memalign given msize offs m m' o :
  allocator memalign given -> power_of_2 oalign -> 0 <= osize -> 0 <= offs -> offs + 8 <= msize -> msize + oalign + osize <= 2 ^ 64 ->
  rzmalloc oalign osize memalign msize offs m = (m', Some o) ->
  laid_out oalign osize msize offs given m' o /\ others_kept m m' o osize
  /\ forall x, o_ptr o <= x < o_ptr o + msize -> ~ (o_ptr o + offs <= x < o_ptr o + offs + 8) -> m' x = 0.
Proof.
  intros AL A O F M L E. unfold rzmalloc, aligned_malloc, aligned_request in E. destruct (memalign _ _) as [p|] eqn:Q; [|discriminate].
  destruct (AL _ _ _ Q) as (_ & P & G). injection E as <- <-. pose proof (pad_spec oalign msize A ltac:(lia)) as [B _].
  pose proof (asize_spec oalign osize msize A ltac:(lia) O L) as S.
  split; [apply laid; try assumption; intros x X; apply zero_in; lia|]. split.
  - intros x X. cbn [o_ptr o_cnt] in X. rewrite store_out by lia. apply zero_out. lia.
  - intros x X Y. cbn [o_ptr] in X, Y. rewrite store_out by exact Y. apply zero_in. lia.
Qed.
Print Assumptions mall_rzmalloc.

(** rtpp_rmalloc: the same layout; the object keeps what was there but for the pointer *)
Theorem mall_rmalloc oalign osize memalign given msize offs m m' o :
  allocator memalign given -> power_of_2 oalign -> 0 <= osize -> 0 <= offs -> offs + 8 <= msize -> msize + oalign + osize <= 2 ^ 64 ->
  rmalloc oalign osize memalign msize offs m = (m', Some o) ->
  laid_out oalign osize msize offs given m' o /\ others_kept m m' o osize
  /\ forall x, o_ptr o <= x < o_ptr o + msize -> ~ (o_ptr o + offs <= x < o_ptr o + offs + 8) -> m' x = m x.
Proof.
  intros AL A O F M L E. unfold rmalloc, aligned_malloc, aligned_request in E. destruct (memalign _ _) as [p|] eqn:Q; [|discriminate].
  destruct (AL _ _ _ Q) as (_ & P & G). injection E as <- <-. pose proof (pad_spec oalign msize A ltac:(lia)) as [B _].
  split; [apply laid; try assumption; intros x X; apply zero_in; lia|]. split.
  - intros x X. cbn [o_ptr o_cnt] in X. rewrite store_out by lia. apply zero_out. lia.
  - intros x X Y. cbn [o_ptr] in X, Y. rewrite store_out by exact Y. apply zero_out. lia.
Qed.
Print Assumptions mall_rmalloc.
Example mall_ex : let '(m, o) := rzmalloc 16 24 (fun _ _ => Some 4096) 40 8 (fun _ => 255) in
  o = Some (Object 4096 4144) /\ m 4100 = 0 /\ m 4104 = 4144 /\ m 4167 = 0 /\ m 4168 = 255.
Proof. repeat split. Qed.
Example mall_ex_hyps : allocator (fun a _ => if a =? 16 then Some 4096 else None) (fun p _ => p = 4096) /\ power_of_2 16 /\ 40 + 16 + 24 <= 2 ^ 64.
Proof.
  split; [|split; [exists 4; lia | lia]]. intros a n p E. destruct (Z.eqb_spec a 16) as [->|]; [|discriminate]. injection E as <-. repeat split.
Qed.

(** rtpp_zmalloc: exactly the bytes asked for are zero *)
Theorem mall_zmalloc oalign memalign given msize m m' p :
  allocator memalign given -> power_of_2 oalign -> zmalloc oalign memalign msize m = (m', Some p) ->
  p mod oalign = 0 /\ given p msize /\ (forall x, p <= x < p + msize -> m' x = 0) /\ (forall x, ~ (p <= x < p + msize) -> m' x = m x).
Proof.
  intros AL A E. unfold zmalloc, aligned_malloc, aligned_request in E. destruct (memalign _ _) as [q|] eqn:Q; [|discriminate].
  destruct (AL _ _ _ Q) as (_ & P & G). injection E as <- <-. split; [now apply aligned_mod|]. split; [exact G|].
  split; intros x X; [now apply zero_in | now apply zero_out].
Qed.
Print Assumptions mall_zmalloc.

(** Without memory nothing is changed *)
Theorem mall_none oalign osize memalign msize offs m m' :
  (rzmalloc oalign osize memalign msize offs m = (m', None) -> m' = m) /\ (rmalloc oalign osize memalign msize offs m = (m', None) -> m' = m)
  /\ (zmalloc oalign memalign msize m = (m', None) -> m' = m).
Proof. unfold rzmalloc, rmalloc, zmalloc. repeat split; destruct (aligned_malloc _ _ _); intros E; congruence. Qed.
Print Assumptions mall_none.

(** "The counter is in the bytes given, for every size" is false: the sum of the sizes wraps *)
Theorem mall_wrap_refuted : ~ (forall memalign given msize offs m m' o,
  allocator memalign given -> 0 <= offs -> offs + 8 <= msize < 2 ^ 64 ->
  rzmalloc 16 24 memalign msize offs m = (m', Some o) -> exists n, given (o_ptr o) n /\ o_cnt o + 24 <= o_ptr o + n).
Proof.
  intros H. pose (al := fun a n => if (a =? 16) && (n =? 8) then Some 4096 else None).
  assert (AL : allocator al (fun p n => p = 4096 /\ n = 8)).
  { intros a n p E. unfold al in E. destruct (Z.eqb_spec a 16) as [->|]; [|discriminate]. destruct (Z.eqb_spec n 8) as [->|]; [|discriminate].
    injection E as <-. repeat split. }
  destruct (H al _ (2 ^ 64 - 16) 0 (fun _ => 0) _ _ AL ltac:(lia) ltac:(lia) eq_refl) as (n & (_ & ->) & L). cbn in L. lia.
Qed.
Print Assumptions mall_wrap_refuted.
