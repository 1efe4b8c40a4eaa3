(* C45: copying the packets of one session into others.  Whether the processing
   of every packet comes to an end. *)
From Coq Require Import List Arith Lia Bool.
From Verif Require Import ForkModel ForkSpec ForkProof.
Import ListNotations.

(* 1. The history used by the examples: session 2 gets the packets of 1,
   session 3 those of 2, session 4 those of 1; session 3 ends. *)
Definition ex : list op :=
  [FCopy (mkcopy 1 false 2 true) 8; FCopy (mkcopy 2 false 3 false) 8; FCopy (mkcopy 1 false 4 false) 8; FEnd 3].

(* With memory, no command and no end of a session stops the program. *)
Theorem copying_never_aborts : forall os, Forall mem_ok os -> exists s, run init os = Some s.
Proof. intros os H. destruct (run_inv os init inv_init H) as [s [E _]]. eauto. Qed.
Print Assumptions copying_never_aborts.
Example copying_never_aborts_ex : Forall mem_ok ex /\ length (in_force [] ex) = 2.
Proof. split; [repeat constructor|reflexivity]. Qed.

(* 2. What happens to a packet, for every history: it is recorded, handed to
   every session that copies this one and sent, and so on for each copy. *)
Theorem packet_is_spread : forall os s, run init os = Some s -> forall fuel x out,
  from_player fuel (ch s) x out = spread fuel (in_force [] os) x out.
Proof. exact player_result. Qed.
Print Assumptions packet_is_spread.

Theorem packet_from_network_is_spread : forall os s, run init os = Some s -> forall fuel x out,
  (forall t, ~ copied (in_force [] os) t (sess_of x)) ->
  from_network (S fuel) (ch s) x out = spread (S fuel) (in_force [] os) x out.
Proof.
  intros os s H fuel x out NT. rewrite (network_result os s H).
  destruct (is_target (in_force [] os) (sess_of x)) eqn:E; [|reflexivity].
  apply is_target_iff in E. destruct E as [t E]. now destruct (NT t).
Qed.
Print Assumptions packet_from_network_is_spread.
Example packet_from_network_is_spread_ex :
  option_map (fun s => from_network 5 (ch s) (1, false, true) (1, false, false)) (run init ex) =
  Some (Some [EvRecord (1, false, true);
              EvRecord (2, false, true); EvRelay (2, false, true) (2, false, false);
              EvRecord (4, false, false); EvRelay (4, false, false) (4, false, true);
              EvRelay (1, false, true) (1, false, false)]).
Proof. vm_compute. reflexivity. Qed.

(* 3. What a session receives from its own peers is dropped while it gets the
   packets of another one. *)
Theorem target_drops_own_media : forall os s, run init os = Some s -> forall fuel x out,
  (exists t, copied (in_force [] os) t (sess_of x)) ->
  from_network (S fuel) (ch s) x out = Some [EvDrop x].
Proof.
  intros os s H fuel x out T. apply is_target_iff in T. now rewrite (network_result os s H), T.
Qed.
Print Assumptions target_drops_own_media.
Example target_drops_own_media_ex :
  option_map (fun s => from_network 1 (ch s) (4, true, true) (4, true, false)) (run init ex) =
  Some (Some [EvDrop (4, true, true)]).
Proof. vm_compute. reflexivity. Qed.

(* 4. When the sessions that get copies of this one are not copied further,
   every copy goes out once and so does the packet. *)
Theorem copies_go_out_once : forall os s, run init os = Some s -> forall fuel x out,
  (forall t u, copied (in_force [] os) (sess_of x) t -> ~ copied (in_force [] os) t u) ->
  from_player (S (S fuel)) (ch s) x out =
  Some (EvRecord x ::
    flat_map (fun c => if c_src c =? sess_of x
                       then [EvRecord (fst (goes_to c x)); EvRelay (fst (goes_to c x)) (snd (goes_to c x))] else [])
             (in_force [] os)
    ++ [EvRelay x out]).
Proof. intros os s H fuel x out NT. rewrite (player_result os s H). now apply shallow. Qed.
Print Assumptions copies_go_out_once.
Example copies_go_out_once_ex : forall t u, copied (in_force [] ex) 1 t -> ~ copied (in_force [] ex) t u.
Proof.
  intros t u [c [H [E <-]]] [d [HD [ED _]]]. vm_compute in H, HD.
  destruct H as [<-|[<-|[]]], HD as [<-|[<-|[]]]; cbn in E, ED; discriminate.
Qed.

(* 5. Nothing is copied into a session that has ended, whatever was configured
   before. *)
Theorem ended_gets_nothing : forall os t s, ~ copied (in_force [] (os ++ [FEnd t])) s t.
Proof.
  intros os t s [c [H [_ E]]].
  assert (G : forall os acc, in_force acc (os ++ [FEnd t]) =
    filter (fun c => negb (c_tgt c =? t)) (in_force acc os)).
  { clear. induction os as [|o os' IH]; intros acc; [reflexivity|]. destruct o; cbn [app in_force]; apply IH. }
  rewrite G in H. apply filter_In in H. destruct H as [_ H]. rewrite E, Nat.eqb_refl in H. discriminate.
Qed.
Print Assumptions ended_gets_nothing.

(* 6. The claim, exactly: the processing of a packet of session s ends if and
   only if the chains of copies that start at s all end. *)
Theorem processing_ends_iff : forall os s, run init os = Some s -> forall x out,
  (exists fuel e, from_player fuel (ch s) x out = Some e) <->
  Acc (fun t s => copied (in_force [] os) s t) (sess_of x).
Proof.
  intros os s H x out. split.
  - intros [fuel [e E]]. rewrite (player_result os s H) in E. exact (spread_acc _ _ _ _ _ E).
  - intros A. destruct (acc_spread _ _ A) as [f HF]. destruct (HF x out eq_refl) as [e E].
    exists f, e. now rewrite (player_result os s H).
Qed.
Print Assumptions processing_ends_iff.

Theorem network_processing_ends_iff : forall os s, run init os = Some s -> forall x out,
  (exists fuel e, from_network fuel (ch s) x out = Some e) <->
  (exists t, copied (in_force [] os) t (sess_of x)) \/
  Acc (fun t s => copied (in_force [] os) s t) (sess_of x).
Proof.
  intros os s H x out. split.
  - intros [fuel [e E]]. destruct fuel as [|f]; [discriminate|]. rewrite (network_result os s H) in E.
    destruct (is_target (in_force [] os) (sess_of x)) eqn:ET; [left; now apply is_target_iff|right].
    exact (spread_acc _ _ _ _ _ E).
  - intros [T|A].
    + apply is_target_iff in T. exists 1, [EvDrop x]. now rewrite (network_result os s H), T.
    + destruct (acc_spread _ _ A) as [f HF]. destruct (HF x out eq_refl) as [e E].
      destruct f as [|f]; [discriminate|].
      destruct (is_target (in_force [] os) (sess_of x)) eqn:ET.
      * exists 1, [EvDrop x]. now rewrite (network_result os s H), ET.
      * exists (S f), e. now rewrite (network_result os s H), ET.
Qed.
Print Assumptions network_processing_ends_iff.

(* 7. In particular when sessions can be numbered so that copies only go down:
   one bound on the depth of calls serves all packets of a session. *)
Theorem ranked_copies_end_partial : forall os s, run init os = Some s ->
  forall rank : nat -> nat, (forall a b, copied (in_force [] os) a b -> rank b < rank a) ->
  forall n, exists fuel, forall x out, sess_of x = n ->
    exists e, from_player fuel (ch s) x out = Some e.
Proof.
  intros os s H rank R n. destruct (acc_spread _ n (rank_acc _ rank R n)) as [f HF]. exists f.
  intros x out E. rewrite (player_result os s H). now apply HF.
Qed.
Print Assumptions ranked_copies_end_partial.
Example ranked_copies_end_partial_ex : forall a b, copied (in_force [] ex) a b -> 5 - b < 5 - a.
Proof.
  intros a b [c [H [<- <-]]]. vm_compute in H. destruct H as [<-|[<-|[]]]; cbn; lia.
Qed.

(* 8. When the copies go round, the calls never end. *)
Theorem circular_copies_never_end : forall os s, run init os = Some s ->
  forall h : nat -> nat, (forall n, copied (in_force [] os) (h n) (h (S n))) ->
  forall x out, sess_of x = h 0 -> forall fuel, from_player fuel (ch s) x out = None.
Proof.
  intros os s H h C x out E fuel. rewrite (player_result os s H). now apply (loops_forever _ h).
Qed.
Print Assumptions circular_copies_never_end.

Definition mutual : list op :=
  [FCopy (mkcopy 1 false 2 false) 8; FCopy (mkcopy 2 false 1 false) 8; FCopy (mkcopy 3 false 1 false) 8].

(* The full claim "processing ends whatever copies were configured" is false:
   sessions 1 and 2 copy each other and 1 copies 3, all commands succeed, and
   the first packet that arrives on 3 never comes to an end. *)
Theorem processing_always_ends_refuted : exists os s x out,
  Forall mem_ok os /\ run init os = Some s /\ forall fuel, from_network fuel (ch s) x out = None.
Proof.
  destruct (copying_never_aborts mutual) as [s E]; [repeat constructor|].
  exists mutual, s, (3, false, false), (3, false, true). split; [repeat constructor|]. split; [exact E|].
  intros [|f]; [reflexivity|]. rewrite (network_result mutual s E).
  replace (is_target (in_force [] mutual) (sess_of (3, false, false))) with false by reflexivity.
  apply (loops_forever _ (fun n => match n with 0 => 3 | S n => if Nat.even n then 1 else 2 end)); [|reflexivity].
  intros [|n].
  - exists (mkcopy 3 false 1 false). cbn. tauto.
  - rewrite Nat.even_succ. rewrite <- Nat.negb_even. destruct (Nat.even n); cbn [negb].
    + exists (mkcopy 1 false 2 false). cbn. tauto.
    + exists (mkcopy 2 false 1 false). cbn. tauto.
Qed.
Print Assumptions processing_always_ends_refuted.

(* 9. When one of the eight registrations of a copy fails, undoing the others
   stops the program, in every state. *)
Theorem failed_copy_aborts : forall os s c ok, run init os = Some s ->
  c_src c <> c_tgt c -> ok < 8 -> run init (os ++ [FCopy c ok]) = None.
Proof.
  intros os s c ok H NE L. destruct (run_some _ _ _ inv_init H) as [I _].
  assert (G : forall os s0, run s0 os = Some s -> run s0 (os ++ [FCopy c ok]) = None).
  { clear -I NE L. induction os as [|o os' IH]; intros s0 R; cbn [run app] in *.
    - injection R as ->. cbn [step]. now rewrite (short_aborts s c ok I NE L).
    - destruct (step s0 o); [now apply IH|discriminate]. }
  now apply G.
Qed.
Print Assumptions failed_copy_aborts.
Example failed_copy_aborts_ex : run init (ex ++ [FCopy (mkcopy 1 false 5 false) 7]) = None.
Proof. vm_compute. reflexivity. Qed.

(* 10. A session cannot be copied into itself, which changes nothing. *)
Theorem self_copy_refused : forall s c ok, c_src c = c_tgt c -> do_copy s c ok = Some (s, false).
Proof. intros s c ok E. unfold do_copy. now rewrite E, Nat.eqb_refl. Qed.
Print Assumptions self_copy_refused.
