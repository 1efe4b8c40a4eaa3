From Verif Require Import Base AddrModel NumModel TnotModel TnotSpec.
From Coq Require Import Arith.

(** *** Strings *)
Lemma strip_spec p s x : strip p s = Some x <-> s = p ++ x.
Proof.
  revert s; induction p as [|c p IH]; intros s; cbn.
  - split; [intros E; injection E; auto|intros ->; auto].
  - destruct s as [|d s]; [split; discriminate|].
    destruct (c =? d) eqn:E.
    + apply Z.eqb_eq in E; subst. rewrite IH. split; [intros ->; auto|intros H; injection H; auto].
    + split; [discriminate|]. intros H; injection H as -> _. lia.
Qed.
Lemma strip_none p s : strip p s = None <-> forall x, s <> p ++ x.
Proof.
  split.
  - intros E x H. apply strip_spec in H. congruence.
  - intros H. destruct (strip p s) as [x|] eqn:E; auto. apply strip_spec in E. exfalso; eapply H; eauto.
Qed.

Lemma rsplit_none s : rsplit s = None <-> ~ In COLON s.
Proof.
  induction s as [|c t IH]; cbn; [tauto|].
  destruct (rsplit t) as [[a b]|].
  - split; [discriminate|]. intros H. destruct IH as [_ IH]. exfalso; apply H; right.
    destruct (in_dec Z.eq_dec COLON t); auto. exfalso. discriminate (IH n).
  - destruct (c =? COLON) eqn:E.
    + split; [discriminate|]. intros H; exfalso; apply H; left. lia.
    + split; auto. intros _ [H|H]; [lia|]. apply IH; auto.
Qed.
Lemma rsplit_spec s h p : rsplit s = Some (h, p) <-> s = h ++ [COLON] ++ p /\ ~ In COLON p.
Proof.
  revert h p; induction s as [|c t IH]; intros h p; cbn [rsplit].
  - split; [discriminate|]. intros [H _]. destruct h; discriminate.
  - destruct (rsplit t) as [[a b]|] eqn:R.
    + split.
      * intros E; injection E as <- <-. destruct (IH a b) as [X _]. destruct (X eq_refl) as [-> N].
        split; auto.
      * intros [E N]. destruct h as [|d h]; cbn in E.
        -- injection E as -> ->. exfalso. apply (proj2 (rsplit_none p)) in N. congruence.
        -- injection E as -> E. destruct (IH h p) as [_ X].
           specialize (X (conj E N)). injection X as -> ->. auto.
    + assert (N : ~ In COLON t) by (apply rsplit_none; auto).
      destruct (c =? COLON) eqn:E.
      * apply Z.eqb_eq in E; subst c. split.
        -- intros H; injection H as <- <-. auto.
        -- intros [H M]. destruct h as [|d h]; cbn in H; injection H.
           ++ intros ->; auto.
           ++ intros H1 _. exfalso; apply N. rewrite H1. apply in_elt.
      * split; [discriminate|]. intros [H M]. destruct h as [|d h]; cbn in H; injection H.
        -- intros _ ->. lia.
        -- intros H1 _. exfalso; apply N. rewrite H1. apply in_elt.
Qed.

Lemma has_colon_spec s : has_colon s = true <-> In COLON s.
Proof.
  unfold has_colon. rewrite existsb_exists. split.
  - intros (x & I & E). apply Z.eqb_eq in E. subst; auto.
  - intros I. exists COLON. rewrite Z.eqb_refl. auto.
Qed.

Lemma parse_hostport_spec x h port : parse_hostport x = Some (h, port) <-> host_port x h port.
Proof.
  unfold parse_hostport, host_port. destruct (rsplit x) as [[h0 p0]|] eqn:R.
  - apply rsplit_spec in R as [-> N]. split.
    + destruct ((length p0 =? 0)%nat || (length h0 =? 0)%nat) eqn:E1; [discriminate|].
      destruct ((atoi p0 <=? 0) || (atoi p0 >? 65535)) eqn:E2; [discriminate|].
      destruct (Z.of_nat (length h0) + 1 >? 512) eqn:E3; [discriminate|].
      intros H; injection H as <- <-. exists p0. repeat split; auto; try lia.
      * intros ->; cbn in E1; lia.
      * intros ->; cbn in E1; lia.
    + intros (p & E & M & P & H & L & -> & Q).
      assert (rsplit (h0 ++ [COLON] ++ p0) = Some (h, p)) as R1 by (apply rsplit_spec; auto).
      assert (rsplit (h0 ++ [COLON] ++ p0) = Some (h0, p0)) as R2 by (apply rsplit_spec; auto).
      rewrite R1 in R2; injection R2 as <- <-.
      destruct p as [|? ?]; [congruence|]. destruct h as [|? ?]; [congruence|].
      cbn [length Nat.eqb orb].
      destruct ((atoi (z :: p) <=? 0) || (atoi (z :: p) >? 65535)) eqn:E2; [lia|].
      destruct (Z.of_nat (S (length h)) + 1 >? 512) eqn:E3; [cbn in L; lia|]. reflexivity.
  - split; [discriminate|]. intros (p & E & _). apply rsplit_none in R. exfalso; apply R.
    rewrite E. apply in_elt.
Qed.

Lemma host_port_inj x h1 p1 h2 p2 : host_port x h1 p1 -> host_port x h2 p2 -> h1 = h2 /\ p1 = p2.
Proof.
  rewrite <- !parse_hostport_spec. intros A B. rewrite A in B. injection B; auto.
Qed.

(** *** The parser *)
Lemma unix_not_tcp x y : S_UNIX ++ x <> S_TCP ++ y. Proof. discriminate. Qed.
Lemma unix_not_fd x y : S_UNIX ++ x <> S_FD ++ y. Proof. discriminate. Qed.
Lemma tcp_not_fd x y : S_TCP ++ x <> S_FD ++ y. Proof. discriminate. Qed.

Lemma parse_target lib rslv m t : parse_timeout_sock lib rslv m = PTarget t ->
  exists nm, t_name t = Some nm /\ full_name lib m nm /\ place lib m rslv (t_place t) /\ t_local t = None /\
    (t_type t = TNS_LOCAL <-> exists x, nm = S_UNIX ++ x).
Proof.
  unfold parse_timeout_sock, full_name, place.
  destruct (strip S_UNIX m) as [path|] eqn:E1.
  - apply strip_spec in E1; subst m. destruct path as [|c path]; [discriminate|].
    intros H; injection H as <-. exists (S_UNIX ++ c :: path). split; auto. split; [|split;[|split; auto]].
    + right. split; auto. intros [N _]. eapply N; eauto.
    + left. exists (c :: path). split; auto. split; [discriminate|auto].
    + cbn; split; eauto.
  - rewrite strip_none in E1. destruct (strip S_TCP m) as [hp|] eqn:E2.
    + apply strip_spec in E2; subst m.
      destruct (parse_hostport hp) as [[h port]|] eqn:P; [|discriminate].
      apply parse_hostport_spec in P.
      destruct (bytes_eqb h S_SELF) eqn:B; [discriminate|].
      destruct rslv as [a|]; [|discriminate]. intros H; injection H as <-.
      exists (S_TCP ++ hp). split; auto. split; [|split;[|split; auto]].
      * right; split; auto. intros (_ & N & _). eapply N; eauto.
      * right; left. exists h, port, a. split; auto. exists hp. split; auto. split; auto.
        intros ->. vm_compute in B. discriminate.
      * cbn [t_type]; split; [discriminate|]. intros (x & X). discriminate.
    + rewrite strip_none in E2.
      destruct lib.
      * destruct (strip S_FD m) as [d|] eqn:E3.
        -- apply strip_spec in E3; subst m.
           destruct (atoi_safe d) as [fd| |] eqn:P; try discriminate.
           destruct (fd <? 0) eqn:Q; [discriminate|]. intros H; injection H as <-.
           exists (S_FD ++ d). split; auto. split; [|split;[|split; auto]].
           ++ right; split; auto. intros (_ & _ & N). eapply N; eauto.
           ++ right; right. exists fd. split; auto. split; auto. exists d. split; auto. split; auto. lia.
           ++ cbn [t_type]; split; [discriminate|]. intros (x & X). discriminate.
        -- rewrite strip_none in E3. destruct m as [|c m]; [discriminate|].
           intros H; injection H as <-. exists (S_UNIX ++ c :: m). split; auto.
           assert (NP : no_prefix true (c :: m)) by (repeat split; auto).
           split; [|split;[|split; auto]].
           ++ left; auto.
           ++ left. exists (c :: m). split; auto. split; [discriminate|auto].
           ++ cbn [t_type]; split; eauto.
      * destruct m as [|c m]; [discriminate|].
        intros H; injection H as <-. exists (S_UNIX ++ c :: m). split; auto.
        assert (NP : no_prefix false (c :: m)) by (repeat split; auto; discriminate).
        split; [|split;[|split; auto]].
        ++ left; auto.
        ++ left. exists (c :: m). split; auto. split; [discriminate|auto].
        ++ cbn [t_type]; split; eauto.
Qed.

Lemma parse_wild lib rslv m w : parse_timeout_sock lib rslv m = PWild w ->
  w_name w = m /\ w_type w = TNS_INET /\ names_self m (w_port w).
Proof.
  unfold parse_timeout_sock.
  destruct (strip S_UNIX m) as [path|] eqn:E1; [destruct path; discriminate|].
  destruct (strip S_TCP m) as [hp|] eqn:E2.
  - apply strip_spec in E2; subst m.
    destruct (parse_hostport hp) as [[h port]|] eqn:P; [|discriminate].
    apply parse_hostport_spec in P.
    destruct (bytes_eqb h S_SELF) eqn:B; [|destruct rslv; discriminate].
    apply bytes_eqb_eq in B; subst h. intros H; injection H as <-. cbn.
    repeat split; auto. exists hp. auto.
  - destruct (if lib then _ else _); [destruct (atoi_safe l) as [fd| |]; try discriminate; destruct (fd <? 0); discriminate|].
    destruct m; discriminate.
Qed.

Lemma parse_of_self lib rslv m port : names_self m port ->
  parse_timeout_sock lib rslv m = PWild {| w_name := m; w_type := TNS_INET; w_port := port |}.
Proof.
  intros (x & -> & H). unfold parse_timeout_sock.
  assert (strip S_UNIX (S_TCP ++ x) = None) as -> by (apply strip_none; intros y E; discriminate).
  assert (strip S_TCP (S_TCP ++ x) = Some x) as -> by (apply strip_spec; auto).
  apply parse_hostport_spec in H as ->. rewrite bytes_eqb_refl. auto.
Qed.

Lemma parse_of_place lib rslv m p : place lib m rslv p ->
  exists t, parse_timeout_sock lib rslv m = PTarget t /\ t_place t = p.
Proof.
  intros [(path & (NE & [->|[NP <-]]) & ->)|[(h & port & a & (x & -> & H & NS) & -> & ->)|(fd & (-> & x & -> & A & P) & ->)]];
    unfold parse_timeout_sock.
  - assert (strip S_UNIX (S_UNIX ++ path) = Some path) as -> by (apply strip_spec; auto).
    destruct path; [congruence|]. eexists; split; reflexivity.
  - destruct NP as (N1 & N2 & N3). apply strip_none in N1 as ->. apply strip_none in N2 as ->.
    assert ((if lib then strip S_FD m else None) = None) as ->.
    { destruct lib; auto. apply strip_none; auto. }
    destruct m; [congruence|]. eexists; split; reflexivity.
  - assert (strip S_UNIX (S_TCP ++ x) = None) as -> by (apply strip_none; intros y E; discriminate).
    assert (strip S_TCP (S_TCP ++ x) = Some x) as -> by (apply strip_spec; auto).
    apply parse_hostport_spec in H as ->.
    destruct (bytes_eqb h S_SELF) eqn:B; [apply bytes_eqb_eq in B; congruence|].
    eexists; split; reflexivity.
  - assert (strip S_UNIX (S_FD ++ x) = None) as -> by (apply strip_none; intros y E; discriminate).
    assert (strip S_TCP (S_FD ++ x) = None) as -> by (apply strip_none; intros y E; discriminate).
    assert (strip S_FD (S_FD ++ x) = Some x) as -> by (apply strip_spec; auto).
    rewrite A. destruct (fd <? 0) eqn:E; [lia|]. eexists; split; reflexivity.
Qed.

Lemma full_name_colon lib m n : full_name lib m n -> In COLON n.
Proof.
  intros [[_ ->]|[N ->]].
  - cbn. tauto.
  - unfold no_prefix in N.
    destruct (strip S_UNIX m) as [x|] eqn:E1; [apply strip_spec in E1; subst; cbn; tauto|].
    destruct (strip S_TCP m) as [x|] eqn:E2; [apply strip_spec in E2; subst; cbn; tauto|].
    destruct (strip S_FD m) as [x|] eqn:E3; [apply strip_spec in E3; subst; cbn; tauto|].
    rewrite strip_none in *. tauto.
Qed.

Lemma no_prefix_dec lib m : no_prefix lib m \/ ~ no_prefix lib m.
Proof.
  unfold no_prefix.
  destruct (strip S_UNIX m) as [x|] eqn:E1; [apply strip_spec in E1; right; intros [N _]; eapply N; eauto|].
  destruct (strip S_TCP m) as [x|] eqn:E2; [apply strip_spec in E2; right; intros (_ & N & _); eapply N; eauto|].
  rewrite strip_none in E1, E2.
  destruct lib.
  - destruct (strip S_FD m) as [x|] eqn:E3; [apply strip_spec in E3; right; intros (_ & _ & N); eapply N; eauto|].
    rewrite strip_none in E3. left; auto.
  - left. repeat split; auto. discriminate.
Qed.

Lemma full_name_fun lib m a b : full_name lib m a -> full_name lib m b -> a = b.
Proof. intros [[A ->]|[A ->]] [[B ->]|[B ->]]; auto; tauto. Qed.

(** A wildcard name is no name of a target. *)
Lemma self_not_full lib m n port : names_self n port -> full_name lib m n -> m = n.
Proof. intros (x & -> & _) [[_ E]|[_ E]]; [discriminate|auto]. Qed.

(** *** Searching *)
Lemma tsearch_cases f k l :
  (exists l1 t l2, l = l1 ++ t :: l2 /\ tsearch f k l = TObj (k + length l1) /\ f t = Some true /\
                   Forall (fun x => f x = Some false) l1) \/
  (tsearch f k l = TNull /\ Forall (fun x => f x = Some false) l) \/
  (tsearch f k l = TAbort /\ Exists (fun x => f x = None) l).
Proof.
  revert k; induction l as [|t l IH]; intros k; cbn [tsearch]; [right; left; auto|].
  destruct (f t) as [[|]|] eqn:E.
  - left. exists [], t, l. cbn. rewrite Nat.add_0_r. auto.
  - destruct (IH (S k)) as [(l1 & u & l2 & -> & -> & A & B)|[[-> A]|[-> A]]].
    + left. exists (t :: l1), u, l2. cbn [app length]. repeat split; auto. rewrite <- plus_n_Sm. auto.
    + right; left; auto.
    + right; right; auto.
  - right; right; auto.
Qed.

Lemma tsearch_app f k l l' i : tsearch f k l = TObj i -> tsearch f k (l ++ l') = TObj i.
Proof.
  revert k; induction l as [|t l IH]; intros k; cbn [tsearch app]; [discriminate|].
  destruct (f t) as [[|]|]; auto.
Qed.
Lemma tsearch_ext f g k l : Forall (fun t => f t = g t) l -> tsearch f k l = tsearch g k l.
Proof.
  intros F; revert k; induction F as [|t l E F IH]; intros k; cbn; auto. rewrite E.
  destruct (g t) as [[|]|]; auto.
Qed.
Lemma tsearch_nth f l i : tsearch f 0 l = TObj i -> exists t, nth_error l i = Some t /\ f t = Some true.
Proof.
  intros E. destruct (tsearch_cases f 0 l) as [(l1 & t & l2 & -> & A & B & _)|[[A _]|[A _]]];
    rewrite A in E; try discriminate. injection E as <-. exists t. split; auto.
  cbn. rewrite nth_error_app2, Nat.sub_diag; auto.
Qed.

(** *** Histories *)
Lemma trun_cons lib s c t : fst (trun lib s (c :: t)) = fst (trun lib (fst (tstep lib s c)) t).
Proof. cbn [trun]. destruct (tstep lib s c) as [s1 r]. cbn [fst]. destruct (trun lib s1 t). reflexivity. Qed.
Lemma trun_app lib s c1 c2 : fst (trun lib s (c1 ++ c2)) = fst (trun lib (fst (trun lib s c1)) c2).
Proof.
  revert s; induction c1 as [|c t IH]; intros s; [reflexivity|].
  change ((c :: t) ++ c2) with (c :: (t ++ c2)). rewrite !trun_cons. apply IH.
Qed.

(** A target fits a configured name. *)
Definition named (lib : bool) (m : list Z) (rslv : option Z) (t : target) : Prop :=
  parse_timeout_sock lib rslv m = PTarget t.
Definition auto_ok (ws : list wildcard) (t : target) : Prop :=
  t_name t = None /\ t_type t = TNS_INET /\
  exists h w, In w ws /\ t_place t = PInet (SaIn h (w_port w)).

Record inv (lib : bool) (cs : list tcall) (s : tset) : Prop := {
  iv_tp : Forall (fun t => (exists m rslv, configured lib cs m rslv /\ named lib m rslv t) \/ auto_ok (ts_wp s) t) (ts_tp s);
  iv_wp : Forall (fun w => exists rslv, configured lib cs (w_name w) rslv /\
                    parse_timeout_sock lib rslv (w_name w) = PWild w) (ts_wp s);
  iv_conf : forall m rslv, configured lib cs m rslv ->
     (exists t, parse_timeout_sock lib rslv m = PTarget t /\ In t (ts_tp s)) \/
     (exists w, parse_timeout_sock lib rslv m = PWild w /\ In w (ts_wp s));
  iv_tl : (length (ts_tp s) <= TARGETS_MAX)%nat;
  iv_wl : (length (ts_wp s) <= WILDCARDS_MAX)%nat
}.

Lemma configured_snoc lib cs c m rslv : configured lib cs m rslv -> configured lib (cs ++ [c]) m rslv.
Proof.
  intros (pre & mid & ok & -> & A). exists pre, (mid ++ [c]), ok. rewrite <- app_assoc. auto.
Qed.
Lemma configured_last lib cs c m rslv : configured lib (cs ++ [c]) m rslv ->
  configured lib cs m rslv \/ (exists ok, c = TAppend m rslv ok /\ tanswer lib cs c = AAdded true).
Proof.
  intros (pre & mid & ok & E & A). destruct mid as [|x mid] using rev_ind.
  - apply app_inj_tail in E as [-> ->]. right; eauto.
  - clear IHmid. change (pre ++ TAppend m rslv ok :: mid ++ [x]) with (pre ++ (TAppend m rslv ok :: mid) ++ [x]) in E.
    rewrite app_assoc in E. apply app_inj_tail in E as [-> _]. left. exists pre, mid, ok. auto.
Qed.

Lemma auto_ok_incl ws ws' t : incl ws ws' -> auto_ok ws t -> auto_ok ws' t.
Proof. intros I (A & B & h & w & C & D). split; auto. split; auto. exists h, w. auto. Qed.

Lemma wild_inet lib cs s w : inv lib cs s -> In w (ts_wp s) -> w_type w = TNS_INET /\ names_self (w_name w) (w_port w).
Proof.
  intros V I. pose proof (iv_wp _ _ _ V) as W. rewrite Forall_forall in W.
  destruct (W _ I) as (rslv & _ & P). apply parse_wild in P as (_ & A & B). auto.
Qed.
Lemma self_port m port : names_self m port -> 1 <= port <= 65535.
Proof. intros (x & _ & p & _ & _ & _ & _ & _ & _ & R). auto. Qed.

(** The match against automatic entries never aborts, and says this. *)
Lemma auto_match_ok lib cs s w cc t : inv lib cs s -> In w (ts_wp s) -> In t (ts_tp s) ->
  exists b, auto_match w (cc_of cc) t = Some b /\
    (b = true <-> t_name t = None /\ t_place t = PInet (SaIn (requester cc) (w_port w))).
Proof.
  intros V W T. destruct (wild_inet _ _ _ _ V W) as [WT _].
  pose proof (iv_tp _ _ _ V) as P. rewrite Forall_forall in P.
  unfold auto_match. rewrite WT.
  assert (CC : exists q, cc_of cc = SaIn (requester cc) q).
  { destruct cc as [[h p|h p|f]|]; cbn; eauto. }
  destruct CC as (q & ->).
  destruct (P _ T) as [(m & rslv & _ & N)|(N & TT & h & w' & I & PL)].
  - apply parse_target in N as (nm & N & _). rewrite N. exists false; split; auto. split; [discriminate|].
    intros [X _]; discriminate.
  - rewrite N, TT, PL. cbn [stype_eqb negb].
    unfold ishostseq; cbn [family]. change (AF_INET =? AF_INET) with true. cbn [negb].
    destruct (requester cc =? h) eqn:E; cbn [getport].
    + apply Z.eqb_eq in E. exists (w_port w' =? w_port w). split; auto. rewrite Z.eqb_eq. split.
      * intros ->. rewrite E. auto.
      * intros [_ H]. injection H; auto.
    + exists false; split; auto. split; [discriminate|]. intros [_ H]. injection H as -> _. lia.
Qed.

(** What get_tp4wp does. *)
Inductive gt (s : tset) (w : wildcard) (cc la : option sockaddr) (ok : bool) : tset * tres -> Prop :=
| gt_old i t : nth_error (ts_tp s) i = Some t -> t_name t = None ->
    t_place t = PInet (SaIn (requester cc) (w_port w)) ->
    tsearch (auto_match w (cc_of cc)) 0 (ts_tp s) = TObj i ->
    gt s w cc la ok (s, TObj i)
| gt_full : (length (ts_tp s) = TARGETS_MAX \/ ok = false) ->
    (forall t, In t (ts_tp s) -> t_name t = None -> t_place t <> PInet (SaIn (requester cc) (w_port w))) ->
    gt s w cc la ok (s, TNull)
| gt_new lo : (length (ts_tp s) < TARGETS_MAX)%nat -> ok = true ->
    (forall t, In t (ts_tp s) -> t_name t = None -> t_place t <> PInet (SaIn (requester cc) (w_port w))) ->
    gt s w cc la ok
      ({| ts_tp := ts_tp s ++ [{| t_name := None; t_type := TNS_INET;
                                  t_place := PInet (SaIn (requester cc) (w_port w)); t_local := lo |}];
          ts_wp := ts_wp s |}, TObj (length (ts_tp s))).

Lemma get_tp4wp_gt lib cs s w cc la ok : inv lib cs s -> In w (ts_wp s) -> wf_sa la ->
  gt s w cc la ok (get_tp4wp s w cc la ok).
Proof.
  intros V W WL. destruct (wild_inet _ _ _ _ V W) as [WT WS]. pose proof (self_port _ _ WS) as WP.
  unfold get_tp4wp.
  destruct (tsearch_cases (auto_match w (cc_of cc)) 0 (ts_tp s)) as [(l1 & t & l2 & E & A & B & _)|[[A B]|[A B]]].
  - rewrite A. assert (T : In t (ts_tp s)) by (rewrite E; apply in_elt).
    destruct (auto_match_ok _ _ _ w cc t V W T) as (b & M & S). rewrite M in B; injection B as ->.
    destruct S as [S _]. destruct (S eq_refl). apply gt_old with (t := t); auto.
    rewrite E. cbn. rewrite nth_error_app2, Nat.sub_diag; auto.
  - rewrite A, WT. cbn [stype_eqb].
    assert (NO : forall t, In t (ts_tp s) -> t_name t = None -> t_place t <> PInet (SaIn (requester cc) (w_port w))).
    { intros t T N P. destruct (auto_match_ok _ _ _ w cc t V W T) as (b & M & S).
      rewrite Forall_forall in B. rewrite (B _ T) in M. injection M as <-.
      destruct S as [_ S]. discriminate S; auto. }
    destruct (length (ts_tp s) =? TARGETS_MAX)%nat eqn:L.
    + apply Nat.eqb_eq in L. apply gt_full; auto.
    + apply Nat.eqb_neq in L. destruct ok; cbn [negb]; [|apply gt_full; auto].
      pose proof (iv_tl _ _ _ V).
      assert (CC : exists q, cc_of cc = SaIn (requester cc) q).
      { destruct cc as [[h p|h p|f]|]; cbn; eauto. }
      destruct CC as (q & ->).
      assert (LO : exists lo, match la with
          | Some la0 => if family la0 =? family (SaIn (requester cc) q)
               then match setanyport la0 with Some x => Some (Some x) | None => None end else Some None
          | None => Some None end = Some lo).
      { destruct la as [[h p|h p|f]|]; cbn; eauto. destruct (f =? AF_INET) eqn:F; eauto.
        destruct WL as [WL _]. lia. }
      destruct LO as (lo & ->). unfold setport.
      destruct ((w_port w <=? 0) || (w_port w >? 65535)) eqn:Q; [lia|].
      apply gt_new; auto; lia.
  - exfalso. apply Exists_exists in B as (t & T & B).
    destruct (auto_match_ok _ _ _ w cc t V W T) as (b & M & _). congruence.
Qed.

(** What a lookup does: an exact match, a match without the prefix, or a wildcard. *)
Definition byname (n : list Z) (t : target) : option bool :=
  match t_name t with None => Some false | Some m => Some (bytes_eqb m n) end.
Definition bypath (n : list Z) (t : target) : option bool :=
  match t_name t with
  | None => Some false
  | Some m => Some (stype_eqb (t_type t) TNS_LOCAL && bytes_eqb (skipn 5 m) n)
  end.

Lemma byname_total n t : byname n t <> None.
Proof. unfold byname. destruct (t_name t); discriminate. Qed.
Lemma bypath_total n t : bypath n t <> None.
Proof. unfold bypath. destruct (t_name t); discriminate. Qed.

Inductive lk (s : tset) (n : list Z) (cc la : option sockaddr) (ok : bool) : tset * tres -> Prop :=
| lk_name i : tsearch (byname n) 0 (ts_tp s) = TObj i -> lk s n cc la ok (s, TObj i)
| lk_path i : tsearch (byname n) 0 (ts_tp s) = TNull -> ~ In COLON n ->
    tsearch (bypath n) 0 (ts_tp s) = TObj i -> lk s n cc la ok (s, TObj i)
| lk_wild w r : tsearch (byname n) 0 (ts_tp s) = TNull -> In COLON n -> In w (ts_wp s) -> w_name w = n ->
    gt s w cc la ok r -> lk s n cc la ok r
| lk_none : tsearch (byname n) 0 (ts_tp s) = TNull ->
    (In COLON n \/ tsearch (bypath n) 0 (ts_tp s) = TNull) ->
    (forall w, In w (ts_wp s) -> w_name w <> n) -> lk s n cc la ok (s, TNull).

Lemma tn_lookup_lk lib cs s n cc la ok : inv lib cs s -> wf_sa la ->
  lk s n cc la ok (tn_lookup s n cc la ok).
Proof.
  intros V WL. unfold tn_lookup. fold (byname n) (bypath n).
  destruct (tsearch_cases (byname n) 0 (ts_tp s)) as [(l1 & t & l2 & E & A & B & C)|[[A B]|[A B]]].
  - rewrite A. apply lk_name. rewrite <- A. reflexivity.
  - rewrite A. destruct (has_colon n) eqn:HC.
    + apply has_colon_spec in HC. cbn [negb].
      destruct (strip S_FD n) as [x|] eqn:F.
      * apply strip_spec in F. apply lk_none; auto. intros w I <-.
        destruct (wild_inet _ _ _ _ V I) as [_ (y & Y & _)]. rewrite F in Y. discriminate.
      * unfold wsearch.
        match goal with |- context [find ?f (ts_wp s)] => destruct (find f (ts_wp s)) as [w|] eqn:W1 end.
        -- apply find_some in W1 as [I W1]. apply andb_true_iff in W1 as [W1 _]. apply bytes_eqb_eq in W1.
           apply lk_wild with (w := w); auto. eapply get_tp4wp_gt; eauto.
        -- destruct (find (fun w => bytes_eqb (w_name w) n) (ts_wp s)) as [w|] eqn:W2.
           ++ apply find_some in W2 as [I W2]. apply bytes_eqb_eq in W2.
              apply lk_wild with (w := w); auto. eapply get_tp4wp_gt; eauto.
           ++ apply lk_none; auto. intros w I E. eapply find_none in W2; eauto. cbn in W2.
              rewrite E, bytes_eqb_refl in W2. discriminate.
    + assert (NC : ~ In COLON n) by (rewrite <- has_colon_spec; congruence). cbn [negb].
      destruct (tsearch_cases (bypath n) 0 (ts_tp s)) as [(l1 & t & l2 & E & A' & _)|[[A' _]|[_ B']]].
      * rewrite A'. apply lk_path; auto.
      * rewrite A'. apply lk_none; auto. intros w I <-.
        destruct (wild_inet _ _ _ _ V I) as [_ (y & Y & _)]. apply NC. rewrite Y. cbn. tauto.
      * apply Exists_exists in B' as (t & _ & B'). apply bypath_total in B' as [].
  - apply Exists_exists in B as (t & _ & B'). apply byname_total in B' as [].
Qed.

Lemma inv_empty lib : inv lib [] ts_empty.
Proof.
  split; cbn; auto; try lia. intros m rslv (pre & mid & ok & E & _). destruct pre; discriminate.
Qed.

Lemma inv_step lib cs c : wf_call c -> inv lib cs (fst (trun lib ts_empty cs)) ->
  inv lib (cs ++ [c]) (fst (trun lib ts_empty (cs ++ [c]))).
Proof.
  intros WC V. rewrite trun_app, trun_cons. cbn [trun fst].
  pose proof V as V0. remember (fst (trun lib ts_empty cs)) as s eqn:SE.
  assert (KT : forall ws, incl (ts_wp s) ws -> Forall (fun t => (exists m rslv, configured lib (cs ++ [c]) m rslv /\ named lib m rslv t) \/ auto_ok ws t) (ts_tp s)).
  { intros ws I. eapply Forall_impl; [|apply V]. intros t [(m & r & A & B)|A]; [left; exists m, r; auto using configured_snoc|].
    right. eapply auto_ok_incl; eauto. }
  assert (KW : Forall (fun w => exists rslv, configured lib (cs ++ [c]) (w_name w) rslv /\
                    parse_timeout_sock lib rslv (w_name w) = PWild w) (ts_wp s)).
  { eapply Forall_impl; [|apply V]. intros w (r & A & B). exists r; auto using configured_snoc. }
  destruct V as [V1 V2 V3 V4 V5].
  destruct c as [m rslv ok|n cc la ok]; cbn [tstep].
  - assert (ANS : tanswer lib cs (TAppend m rslv ok) = AAdded (snd (tn_append lib s m rslv ok))).
    { unfold tanswer. rewrite <- SE. cbn [tstep]. destruct (tn_append lib s m rslv ok); reflexivity. }
    assert (NEW : snd (tn_append lib s m rslv ok) = true -> configured lib (cs ++ [TAppend m rslv ok]) m rslv).
    { intros H. exists cs, [], ok. split; auto. rewrite ANS, H. auto. }
    destruct (tn_append lib s m rslv ok) as [s' b] eqn:E. cbn [fst snd] in *.
    unfold tn_append in E.
    assert (OLD : b = false -> s' = s -> inv lib (cs ++ [TAppend m rslv ok]) s').
    { intros -> ->. split; auto using incl_refl.
      intros m' r' H. apply configured_last in H as [H|(ok' & H & H')]; auto. rewrite ANS in H'. discriminate. }
    destruct (parse_timeout_sock lib rslv m) as [t|w|] eqn:P.
    + destruct (length (ts_tp s) =? TARGETS_MAX)%nat eqn:L; [injection E as <- <-; auto|].
      apply Nat.eqb_neq in L. destruct ok; cbn [negb] in E; injection E as <- <-; auto.
      split; cbn [ts_tp ts_wp]; auto.
      * apply Forall_app; split; [auto using incl_refl|]. constructor; auto. left. exists m, rslv. auto.
      * intros m' r' H. apply configured_last in H as [H|(ok' & H & _)].
        -- destruct (V3 _ _ H) as [(t' & A & B)|?]; auto. left. exists t'. rewrite in_app_iff. auto.
        -- injection H as <- <- _. left. exists t. rewrite in_app_iff. cbn. auto.
      * rewrite app_length. cbn. lia.
    + destruct (length (ts_wp s) =? WILDCARDS_MAX)%nat eqn:L; [injection E as <- <-; auto|].
      apply Nat.eqb_neq in L. destruct ok; cbn [negb] in E; injection E as <- <-; auto.
      split; cbn [ts_tp ts_wp]; auto.
      * apply KT. apply incl_appl, incl_refl.
      * apply Forall_app; split; auto. constructor; auto. destruct (parse_wild _ _ _ _ P) as (-> & _).
        exists rslv. auto.
      * intros m' r' H. apply configured_last in H as [H|(ok' & H & _)].
        -- destruct (V3 _ _ H) as [?|(t' & A & B)]; auto. right. exists t'. rewrite in_app_iff. auto.
        -- injection H as <- <- _. right. exists w. rewrite in_app_iff. cbn. auto.
      * rewrite app_length. cbn. lia.
    + injection E as <- <-; auto.
  - assert (KC : forall m' r', configured lib (cs ++ [TLookup n cc la ok]) m' r' -> configured lib cs m' r').
    { intros m' r' H. apply configured_last in H as [H|(ok' & H & _)]; auto. discriminate. }
    assert (OLD : inv lib (cs ++ [TLookup n cc la ok]) s).
    { split; auto using incl_refl. }
    pose proof (tn_lookup_lk lib cs s n cc la ok V0 (proj2 WC)) as K.
    destruct (tn_lookup s n cc la ok) as [s' r] eqn:E. cbn [fst].
    inversion K as [i H|i H1 H2 H3|w r' H1 H2 W N G|H1 H2 H3]; subst; auto.
    inversion G; subst; auto.
    split; cbn [ts_tp ts_wp]; auto.
    + apply Forall_app; split; [auto using incl_refl|]. constructor; auto. right.
      split; auto. split; auto. cbn. eauto.
    + intros m' r' H'. apply KC in H'. destruct (V3 _ _ H') as [(t' & A & B)|?]; auto.
      left. exists t'. rewrite in_app_iff. auto.
    + rewrite app_length. cbn. lia.
Qed.

Lemma inv_reach lib cs : Forall wf_call cs -> inv lib cs (fst (trun lib ts_empty cs)).
Proof.
  induction cs as [|c t IH] using rev_ind; intros F.
  - apply inv_empty.
  - apply Forall_app in F as [F1 F2]. inversion F2; subst. apply inv_step; auto.
Qed.

(** Targets and wildcards are only ever added, at the end. *)
Lemma tstep_ext lib cs s c : inv lib cs s -> wf_call c ->
  exists l lw, ts_tp (fst (tstep lib s c)) = ts_tp s ++ l /\ ts_wp (fst (tstep lib s c)) = ts_wp s ++ lw.
Proof.
  intros V WC. assert (OLD : exists l lw, ts_tp s = ts_tp s ++ l /\ ts_wp s = ts_wp s ++ lw).
  { exists [], []. rewrite !app_nil_r. auto. }
  assert (NW : forall l, exists l' lw, ts_tp s ++ l = ts_tp s ++ l' /\ ts_wp s = ts_wp s ++ lw).
  { intros l; exists l, []. rewrite app_nil_r. auto. }
  destruct c as [m rslv ok|n cc la ok]; cbn [tstep].
  - destruct (tn_append lib s m rslv ok) as [s' b] eqn:E. cbn [fst]. unfold tn_append in E.
    destruct (parse_timeout_sock lib rslv m).
    + destruct (length (ts_tp s) =? TARGETS_MAX)%nat; [injection E as <- <-; auto|].
      destruct ok; injection E as <- <-; cbn [ts_tp ts_wp]; auto.
    + destruct (length (ts_wp s) =? WILDCARDS_MAX)%nat; [injection E as <- <-; auto|].
      destruct ok; injection E as <- <-; auto. cbn. exists [], [w]. rewrite app_nil_r. auto.
    + injection E as <- <-; auto.
  - pose proof (tn_lookup_lk lib cs s n cc la ok V (proj2 WC)) as K.
    destruct (tn_lookup s n cc la ok) as [s' r]. cbn [fst].
    inversion K as [i H|i H1 H2 H3|w r' H1 H2 W N G|H1 H2 H3]; subst; auto.
    inversion G; subst; cbn [ts_tp ts_wp]; auto.
Qed.

Lemma trun_ext lib cs mid : Forall wf_call (cs ++ mid) ->
  exists l lw, ts_tp (fst (trun lib ts_empty (cs ++ mid))) = ts_tp (fst (trun lib ts_empty cs)) ++ l /\
               ts_wp (fst (trun lib ts_empty (cs ++ mid))) = ts_wp (fst (trun lib ts_empty cs)) ++ lw.
Proof.
  induction mid as [|c t IH] using rev_ind; intros F.
  - exists [], []. rewrite !app_nil_r. auto.
  - rewrite app_assoc in *. apply Forall_app in F as [F1 F2]. inversion F2; subst.
    destruct (IH F1) as (l & lw & A & B).
    rewrite trun_app, trun_cons. cbn [trun fst].
    destruct (tstep_ext lib _ _ c (inv_reach lib _ F1) H1) as (l' & lw' & A' & B').
    exists (l ++ l'), (lw ++ lw'). rewrite A', B', A, B, !app_assoc. auto.
Qed.

(** *** Consequences *)
Lemma found_lk lib cs n cc la ok i : Forall wf_call cs -> wf_sa la -> found lib cs n cc la ok i ->
  exists s', lk (fst (trun lib ts_empty cs)) n cc la ok (s', TObj i) /\
    fst (tstep lib (fst (trun lib ts_empty cs)) (TLookup n cc la ok)) = s'.
Proof.
  intros F W H. unfold found, tanswer in H. cbn [tstep] in *.
  pose proof (tn_lookup_lk lib cs _ n cc la ok (inv_reach lib cs F) W) as K.
  destruct (tn_lookup _ n cc la ok) as [s' r]. cbn in *. injection H as ->. eauto.
Qed.

Lemma name_target lib cs t nm : inv lib cs (fst (trun lib ts_empty cs)) ->
  In t (ts_tp (fst (trun lib ts_empty cs))) -> t_name t = Some nm ->
  exists m rslv, configured lib cs m rslv /\ full_name lib m nm /\ place lib m rslv (t_place t) /\
    (t_type t = TNS_LOCAL <-> exists x, nm = S_UNIX ++ x).
Proof.
  intros V I N. pose proof (iv_tp _ _ _ V) as P. rewrite Forall_forall in P.
  destruct (P _ I) as [(m & rslv & C & Q)|(X & _)]; [|congruence].
  apply parse_target in Q as (nm' & A & B & D & _ & E). rewrite N in A; injection A as <-.
  exists m, rslv. auto.
Qed.

Lemma stype_local t : stype_eqb t TNS_LOCAL = true <-> t = TNS_LOCAL.
Proof. destruct t; cbn; split; congruence. Qed.

(** Sound: whatever is found is the right thing. *)
Lemma found_sound lib cs n cc la ok i : Forall wf_call cs -> wf_sa cc -> wf_sa la ->
  found lib cs n cc la ok i ->
  exists t, target_of lib (cs ++ [TLookup n cc la ok]) i = Some t /\
   ((exists m rslv, configured lib cs m rslv /\ refers lib n m /\ place lib m rslv (t_place t)) \/
    (exists rslv port, configured lib cs n rslv /\ names_self n port /\
        t_place t = PInet (SaIn (requester cc) port))).
Proof.
  intros F WC W H. destruct (found_lk _ _ _ _ _ _ _ F W H) as (s' & K & S).
  pose proof (inv_reach lib cs F) as V.
  unfold target_of. rewrite trun_app, trun_cons. cbn [trun fst]. rewrite S. clear S H.
  inversion K as [j A|j A1 A2 A3|w r' A1 A2 I N G|]; subst.
  - destruct (tsearch_nth _ _ _ A) as (t & T & B). exists t. split; auto. left.
    unfold byname in B. destruct (t_name t) as [nm|] eqn:E; [|discriminate].
    injection B as B. apply bytes_eqb_eq in B; subst nm.
    destruct (name_target lib cs t n V (nth_error_In _ _ T) E) as (m & rslv & C & FN & P & _).
    exists m, rslv. split; auto. split; auto. left; auto.
  - destruct (tsearch_nth _ _ _ A3) as (t & T & B). exists t. split; auto. left.
    unfold bypath in B. destruct (t_name t) as [nm|] eqn:E; [|discriminate].
    injection B as B. apply andb_true_iff in B as [B1 B2]. apply stype_local in B1. apply bytes_eqb_eq in B2.
    destruct (name_target lib cs t nm V (nth_error_In _ _ T) E) as (m & rslv & C & FN & P & Q).
    destruct Q as [Q _]. destruct (Q B1) as (x & ->). cbn in B2; subst x.
    exists m, rslv. split; auto. split; auto. right; auto.
  - pose proof (iv_wp _ _ _ V) as WW. rewrite Forall_forall in WW. destruct (WW _ I) as (rslv & C & P).
    pose proof (parse_wild _ _ _ _ P) as (_ & _ & NS).
    inversion G; subst.
    + exists t. split; auto. right. exists rslv, (w_port w). auto.
    + eexists. split; [cbn [ts_tp]; rewrite nth_error_app2, Nat.sub_diag; [reflexivity|auto]|].
      right. exists rslv, (w_port w). auto.
Qed.

(** Complete: what was configured is found. *)
Lemma found_complete lib cs n m rslv cc la ok : Forall wf_call cs -> wf_sa la ->
  configured lib cs m rslv -> refers lib n m -> (forall port, ~ names_self m port) ->
  exists i, found lib cs n cc la ok i.
Proof.
  intros F W C R NS. pose proof (inv_reach lib cs F) as V.
  destruct (iv_conf _ _ _ V _ _ C) as [(t & P & I)|(w & P & _)];
    [|apply parse_wild in P as (_ & _ & P); exfalso; eapply NS; eauto].
  unfold found, tanswer. cbn [tstep].
  pose proof (tn_lookup_lk lib cs _ n cc la ok V W) as K.
  destruct (tn_lookup _ n cc la ok) as [s' r]. cbn [snd].
  apply parse_target in P as (nm & N & FN & _ & _ & TY).
  assert (X : byname n t = Some true \/ (~ In COLON n /\ bypath n t = Some true)).
  { destruct R as [R|[NC R]].
    - left. unfold byname. rewrite N. rewrite (full_name_fun _ _ _ _ FN R), bytes_eqb_refl. auto.
    - right. split; auto. unfold bypath. rewrite N.
      pose proof (full_name_fun _ _ _ _ FN R) as ->. destruct TY as [_ TY]. rewrite TY; [|eauto].
      cbn. rewrite bytes_eqb_refl. auto. }
  assert (Y1 : byname n t = Some true -> tsearch (byname n) 0 (ts_tp (fst (trun lib ts_empty cs))) <> TNull).
  { intros B Q. destruct (tsearch_cases (byname n) 0 (ts_tp (fst (trun lib ts_empty cs)))) as [(l1&u&l2&_&A&_)|[[_ A]|[A _]]]; try congruence.
    rewrite Forall_forall in A. specialize (A _ I). congruence. }
  assert (Y2 : bypath n t = Some true -> tsearch (bypath n) 0 (ts_tp (fst (trun lib ts_empty cs))) <> TNull).
  { intros B Q. destruct (tsearch_cases (bypath n) 0 (ts_tp (fst (trun lib ts_empty cs)))) as [(l1&u&l2&_&A&_)|[[_ A]|[A _]]]; try congruence.
    rewrite Forall_forall in A. specialize (A _ I). congruence. }
  inversion K as [j A|j A1 A2 A3|w r' A1 A2 IW NW G|A1 A2 A3]; subst; eauto; exfalso.
  - destruct X as [X|[X _]]; [apply Y1; auto|auto].
  - destruct X as [X|[X X']]; [apply Y1; auto|]. destruct A2 as [A2|A2]; auto. apply Y2; auto.
Qed.

Lemma wild_complete lib cs n rslv port cc la : Forall wf_call cs -> wf_sa la ->
  configured lib cs n rslv -> names_self n port ->
  ((length (ts_tp (fst (trun lib ts_empty cs))) < TARGETS_MAX)%nat \/
   (exists j t, target_of lib cs j = Some t /\ t_name t = None /\ t_place t = PInet (SaIn (requester cc) port))) ->
  exists i, found lib cs n cc la true i.
Proof.
  intros F W C NS RM. pose proof (inv_reach lib cs F) as V.
  destruct (iv_conf _ _ _ V _ _ C) as [(t & P & I)|(w & P & I)].
  { rewrite (parse_of_self lib rslv n port NS) in P. discriminate. }
  rewrite (parse_of_self lib rslv n port NS) in P. injection P as <-.
  unfold found, tanswer. cbn [tstep].
  pose proof (tn_lookup_lk lib cs _ n cc la true V W) as K.
  destruct (tn_lookup _ n cc la true) as [s' r]. cbn [snd].
  inversion K as [j A|j A1 A2 A3|w r' A1 A2 IW NW G|A1 A2 A3]; subst; eauto.
  - assert (WP : w_port w = port).
    { destruct (wild_inet _ _ _ _ V IW) as [_ (x & X & HP)]. destruct NS as (y & Y & HP').
      rewrite Y in X. apply app_inv_head in X. subst y.
      eapply host_port_inj; eauto. }
    inversion G as [| H1 H2 | ]; subst; eauto. exfalso. destruct H1 as [H1|H1]; [|discriminate].
    destruct RM as [RM|(j & t & T & N & PL)]; [lia|]. apply nth_error_In in T. eapply H2; eauto.
  - exfalso. eapply A3; [exact I|reflexivity].
Qed.

(** The same target every time. *)
Lemma stable_lemma lib pre n cc la ok mid cc' la' ok' i :
  Forall wf_call (pre ++ TLookup n cc la ok :: mid) -> wf_sa cc' -> wf_sa la' ->
  found lib pre n cc la ok i ->
  requester cc' = requester cc \/ (forall port, ~ names_self n port) ->
  found lib (pre ++ TLookup n cc la ok :: mid) n cc' la' ok' i.
Proof.
  intros F WC WL H Q.
  assert (F1 : Forall wf_call pre) by (apply Forall_app in F; tauto).
  assert (FM : Forall wf_call (TLookup n cc la ok :: mid)) by (apply Forall_app in F; tauto).
  inversion FM as [|? ? WCL FM']; subst.
  destruct (found_lk lib pre n cc la ok i F1 (proj2 WCL) H) as (s1 & K1 & S1).
  set (s0 := fst (trun lib ts_empty pre)) in *.
  assert (P1 : fst (trun lib ts_empty (pre ++ [TLookup n cc la ok])) = s1).
  { rewrite trun_app, trun_cons. exact S1. }
  assert (F2 : Forall wf_call ((pre ++ [TLookup n cc la ok]) ++ mid)) by (rewrite <- app_assoc; exact F).
  assert (F3 : Forall wf_call (pre ++ [TLookup n cc la ok])) by (apply Forall_app in F2; tauto).
  destruct (trun_ext lib (pre ++ [TLookup n cc la ok]) mid F2) as (l & lw & A & B).
  rewrite P1 in A, B. rewrite <- app_assoc in A, B. cbn [app] in A, B.
  pose proof (inv_reach lib pre F1) as V0. fold s0 in V0.
  pose proof (inv_reach lib _ F3) as V1. rewrite P1 in V1. clear S1 P1 H.
  pose proof (inv_reach lib _ F) as V2.
  set (s2 := fst (trun lib ts_empty (pre ++ TLookup n cc la ok :: mid))) in *.
  unfold found, tanswer. fold s2. cbn [tstep].
  pose proof (tn_lookup_lk lib _ s2 n cc' la' ok' V2 WL) as K.
  destruct (tn_lookup s2 n cc' la' ok') as [s' r]. cbn [snd].
  inversion K1 as [j X|j X1 X2 X3|w r' X1 X2 IW NW G|]; subst.
  - (* found by name *)
    assert (Y : tsearch (byname n) 0 (ts_tp s2) = TObj i).
    { rewrite A. apply tsearch_app. exact X. }
    inversion K; subst; congruence.
  - assert (Y : tsearch (bypath n) 0 (ts_tp s2) = TObj i).
    { rewrite A. apply tsearch_app. exact X3. }
    inversion K as [j Z|j Z1 Z2 Z3|w r' Z1 Z2 IW NW G|Z1 Z2 Z3]; subst; try tauto; try congruence.
    + (* no target has a name without a colon *)
      destruct (tsearch_nth _ _ _ Z) as (t & T & Bt). unfold byname in Bt.
      destruct (t_name t) as [nm|] eqn:E; [|discriminate]. injection Bt as Bt. apply bytes_eqb_eq in Bt; subst nm.
      destruct (name_target lib _ t n V2 (nth_error_In _ _ T) E) as (m & rslv & _ & FN & _).
      apply full_name_colon in FN. tauto.
    + destruct Z2; [tauto|congruence].
  - (* by a wildcard *)
    pose proof (wild_inet _ _ _ _ V0 IW) as [_ NS].
    destruct Q as [Q|Q]; [|exfalso; eapply Q; eauto].
    assert (NN : forall cs s t, inv lib cs s -> In t (ts_tp s) -> byname (w_name w) t = Some false).
    { intros cs s t Vs It. unfold byname. destruct (t_name t) as [nm|] eqn:E; auto. f_equal.
      destruct (bytes_eqb nm (w_name w)) eqn:EB; auto. apply bytes_eqb_eq in EB; subst nm.
      pose proof (iv_tp _ _ _ Vs) as P. rewrite Forall_forall in P.
      destruct (P _ It) as [(m & rslv & _ & N)|(N & _)]; [|congruence].
      unfold named in N. pose proof N as N'. apply parse_target in N' as (nm & NM & FN & _). rewrite E in NM; injection NM as <-.
      pose proof (self_not_full _ _ _ _ NS FN) as ->.
      rewrite (parse_of_self lib rslv _ _ NS) in N. discriminate. }
    assert (SRCH : forall w', In w' (ts_wp s2) -> w_name w' = w_name w ->
               tsearch (auto_match w' (cc_of cc')) 0 (ts_tp s2) = TObj i).
    { intros w' Iw' Nw'.
      assert (WP : w_port w' = w_port w).
      { destruct (wild_inet _ _ _ _ V2 Iw') as [_ (x & Xx & HP)]. destruct NS as (y & Yy & HP').
        rewrite Nw', Yy in Xx. apply app_inv_head in Xx. subst y. eapply host_port_inj; eauto. }
      assert (EXT : forall (k : list target), (forall t, In t k -> In t (ts_tp s2)) ->
          Forall (fun t => auto_match w' (cc_of cc') t = auto_match w (cc_of cc) t) k).
      { intros k Hk. apply Forall_forall. intros t It.
        assert (Iw2 : In w (ts_wp s2)).
        { rewrite B. apply in_app_iff. left. inversion G; subst; auto. }
        destruct (auto_match_ok _ _ _ w' cc' t V2 Iw' (Hk _ It)) as (b & M & Sx).
        destruct (auto_match_ok _ _ _ w cc t V2 Iw2 (Hk _ It)) as (b2 & M2 & Sx2).
        rewrite M, M2. f_equal. rewrite Q, WP in Sx. destruct b, b2; auto; [symmetry|]; tauto. }
      rewrite (tsearch_ext _ (auto_match w (cc_of cc)) 0 (ts_tp s2)) by (apply EXT; auto).
      rewrite A. apply tsearch_app.
      inversion G as [j t T N P SR|Z1 Z2|lo Z1 Z2 Z3]; subst; auto.
      clear -Z3 V0 IW V2 B A G Q WP EXT.
      assert (FF : Forall (fun t => auto_match w (cc_of cc) t = Some false) (ts_tp s0)).
      { apply Forall_forall. intros t It. destruct (auto_match_ok _ _ _ w cc t V0 IW It) as (b & M & Sx).
        rewrite M. f_equal. destruct b; auto. destruct Sx as [Sx _]. destruct (Sx eq_refl). exfalso; eapply Z3; eauto. }
      cbn [ts_tp]. 
      assert (LAST : auto_match w (cc_of cc) {| t_name := None; t_type := TNS_INET;
              t_place := PInet (SaIn (requester cc) (w_port w)); t_local := lo |} = Some true).
      { set (t := {| t_name := None; t_type := TNS_INET;
              t_place := PInet (SaIn (requester cc) (w_port w)); t_local := lo |}) in *.
        assert (It : In t (ts_tp s2)) by (rewrite A; cbn [ts_tp]; rewrite <- app_assoc; apply in_elt).
        assert (Iw2 : In w (ts_wp s2)) by (rewrite B; apply in_app_iff; left; exact IW).
        destruct (auto_match_ok _ _ _ w cc t V2 Iw2 It) as (b & M & Sx).
        rewrite M. f_equal. apply Sx. auto. }
      remember (ts_tp s0) as k eqn:Ek. clear Ek A B EXT G Z3.
      change (length k) with (0 + length k)%nat. generalize 0%nat as z.
      induction FF as [|t k E FF IH]; intros z; cbn [app tsearch length].
      - rewrite LAST. apply f_equal; lia.
      - rewrite E. rewrite IH. apply f_equal; lia.
}
    assert (Iw2 : In w (ts_wp s2)).
    { rewrite B. apply in_app_iff. left. inversion G; subst; auto. }
    inversion K as [j Z|j Z1 Z2 Z3|w' r'' Z1 Z2 Iw' Nw' G'|Z1 Z2 Z3]; subst.
    + exfalso. destruct (tsearch_nth _ _ _ Z) as (t & T & Bt).
      rewrite (NN _ _ t V2 (nth_error_In _ _ T)) in Bt. discriminate.
    + tauto.
    + specialize (SRCH _ Iw' Nw').
      inversion G' as [j t T N P SR|Y1 Y2|lo Y1 Y2 Y3]; subst.
      * congruence.
      * exfalso. destruct (tsearch_nth _ _ _ SRCH) as (t & T & Bt).
        pose proof (nth_error_In _ _ T) as It.
        destruct (auto_match_ok _ _ _ w' cc' t V2 Iw' It) as (b & M & Sx). rewrite M in Bt; injection Bt as ->.
        destruct Sx as [Sx _]. destruct (Sx eq_refl). eapply Y2; eauto.
      * exfalso. destruct (tsearch_nth _ _ _ SRCH) as (t & T & Bt).
        pose proof (nth_error_In _ _ T) as It.
        destruct (auto_match_ok _ _ _ w' cc' t V2 Iw' It) as (b & M & Sx). rewrite M in Bt; injection Bt as ->.
        destruct Sx as [Sx _]. destruct (Sx eq_refl). eapply Y3; eauto.
    + exfalso. eapply Z3; [exact Iw2|reflexivity].
Qed.

(** A target, once there, does not change. *)
Lemma immutable_lemma lib cs mid i t : Forall wf_call (cs ++ mid) ->
  target_of lib cs i = Some t -> target_of lib (cs ++ mid) i = Some t.
Proof.
  intros F H. destruct (trun_ext lib cs mid F) as (l & lw & A & _). unfold target_of in *.
  rewrite A. rewrite nth_error_app1; auto. apply nth_error_Some. congruence.
Qed.

Lemma no_abort_lemma lib cs n cc la ok : Forall wf_call cs -> wf_sa la ->
  tanswer lib cs (TLookup n cc la ok) <> AFound TAbort.
Proof.
  intros F W. unfold tanswer. cbn [tstep].
  pose proof (tn_lookup_lk lib cs _ n cc la ok (inv_reach lib cs F) W) as K.
  destruct (tn_lookup _ n cc la ok) as [s' r]. cbn [snd]. intros H; injection H as ->.
  inversion K as [| | w r' A1 A2 IW NW G|]; subst. inversion G.
Qed.

Lemma append_lemma lib cs m rslv ok : Forall wf_call cs ->
  tanswer lib cs (TAppend m rslv ok) = AAdded true <->
  ok = true /\
  (((exists p, place lib m rslv p) /\ (length (ts_tp (fst (trun lib ts_empty cs))) < 64)%nat) \/
   ((exists port, names_self m port) /\ (length (ts_wp (fst (trun lib ts_empty cs))) < 2)%nat)).
Proof.
  intros F. pose proof (inv_reach lib cs F) as V.
  pose proof (iv_tl _ _ _ V) as L1. pose proof (iv_wl _ _ _ V) as L2.
  unfold TARGETS_MAX in L1. unfold WILDCARDS_MAX in L2.
  unfold tanswer. cbn [tstep]. set (s := fst (trun lib ts_empty cs)) in *.
  unfold tn_append, TARGETS_MAX, WILDCARDS_MAX.
  destruct (parse_timeout_sock lib rslv m) as [t|w|] eqn:P.
  - assert (PL : place lib m rslv (t_place t)).
    { apply parse_target in P as (nm & _ & _ & X & _). auto. }
    assert (NS : ~ exists port, names_self m port).
    { intros (port & NS). rewrite (parse_of_self lib rslv m port NS) in P. discriminate. }
    destruct (length (ts_tp s) =? 64)%nat eqn:E.
    + apply Nat.eqb_eq in E. cbn [snd]. split; [discriminate|].
      intros [_ [[_ H]|[H _]]]; [lia|tauto].
    + apply Nat.eqb_neq in E. destruct ok; cbn [negb snd]; split; try discriminate; auto.
      * intros _. split; auto. left. split; eauto. lia.
      * intros [H _]; discriminate.
  - destruct (parse_wild _ _ _ _ P) as (_ & _ & NS).
    assert (NP : ~ exists p, place lib m rslv p).
    { intros (p & H). apply parse_of_place in H as (t & H & _). congruence. }
    destruct (length (ts_wp s) =? 2)%nat eqn:E.
    + apply Nat.eqb_eq in E. cbn [snd]. split; [discriminate|].
      intros [_ [[H _]|[_ H]]]; [tauto|lia].
    + apply Nat.eqb_neq in E. destruct ok; cbn [negb snd]; split; try discriminate; auto.
      * intros _. split; auto. right. split; eauto. lia.
      * intros [H _]; discriminate.
  - cbn [snd]. split; [discriminate|]. intros [_ [[(p & H) _]|[(port & H) _]]].
    + apply parse_of_place in H as (t & H & _). congruence.
    + rewrite (parse_of_self lib rslv m port H) in P. discriminate.
Qed.

Lemma enabled_lemma lib cs : Forall wf_call cs ->
  tn_isenabled (fst (trun lib ts_empty cs)) = true <-> exists m rslv, configured lib cs m rslv.
Proof.
  intros F. pose proof (inv_reach lib cs F) as V. unfold tn_isenabled.
  set (s := fst (trun lib ts_empty cs)) in *. split.
  - intros H.
    assert (W : forall w, In w (ts_wp s) -> exists m rslv, configured lib cs m rslv).
    { intros w I. pose proof (iv_wp _ _ _ V) as P. rewrite Forall_forall in P. destruct (P _ I) as (r & A & _). eauto. }
    destruct (ts_wp s) as [|w ws] eqn:E; [|apply (W w); left; auto].
    destruct (ts_tp s) as [|t ts] eqn:E2; [cbn in H; discriminate|].
    pose proof (iv_tp _ _ _ V) as P. rewrite E2 in P. inversion P as [|? ? [(m & r & A & _)|(_ & _ & h & w & I & _)] _]; subst; eauto.
    rewrite E in I. destruct I.
  - intros (m & r & C). destruct (iv_conf _ _ _ V _ _ C) as [(t & _ & I)|(w & _ & I)];
      [destruct (ts_tp s); [destruct I|]|destruct (ts_wp s); [destruct I|]]; cbn [length]; lia.
Qed.

(** Where a target made for a wildcard sends from. *)
Lemma new_local s n cc la ok s' i :
  tn_lookup s n cc la ok = (s', TObj i) -> nth_error (ts_tp s) i = None ->
  exists t, nth_error (ts_tp s') i = Some t /\
    t_local t = match la with
                | Some (SaIn h _) => Some (SaIn h 0)
                | Some (SaIn6 _ _) => None
                | Some (SaOther f) => t_local t
                | None => None
                end.
Proof.
  intros E N. unfold tn_lookup in E.
  assert (Q : forall f, tsearch f 0 (ts_tp s) <> TObj i).
  { intros f T. apply tsearch_nth in T as (t & T & _). congruence. }
  destruct (tsearch _ 0 (ts_tp s)) eqn:T1 in E; [inversion E; subst; exfalso; exact (Q _ T1)| |discriminate].
  destruct (has_colon n); cbn [negb] in E; [|exfalso; exact (Q _ (f_equal snd E))].
  assert (G : forall w, get_tp4wp s w cc la ok = (s', TObj i) -> exists t, nth_error (ts_tp s') i = Some t /\
    t_local t = match la with
                | Some (SaIn h _) => Some (SaIn h 0)
                | Some (SaIn6 _ _) => None
                | Some (SaOther f) => t_local t
                | None => None
                end).
  { clear E T1. intros w E. unfold get_tp4wp in E.
    destruct (tsearch _ 0 (ts_tp s)) eqn:T1 in E; [inversion E; subst; exfalso; exact (Q _ T1)| |discriminate].
    destruct (stype_eqb _ _); [discriminate|]. destruct (_ =? _)%nat; [discriminate|].
    destruct (negb ok); [discriminate|].
    assert (CC : exists h q, cc_of cc = SaIn h q) by (destruct cc as [[h p|h p|f]|]; cbn; eauto).
    destruct CC as (h & q & CE). rewrite CE in E. unfold setport in E.
    destruct la as [[h1 p1|h1 p1|f]|]; cbn [family setanyport] in E.
    - rewrite Z.eqb_refl in E. destruct (_ || _); [discriminate|]. inversion E; subst.
      eexists; split; [cbn [ts_tp]; rewrite nth_error_app2, Nat.sub_diag by lia; reflexivity|reflexivity].
    - change (AF_INET6 =? AF_INET) with false in E. destruct (_ || _); [discriminate|]. inversion E; subst.
      eexists; split; [cbn [ts_tp]; rewrite nth_error_app2, Nat.sub_diag by lia; reflexivity|reflexivity].
    - destruct (f =? AF_INET); [discriminate|]. destruct (_ || _); [discriminate|]. inversion E; subst.
      eexists; split; [cbn [ts_tp]; rewrite nth_error_app2, Nat.sub_diag by lia; reflexivity|reflexivity].
    - destruct (_ || _); [discriminate|]. inversion E; subst.
      eexists; split; [cbn [ts_tp]; rewrite nth_error_app2, Nat.sub_diag by lia; reflexivity|reflexivity]. }
  destruct (strip S_FD n); [discriminate|].
  destruct (wsearch _ (ts_wp s)) as [w|] eqn:W1 in E; [exact (G w E)|].
  destruct (wsearch _ (ts_wp s)) as [w|] eqn:W2 in E; [exact (G w E)|discriminate].
Qed.
