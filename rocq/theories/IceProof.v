From Verif Require Import Base Str AddrModel StunModel StunSpec StunProof IceModel IceSpec.
From Verif Require LatchModel RtpModel RtpSpec RtpProof QuoteModel QuoteSpec NumSpec.

(** * Attributes and user names *)
Definition of_kind (a : attr) : Prop :=
  (kind_of (a_type a) = KStr -> exists s, a_val a = VStr s) /\ (kind_of (a_type a) = KU64 -> exists n, a_val a = VU64 n).
Lemma attr_kind tid ua r a ua' r' : attr_decode tid ua r = Ok (a, ua', r') -> of_kind a.
Proof.
  unfold attr_decode. destruct (zlen r <? 4); [discriminate|]. destruct (read_be 2 r) as [t r1]. destruct (read_be 2 r1) as [len r2].
  destruct (zlen r2 <? len); [discriminate|]. destruct (val_decode t len tid ua r2) as [[[v u] r3]|e| |] eqn:V; try discriminate.
  intros [= <- <- <-]. unfold of_kind. cbn [a_type a_val]. unfold val_decode in V. split; intros K; rewrite K in V.
  - destruct (str_decode r2 len) as [[s r4]|e| |]; try discriminate. injection V as <- _ _. eauto.
  - destruct (negb (len =? 8)); [discriminate|]. destruct (read_be 8 r2) as [n r4]. injection V as <- _ _. eauto.
Qed.
Lemma attrs_kind extra tid : forall fuel ua r l ua', attrs_decode fuel extra tid ua r = Ok (l, ua') -> Forall of_kind l.
Proof.
  induction fuel as [|f IH]; intros ua r l ua' E; cbn [attrs_decode] in E.
  - destruct (u64 (zlen r - extra) >=? 4); [discriminate|]. injection E as <- _. constructor.
  - destruct (u64 (zlen r - extra) >=? 4); [|injection E as <- _; constructor].
    destruct (attr_decode tid ua r) as [[[a u] r1]|e| |] eqn:A; try discriminate.
    destruct (attrs_decode f extra tid u r1) as [[l1 u1]|e| |] eqn:R; try discriminate. injection E as <- _.
    constructor; [exact (attr_kind _ _ _ _ _ _ A)|exact (IH _ _ _ _ R)].
Qed.
Lemma msg_kind b m : decode b = Ok m -> Forall of_kind (m_attrs m).
Proof.
  unfold decode. destruct (hdr_decode b) as [[h r]|e| |]; try discriminate.
  destruct (attrs_decode (S (length r)) (zlen r - h_len h) (h_tid h) [] r) as [[l u]|e| |] eqn:A; try discriminate.
  intros [= <-]. cbn [m_attrs]. exact (attrs_kind _ _ _ _ _ _ _ A).
Qed.
Lemma find_kind b m t a : decode b = Ok m -> find_attr t m = Some a -> of_kind a.
Proof. intros D F. apply find_attr_in in F as (I1 & _). exact (proj1 (Forall_forall _ _) (msg_kind _ _ D) a I1). Qed.
Lemma find_str b m t a : decode b = Ok m -> kind_of t = KStr -> find_attr t m = Some a -> exists s, a = mkAttr t (VStr s).
Proof.
  intros D K F. pose proof (find_kind _ _ _ _ D F) as (K1 & _). apply find_attr_in in F as (_ & T). subst t.
  destruct (K1 K) as (s & V). exists s. destruct a as [ta va]. cbn [a_type a_val] in *. subst. reflexivity.
Qed.
Lemma find_u64 b m t a : decode b = Ok m -> kind_of t = KU64 -> find_attr t m = Some a -> exists n, a = mkAttr t (VU64 n).
Proof.
  intros D K F. pose proof (find_kind _ _ _ _ D F) as (_ & K1). apply find_attr_in in F as (_ & T). subst t.
  destruct (K1 K) as (s & V). exists s. destruct a as [ta va]. cbn [a_type a_val] in *. subst. reflexivity.
Qed.
Lemma has_find t m : has t m <-> exists a, find_attr t m = Some a.
Proof.
  unfold has. split.
  - intros (a & I1 & T). unfold find_attr. destruct (List.find (fun a => a_type a =? t) (m_attrs m)) as [x|] eqn:F; [eauto|].
    pose proof (List.find_none _ _ F a I1) as N. cbn in N. lia.
  - intros (a & F). exists a. exact (find_attr_in _ _ _ F).
Qed.
Lemma has_none t m : ~ has t m <-> find_attr t m = None.
Proof.
  rewrite has_find. destruct (find_attr t m) as [a|]; split; try congruence; try (intros H; exfalso; apply H; eauto).
  intros _ (a & H). discriminate.
Qed.

Lemma cstr_spec s : exists tail, s = cstr s ++ tail /\ ~ In 0 (cstr s) /\ (tail = [] \/ exists t, tail = 0 :: t).
Proof.
  induction s as [|c s (tail & E & N & T)]; [exists []; cbn; auto|].
  cbn [cstr]. destruct (Z.eqb_spec c 0) as [->|H].
  - exists (0 :: s). split; [reflexivity|]. split; [intros []|]. right. eauto.
  - exists tail. cbn [app In]. split; [congruence|]. split; [tauto|exact T].
Qed.
Lemma cstr_app p tail : ~ In 0 p -> (tail = [] \/ exists t, tail = 0 :: t) -> cstr (p ++ tail) = p.
Proof.
  intros N T. induction p as [|c p IH]; cbn [app cstr].
  - destruct T as [->|(t & ->)]; reflexivity.
  - cbn [In] in N. destruct (Z.eqb_spec c 0); [tauto|]. rewrite IH by tauto. reflexivity.
Qed.
Lemma to_colon_some s l r : to_colon s = Some (l, r) <-> s = l ++ 58 :: r /\ ~ In 58 l.
Proof.
  revert l r. induction s as [|c s IH]; intros l r; cbn [to_colon].
  - split; [discriminate|]. intros (E & _). destruct l; discriminate.
  - destruct (Z.eqb_spec c 58) as [->|H].
    + split; [intros [= <- <-]; split; [reflexivity|intros []]|]. intros (E & N). destruct l as [|d l]; [injection E as ->; reflexivity|].
      injection E as <- _. exfalso. apply N. left. reflexivity.
    + destruct (to_colon s) as [[l1 r1]|] eqn:E1.
      * split; [intros [= <- <-]|].
        -- destruct (proj1 (IH l1 r1) eq_refl) as (-> & N). split; [reflexivity|]. intros [X|X]; [lia|contradiction].
        -- intros (E & N). destruct l as [|d l]; [injection E as -> _; lia|]. injection E as <- E.
           assert (X : Some (l1, r1) = Some (l, r)) by (apply IH; split; [exact E|intros Q; apply N; right; exact Q]).
           injection X as -> ->. reflexivity.
      * split; [discriminate|]. intros (E & N). destruct l as [|d l]; [injection E as -> _; lia|]. injection E as <- E.
        assert (X : @None (list Z * list Z) = Some (l, r)) by (apply IH; split; [exact E|intros Q; apply N; right; exact Q]). discriminate.
Qed.
Lemma user_split_some s lu ru : user_split s = Some (lu, ru) <->
  exists n, s = repeat 58 n ++ lu ++ [58] ++ ru /\ lu <> [] /\ ~ In 58 lu /\ ru <> [].
Proof.
  induction s as [|c s IH]; cbn [user_split].
  - split; [discriminate|]. intros (n & E & N & _). destruct n; destruct lu; try discriminate; congruence.
  - destruct (Z.eqb_spec c 58) as [->|H].
    + rewrite IH. split; intros (n & E & N & C & R).
      * exists (S n). subst s. repeat split; assumption.
      * destruct n as [|n]; [|injection E as E; exists n; repeat split; assumption].
        cbn [repeat app] in E. destruct lu as [|d lu]; [congruence|]. injection E as <- _. exfalso. apply C. left. reflexivity.
    + destruct (to_colon (c :: s)) as [[l r]|] eqn:T.
      * apply to_colon_some in T as (E & N). destruct r as [|x r].
        -- split; [discriminate|]. intros (n & E2 & N2 & C & R). destruct n as [|n]; [|injection E2 as -> _; lia].
           cbn [repeat app] in E2. rewrite E in E2. exfalso.
           assert (X : to_colon (l ++ [58]) = Some (lu, ru)) by (rewrite E2; apply to_colon_some; auto).
           assert (Y : to_colon (l ++ [58]) = Some (l, [])) by (apply to_colon_some; auto). congruence.
        -- split.
           ++ intros [= <- <-]. exists O. cbn [repeat app]. split; [exact E|]. split; [destruct l; [injection E as -> _; lia|discriminate]|]. split; [exact N|discriminate].
           ++ intros (n & E2 & N2 & C & R). destruct n as [|n]; [|injection E2 as -> _; lia]. cbn [repeat app] in E2. rewrite E in E2.
              assert (X : to_colon (l ++ 58 :: x :: r) = Some (lu, ru)) by (rewrite E2; apply to_colon_some; auto).
              assert (Y : to_colon (l ++ 58 :: x :: r) = Some (l, x :: r)) by (apply to_colon_some; auto). congruence.
      * split; [discriminate|]. intros (n & E2 & N2 & C & R). destruct n as [|n]; [|injection E2 as -> _; lia]. cbn [repeat app] in E2.
        assert (X : to_colon (c :: s) = Some (lu, ru)) by (rewrite E2; apply to_colon_some; auto). congruence.
Qed.
Lemma user_is_iff s lu ru : user_split (cstr s) = Some (lu, ru) <-> user_is s lu ru.
Proof.
  unfold user_is. rewrite user_split_some. split.
  - intros (n & E & N & C & R). destruct (cstr_spec s) as (tail & Es & Nz & T). exists n, tail. rewrite E in Es, Nz.
    split; [rewrite <- !app_assoc in Es; exact Es|]. split; [exact T|]. rewrite !in_app_iff in Nz. tauto.
  - intros (n & tail & E & T & N & C & Z1 & R & Z2). exists n.
    replace s with ((repeat 58 n ++ lu ++ [58] ++ ru) ++ tail) by (rewrite <- !app_assoc; symmetry; exact E).
    rewrite cstr_app; [auto| |exact T]. rewrite !in_app_iff. intros [X|[X|[X|X]]]; try contradiction.
    + apply repeat_spec in X. discriminate.
    + destruct X as [X|[]]. discriminate.
Qed.

(** * The answer to a request *)
Section answers.
  Context (mac : list Z -> list Z -> list Z) (crc : list Z -> Z).

  Lemma fp_iff b m : bytes b -> zlen b < 2 ^ 40 -> decode b = Ok m -> (chk_fp crc b m = Ok tt <-> fingerprint_ok crc b m).
  Proof.
    intros Bb L D. pose proof (read_ok b m Bb L D) as F. rewrite chk_fp_is by assumption. unfold fingerprint_ok.
    change FINGERPRINT with 0x8028. destruct (find_attr 0x8028 m) as [a|] eqn:G; [|split; discriminate].
    destruct (find_attr_in _ _ _ G) as (_ & T). destruct a as [ta va]. cbn [a_type a_val] in *. subst ta. unfold fingerprint.
    destruct va; try (split; discriminate). destruct (Z.eqb_spec (Z.lxor (crc (part b 0 (12 + num b 2 2))) 1398035790) n) as [->|N];
      split; congruence.
  Qed.
  Lemma mi_iff key b m : bytes b -> zlen b < 2 ^ 40 -> decode b = Ok m -> fingerprint_ok crc b m ->
    match fst (chk_mi mac key b m) with
    | Ok _ => integrity_ok mac key b m
    | Err EBADMSG => has 0x8 m /\ ~ integrity_ok mac key b m
    | Err EPROTO => ~ has 0x8 m
    | _ => False
    end.
  Proof.
    intros Bb L D Fp. pose proof (read_ok b m Bb L D) as F. rewrite chk_mi_is by assumption. unfold integrity_ok.
    change MSG_INTEGRITY with 0x8. change FINGERPRINT with 0x8028. unfold fingerprint_ok in Fp. rewrite Fp.
    destruct (find_attr 0x8 m) as [a|] eqn:G; [|apply has_none; exact G].
    destruct (mi_room _ _ _ F G) as (_ & h & V). destruct (find_attr_in _ _ _ G) as (_ & T). destruct a as [ta va]. cbn [a_type a_val] in *. subst ta va.
    destruct (list_eq_dec Z.eq_dec h (mac key (covered b))) as [->|N]; [reflexivity|].
    split; [apply has_find; eauto|]. intros [= E]. contradiction.
  Qed.

  Lemma user_iff g b m : decode b = Ok m ->
    match find_attr USERNAME m with
    | None => ~ has 0x6 m
    | Some u => has 0x6 m /\
        match user_split (cstr (match a_val u with VStr s => s | _ => [] end)) with
        | None => ~ user_ok g m
        | Some (lu, ru) =>
            if negb (beq lu (g_lufrag g)) then ~ user_ok g m
            else if negb (beq (g_rufrag g) []) && negb (beq ru (g_rufrag g)) then ~ user_ok g m
            else user_ok g m
        end
    end.
  Proof.
    intros D. change USERNAME with 0x6. destruct (find_attr 0x6 m) as [u|] eqn:G; [|apply has_none; exact G].
    split; [apply has_find; eauto|]. destruct (find_str _ _ 0x6 _ D eq_refl G) as (s & ->). cbn [a_val].
    assert (U : user_ok g m <-> exists ru, user_is s (g_lufrag g) ru /\ (g_rufrag g = [] \/ ru = g_rufrag g)).
    { unfold user_ok. rewrite G. split.
      - intros (s' & ru & [= <-] & X & Y). eauto.
      - intros (ru & X & Y). exists s, ru. auto. }
    destruct (user_split (cstr s)) as [[lu ru]|] eqn:Us.
    - destruct (beq lu (g_lufrag g)) eqn:E1; cbn [negb].
      + apply beq_eq in E1. subst lu. destruct (negb (beq (g_rufrag g) []) && negb (beq ru (g_rufrag g))) eqn:E2.
        * apply andb_true_iff in E2 as (E2 & E3). apply negb_true_iff in E2. apply negb_true_iff in E3. apply beq_neq in E2. apply beq_neq in E3.
          rewrite U. intros (ru' & X & [Y|Y]); [contradiction|]. apply user_is_iff in X. rewrite Us in X. injection X as <-. contradiction.
        * apply U. exists ru. split; [apply user_is_iff; exact Us|]. apply andb_false_iff in E2 as [E2|E2]; apply negb_false_iff in E2; apply beq_eq in E2; auto.
      + apply beq_neq in E1. rewrite U. intros (ru' & X & _). apply user_is_iff in X. rewrite Us in X. injection X as -> _. contradiction.
    - rewrite U. intros (ru' & X & _). apply user_is_iff in X. congruence.
  Qed.

  Definition claimed (m : msg) : role * Z :=
    match find_attr CONTROLLING m with
    | Some a => (RControlling, tie_of a)
    | None => match find_attr CONTROLLED m with Some a => (RControlled, tie_of a) | None => (RUnknown, 0) end
    end.
  Lemma role_eqb_eq a b : role_eqb a b = true <-> a = b.
  Proof. destruct a, b; cbn; split; congruence. Qed.
  Lemma conflict_iff g b m : decode b = Ok m -> g_role g <> RUnknown ->
    (role_eqb (fst (claimed m)) (g_role g) && negb (TIEBRK >=? snd (claimed m)) = true <-> in_conflict g m).
  Proof.
    intros D R. unfold in_conflict, claims, claimed, TIEBRK. change CONTROLLING with 0x802a. change CONTROLLED with 0x8029.
    rewrite andb_true_iff, role_eqb_eq.
    destruct (find_attr 0x802a m) as [a|] eqn:G.
    - destruct (find_u64 _ _ 0x802a _ D eq_refl G) as (n & ->). cbn [fst snd tie_of a_val]. split.
      + intros (E & T). exists n. split; [left; auto|lia].
      + intros (tie & [(E & [= ->])|(E & H & _)] & T); [split; [auto|lia]|]. exfalso. apply H. apply has_find. eauto.
    - destruct (find_attr 0x8029 m) as [a|] eqn:G2.
      + destruct (find_u64 _ _ 0x8029 _ D eq_refl G2) as (n & ->). cbn [fst snd tie_of a_val]. split.
        * intros (E & T). exists n. split; [right; split; [auto|split; [apply has_none; exact G|reflexivity]]|lia].
        * intros (tie & [(E & X)|(E & H & [= ->])] & T); [discriminate|split; [auto|lia]].
      + cbn [fst snd]. split; [intros (E & _); congruence|]. intros (tie & [(E & X)|(E & H & X)] & _); discriminate.
  Qed.

  (** What a request does to the agent, once it is said who it comes from. *)
  Definition taken_in (g : agent) (src : sa) (m : msg) : agent :=
    let g1 := if role_eqb (fst (claimed m)) (g_role g) then with_role g (switch_role (g_role g)) else g in
    match find_attr PRIORITY m with
    | None => g1
    | Some _ => handle_lite g1 src (match find_attr USE_CAND m with Some _ => true | None => false end)
    end.
  Lemma stund_is g src b m : bytes b -> zlen b < 2 ^ 40 -> decode b = Ok m -> g_role g <> RUnknown ->
    (~ fingerprint_ok crc b m /\ stund_recv mac crc g src b m = (g, None)) \/
    (fingerprint_ok crc b m /\ exists a, answers mac g b m a /\ snd (stund_recv mac crc g src b m) = Some a /\
       fst (stund_recv mac crc g src b m) =
         (match a with Granted => taken_in g src m | Refused code _ => if (code =? 400) then fst (stund_recv mac crc g src b m) else g end) /\
       (integrity_ok mac (g_lpwd g) b m -> user_ok g m -> ~ in_conflict g m -> fst (stund_recv mac crc g src b m) = taken_in g src m) /\
       (~ (integrity_ok mac (g_lpwd g) b m /\ user_ok g m) -> fst (stund_recv mac crc g src b m) = g)).
  Proof.
    intros Bb L D R. pose proof (fp_iff b m Bb L D) as Fp. unfold stund_recv.
    destruct (chk_fp crc b m) as [[]|e| |] eqn:Cf;
      try (left; split; [rewrite <- Fp; discriminate|reflexivity]).
    right. assert (Ff : fingerprint_ok crc b m) by (apply Fp; reflexivity). split; [exact Ff|].
    pose proof (mi_iff (g_lpwd g) b m Bb L D Ff) as M.
    destruct (fst (chk_mi mac (g_lpwd g) b m)) as [[]|e| |]; try contradiction.
    2:{ destruct e; try contradiction.
        - destruct M as (M1 & M2). exists unauth. cbn [fst snd]. split; [apply bad_integrity; assumption|]. split; [reflexivity|]. split; [reflexivity|].
          split; [contradiction|reflexivity].
        - exists badmsg. cbn [fst snd]. split; [apply no_integrity; assumption|]. split; [reflexivity|]. split; [reflexivity|].
          split; [|reflexivity]. intros M1. exfalso. apply M. apply has_find. unfold integrity_ok in M1. eauto. }
    pose proof (user_iff g b m D) as U. destruct (find_attr USERNAME m) as [u|] eqn:Gu.
    2:{ exists badmsg. cbn [fst snd]. split; [apply no_user; assumption|]. split; [reflexivity|]. split; [reflexivity|].
        split; [|reflexivity]. intros _ (s & ru & X & _). exfalso. apply U. apply has_find. eauto. }
    destruct U as (Hu & U). destruct (user_split (cstr (match a_val u with VStr s => s | _ => [] end))) as [[lu ru]|].
    2:{ exists unauth. cbn [fst snd]. split; [apply bad_user; assumption|]. split; [reflexivity|]. split; [reflexivity|]. split; [contradiction|reflexivity]. }
    destruct (negb (beq lu (g_lufrag g))).
    { exists unauth. cbn [fst snd]. split; [apply bad_user; assumption|]. split; [reflexivity|]. split; [reflexivity|]. split; [contradiction|reflexivity]. }
    destruct (negb (beq (g_rufrag g) []) && negb (beq ru (g_rufrag g))).
    { exists unauth. cbn [fst snd]. split; [apply bad_user; assumption|]. split; [reflexivity|]. split; [reflexivity|]. split; [contradiction|reflexivity]. }
    fold (claimed m). pose proof (conflict_iff g b m D R) as C. unfold taken_in. destruct (claimed m) as [rr tie]. cbn [fst snd] in C |- *.
    destruct (role_eqb rr (g_role g) && negb (TIEBRK >=? tie)).
    { assert (X : in_conflict g m) by (apply C; reflexivity). exists conflict. cbn [fst snd]. split; [apply conflicting; assumption|].
      split; [reflexivity|]. split; [reflexivity|]. split; [contradiction|reflexivity]. }
    assert (X : ~ in_conflict g m) by (rewrite <- C; discriminate).
    destruct (find_attr PRIORITY m) as [pr|] eqn:Gp.
    - exists Granted. cbn [fst snd]. split; [apply granted; try assumption; apply has_find; eauto|]. split; [reflexivity|]. split; [reflexivity|].
      split; [reflexivity|]. intros N. exfalso. apply N. split; assumption.
    - exists badmsg. cbn [fst snd]. split; [apply no_priority; try assumption; apply has_none; exact Gp|]. split; [reflexivity|]. split; [reflexivity|].
      split; [reflexivity|]. intros N. exfalso. apply N. split; assumption.
  Qed.

  Lemma answers_one g b m a a' : answers mac g b m a -> answers mac g b m a' -> a = a'.
  Proof.
    assert (HI : integrity_ok mac (g_lpwd g) b m -> has 0x8 m) by (intros X; apply has_find; unfold integrity_ok in X; eauto).
    assert (HU : user_ok g m -> has 0x6 m) by (intros (s & ru & X & _); apply has_find; eauto).
    intros H1 H2; destruct H1; destruct H2; try reflexivity; exfalso; tauto.
  Qed.
End answers.

(** * Sides and chains *)
Lemma get_set {A} d (t : two A) x : get d (set d t x) = x. Proof. destruct d; reflexivity. Qed.
Lemma get_set_other {A} d e (t : two A) x : d <> e -> get d (set e t x) = get d t. Proof. destruct d, e; try reflexivity; congruence. Qed.
Lemma get_negb {A} d (t : two A) x : get (negb d) (set d t x) = get (negb d) t. Proof. destruct d; reflexivity. Qed.
Lemma get_negb' {A} d (t : two A) x : get d (set (negb d) t x) = get d t. Proof. destruct d; reflexivity. Qed.
Lemma set_id {A} d (t : two A) : set d t (get d t) = t. Proof. destruct d, t; reflexivity. Qed.
Lemma set_set {A} d (t : two A) x y : set d (set d t x) y = set d t y. Proof. destruct d; reflexivity. Qed.

Definition stun_entry i := mkEntry ORD_RECV KStun i.
Definition dmx_entry i := mkEntry ORD_CT_RECV KDmx i.
Definition mx_entry i := mkEntry ORD_CT_SEND KMx i.
Definition chained (y : sys) (d : bool) (o : option nat) : Prop :=
  match o with
  | None => get d (y_crtp y) = [] /\ get (negb d) (y_crtcp y) = []
  | Some i => get d (y_crtp y) = [stun_entry i; dmx_entry i] /\ get (negb d) (y_crtcp y) = [mx_entry i] /\
              (i < length (y_ag y))%nat /\ g_side (nth_ag y i) = d
  end.
Definition sound_agent (g : agent) : Prop :=
  g_role g <> RUnknown /\ Forall (fun p => pair_completed p = true) (g_valid g) /\ (g_done g = true <-> g_valid g <> []).
Record inv (y : sys) : Prop := {
  i_chain : forall d, chained y d (agent_of y d);
  i_ag : Forall sound_agent (y_ag y);
  i_q : Forall (fun w => datagram (w_pkt w) /\ (w_ag w < length (y_ag y))%nat /\ w_side w = g_side (nth_ag y (w_ag w))) (y_q y) }.

Lemma inv_chained y d o : chained y d o -> agent_of y d = o.
Proof. unfold agent_of. destruct o as [i|]; cbn [chained]; intros (-> & _); reflexivity. Qed.
Lemma sound_default : sound_agent (mkAgent false [] [] [] RControlled [] None [] false).
Proof. split; [discriminate|]. split; [constructor|]. cbn. split; congruence. Qed.
Lemma sound_nth y i : inv y -> sound_agent (nth_ag y i).
Proof.
  intros V. unfold nth_ag. destruct (Nat.lt_ge_cases i (length (y_ag y))) as [H|H].
  - apply (proj1 (Forall_forall _ _) (i_ag y V)). apply nth_In. exact H.
  - rewrite nth_overflow by exact H. exact sound_default.
Qed.
Lemma nth_put y i g j : nth_ag (put_ag y i g) j = if (Nat.eqb i j && Nat.ltb i (length (y_ag y)))%bool then g else nth_ag y j.
Proof.
  unfold nth_ag, put_ag. cbn [with_ag y_ag]. destruct (Nat.eqb_spec i j) as [<-|N]; cbn [andb].
  - destruct (Nat.ltb_spec i (length (y_ag y))); [apply nth_upd_same; assumption|]. rewrite upd_out by assumption. reflexivity.
  - apply nth_upd_other. exact N.
Qed.
Lemma len_put y i g : length (y_ag (put_ag y i g)) = length (y_ag y).
Proof. unfold put_ag. cbn [with_ag y_ag]. apply upd_length. Qed.
Lemma put_id y i : put_ag y i (nth_ag y i) = y.
Proof.
  unfold put_ag, nth_ag. destruct (Nat.lt_ge_cases i (length (y_ag y))) as [H|H].
  - rewrite upd_same_id by (apply nth_error_nth'; exact H). destruct y; reflexivity.
  - rewrite upd_out by exact H. destruct y; reflexivity.
Qed.
Lemma Forall_upd {A} (P : A -> Prop) l i x : Forall P l -> P x -> Forall P (upd l i x).
Proof. intros F H. revert i. induction F as [|a l Ha F IH]; intros [|i]; cbn [upd]; constructor; auto. Qed.

(** Replacing an agent by one of the same side. *)
Lemma inv_put y i g : inv y -> sound_agent g -> g_side g = g_side (nth_ag y i) -> inv (put_ag y i g).
Proof.
  intros V G Gs. split.
  - intros d. pose proof (i_chain y V d) as C. unfold agent_of, chained in *. cbn [put_ag with_ag y_crtp y_crtcp] in *.
    destruct (lookup (get d (y_crtp y)) KStun) as [j|]; [|exact C]. destruct C as (C1 & C2 & C3 & C4). rewrite len_put, nth_put.
    repeat split; try assumption. destruct (Nat.eqb_spec i j) as [<-|N]; cbn [andb]; [|exact C4].
    destruct (i <? length (y_ag y))%nat; [congruence|exact C4].
  - cbn. apply Forall_upd; [exact (i_ag y V)|exact G].
  - eapply Forall_impl; [|exact (i_q y V)]. cbn beta. intros w (W1 & W2 & W3). rewrite len_put, nth_put. repeat split; try assumption; try apply W1.
    destruct (Nat.eqb_spec i (w_ag w)) as [->|N]; cbn [andb]; [|exact W3].
    destruct (w_ag w <? length (y_ag y))%nat; [congruence|exact W3].
Qed.
Lemma inv_streams y y' : inv y -> y_crtp y' = y_crtp y -> y_crtcp y' = y_crtcp y -> y_ag y' = y_ag y -> y_q y' = y_q y -> inv y'.
Proof.
  intros [C G Q] E1 E2 E3 E4. split.
  - intros d. specialize (C d). unfold agent_of, chained, nth_ag in *. rewrite E1, E2, E3. exact C.
  - rewrite E3. exact G.
  - unfold nth_ag in *. rewrite E4, E3. exact Q.
Qed.

(** * Commands *)
Definition new_agent d ulen plen rnd : agent :=
  mkAgent d (rand_string rnd 0 ulen) (rand_string rnd ulen plen) [] RControlled [] None [] false.
Lemma activate_is y d ulen plen rnd : inv y -> agent_of y d = None -> (4 <= ulen)%nat -> (22 <= plen)%nat ->
  exists y', activate y d ulen plen rnd = Some (y', length (y_ag y)) /\
    y_ag y' = y_ag y ++ [new_agent d ulen plen rnd] /\ y_rtcp y' = y_rtcp y /\ y_local y' = y_local y /\ y_q y' = y_q y /\
    y_rtp y' = set d (y_rtp y) (LatchModel.with_mode (get d (y_rtp y)) LatchModel.FORCE_OFF) /\
    chained y' d (Some (length (y_ag y))) /\ get (negb d) (y_crtp y') = get (negb d) (y_crtp y) /\ get d (y_crtcp y') = get d (y_crtcp y).
Proof.
  intros V A Hu Hp. unfold activate. destruct (Nat.ltb_spec ulen 4); [lia|]. destruct (Nat.ltb_spec plen 22); [lia|]. cbn [orb].
  eexists. split; [reflexivity|]. pose proof (i_chain y V d) as C. rewrite A in C. destruct C as (C1 & C2).
  unfold set_mode, with_rtp, with_crtcp, with_crtp, with_ag. cbn [y_ag y_rtcp y_local y_q y_rtp y_crtp y_crtcp].
  repeat (split; [reflexivity|]). unfold chained. cbn [y_crtp y_crtcp y_ag nth_ag].
  rewrite !get_set, !get_negb, C1, C2. rewrite set_set, get_negb'. split; [|split; reflexivity].
  split; [reflexivity|]. split; [reflexivity|]. rewrite app_length. split; [cbn [length]; lia|].
  unfold nth_ag. cbn [y_ag]. rewrite app_nth2 by lia. rewrite Nat.sub_diag. reflexivity.
Qed.
Lemma activate_none y d ulen plen rnd : ~ ((4 <= ulen)%nat /\ (22 <= plen)%nat) -> activate y d ulen plen rnd = None.
Proof.
  intros N. unfold activate. destruct (Nat.ltb_spec ulen 4); [reflexivity|]. destruct (Nat.ltb_spec plen 22); [reflexivity|]. exfalso. apply N. lia.
Qed.
Lemma nth_snoc y g j : nth_ag (with_ag y (y_ag y ++ [g])) j = if (j =? length (y_ag y))%nat then g else nth_ag y j.
Proof.
  unfold nth_ag. cbn [with_ag y_ag]. destruct (Nat.eqb_spec j (length (y_ag y))) as [->|N].
  - rewrite app_nth2 by lia. rewrite Nat.sub_diag. reflexivity.
  - destruct (Nat.lt_ge_cases j (length (y_ag y))) as [H|H]; [apply app_nth1; exact H|].
    rewrite !nth_overflow; [reflexivity|exact H|rewrite app_length; cbn [length]; lia].
Qed.
Lemma nth_same y y' j : y_ag y' = y_ag y -> nth_ag y' j = nth_ag y j.
Proof. unfold nth_ag. intros ->. reflexivity. Qed.
Lemma new_sound d ulen plen rnd : sound_agent (new_agent d ulen plen rnd).
Proof. split; [discriminate|]. split; [constructor|]. cbn. split; congruence. Qed.

(** What a command that is understood and not a removal does. *)
Lemma with_rufrag_sound g u : sound_agent g -> sound_agent (with_rufrag g u). Proof. exact (fun H => H). Qed.
Lemma with_local_sound g a : sound_agent g -> sound_agent (with_local g a). Proof. exact (fun H => H). Qed.
Lemma with_cands_sound g l : sound_agent g -> sound_agent (with_cands g l). Proof. exact (fun H => H). Qed.

Lemma activated_inv y d ulen plen rnd y' : inv y -> agent_of y d = None ->
  y_ag y' = y_ag y ++ [new_agent d ulen plen rnd] -> y_q y' = y_q y ->
  chained y' d (Some (length (y_ag y))) -> get (negb d) (y_crtp y') = get (negb d) (y_crtp y) -> get d (y_crtcp y') = get d (y_crtcp y) -> inv y'.
Proof.
  intros V A Ea Eq C E1 E2.
  assert (N : forall j, nth_ag y' j = if (j =? length (y_ag y))%nat then new_agent d ulen plen rnd else nth_ag y j).
  { intros j. rewrite <- (nth_snoc y (new_agent d ulen plen rnd) j). apply nth_same. exact Ea. }
  assert (Ln : length (y_ag y') = S (length (y_ag y))) by (rewrite Ea, app_length; cbn [length]; lia).
  split.
  - intros e. destruct (Bool.bool_dec e d) as [->|Hn]; [rewrite (inv_chained _ _ _ C); exact C|].
    assert (e = negb d) by (destruct e, d; try reflexivity; congruence). subst e. pose proof (i_chain y V (negb d)) as K.
    unfold agent_of, chained in K |- *. rewrite E1. rewrite Bool.negb_involutive in K |- *. rewrite E2.
    destruct (lookup (get (negb d) (y_crtp y)) KStun) as [j|]; [|exact K]. destruct K as (K1 & K2 & K3 & K4).
    split; [exact K1|]. split; [exact K2|]. split; [lia|]. rewrite N. destruct (Nat.eqb_spec j (length (y_ag y))); [lia|exact K4].
  - rewrite Ea. apply Forall_app. split; [exact (i_ag y V)|]. constructor; [apply new_sound|constructor].
  - rewrite Eq. eapply Forall_impl; [|exact (i_q y V)]. cbn beta. intros w (W1 & W2 & W3). split; [exact W1|]. split; [lia|].
    rewrite N. destruct (Nat.eqb_spec (w_ag w) (length (y_ag y))); [lia|exact W3].
Qed.
Lemma activate_inv y d ulen plen rnd y' i : activate y d ulen plen rnd = Some (y', i) -> (4 <= ulen)%nat /\ (22 <= plen)%nat.
Proof. unfold activate. destruct (Nat.ltb_spec ulen 4); [discriminate|]. destruct (Nat.ltb_spec plen 22); [discriminate|]. lia. Qed.
Definition core (g g' : agent) : Prop :=
  g_side g' = g_side g /\ g_lufrag g' = g_lufrag g /\ g_lpwd g' = g_lpwd g /\ g_role g' = g_role g /\ g_valid g' = g_valid g /\ g_done g' = g_done g.
Lemma core_sound g g' : core g g' -> sound_agent g -> sound_agent g'.
Proof. intros (E1 & E2 & E3 & E4 & E5 & E6) S. unfold sound_agent in *. rewrite E4, E5, E6. exact S. Qed.

Section commands.
  Context (pton : list Z -> option sa) (cand_line : sa -> list Z).

  (** The agent after C, S and A. *)
  Definition told (c : ril) (args : list (list Z)) (laddr : sa) (g g' : agent) (r : cres) : Prop :=
    match c with
    | RIL_C => cand_decode pton g (skipn 1 args) = Some g' /\ r = COk []
    | RIL_S => (g', match r with COk t => Some t | _ => None end) = start cand_line g laddr /\ r <> CAbort
    | RIL_A => g' = with_rufrag g (nth 1 args []) /\ r = COk []
    | _ => False
    end.
  Lemma told_core c args laddr g g' r : told c args laddr g g' r -> core g g' /\ r <> CAbort.
  Proof.
    destruct c; cbn [told]; try contradiction.
    - intros (-> & ->). split; [repeat split|discriminate].
    - intros (E & ->). split; [|discriminate]. unfold cand_decode in E.
      destruct (skipn 1 args) as [|? [|? [|? [|? [|? [|? [|? [|? ?]]]]]]]]; try discriminate.
      destruct (negb (caseeq _ (B "typ"))); [discriminate|]. destruct (negb (caseeq _ (B "UDP"))); [discriminate|].
      destruct (negb (extras_ok _ _)); [discriminate|]. destruct (sa_set _ _ _); [|discriminate].
      destruct (cand_find _ _ _); apply some_inj in E; subst g'; repeat split.
    - intros (E & N). split; [|exact N]. unfold start in E. injection E as -> _. destruct (g_local g); repeat split.
  Qed.

  Inductive outcome (y : sys) (d : bool) (args : list (list Z)) (rnd : nat -> Z) : sys -> cres -> Prop :=
  | failed : outcome y d args rnd y CFail
  | removed i l1 l3 : (parse args = Some RIL_D \/ parse args = Some RIL_U) -> agent_of y (acted args d) = Some i ->
      l1 = set (negb (acted args d)) (y_crtcp y) [] -> l3 = set (acted args d) (y_crtp y) [] ->
      outcome y d args rnd (set_mode (with_crtp (with_crtcp y l1) l3) (acted args d) LatchModel.NORMAL) (COk [])
  | changed c i g r : parse args = Some c -> agent_of y (acted args d) = Some i ->
      told c args (get (acted args d) (y_local y)) (nth_ag y i) g r -> outcome y d args rnd (put_ag y i g) r
  | created c ulen plen y1 g r : parse args = Some c -> agent_of y (acted args d) = None ->
      (c = RIL_S /\ ulen = 4%nat /\ plen = 24%nat \/ c = RIL_A /\ ulen = length (nth 1 args []) /\ plen = length (nth 2 args [])) ->
      (4 <= ulen)%nat -> (22 <= plen)%nat ->
      activate y (acted args d) ulen plen rnd = Some (y1, length (y_ag y)) ->
      told c args (get (acted args d) (y_local y)) (new_agent (acted args d) ulen plen rnd) g r ->
      outcome y d args rnd (put_ag y1 (length (y_ag y)) g) r.

  Lemma remove_is y d i : inv y -> agent_of y d = Some i ->
    remove y d i = (set_mode (with_crtp (with_crtcp y (set (negb d) (y_crtcp y) [])) (set d (y_crtp y) [])) d LatchModel.NORMAL, COk []).
  Proof.
    intros V A. pose proof (i_chain y V d) as C. rewrite A in C. destruct C as (C1 & C2 & C3 & C4). unfold remove. rewrite C4. clear C3 C4 A V.
    destruct y as [rtp rtcp [c0 c1] [k0 k1] loc ag q]. destruct d; cbn [get of0 of1 negb y_crtp y_crtcp] in C1, C2; subst; reflexivity.
  Qed.
  Lemma command_outcome y d args rnd y' r : inv y -> command pton cand_line y d args rnd = (y', r) -> outcome y d args rnd y' r.
  Proof.
    intros V E. unfold command in E. destruct (parse args) as [c|] eqn:P; [|injection E as <- <-; constructor].
    assert (Ea : (match c with RIL_A | RIL_C | RIL_D => d | RIL_S | RIL_U => negb d end) = acted args d) by (unfold acted; rewrite P; destruct c; reflexivity).
    rewrite Ea in E. set (e := acted args d) in *. fold (agent_of y e) in E. destruct c.
    - destruct (agent_of y e) as [i|] eqn:A.
      + injection E as <- <-. apply (changed y d args rnd RIL_A); auto. split; reflexivity.
      + destruct (activate y e (length (nth 1 args [])) (length (nth 2 args [])) rnd) as [[y1 i]|] eqn:Ac; [|injection E as <- <-; constructor].
        pose proof (activate_inv _ _ _ _ _ _ _ Ac) as (H1 & H2). destruct (activate_is y e _ _ rnd V A H1 H2) as (y2 & E2 & Ag & _).
        rewrite E2 in Ac. injection Ac as -> <-. injection E as <- <-.
        apply (created y d args rnd RIL_A _ _ y1 _ _ P A (or_intror (conj eq_refl (conj eq_refl eq_refl))) H1 H2 E2).
        split; [|reflexivity]. f_equal. unfold nth_ag. rewrite Ag, app_nth2, Nat.sub_diag by lia. reflexivity.
    - destruct (agent_of y e) as [i|] eqn:A; [|injection E as <- <-; constructor].
      destruct (cand_decode pton (nth_ag y i) (skipn 1 args)) as [g|] eqn:Cd; [|injection E as <- <-; constructor].
      injection E as <- <-. apply (changed y d args rnd RIL_C); auto. split; [exact Cd|reflexivity].
    - destruct (agent_of y e) as [i|] eqn:A.
      + destruct (start cand_line (nth_ag y i) (get e (y_local y))) as [g o] eqn:St. injection E as <- <-.
        apply (changed y d args rnd RIL_S); auto. cbn [told]. fold e. rewrite St. destruct o; split; try reflexivity; discriminate.
      + destruct (activate y e 4 24 rnd) as [[y1 i]|] eqn:Ac; [|injection E as <- <-; constructor].
        pose proof (activate_inv _ _ _ _ _ _ _ Ac) as (H1 & H2). destruct (activate_is y e _ _ rnd V A H1 H2) as (y2 & E2 & Ag & _ & El & _).
        rewrite E2 in Ac. injection Ac as -> <-. rewrite El in E.
        assert (N : nth_ag y1 (length (y_ag y)) = new_agent e 4 24 rnd) by (unfold nth_ag; rewrite Ag, app_nth2, Nat.sub_diag by lia; reflexivity).
        rewrite N in E. destruct (start cand_line (new_agent e 4 24 rnd) (get e (y_local y))) as [g o] eqn:St. injection E as <- <-.
        apply (created y d args rnd RIL_S _ _ y1 _ _ P A (or_introl (conj eq_refl (conj eq_refl eq_refl))) H1 H2 E2).
        cbn [told]. fold e. rewrite St. destruct o; split; try reflexivity; discriminate.
    - destruct (agent_of y e) as [i|] eqn:A; [|injection E as <- <-; constructor]. rewrite (remove_is y e i V A) in E. injection E as <- <-.
      eapply removed; eauto.
    - destruct (agent_of y e) as [i|] eqn:A; [|injection E as <- <-; constructor]. rewrite (remove_is y e i V A) in E. injection E as <- <-.
      eapply removed; eauto.
  Qed.

  Lemma inv_removed y e i : inv y -> agent_of y e = Some i ->
    inv (set_mode (with_crtp (with_crtcp y (set (negb e) (y_crtcp y) [])) (set e (y_crtp y) [])) e LatchModel.NORMAL).
  Proof.
    intros V A. split.
    - intros d. destruct (Bool.bool_dec d e) as [->|Hn].
      + assert (C : chained (set_mode (with_crtp (with_crtcp y (set (negb e) (y_crtcp y) [])) (set e (y_crtp y) [])) e LatchModel.NORMAL) e None).
        { cbn [chained set_mode with_rtp with_crtp with_crtcp y_crtp y_crtcp]. rewrite !get_set. auto. }
        rewrite (inv_chained _ _ _ C). exact C.
      + assert (d = negb e) by (destruct e, d; try reflexivity; congruence). subst d. pose proof (i_chain y V (negb e)) as K.
        unfold agent_of, chained, nth_ag in K |- *. cbn [set_mode with_rtp with_crtp with_crtcp y_crtp y_crtcp y_ag]. rewrite get_negb.
        rewrite Bool.negb_involutive in K |- *. rewrite get_negb'. exact K.
    - exact (i_ag y V).
    - exact (i_q y V).
  Qed.
  Lemma created_inv y e ulen plen rnd y1 g : inv y -> agent_of y e = None -> (4 <= ulen)%nat -> (22 <= plen)%nat ->
    activate y e ulen plen rnd = Some (y1, length (y_ag y)) -> core (new_agent e ulen plen rnd) g ->
    inv y1 /\ inv (put_ag y1 (length (y_ag y)) g) /\ nth_ag y1 (length (y_ag y)) = new_agent e ulen plen rnd /\
    agent_of (put_ag y1 (length (y_ag y)) g) e = Some (length (y_ag y)) /\
    forall j, nth_ag (put_ag y1 (length (y_ag y)) g) j = if (j =? length (y_ag y))%nat then g else nth_ag y j.
  Proof.
    intros V A H1 H2 Ac Co. destruct (activate_is y e ulen plen rnd V A H1 H2) as (y2 & E2 & Ag & _ & El & Eq & _ & C & C1 & C2).
    rewrite E2 in Ac. injection Ac as ->.
    assert (N : forall j, nth_ag y1 j = if (j =? length (y_ag y))%nat then new_agent e ulen plen rnd else nth_ag y j).
    { intros j. rewrite <- (nth_snoc y (new_agent e ulen plen rnd) j). apply nth_same. exact Ag. }
    assert (V1 : inv y1) by (apply (activated_inv y e ulen plen rnd y1 V A Ag Eq C C1 C2)).
    assert (Nn : nth_ag y1 (length (y_ag y)) = new_agent e ulen plen rnd) by (rewrite N, Nat.eqb_refl; reflexivity).
    assert (V2 : inv (put_ag y1 (length (y_ag y)) g)).
    { apply inv_put; [exact V1|apply (core_sound (new_agent e ulen plen rnd)); [exact Co|apply new_sound]|rewrite Nn; exact (proj1 Co)]. }
    split; [exact V1|]. split; [exact V2|]. split; [exact Nn|]. split.
    - unfold agent_of. cbn [put_ag with_ag y_crtp]. exact (inv_chained _ _ _ C).
    - intros j. rewrite nth_put, N. rewrite (Nat.eqb_sym (length (y_ag y)) j). destruct (Nat.eqb_spec j (length (y_ag y))) as [->|Hn]; [|reflexivity].
      rewrite Ag, app_length. cbn [length andb]. destruct (Nat.ltb_spec (length (y_ag y)) (length (y_ag y) + 1)); [reflexivity|lia].
  Qed.
  Lemma command_inv y d args rnd y' r : inv y -> command pton cand_line y d args rnd = (y', r) -> inv y' /\ r <> CAbort.
  Proof.
    intros V E. destruct (command_outcome _ _ _ _ _ _ V E) as [|i l1 l3 P A -> ->|c i g r P A T|c ul pl y1 g r P A Cl H1 H2 Ac T].
    - split; [exact V|discriminate].
    - split; [exact (inv_removed y (acted args d) i V A)|discriminate].
    - apply told_core in T as (Co & N). split; [|exact N]. apply inv_put; [exact V|exact (core_sound _ _ Co (sound_nth y i V))|exact (proj1 Co)].
    - apply told_core in T as (Co & N). split; [|exact N]. exact (proj1 (proj2 (created_inv y _ ul pl rnd y1 g V A H1 H2 Ac Co))).
  Qed.
End commands.

(** * Packets *)
(** How deep the handling of a packet goes: calls that pass the packet on to another chain. *)
Definition depth (own : option bool) (other at_rtcp is_stun is_rtcp : bool) : nat :=
  if at_rtcp then (if is_rtcp && other then 2 else 1)%nat
  else match own with
       | None => 1%nat
       | Some completed => if is_stun || negb completed || negb is_rtcp then 1%nat else if other then 3%nat else 2%nat
       end.
Lemma chains_is y d : inv y ->
  chain y (Rtp d) = match agent_of y d with Some i => [stun_entry i; dmx_entry i] | None => [] end /\
  chain y (Rtcp d) = match agent_of y (negb d) with Some i => [mx_entry i] | None => [] end /\
  (forall i, agent_of y d = Some i -> g_side (nth_ag y i) = d).
Proof.
  intros V. pose proof (i_chain y V d) as C. pose proof (i_chain y V (negb d)) as C'. cbn [chain].
  destruct (agent_of y d) as [i|], (agent_of y (negb d)) as [j|]; cbn [chained] in C, C'; rewrite Bool.negb_involutive in C';
    destruct C as (C1 & C2), C' as (C1' & C2'); try destruct C2 as (C2 & C3 & C4); try destruct C2' as (C2' & C3' & C4');
    (split; [assumption|]); (split; [assumption|]); intros i0 X; try discriminate; injection X as <-; assumption.
Qed.
Lemma handle_is y d at_rtcp taken k : inv y ->
  let own := option_map (done y) (agent_of y d) in
  let other := present (agent_of y (negb d)) in
  let x := destiny own other d at_rtcp (stun k) (rtcp k) (index (agent_of y d)) in
  handleat 4 y (if at_rtcp then Rtcp d else Rtp d) 0 taken k =
    Some (x, negb (kept x taken), if kept x taken then O else depth own other at_rtcp (stun k) (rtcp k)).
Proof.
  intros V. cbv zeta. destruct (chains_is y d V) as (C1 & C2 & C3). destruct (chains_is y (negb d) V) as (_ & _ & C3').
  destruct at_rtcp.
  - unfold handleat. rewrite C2. destruct (agent_of y (negb d)) as [j|]; cbn [option_map present].
    + cbn [mx_entry e_ord e_key e_ag]. rewrite (C3' j eq_refl). change (ORD_CT_SEND <? 0) with false. cbv iota.
      rewrite Bool.negb_involutive. destruct (rtcp k); cbn [andb destiny kept depth].
      * rewrite C1. destruct (agent_of y d) as [i|]; cbn [stun_entry dmx_entry e_ord e_key e_ag];
          change (ORD_RECV <? ORD_CT_SEND) with true; change (ORD_CT_RECV <? ORD_CT_SEND) with true; cbv iota; destruct taken; reflexivity.
      * destruct taken; reflexivity.
    + cbn [andb destiny kept depth]. rewrite andb_false_r. destruct taken; reflexivity.
  - unfold handleat. rewrite C1. destruct (agent_of y d) as [i|] eqn:Ei; cbn [option_map present index].
    + cbn [stun_entry dmx_entry e_ord e_key e_ag]. change (ORD_RECV <? 0) with false. change (ORD_CT_RECV <? 0) with false. cbv iota.
      fold (done y i). rewrite (C3 i eq_refl). destruct (stun k); [reflexivity|]. destruct (done y i); [|reflexivity].
      destruct (rtcp k); cbn [negb orb destiny kept depth].
      * rewrite C2. destruct (agent_of y (negb d)) as [j|]; cbn [present].
        -- cbn [mx_entry e_ord e_key e_ag]. change (ORD_CT_SEND <? ORD_CT_RECV) with false. cbv iota. rewrite (C3' j eq_refl), Bool.negb_involutive, C1.
           cbn [stun_entry dmx_entry e_ord e_key e_ag]. change (ORD_RECV <? ORD_CT_SEND) with true. change (ORD_CT_RECV <? ORD_CT_SEND) with true.
           destruct taken; reflexivity.
        -- destruct taken; reflexivity.
      * destruct taken; reflexivity.
    + cbn [destiny kept depth]. destruct taken; reflexivity.
Qed.
Lemma inv_queue y k i d : inv y -> datagram k -> agent_of y d = Some i -> inv (with_q y (y_q y ++ [mkWork k i d])).
Proof.
  intros V K A. pose proof (i_chain y V d) as C. rewrite A in C. destruct C as (_ & _ & C3 & C4). split; [exact (i_chain y V)|exact (i_ag y V)|].
  cbn [with_q y_q y_ag]. apply Forall_app. split; [exact (i_q y V)|]. constructor; [|constructor]. cbn [w_pkt w_ag w_side]. split; [exact K|]. split; [exact C3|].
  symmetry. exact C4.
Qed.
(** What the handling of a packet that was let in does. *)
Lemma handle_does y d at_rtcp taken k : inv y -> datagram k -> exists y' n,
  let x := destiny (option_map (done y) (agent_of y d)) (present (agent_of y (negb d))) d at_rtcp (stun k) (rtcp k) (index (agent_of y d)) in
  handle y (if at_rtcp then Rtcp d else Rtp d) taken k = (y', x, n) /\ inv y' /\
  n = (if kept x taken then O else depth (option_map (done y) (agent_of y d)) (present (agent_of y (negb d))) at_rtcp (stun k) (rtcp k)) /\
  y_rtp y' = y_rtp y /\ y_rtcp y' = y_rtcp y /\ y_crtp y' = y_crtp y /\ y_crtcp y' = y_crtcp y /\ y_local y' = y_local y /\ y_ag y' = y_ag y /\
  y_q y' = y_q y ++ (match x with Queued i => [mkWork k i d] | _ => [] end).
Proof.
  intros V K. unfold handle. rewrite (handle_is y d at_rtcp taken k V). cbv zeta.
  set (x := destiny _ _ _ _ _ _ _). set (nn := if kept x taken then O else _).
  assert (Q : forall i, x = Queued i -> agent_of y d = Some i /\ at_rtcp = false).
  { intros i. unfold x, destiny. destruct at_rtcp; [destruct (rtcp k && present (agent_of y (negb d))); discriminate|].
    destruct (agent_of y d) as [j|] eqn:A; cbn [option_map index]; [|discriminate].
    destruct (stun k); [intros [= ->]; auto|]. destruct (done y j); cbn [negb]; [|discriminate].
    destruct (rtcp k); [destruct (present _); discriminate|discriminate]. }
  clearbody x nn. destruct x as [| |i|c] eqn:Ex.
  - exists y, nn. rewrite app_nil_r. repeat (split; [first [reflexivity|exact V]|]). reflexivity.
  - exists y, nn. rewrite app_nil_r. repeat (split; [first [reflexivity|exact V]|]). reflexivity.
  - destruct (Q i eq_refl) as (A & ->). eexists _, nn. split; [reflexivity|]. split; [exact (inv_queue y k i d V K A)|]. repeat (split; [reflexivity|]). reflexivity.
  - exists y, nn. rewrite app_nil_r. repeat (split; [first [reflexivity|exact V]|]). reflexivity.
Qed.

(** * The thread of the module *)
Lemma sa_cmp_eq a b : sa_cmp a b = true <-> a = b.
Proof.
  destruct a as [h p|h p], b as [h' p'|h' p']; cbn [sa_cmp]; rewrite ?andb_true_iff, ?Z.eqb_eq; try (split; [discriminate|congruence]).
  - split; [intros (-> & ->); reflexivity|intros [= -> ->]; auto].
  - split; [intros (E & ->); apply beq_eq in E; subst; reflexivity|intros [= -> ->]; split; [apply beq_refl|reflexivity]].
Qed.
Lemma cand_find_some l comp a : comp <> 0 -> (present (cand_find l comp a) = true <-> In (mkRc comp a) l).
Proof.
  intros N. induction l as [|c l IH]; cbn [cand_find]; [split; [discriminate|intros []]|].
  assert (M : forall o : option nat, present (option_map S o) = present o) by (intros [|]; reflexivity).
  destruct (Z.eqb_spec comp 0); [contradiction|]. cbn [negb andb]. cbn [In].
  destruct (Z.eqb_spec (rc_comp c) comp) as [E|E]; cbn [negb].
  - destruct (sa_cmp (rc_addr c) a) eqn:S; cbn [negb].
    + apply sa_cmp_eq in S. split; [|reflexivity]. intros _. left. destruct c. cbn in *. congruence.
    + rewrite M, IH. split; [auto|]. intros [X|X]; [|exact X]. subst c. cbn [rc_addr] in S. exfalso.
      assert (sa_cmp a a = true) by (apply sa_cmp_eq; reflexivity). congruence.
  - rewrite M, IH. split; [auto|]. intros [X|X]; [|exact X]. subst c. cbn in E. congruence.
Qed.
Lemma completed_iff l : Forall (fun p => pair_completed p = true) l -> forall v, iscompleted_from v l = (v || negb (match l with [] => true | _ => false end)).
Proof.
  induction 1 as [|p l P F IH]; intros v; cbn [iscompleted_from]; [rewrite orb_false_r; reflexivity|]. rewrite P, IH. cbn. rewrite orb_true_r. reflexivity.
Qed.
Lemma sound_completed g : sound_agent g -> iscompleted g = g_done g.
Proof.
  intros (_ & F & D). unfold iscompleted. rewrite (completed_iff _ F). destruct (g_valid g), (g_done g); cbn; try reflexivity.
  - destruct D as (D & _). exfalso. apply D; reflexivity.
  - destruct D as (_ & D). symmetry. apply D. discriminate.
Qed.
Definition nominee (g : agent) (src : sa) (m : msg) : Prop :=
  has 0x24 m /\ has 0x25 m /\ In (mkRc 1 src) (g_cands g) /\ g_local g <> None.
Lemma taken_in_keeps g src m :
  g_side (taken_in g src m) = g_side g /\ g_lufrag (taken_in g src m) = g_lufrag g /\ g_lpwd (taken_in g src m) = g_lpwd g /\
  g_rufrag (taken_in g src m) = g_rufrag g /\ g_cands (taken_in g src m) = g_cands g /\ g_local (taken_in g src m) = g_local g /\
  g_done (taken_in g src m) = g_done g /\ (g_role g <> RUnknown -> g_role (taken_in g src m) <> RUnknown).
Proof.
  unfold taken_in. set (g1 := if role_eqb _ _ then _ else _).
  assert (K1 : g_side g1 = g_side g /\ g_lufrag g1 = g_lufrag g /\ g_lpwd g1 = g_lpwd g /\ g_rufrag g1 = g_rufrag g /\
    g_cands g1 = g_cands g /\ g_local g1 = g_local g /\ g_done g1 = g_done g /\ (g_role g <> RUnknown -> g_role g1 <> RUnknown)).
  { unfold g1. destruct (role_eqb _ _); repeat split; cbn; try tauto. intros _. destruct (g_role g); discriminate. }
  clearbody g1. destruct (find_attr PRIORITY m); [|exact K1]. unfold handle_lite. destruct (negb _); [exact K1|].
  destruct (cand_find _ _ _); [|exact K1]. destruct (g_local g1) eqn:El; [|rewrite El; exact K1].
  destruct (existsb _ _); [rewrite El; exact K1|]. cbn. rewrite El. exact K1.
Qed.
Lemma taken_in_valid g src m : Forall (fun p => pair_completed p = true) (g_valid g) ->
  Forall (fun p => pair_completed p = true) (g_valid (taken_in g src m)) /\
  (g_valid (taken_in g src m) <> [] <-> g_valid g <> [] \/ nominee g src m).
Proof.
  intros F. unfold taken_in. set (g1 := if role_eqb _ _ then _ else _).
  assert (K1 : g_valid g1 = g_valid g /\ g_cands g1 = g_cands g /\ g_local g1 = g_local g) by (unfold g1; destruct (role_eqb _ _); repeat split).
  clearbody g1. destruct K1 as (K1 & K2 & K3). unfold nominee. change PRIORITY with 0x24. change USE_CAND with 0x25.
  destruct (find_attr 0x24 m) eqn:E1.
  2:{ rewrite K1. split; [exact F|]. apply has_none in E1. tauto. }
  assert (H1 : has 0x24 m) by (apply has_find; eauto). unfold handle_lite.
  destruct (find_attr 0x25 m) eqn:E2; cbn [negb].
  2:{ rewrite K1. split; [exact F|]. apply has_none in E2. tauto. }
  assert (H2 : has 0x25 m) by (apply has_find; eauto). rewrite K2, K3.
  pose proof (cand_find_some (g_cands g) COMPID_RTP src ltac:(discriminate)) as C. change COMPID_RTP with 1 in *.
  destruct (cand_find (g_cands g) 1 src) as [i|]; cbn [present] in C.
  2:{ rewrite K1. split; [exact F|]. split; [tauto|]. intros [X|(_ & _ & X & _)]; [exact X|]. apply C in X. discriminate. }
  destruct (g_local g) as [la|].
  2:{ rewrite K1. split; [exact F|]. split; [tauto|]. intros [X|(_ & _ & _ & X)]; [exact X|congruence]. }
  destruct (existsb (fun p => (cp_rc p =? i)%nat) (g_valid g1)) eqn:Ex.
  - rewrite K1. split; [exact F|]. split; [tauto|]. intros _. rewrite <- K1. destruct (g_valid g1); [discriminate|congruence].
  - cbn [with_valid g_valid]. rewrite K1. split; [constructor; [reflexivity|exact F]|]. split; [|discriminate]. intros _. right.
    repeat split; try assumption; try discriminate. apply C. reflexivity.
Qed.

Section worker.
  Context (mac : list Z -> list Z -> list Z) (crc : list Z -> Z) (sw : list Z).

  (** The agent after a packet, before its completion is noted. *)
  Lemma recv_agent g k : sound_agent g -> datagram k ->
    (forall m, authentic mac crc g (k_bytes k) m -> ~ in_conflict g m ->
       fst (recv_handler mac crc sw g (k_src k) (k_bytes k)) = taken_in g (k_src k) m) /\
    ((forall m, authentic mac crc g (k_bytes k) m -> in_conflict g m) -> fst (recv_handler mac crc sw g (k_src k) (k_bytes k)) = g).
  Proof.
    intros (R & _) (Bb & L & _). unfold recv_handler. destruct (decode (k_bytes k)) as [m|e| |] eqn:D;
      try (split; [intros m (D' & _); congruence|reflexivity]).
    pose proof (binding_bytes (k_bytes k) m Bb L D) as BB.
    destruct ((msg_method (h_type (m_hdr m)) =? 1) && (msg_class (h_type (m_hdr m)) =? 0)) eqn:Bq.
    2:{ split; [|reflexivity]. intros m' (D' & Br & _). exfalso. rewrite D in D'. injection D' as <-. apply BB in Br. lia. }
    assert (Br : IceSpec.binding_request (k_bytes k)) by (apply BB; lia).
    pose proof (stund_is mac crc g (k_src k) (k_bytes k) m Bb L D R) as St.
    destruct (stund_recv mac crc g (k_src k) (k_bytes k) m) as [g1 a1]. cbn [fst snd] in St |- *.
    destruct St as [(Nf & [= -> ->])|(Ff & a & An & Ea & E1 & E2 & E3)].
    - split; [|reflexivity]. intros m' (D' & _ & F' & _). exfalso. rewrite D in D'. injection D' as <-. contradiction.
    - split.
      + intros m' (D' & _ & F' & I' & U') NC. rewrite D in D'. injection D' as <-. exact (E2 I' U' NC).
      + intros Al. destruct An as [H|H H0|H H0|H H0 H1|H H0 H1|H H0 H1 H2|H H0 H1 H2].
        * apply E3. intros (I' & U'). apply H. unfold integrity_ok in I'. apply has_find. eauto.
        * apply E3. intros (I' & U'). contradiction.
        * apply E3. intros (I' & U'). apply H0. destruct U' as (s & ru & X & _). apply has_find. eauto.
        * apply E3. intros (I' & U'). contradiction.
        * exact E1.
        * exfalso. apply H1. apply Al. split; [exact D|]. auto.
        * exfalso. apply H1. apply Al. split; [exact D|]. auto.
  Qed.
  Lemma authentic_one g b m m' : authentic mac crc g b m -> authentic mac crc g b m' -> m = m'.
  Proof. intros (D & _) (D' & _). congruence. Qed.
  (** Whether a packet is authentic, and of no conflict, can be told. *)
  Lemma authentic_or g k : sound_agent g -> datagram k ->
    (exists m, authentic mac crc g (k_bytes k) m /\ ~ in_conflict g m) \/ (forall m, authentic mac crc g (k_bytes k) m -> in_conflict g m).
  Proof.
    intros (R & _) (Bb & L & _). destruct (decode (k_bytes k)) as [m|e| |] eqn:D; try (right; intros m (D' & _); congruence).
    pose proof (binding_bytes (k_bytes k) m Bb L D) as BB.
    destruct (list_eq_dec Z.eq_dec (part (k_bytes k) 0 2) [0; 1]) as [Br|Br]; [|right; intros m' (_ & Br' & _); contradiction].
    destruct (stund_is mac crc g (k_src k) (k_bytes k) m Bb L D R) as [(Nf & _)|(Ff & a & An & _)].
    - right. intros m' (D' & _ & F' & _). exfalso. rewrite D in D'. injection D' as <-. contradiction.
    - destruct An.
      all: try (left; exists m; split; [split; [exact D|auto]|assumption]).
      all: right; intros m' (D' & _ & F' & I' & U'); rewrite D in D'; injection D' as <-; try contradiction; try assumption; exfalso.
      + apply H. unfold integrity_ok in I'. apply has_find. eauto.
      + apply H0. destruct U' as (s & ru & X & _). apply has_find. eauto.
  Qed.
  Lemma recv_sound g k : sound_agent g -> datagram k -> let g1 := fst (recv_handler mac crc sw g (k_src k) (k_bytes k)) in
    g_side g1 = g_side g /\ g_lufrag g1 = g_lufrag g /\ g_lpwd g1 = g_lpwd g /\ g_rufrag g1 = g_rufrag g /\ g_cands g1 = g_cands g /\
    g_local g1 = g_local g /\ g_done g1 = g_done g /\ g_role g1 <> RUnknown /\
    Forall (fun p => pair_completed p = true) (g_valid g1) /\
    (g_valid g1 <> [] <-> g_done g = true \/ nominates mac crc g k).
  Proof.
    intros G K. pose proof G as (R & F & Dn). cbv zeta. destruct (recv_agent g k G K) as (A1 & A2).
    destruct (authentic_or g k G K) as [(m & Am & Nc)|Al].
    - rewrite (A1 m Am Nc). destruct (taken_in_keeps g (k_src k) m) as (E1 & E2 & E3 & E4 & E5 & E6 & E7 & E8).
      destruct (taken_in_valid g (k_src k) m F) as (V1 & V2). do 9 (split; [auto|]). rewrite V2, <- Dn.
      split; (intros [X|X]; [left; exact X|right]).
      + destruct X as (X1 & X2 & X3 & X4). exists m. auto 10.
      + destruct X as (m' & Am' & Nc' & X). rewrite (authentic_one g _ _ _ Am Am'). exact X.
    - rewrite (A2 Al). do 9 (split; [auto|]). rewrite <- Dn. split; [auto|]. intros [X|(m & Am & Nc & _)]; [exact X|]. exfalso. exact (Nc (Al m Am)).
  Qed.
  (** One item of work. *)
  Lemma worker_is y w q : inv y -> y_q y = w :: q ->
    let g := nth_ag y (w_ag w) in
    exists g', fst (worker mac crc sw y) =
      put_ag (if negb (g_done g) && g_done g' then
                with_rtp (with_q y q) (set (w_side w) (y_rtp y)
                  (LatchModel.latch (LatchModel.with_mode (get (w_side w) (y_rtp y)) LatchModel.FORCE_ON) (k_time (w_pkt w)) (lpkt (w_pkt w))))
              else with_q y q) (w_ag w) g' /\
      sound_agent g' /\ g_side g' = g_side g /\ g_lufrag g' = g_lufrag g /\ g_lpwd g' = g_lpwd g /\ g_rufrag g' = g_rufrag g /\
      g_cands g' = g_cands g /\ g_local g' = g_local g /\
      (g_done g' = true <-> g_done g = true \/ nominates mac crc g (w_pkt w)) /\
      ((forall m, ~ authentic mac crc g (k_bytes (w_pkt w)) m) -> g' = g).
  Proof.
    intros V Q. cbv zeta. set (g := nth_ag y (w_ag w)). assert (G : sound_agent g) by (apply sound_nth; exact V).
    pose proof (i_q y V) as FQ. rewrite Q in FQ. apply Forall_inv in FQ. destruct FQ as (K & Hlt & Hs).
    unfold worker. rewrite Q. change (nth_ag (with_q y q) (w_ag w)) with g. cbv zeta.
    destruct (g_local g) as [la|] eqn:El.
    2:{ exists g. rewrite Bool.andb_comm, Bool.andb_negb_r. cbn [fst]. split; [symmetry; exact (put_id (with_q y q) (w_ag w))|].
        split; [exact G|]. do 6 (split; [first [reflexivity|assumption]|]). split; [|reflexivity].
        split; [auto|]. intros [X|(m & _ & _ & _ & _ & _ & X)]; [exact X|congruence]. }
    pose proof (recv_sound g (w_pkt w) G K) as RS. cbv zeta in RS. pose proof (recv_agent g (w_pkt w) G K) as RA.
    destruct (recv_handler mac crc sw g (k_src (w_pkt w)) (k_bytes (w_pkt w))) as [g1 r]. cbn [fst] in RS, RA.
    destruct RS as (E1 & E2 & E3 & E4 & E5 & E6 & E7 & E8 & E9 & E10).
    assert (Cm : iscompleted g1 = true <-> g_done g = true \/ nominates mac crc g (w_pkt w)).
    { rewrite <- E10. unfold iscompleted. rewrite (completed_iff _ E9). destruct (g_valid g1); cbn; split; congruence. }
    rewrite E7. destruct (g_done g) eqn:Dg; cbn [negb andb].
    - exists g1. cbn [fst]. split; [reflexivity|].
      assert (Nv : g_valid g1 <> []) by (apply E10; auto).
      split; [split; [exact E8|]; split; [exact E9|]; rewrite E7; tauto|]. do 6 (split; [congruence|]). split; [rewrite E7; tauto|].
      intros Na. apply RA. intros m Am. exfalso. exact (Na m Am).
    - destruct (iscompleted g1) eqn:Ic.
      + exists (with_done g1). cbn [with_done g_done fst]. split; [reflexivity|].
        assert (Nv : g_valid g1 <> []) by (apply E10, Cm; reflexivity).
        split; [split; [exact E8|]; split; [exact E9|]; cbn; tauto|]. cbn. do 6 (split; [congruence|]). split; [split; [intros _; apply Cm; reflexivity|reflexivity]|].
        intros Na. exfalso. destruct Cm as (Cm & _). specialize (Cm eq_refl) as [X|(m & Am & _)]; [discriminate|exact (Na m Am)].
      + exists g1. rewrite E7. cbn [fst]. split; [reflexivity|].
        assert (Nv : ~ g_valid g1 <> []) by (rewrite E10, <- Cm; discriminate).
        split; [split; [exact E8|]; split; [exact E9|]; rewrite E7; split; [discriminate|contradiction]|]. do 6 (split; [congruence|]).
        split; [rewrite <- Cm; tauto|]. intros Na. apply RA. intros m Am. exfalso. exact (Na m Am).
  Qed.
End worker.

(** * Histories *)
Section histories.
  Context (mac : list Z -> list Z -> list Z) (crc : list Z -> Z) (sw : list Z) (pton : list Z -> option sa) (cand_line : sa -> list Z).
  Notation step := (step mac crc sw pton cand_line).
  Notation run := (run mac crc sw pton cand_line).

  Lemma inv_worker y : inv y -> inv (fst (worker mac crc sw y)).
  Proof.
    intros V. destruct (y_q y) as [|w q] eqn:Q; [unfold worker; rewrite Q; exact V|].
    destruct (worker_is mac crc sw y w q V Q) as (g' & E & G & Gs & _). rewrite E.
    assert (V1 : inv (with_q y q)).
    { split; [exact (i_chain y V)|exact (i_ag y V)|]. pose proof (i_q y V) as F. rewrite Q in F. exact (Forall_inv_tail F). }
    destruct (negb (g_done (nth_ag y (w_ag w))) && g_done g').
    - apply inv_put; [|exact G|exact Gs]. apply (inv_streams (with_q y q)); [exact V1|reflexivity..].
    - apply inv_put; [exact V1|exact G|exact Gs].
  Qed.
  (** What a packet at a port does: it is not let in, or handled in the state with the streams that let it in. *)
  Definition let_in (y : sys) (d : bool) (at_rtcp : bool) (k : pkt) (empty : bool) : sys * LatchModel.verdict :=
    if at_rtcp then
      let '(s, _, v) := LatchModel.rx (get d (y_rtcp y)) None empty (lpkt k) in (with_rtcp y (set d (y_rtcp y) s), v)
    else
      let '(s, c, v) := LatchModel.rx (get d (y_rtp y)) (Some (get d (y_rtcp y))) empty (lpkt k) in
      (match c with Some c => with_rtcp (with_rtp y (set d (y_rtp y) s)) (set d (y_rtcp y) c) | None => with_rtp y (set d (y_rtp y) s) end, v).
  Lemma let_in_keeps y d at_rtcp k empty y1 v : let_in y d at_rtcp k empty = (y1, v) ->
    y_crtp y1 = y_crtp y /\ y_crtcp y1 = y_crtcp y /\ y_local y1 = y_local y /\ y_ag y1 = y_ag y /\ y_q y1 = y_q y /\
    get (negb d) (y_rtp y1) = get (negb d) (y_rtp y) /\ get (negb d) (y_rtcp y1) = get (negb d) (y_rtcp y).
  Proof.
    unfold let_in. destruct at_rtcp.
    - destruct (LatchModel.rx _ _ _ _) as [[s c] v']. intros [= <- <-]. cbn. rewrite get_negb. auto 10.
    - destruct (LatchModel.rx _ _ _ _) as [[s c] v']. destruct c as [c|]; intros [= <- <-]; cbn; rewrite ?get_negb; auto 10.
  Qed.
  Definition fate_of (y : sys) (d at_rtcp : bool) (k : pkt) : fate :=
    destiny (option_map (done y) (agent_of y d)) (present (agent_of y (negb d))) d at_rtcp (stun k) (rtcp k) (index (agent_of y d)).
  Definition frees (y : sys) (d at_rtcp taken : bool) (k : pkt) : nat :=
    if kept (fate_of y d at_rtcp k) taken then O
    else depth (option_map (done y) (agent_of y d)) (present (agent_of y (negb d))) at_rtcp (stun k) (rtcp k).
  Definition queued (y : sys) (d : bool) (at_rtcp : bool) (k : pkt) : list work :=
    match fate_of y d at_rtcp k with Queued i => [mkWork k i d] | _ => [] end.
  Definition analysed (y : sys) (d : bool) (k : pkt) (chg : bool) (y1 : sys) : sys :=
    match fate_of y d false k with
    | HandedOn (Rtp e) => if Bool.eqb e d && negb (rtcp k) then with_rtp y1 (set d (y_rtp y1) (LatchModel.analyze (get d (y_rtp y1)) chg (lpkt k))) else y1
    | _ => y1
    end.
  Lemma same_fate y y1 d at_rtcp k : y_crtp y1 = y_crtp y -> y_ag y1 = y_ag y -> fate_of y1 d at_rtcp k = fate_of y d at_rtcp k.
  Proof.
    intros E1 E2. unfold fate_of, agent_of, done. rewrite E1. f_equal. destruct (lookup _ _); [|reflexivity]. cbn [option_map].
    unfold nth_ag. rewrite E2. reflexivity.
  Qed.
  Lemma same_frees y y1 d at_rtcp taken k : y_crtp y1 = y_crtp y -> y_ag y1 = y_ag y -> frees y1 d at_rtcp taken k = frees y d at_rtcp taken k.
  Proof.
    intros E1 E2. unfold frees. rewrite (same_fate y y1) by assumption. destruct (kept _ _); [reflexivity|].
    unfold agent_of, done. rewrite E1. f_equal. destruct (lookup _ _); [|reflexivity]. cbn [option_map]. unfold nth_ag. rewrite E2. reflexivity.
  Qed.
  Lemma rtp_step y d k empty chg taken : inv y -> datagram k ->
    let '(y1, v) := let_in y d false k empty in
    match v with
    | LatchModel.Discard => step y (RtpIn d k empty chg taken) = (y1, Packet Outside 1) /\ inv y1
    | LatchModel.Accept =>
        exists y2, step y (RtpIn d k empty chg taken) = (analysed y d k chg y2, Packet (fate_of y d false k) (frees y d false taken k)) /\
          y2 = with_q y1 (y_q y ++ queued y d false k) /\ inv y2 /\ inv (analysed y d k chg y2)
    end.
  Proof.
    intros V K. destruct (let_in y d false k empty) as [y1 v] eqn:Li. pose proof (let_in_keeps _ _ _ _ _ _ _ Li) as (E1 & E2 & E3 & E4 & E5 & _).
    assert (V1 : inv y1) by (apply (inv_streams y); assumption).
    unfold let_in in Li. unfold IceModel.step. destruct (LatchModel.rx _ _ _ _) as [[s c] v'].
    assert (Ey : y1 = match c with Some c0 => with_rtcp (with_rtp y (set d (y_rtp y) s)) (set d (y_rtcp (with_rtp y (set d (y_rtp y) s))) c0)
                               | None => with_rtp y (set d (y_rtp y) s) end) by (destruct c; injection Li as <- _; reflexivity).
    assert (Ev : v' = v) by (destruct c; injection Li as _ <-; reflexivity). subst v'. cbv zeta. rewrite <- Ey. destruct v; [|auto].
    destruct (handle_does y1 d false taken k V1 K) as (y2 & n & H & V2 & Hn & F1 & F2 & F3 & F4 & F5 & F6 & F7).
    fold (fate_of y1 d false k) in H, Hn, F7. rewrite H. rewrite (same_fate y y1) in * by assumption.
    assert (En : n = frees y d false taken k).
    { rewrite Hn. rewrite <- (same_frees y y1) by assumption. unfold frees. rewrite (same_fate y y1) by assumption. reflexivity. }
    assert (Ey2 : y2 = with_q y1 (y_q y ++ queued y d false k)).
    { destruct y2 as [a1 a2 a3 a4 a5 a6 a7]. cbn in F1, F2, F3, F4, F5, F6, F7. subst. unfold with_q, queued. rewrite <- E5. reflexivity. }
    exists y2. split; [|split; [exact Ey2|split; [exact V2|]]].
    - unfold analysed. rewrite En. destruct (fate_of y d false k) as [| |i|[e|e]]; try reflexivity. destruct (Bool.eqb e d && negb (rtcp k)); reflexivity.
    - unfold analysed. destruct (fate_of y d false k) as [| |i|[e|e]]; try exact V2. destruct (Bool.eqb e d && negb (rtcp k)); [|exact V2].
      apply (inv_streams y2); [exact V2|reflexivity..].
  Qed.
  Lemma rtcp_step y d k empty taken : inv y -> datagram k ->
    let '(y1, v) := let_in y d true k empty in
    match v with
    | LatchModel.Discard => step y (RtcpIn d k empty taken) = (y1, Packet Outside 1) /\ inv y1
    | LatchModel.Accept => step y (RtcpIn d k empty taken) = (y1, Packet (fate_of y d true k) (frees y d true taken k)) /\ inv y1
    end.
  Proof.
    intros V K. destruct (let_in y d true k empty) as [y1 v] eqn:Li. pose proof (let_in_keeps _ _ _ _ _ _ _ Li) as (E1 & E2 & E3 & E4 & E5 & _).
    assert (V1 : inv y1) by (apply (inv_streams y); assumption).
    unfold let_in in Li. unfold IceModel.step. destruct (LatchModel.rx _ _ _ _) as [[s c] v']. injection Li as Ey Ev. subst v'. cbv zeta. rewrite Ey. destruct v; [|auto].
    destruct (handle_does y1 d true taken k V1 K) as (y2 & n & H & V2 & Hn & F1 & F2 & F3 & F4 & F5 & F6 & F7).
    fold (fate_of y1 d true k) in H, Hn, F7. rewrite H. rewrite (same_fate y y1) in * by assumption.
    assert (En : n = frees y d true taken k).
    { rewrite Hn. rewrite <- (same_frees y y1) by assumption. unfold frees. rewrite (same_fate y y1) by assumption. reflexivity. }
    assert (Nq : match fate_of y d true k with Queued i => [mkWork k i d] | _ => [] end = []).
    { unfold fate_of, destiny. destruct (rtcp k && present (agent_of y (negb d))); reflexivity. }
    rewrite Nq, app_nil_r in F7.
    assert (Ey2 : y2 = y1) by (destruct y2, y1; cbn in *; subst; reflexivity). subst y2. rewrite En. auto.
  Qed.

  Lemma inv_step y o : inv y -> possible o -> inv (fst (step y o)).
  Proof.
    intros V P. destruct o as [d args rnd|d k empty chg taken|d k empty taken| |d a b now|d]; cbn [possible] in P.
    - cbn [IceModel.step]. destruct (command pton cand_line y d args rnd) as [y' r] eqn:E. exact (proj1 (command_inv _ _ _ _ _ _ _ _ V E)).
    - pose proof (rtp_step y d k empty chg taken V P) as H. destruct (let_in y d false k empty) as [y1 v]. destruct v.
      + destruct H as (y2 & E & _ & _ & V2). rewrite E. exact V2.
      + destruct H as (E & V1). rewrite E. exact V1.
    - pose proof (rtcp_step y d k empty taken V P) as H. destruct (let_in y d true k empty) as [y1 v]. destruct v; destruct H as (E & V1); rewrite E; exact V1.
    - cbn [IceModel.step]. pose proof (inv_worker y V) as W. destruct (worker mac crc sw y) as [y' r]. exact W.
    - apply (inv_streams y); [exact V|reflexivity..].
    - apply (inv_streams y); [exact V|reflexivity..].
  Qed.
  Lemma inv_fresh s c local : inv (fresh s c local).
  Proof. split; [intros d; destruct d; split; reflexivity|constructor|constructor]. Qed.
  Lemma run_app y l1 l2 : fst (run y (l1 ++ l2)) = fst (run (fst (run y l1)) l2).
  Proof.
    revert y. induction l1 as [|o l1 IH]; intros y; [reflexivity|]. cbn [app IceModel.run]. destruct (step y o) as [y1 x]. specialize (IH y1).
    destruct (run y1 (l1 ++ l2)), (run y1 l1). cbn [fst] in *. rewrite IH. reflexivity.
  Qed.
  Lemma run_one y o : fst (run y [o]) = fst (step y o).
  Proof. cbn [IceModel.run]. destruct (step y o). reflexivity. Qed.
  Lemma inv_run l : forall y, inv y -> Forall possible l -> inv (fst (run y l)).
  Proof.
    induction l as [|o l IH]; intros y V F; [exact V|]. inversion F as [|? ? P F']; subst. pose proof (inv_step y o V P) as V1.
    cbn [IceModel.run]. destruct (step y o) as [y1 x]. specialize (IH y1 V1 F'). destruct (run y1 l). exact IH.
  Qed.
End histories.

(** * Answers of the thread *)
Section replies.
  Context (mac : list Z -> list Z -> list Z) (crc : list Z -> Z) (sw : list Z).
  Context (mac_ok : forall k x, length (mac k x) = 20%nat /\ bytes (mac k x)) (crc_ok : forall x, 0 <= crc x < 2 ^ 32).
  Context (sw_ok : text sw) (sw_len : zlen sw <= 170).

  Lemma reason_text s n : forallb (fun c => (1 <=? c) && (c <? 256)) s = true -> zlen s = n -> n <= 16 -> text s /\ zlen s <= 16.
  Proof.
    intros F L N. split; [|lia]. rewrite forallb_forall in F. split; [|split; [|lia]].
    - apply Forall_forall. intros x X. specialize (F x X). lia.
    - intros X. specialize (F 0 X). lia.
  Qed.
  Lemma reply_says g src b m a : bytes b -> zlen b < 2 ^ 40 -> decode b = Ok m -> address src ->
    msg_method (h_type (m_hdr m)) = 1 -> answers mac g b m a -> says mac crc (g_lpwd g) src m a (reply_of mac crc sw g src m a).
  Proof.
    intros Bb L D As M An. pose proof (read_ok b m Bb L D) as F.
    assert (T : length (h_tid (m_hdr m)) = 12%nat /\ bytes (h_tid (m_hdr m))) by (rewrite (rf_hdr _ _ F); cbn [h_tid]; split; [exact (rf_tid _ _ F)|apply part_bytes; exact Bb]).
    destruct T as (T1 & T2).
    destruct (replies_ok mac crc mac_ok crc_ok (m_hdr m) (g_lpwd g) sw) as (R1 & R2); [rewrite M; lia|assumption..|].
    assert (Er : forall code reason, 0 <= code < 800 -> text reason -> zlen reason <= 16 ->
      says mac crc (g_lpwd g) src m (Refused code reason) (reply_of mac crc sw g src m (Refused code reason))).
    { intros code reason Hc Ht Hl. destruct (R2 code reason Hc Ht Hl) as (b' & r & S1 & S2 & S3 & S4 & S5 & S6 & S7). exists b', r.
      split; [exact S1|]. split; [exact S2|]. split; [exact S3|]. split; [exact S4|]. split; [congruence|]. split; assumption. }
    pose proof (reason_text (B "Bad Request") 11 eq_refl eq_refl ltac:(lia)) as (X1 & X2).
    pose proof (reason_text (B "Unauthorized") 12 eq_refl eq_refl ltac:(lia)) as (X3 & X4).
    pose proof (reason_text (B "Role Conflict") 13 eq_refl eq_refl ltac:(lia)) as (X5 & X6).
    destruct An; [exact (Er 400 _ ltac:(lia) X1 X2)|exact (Er 401 _ ltac:(lia) X3 X4)|exact (Er 400 _ ltac:(lia) X1 X2)|
      exact (Er 401 _ ltac:(lia) X3 X4)|exact (Er 487 _ ltac:(lia) X5 X6)|exact (Er 400 _ ltac:(lia) X1 X2)|].
    destruct (R1 src As) as (b' & r & S1 & S2 & S3 & S4 & S5 & S6 & S7). exists b', r.
    split; [exact S1|]. split; [exact S2|]. split; [exact S3|]. split; [exact S4|]. split; [congruence|]. split; assumption.
  Qed.
  Lemma worker_reply y w q : inv y -> y_q y = w :: q ->
    let g := nth_ag y (w_ag w) in let b := k_bytes (w_pkt w) in
    (snd (worker mac crc sw y) = None /\ (g_local g = None \/ forall m, ~ (decode b = Ok m /\ IceSpec.binding_request b /\ fingerprint_ok crc b m))) \/
    (g_local g <> None /\ exists m a s, snd (worker mac crc sw y) = Some (k_src (w_pkt w), s) /\
       decode b = Ok m /\ IceSpec.binding_request b /\ fingerprint_ok crc b m /\
       answers mac g b m a /\ says mac crc (g_lpwd g) (k_src (w_pkt w)) m a s).
  Proof.
    intros V Q. cbv zeta. set (g := nth_ag y (w_ag w)). assert (G : sound_agent g) by (apply sound_nth; exact V).
    pose proof (i_q y V) as FQ. rewrite Q in FQ. apply Forall_inv in FQ. destruct FQ as ((Bb & L & As) & _).
    unfold worker. rewrite Q. change (nth_ag (with_q y q) (w_ag w)) with g. cbv zeta. set (b := k_bytes (w_pkt w)) in *.
    destruct (g_local g) as [la|] eqn:El; [|left; split; [reflexivity|left; reflexivity]].
    assert (S1 : forall p : agent * option sent, snd (let '(g2, r2) := p in let reply := match r2 with Some s => Some (k_src (w_pkt w), s) | None => None end in
      if negb (g_done g2) && iscompleted g2 then
        let s := LatchModel.with_mode (get (w_side w) (y_rtp (with_q y q))) LatchModel.FORCE_ON in
        let s0 := LatchModel.latch s (k_time (w_pkt w)) (lpkt (w_pkt w)) in
        (put_ag (with_rtp (with_q y q) (set (w_side w) (y_rtp (with_q y q)) s0)) (w_ag w) (with_done g2), reply)
      else (put_ag (with_q y q) (w_ag w) g2, reply)) = match snd p with Some s => Some (k_src (w_pkt w), s) | None => None end).
    { intros [g1 r]. cbv zeta. destruct (negb (g_done g1) && iscompleted g1); reflexivity. }
    cbv zeta in S1. rewrite S1. clear S1. unfold recv_handler. destruct (decode b) as [m|e| |] eqn:D; try (left; split; [reflexivity|right; intros m (X & _); discriminate]).
    pose proof (binding_bytes b m Bb L D) as BB.
    destruct ((msg_method (h_type (m_hdr m)) =? 1) && (msg_class (h_type (m_hdr m)) =? 0)) eqn:Bq.
    2:{ left. split; [reflexivity|]. right. intros m' (D' & Br & _). injection D' as <-. apply BB in Br. lia. }
    assert (Br : IceSpec.binding_request b) by (apply BB; lia).
    pose proof (stund_is mac crc g (k_src (w_pkt w)) b m Bb L D (proj1 G)) as St.
    destruct (stund_recv mac crc g (k_src (w_pkt w)) b m) as [g1 a1]. cbn [fst snd] in St |- *.
    destruct St as [(Nf & [= -> ->])|(Ff & a & An & Ea & _)].
    - left. split; [reflexivity|]. right. intros m' (D' & _ & F'). injection D' as <-. contradiction.
    - right. split; [discriminate|]. exists m, a, (reply_of mac crc sw g (k_src (w_pkt w)) m a). rewrite Ea.
      repeat (split; [first [reflexivity|assumption]|]). apply (reply_says g (k_src (w_pkt w)) b); try assumption. lia.
  Qed.
End replies.

(** * Completion *)
Section completion.
  Context (mac : list Z -> list Z -> list Z) (crc : list Z -> Z) (sw : list Z) (pton : list Z -> option sa) (cand_line : sa -> list Z).
  Notation step := (IceModel.step mac crc sw pton cand_line).
  Notation run := (IceModel.run mac crc sw pton cand_line).

  Lemma analysed_keeps y d k chg y1 : y_crtp (analysed y d k chg y1) = y_crtp y1 /\ y_crtcp (analysed y d k chg y1) = y_crtcp y1 /\
    y_ag (analysed y d k chg y1) = y_ag y1 /\ y_q (analysed y d k chg y1) = y_q y1 /\ y_local (analysed y d k chg y1) = y_local y1 /\
    y_rtcp (analysed y d k chg y1) = y_rtcp y1 /\ get (negb d) (y_rtp (analysed y d k chg y1)) = get (negb d) (y_rtp y1).
  Proof.
    unfold analysed. destruct (fate_of y d false k) as [| |i|[e|e]]; auto 10. destruct (Bool.eqb e d && negb (rtcp k)); cbn; rewrite ?get_negb; auto 10.
  Qed.
  (** Packets, addresses and locks leave the agents and their chains. *)
  Lemma other_steps y o : inv y -> possible o -> (forall d args rnd, o <> Command d args rnd) -> o <> Work ->
    y_ag (fst (step y o)) = y_ag y /\ y_crtp (fst (step y o)) = y_crtp y /\ y_crtcp (fst (step y o)) = y_crtcp y /\ y_local (fst (step y o)) = y_local y.
  Proof.
    intros V P N1 N2. destruct o as [d args rnd|d k empty chg taken|d k empty taken| |d a b now|d]; cbn [possible] in P.
    - exfalso. exact (N1 d args rnd eq_refl).
    - pose proof (rtp_step mac crc sw pton cand_line y d k empty chg taken V P) as H. destruct (let_in y d false k empty) as [y1 v] eqn:Li.
      pose proof (let_in_keeps _ _ _ _ _ _ _ Li) as (E1 & E2 & E3 & E4 & E5 & _). destruct v.
      + destruct H as (y2 & -> & -> & _). cbn [fst]. destruct (analysed_keeps y d k chg (with_q y1 (y_q y ++ queued y d false k))) as (K1 & K2 & K3 & K4 & K5 & _).
        rewrite K1, K2, K3, K5. cbn. auto.
      + destruct H as (-> & _). cbn [fst]. auto.
    - pose proof (rtcp_step mac crc sw pton cand_line y d k empty taken V P) as H. destruct (let_in y d true k empty) as [y1 v] eqn:Li.
      pose proof (let_in_keeps _ _ _ _ _ _ _ Li) as (E1 & E2 & E3 & E4 & E5 & _). destruct v; destruct H as (-> & _); cbn [fst]; auto.
    - congruence.
    - cbn. auto.
    - cbn. auto.
  Qed.
  Lemma command_done y d args rnd i : inv y -> done (fst (command pton cand_line y d args rnd)) i = done y i.
  Proof.
    intros V. destruct (command pton cand_line y d args rnd) as [y' r] eqn:E. cbn [fst].
    destruct (command_outcome pton cand_line _ _ _ _ _ _ V E) as [|j l1 l3 P A -> ->|c j g r P A T|c ul pl y1 g r P A Cl H1 H2 Ac T]; try reflexivity.
    - apply told_core in T as (Co & _). unfold done. rewrite nth_put. destruct (Nat.eqb_spec j i) as [->|]; cbn [andb]; [|reflexivity].
      destruct (i <? length (y_ag y))%nat; [apply Co|reflexivity].
    - apply told_core in T as (Co & _). destruct (created_inv y _ ul pl rnd y1 g V A H1 H2 Ac Co) as (_ & _ & _ & _ & N). unfold done. rewrite N.
      destruct (Nat.eqb_spec i (length (y_ag y))) as [->|]; [|reflexivity]. destruct Co as (_ & _ & _ & _ & _ & ->). unfold nth_ag. rewrite nth_overflow by lia. reflexivity.
  Qed.
  Definition nominated (y : sys) (i : nat) : Prop :=
    exists w q, y_q y = w :: q /\ w_ag w = i /\ nominates mac crc (nth_ag y i) (w_pkt w).
  Lemma step_done y o i : inv y -> possible o -> (done (fst (step y o)) i = true <-> done y i = true \/ (o = Work /\ nominated y i)).
  Proof.
    intros V P. destruct (y_q y) as [|w q] eqn:Q.
    - assert (E : done (fst (step y o)) i = done y i).
      { destruct o as [d args rnd| | | | |]; try (unfold done, nth_ag; rewrite (proj1 (other_steps y _ V P ltac:(discriminate) ltac:(discriminate))); reflexivity).
        - cbn [IceModel.step]. pose proof (command_done y d args rnd i V) as C. destruct (command pton cand_line y d args rnd). exact C.
        - cbn [IceModel.step]. unfold worker. rewrite Q. reflexivity. }
      rewrite E. split; [auto|]. intros [X|(_ & w & q & X & _)]; [exact X|congruence].
    - assert (D : o = Work \/ o <> Work) by (destruct o; auto; right; discriminate). destruct D as [->|D].
      + cbn [IceModel.step]. destruct (worker_is mac crc sw y w q V Q) as (g' & E & _ & _ & _ & _ & _ & _ & _ & Dn & _).
        destruct (worker mac crc sw y) as [y' r]. cbn [fst] in E |- *. subst y'.
        match goal with |- context [put_ag ?t (w_ag w) g'] => set (y2 := t) end.
        assert (Ey : y_ag y2 = y_ag y) by (unfold y2; destruct (negb _ && _); reflexivity). clearbody y2.
        pose proof (i_q y V) as FQ. rewrite Q in FQ. apply Forall_inv in FQ. destruct FQ as (_ & Hlt & _).
        unfold done. rewrite nth_put, Ey. destruct (Nat.eqb_spec (w_ag w) i) as [<-|N]; cbn [andb].
        * destruct (Nat.ltb_spec (w_ag w) (length (y_ag y))); [|lia]. rewrite Dn. split.
          -- intros [X|X]; [auto|]. right. split; [reflexivity|]. exists w, q. auto.
          -- intros [X|(_ & w' & q' & Q' & _ & X)]; [auto|]. rewrite Q in Q'. injection Q' as <- <-. auto.
        * rewrite (nth_same y y2 i Ey). split; [auto|]. intros [X|(_ & w' & q' & Q' & A' & _)]; [exact X|]. rewrite Q in Q'. injection Q' as <- <-. contradiction.
      + assert (E : done (fst (step y o)) i = done y i).
        { destruct o as [d args rnd| | | | |]; try congruence; try (unfold done, nth_ag; rewrite (proj1 (other_steps y _ V P ltac:(discriminate) ltac:(discriminate))); reflexivity).
          cbn [IceModel.step]. pose proof (command_done y d args rnd i V) as C. destruct (command pton cand_line y d args rnd). exact C. }
        rewrite E. split; [auto|]. intros [X|(X & _)]; [exact X|contradiction].
  Qed.
  Lemma completed_iff_nominated s c local ops i : Forall possible ops ->
    (done (fst (run (fresh s c local) ops)) i = true <->
     exists pre post, ops = pre ++ Work :: post /\ nominated (fst (run (fresh s c local) pre)) i).
  Proof.
    induction ops as [|o ops IH] using rev_ind; intros F.
    - cbn. unfold done, nth_ag. cbn. split; [destruct i; discriminate|]. intros (pre & post & E & _). destruct pre; discriminate.
    - apply Forall_app in F as (F & Fo). apply Forall_inv in Fo. specialize (IH F).
      assert (V : inv (fst (run (fresh s c local) ops))) by (apply inv_run; [apply inv_fresh|exact F]).
      rewrite run_app, run_one, (step_done _ _ _ V Fo), IH. split.
      + intros [(pre & post & -> & N)|(-> & N)].
        * exists pre, (post ++ [o]). rewrite <- app_assoc. auto.
        * exists ops, []. auto.
      + intros (pre & post & E & N). destruct post as [|x post _] using rev_ind.
        * apply app_inj_tail in E as (-> & ->). auto.
        * left. exists pre, post. rewrite app_comm_cons, app_assoc in E. apply app_inj_tail in E as (-> & _). auto.
  Qed.
  Lemma unauthentic y w q : inv y -> y_q y = w :: q -> (forall m, ~ authentic mac crc (nth_ag y (w_ag w)) (k_bytes (w_pkt w)) m) ->
    fst (worker mac crc sw y) = with_q y q.
  Proof.
    intros V Q N. destruct (worker_is mac crc sw y w q V Q) as (g' & E & _ & _ & _ & _ & _ & _ & _ & _ & Eg). rewrite E, (Eg N).
    rewrite Bool.andb_comm, Bool.andb_negb_r. exact (put_id (with_q y q) (w_ag w)).
  Qed.

  (** * One side *)
  Lemma command_side y d args rnd y' r : inv y -> command pton cand_line y d args rnd = (y', r) ->
    same_side (negb (acted args d)) y y' /\ y_rtcp y' = y_rtcp y /\ y_q y' = y_q y /\ y_local y' = y_local y.
  Proof.
    intros V E. pose proof (command_outcome pton cand_line _ _ _ _ _ _ V E) as Out.
    remember (acted args d) as e eqn:He. unfold same_side. rewrite Bool.negb_involutive.
    assert (Other : forall i j, agent_of y e = Some i -> agent_of y (negb e) = Some j -> i <> j).
    { intros i j Ai Aj ->. pose proof (i_chain y V e) as C. rewrite Ai in C. destruct C as (_ & _ & _ & C).
      pose proof (i_chain y V (negb e)) as C'. rewrite Aj in C'. destruct C' as (_ & _ & _ & C'). rewrite C in C'. destruct e; discriminate. }
    destruct Out as [|i l1 l3 P A -> ->|c i g r P A T|c ul pl y1 g r P A Cl H1 H2 Ac T]; rewrite <- ?He in *.
    - auto 10.
    - cbn. rewrite ?get_negb, ?get_negb'. auto 10.
    - cbn [put_ag with_ag y_rtp y_crtp y_crtcp y_rtcp y_q y_local]. split; [|auto]. split; [reflexivity|]. split; [reflexivity|]. split; [reflexivity|].
      intros j Aj. etransitivity; [|symmetry; apply nth_put].
      destruct (Nat.eqb_spec i j) as [->|]; [exfalso; exact (Other j j A Aj eq_refl)|reflexivity].
    - destruct (activate_is y e ul pl rnd V A H1 H2) as (y2 & E2 & Ag & Er & El & Eq & Es & C & C1 & C2). rewrite Ac in E2. injection E2 as <-.
      apply told_core in T as (Co & _). destruct (created_inv y e ul pl rnd y1 g V A H1 H2 Ac Co) as (_ & _ & _ & _ & N).
      cbn [put_ag with_ag y_rtp y_crtp y_crtcp y_rtcp y_q y_local]. split; [|auto]. split; [rewrite Es, get_negb; reflexivity|].
      split; [symmetry; exact C1|]. split; [symmetry; exact C2|]. intros j Aj. pose proof (i_chain y V (negb e)) as C'. rewrite Aj in C'. destruct C' as (_ & _ & C' & _).
      specialize (N j). cbn [y_ag] in N. etransitivity; [|symmetry; exact N]. destruct (Nat.eqb_spec j (length (y_ag y))); [lia|reflexivity].
  Qed.
  Lemma removal y d args rnd y' r : inv y -> parse args = Some RIL_D \/ parse args = Some RIL_U -> command pton cand_line y d args rnd = (y', r) ->
    match agent_of y (acted args d) with
    | None => r = CFail /\ y' = y
    | Some _ => r = COk [] /\ agent_of y' (acted args d) = None /\ chain y' (Rtp (acted args d)) = [] /\ chain y' (Rtcp (negb (acted args d))) = [] /\
                get (acted args d) (y_rtp y') = LatchModel.with_mode (get (acted args d) (y_rtp y)) LatchModel.NORMAL
    end.
  Proof.
    intros V P E. unfold command in E. set (e := acted args d) in *.
    assert (Ea : forall c, parse args = Some c -> (match c with RIL_A | RIL_C | RIL_D => d | RIL_S | RIL_U => negb d end) = e)
      by (intros c Pc; unfold e, acted; rewrite Pc; destruct c; reflexivity).
    assert (E' : (match agent_of y e with None => (y, CFail) | Some i => remove y e i end) = (y', r)).
    { destruct P as [P|P]; rewrite P in E; rewrite (Ea _ P) in E; exact E. }
    clear E. destruct (agent_of y e) as [i|] eqn:A; [|injection E' as <- <-; auto].
    rewrite (remove_is y e i V A) in E'. injection E' as <- <-. unfold agent_of. cbn. rewrite !get_set. cbn. auto 10.
  Qed.
End completion.

(** * Addresses *)
Lemma fill0_mode s p : LatchModel.l_mode (LatchModel.fill_addr0 s p) = LatchModel.l_mode s. Proof. reflexivity. Qed.
Lemma latch_mode s now p : LatchModel.l_mode (LatchModel.latch s now p) = LatchModel.l_mode s.
Proof.
  unfold LatchModel.latch. destruct (LatchModel.l_mode s) eqn:M; try exact M; (destruct (_ && _); [exact M|]);
    destruct (LatchModel.l_pipe s), (LatchModel.p_rtp p) as [[? ?]|]; exact M.
Qed.
Lemma sync_mode s now p : LatchModel.l_mode (LatchModel.latch_sync s now p) = LatchModel.l_mode s.
Proof.
  unfold LatchModel.latch_sync. destruct (LatchModel.l_pipe s), (LatchModel.l_ssrc s); try reflexivity.
  destruct (_ <? _); [reflexivity|]. destruct (LatchModel.p_rtp p) as [[? ?]|]; [|reflexivity]. destruct (negb _); reflexivity.
Qed.
Lemma override_mode s now p s' : LatchModel.override s now p = Some s' -> LatchModel.l_mode s' = LatchModel.l_mode s.
Proof.
  unfold LatchModel.override. destruct (LatchModel.l_pipe s), (LatchModel.l_ssrc s); try discriminate.
  destruct (LatchModel.l_mode s) eqn:M; try discriminate; (destruct (LatchModel.p_rtp p) as [[? ?]|]; [|discriminate]; destruct (_ && _); [discriminate|]; intros E; apply some_inj in E; subst s'; exact M).
Qed.
Lemma rx_mode s c empty p : LatchModel.l_mode (fst (fst (LatchModel.rx s c empty p))) = LatchModel.l_mode s.
Proof.
  unfold LatchModel.rx. destruct (LatchModel.l_mode s) eqn:M; try exact M;
    (destruct (LatchModel.l_rem s) as [a|]; [destruct empty; [|destruct (negb (LatchModel.l_asym s)); [destruct (negb (LatchModel.sa_eqb a (LatchModel.p_from p)));
       [destruct (LatchModel.l_latched s); [destruct (LatchModel.override s (LatchModel.p_time p) p) as [s1|] eqn:Ov|]|destruct (negb (LatchModel.l_latched s))]|destruct (ishostseq a (LatchModel.p_from p)) as [[|]|]]]|]);
    unfold LatchModel.fill_addr; cbn [fst]; rewrite ?sync_mode, ?fill0_mode, ?latch_mode; try exact M;
    rewrite (override_mode _ _ _ _ Ov); exact M.
Qed.
Lemma analyze_mode s chg p : LatchModel.l_mode (LatchModel.analyze s chg p) = LatchModel.l_mode s.
Proof. unfold LatchModel.analyze. destruct (LatchModel.p_rtp p); [|reflexivity]. destruct (LatchModel.l_mode s) eqn:M; try exact M; destruct chg; rewrite ?latch_mode; exact M. Qed.
Lemma prefill_mode s a now : LatchModel.l_mode (LatchModel.prefill s a now) = LatchModel.l_mode s.
Proof.
  unfold LatchModel.prefill. cbv zeta. destruct (LatchModel.l_untrusted s); [reflexivity|]. destruct (LatchModel.l_rem s) as [r|]; [|reflexivity].
  destruct (match isaddrseq r a with Some b => b | None => false end); reflexivity.
Qed.
(** An address that only its owner can make the stream leave. *)
Definition settled (s : LatchModel.stream) (a : sockaddr) : Prop :=
  LatchModel.l_mode s = LatchModel.FORCE_ON /\ LatchModel.l_rem s = Some a /\ LatchModel.l_latched s = true /\ LatchModel.l_untrusted s = true.
Lemma settled_sync s a now p : settled s a -> settled (LatchModel.latch_sync s now p) a.
Proof.
  intros H. unfold LatchModel.latch_sync. destruct (LatchModel.l_pipe s), (LatchModel.l_ssrc s); try exact H.
  destruct (_ <? _); [exact H|]. destruct (LatchModel.p_rtp p) as [[? ?]|]; [|exact H]. destruct (negb _); exact H.
Qed.
Lemma sa_eqb_eq a b : LatchModel.sa_eqb a b = true <-> a = b.
Proof.
  destruct a, b; cbn; try (split; [discriminate|congruence]).
  - rewrite Bool.andb_true_iff, !Z.eqb_eq. split; [intros (-> & ->); reflexivity|intros [= -> ->]; auto].
  - rewrite Bool.andb_true_iff, Z.eqb_eq, bytes_eqb_eq. split; [intros (-> & ->); reflexivity|intros [= -> ->]; auto].
  - rewrite Z.eqb_eq. split; congruence.
Qed.
Lemma settled_rx s c p a : settled s a -> let '(s', _, v) := LatchModel.rx s c false p in settled s' a /\
  (LatchModel.l_asym s = false -> LatchModel.p_from p <> a -> v = LatchModel.Discard).
Proof.
  intros H. pose proof H as (M & R & L & U). unfold LatchModel.rx. rewrite M, R. destruct (LatchModel.l_asym s); cbn [negb].
  - destruct (ishostseq a (LatchModel.p_from p)) as [[|]|]; cbn; (split; [try apply settled_sync; exact H|discriminate]).
  - destruct (LatchModel.sa_eqb a (LatchModel.p_from p)) eqn:Q; cbn [negb].
    + rewrite L. cbn. split; [apply settled_sync; exact H|]. intros _ N. apply sa_eqb_eq in Q. congruence.
    + rewrite L. assert (O : LatchModel.override s (LatchModel.p_time p) p = None).
      { unfold LatchModel.override. rewrite M. destruct (LatchModel.l_pipe s), (LatchModel.l_ssrc s); reflexivity. }
      rewrite O. cbn. auto.
Qed.
Lemma settled_analyze s a chg p : settled s a -> settled (LatchModel.analyze s chg p) a.
Proof. intros H. pose proof H as (M & _). unfold LatchModel.analyze. rewrite M. destruct (LatchModel.p_rtp p); exact H. Qed.
Lemma settled_prefill s a b now : settled s a -> settled (LatchModel.prefill s b now) a.
Proof. intros (M & R & L & U). unfold LatchModel.prefill. rewrite U. repeat split; assumption. Qed.
Lemma settled_now s p : LatchModel.l_prev s <> Some (LatchModel.p_from p) \/ LatchModel.l_latched s = true ->
  settled (LatchModel.latch (LatchModel.with_mode s LatchModel.FORCE_ON) (LatchModel.p_time p) p) (LatchModel.p_from p).
Proof.
  intros H. unfold LatchModel.latch. cbn [LatchModel.with_mode LatchModel.l_mode]. split; [reflexivity|]. split; [reflexivity|]. split; [|reflexivity].
  cbn. destruct (LatchModel.l_prev s) as [b|]; [|reflexivity]. destruct (LatchModel.sa_eqb b (LatchModel.p_from p)) eqn:Q; cbn; [|reflexivity].
  apply sa_eqb_eq in Q. subst b. destruct H as [H|H]; [contradiction|exact H].
Qed.

Section addresses.
  Context (mac : list Z -> list Z -> list Z) (crc : list Z -> Z) (sw : list Z) (pton : list Z -> option sa) (cand_line : sa -> list Z).
  Notation step := (IceModel.step mac crc sw pton cand_line).
  Notation run := (IceModel.run mac crc sw pton cand_line).
  Definition mode (y : sys) (d : bool) := LatchModel.l_mode (get d (y_rtp y)).
  Definition owned (y : sys) : Prop := forall j, (j < length (y_ag y))%nat ->
    agent_of y (g_side (nth_ag y j)) = Some j /\ (done y j = false -> mode y (g_side (nth_ag y j)) = LatchModel.FORCE_OFF).

  Lemma get_two {A} (P : A -> Prop) d (t : two A) x e : (e = d -> P x) -> (e <> d -> P (get e t)) -> P (get e (set d t x)).
  Proof. destruct d, e; cbn; intros H1 H2; auto; try (apply H2; discriminate). Qed.
  Lemma other_modes y o e : inv y -> possible o -> (forall d args rnd, o <> Command d args rnd) -> o <> Work -> mode (fst (step y o)) e = mode y e.
  Proof.
    intros V P N1 N2. unfold mode. destruct o as [d args rnd|d k empty chg taken|d k empty taken| |d a b now|d]; cbn [possible] in P.
    - exfalso. exact (N1 d args rnd eq_refl).
    - pose proof (rtp_step mac crc sw pton cand_line y d k empty chg taken V P) as H. destruct (let_in y d false k empty) as [y1 v] eqn:Li.
      assert (M1 : forall e, LatchModel.l_mode (get e (y_rtp y1)) = LatchModel.l_mode (get e (y_rtp y))).
      { intros e'. unfold let_in in Li. pose proof (rx_mode (get d (y_rtp y)) (Some (get d (y_rtcp y))) empty (lpkt k)) as R.
        destruct (LatchModel.rx _ _ _ _) as [[s c] v']. cbn [fst] in R.
        assert (E1 : y_rtp y1 = set d (y_rtp y) s) by (destruct c; injection Li as <- _; reflexivity). rewrite E1. 
        apply (get_two (fun s => LatchModel.l_mode s = LatchModel.l_mode (get e' (y_rtp y)))); [intros ->; exact R|reflexivity]. }
      destruct v.
      + destruct H as (y2 & -> & -> & _). cbn [fst]. unfold analysed. destruct (fate_of y d false k) as [| |i|[f|f]]; try apply M1.
        destruct (Bool.eqb f d && negb (rtcp k)); [|apply M1]. cbn [with_rtp y_rtp with_q].
        apply (get_two (fun s => LatchModel.l_mode s = LatchModel.l_mode (get e (y_rtp y)))); [intros ->; rewrite analyze_mode|intros _]; apply M1.
      + destruct H as (-> & _). apply M1.
    - pose proof (rtcp_step mac crc sw pton cand_line y d k empty taken V P) as H. destruct (let_in y d true k empty) as [y1 v] eqn:Li.
      assert (E1 : y_rtp y1 = y_rtp y). { unfold let_in in Li. destruct (LatchModel.rx _ _ _ _) as [[s c] v']. injection Li as <- _. reflexivity. }
      destruct v; destruct H as (-> & _); cbn [fst]; rewrite E1; reflexivity.
    - congruence.
    - cbn [IceModel.step fst with_rtcp with_rtp y_rtp].
      apply (get_two (fun s => LatchModel.l_mode s = LatchModel.l_mode (get e (y_rtp y)))); [intros ->; apply prefill_mode|reflexivity].
    - cbn [IceModel.step fst with_rtcp with_rtp y_rtp].
      apply (get_two (fun s => LatchModel.l_mode s = LatchModel.l_mode (get e (y_rtp y)))); [intros ->; reflexivity|reflexivity].
  Qed.
  Lemma owned_side y i j : owned y -> (i < length (y_ag y))%nat -> (j < length (y_ag y))%nat -> g_side (nth_ag y i) = g_side (nth_ag y j) -> i = j.
  Proof. intros W Hi Hj E. destruct (W i Hi) as (A & _), (W j Hj) as (A' & _). rewrite E in A. congruence. Qed.
  Lemma same_agents y y' : y_crtp y' = y_crtp y -> forall d, agent_of y' d = agent_of y d.
  Proof. intros E d. unfold agent_of. rewrite E. reflexivity. Qed.
  Lemma owned_same y y' : owned y -> y_ag y' = y_ag y -> y_crtp y' = y_crtp y -> (forall d, mode y' d = mode y d) -> owned y'.
  Proof.
    intros W E1 E2 M j Hj. rewrite E1 in Hj. destruct (W j Hj) as (A & D). rewrite (nth_same y y' j E1). rewrite (same_agents y y' E2), M.
    split; [exact A|]. unfold done. rewrite (nth_same y y' j E1). exact D.
  Qed.
  Lemma owned_put y i g : owned y -> g_side g = g_side (nth_ag y i) -> (g_done g = false -> done y i = false) -> owned (put_ag y i g).
  Proof.
    intros W S D j Hj. rewrite len_put in Hj. destruct (W j Hj) as (A & F). unfold done. rewrite nth_put.
    change (agent_of (put_ag y i g)) with (agent_of y). change (mode (put_ag y i g)) with (mode y).
    destruct (Nat.eqb_spec i j) as [->|N]; cbn [andb].
    - destruct (Nat.ltb_spec j (length (y_ag y))); [|lia]. rewrite S. split; [exact A|]. intros H0. exact (F (D H0)).
    - split; [exact A|exact F].
  Qed.
  Lemma owned_step y o : inv y -> owned y -> possible o -> ~ gives_up o -> owned (fst (step y o)).
  Proof.
    intros V W P G.
    assert (Plain : (forall d args rnd, o <> Command d args rnd) -> o <> Work -> owned (fst (step y o))).
    { intros N1 N2. destruct (other_steps mac crc sw pton cand_line y o V P N1 N2) as (E1 & E2 & _). apply (owned_same y); auto. intros d. apply other_modes; assumption. }
    destruct o as [d args rnd|d k empty chg taken|d k empty taken| |d a b now|d]; try (apply Plain; discriminate).
    - cbn [IceModel.step]. destruct (command pton cand_line y d args rnd) as [y' r] eqn:E. cbn [fst].
      destruct (command_outcome pton cand_line _ _ _ _ _ _ V E) as [|j l1 l3 P' A -> ->|c j g r P' A T|c ul pl y1 g r P' A Cl H1 H2 Ac T]; [exact W| | |].
      + exfalso. exact (G P').
      + apply told_core in T as (Co & _). apply owned_put; [exact W|apply Co|]. intros H. unfold done. destruct Co as (_ & _ & _ & _ & _ & <-). exact H.
      + apply told_core in T as (Co & _). destruct (activate_is y _ ul pl rnd V A H1 H2) as (y2 & E2 & Ag & Er & El & Eq & Es & C & C1 & C2). rewrite Ac in E2. injection E2 as <-.
        destruct (created_inv y _ ul pl rnd y1 g V A H1 H2 Ac Co) as (V1 & V2 & Nn & An & N). set (e := acted args d) in *. intros j Hj.
        unfold done. rewrite N. rewrite len_put, Ag, app_length in Hj. cbn [length] in Hj.
        change (mode (put_ag y1 (length (y_ag y)) g)) with (mode y1).
        destruct (Nat.eqb_spec j (length (y_ag y))) as [->|Nj].
        * rewrite (proj1 Co). cbn [new_agent g_side]. split; [exact An|]. intros _. unfold mode. rewrite Es, get_set. reflexivity.
        * destruct (W j ltac:(lia)) as (A' & F). assert (Sd : g_side (nth_ag y j) = negb e).
          { destruct (g_side (nth_ag y j)), e; try reflexivity; congruence. }
          rewrite Sd in *. change (agent_of (put_ag y1 (length (y_ag y)) g) (negb e)) with (agent_of y1 (negb e)).
          split; [unfold agent_of; rewrite C1; exact A'|]. intros D. unfold mode. rewrite Es, get_negb. exact (F D).
    - cbn [IceModel.step]. destruct (y_q y) as [|w q] eqn:Q; [unfold worker; rewrite Q; exact W|].
      destruct (worker_is mac crc sw y w q V Q) as (g' & E & _ & Sd & _ & _ & _ & _ & _ & Dn & _). destruct (worker mac crc sw y) as [y' r]. cbn [fst] in *. subst y'.
      pose proof (i_q y V) as FQ. rewrite Q in FQ. apply Forall_inv in FQ. destruct FQ as (_ & Hlt & Hs).
      assert (Wq : owned (with_q y q)) by (apply (owned_same y); auto).
      destruct (negb (g_done (nth_ag y (w_ag w))) && g_done g') eqn:Tr.
      + apply andb_prop in Tr as (_ & D'). intros j Hj. rewrite len_put in Hj. cbn [with_rtp with_q y_ag] in Hj.
        destruct (W j Hj) as (A & F). unfold done. rewrite nth_put. cbn [with_rtp with_q y_ag].
        change (agent_of (put_ag _ _ _)) with (agent_of y).
        destruct (Nat.eqb_spec (w_ag w) j) as [<-|N]; cbn [andb].
        * destruct (Nat.ltb_spec (w_ag w) (length (y_ag y))); [|lia]. rewrite Sd. split; [exact A|congruence].
        * change (nth_ag (with_rtp _ _) j) with (nth_ag y j). split; [exact A|]. intros D. unfold mode. cbn [put_ag with_ag with_rtp with_q y_rtp].
          rewrite get_set_other; [exact (F D)|]. rewrite Hs. intros X. apply N. symmetry. exact (owned_side y j (w_ag w) W Hj Hlt X).
      + apply owned_put; [exact Wq|exact Sd|]. intros D. unfold done. change (nth_ag (with_q y q) (w_ag w)) with (nth_ag y (w_ag w)).
        destruct (g_done (nth_ag y (w_ag w))) eqn:D0; [|reflexivity]. exfalso. assert (X : g_done g' = true) by (apply Dn; left; reflexivity). congruence.
  Qed.
  Lemma owned_run l : forall y, inv y -> owned y -> Forall possible l -> Forall (fun o => ~ gives_up o) l -> owned (fst (run y l)).
  Proof.
    induction l as [|o l IH]; intros y V W P G; [exact W|]. inversion P as [|? ? P1 P2]; inversion G as [|? ? G1 G2]; subst.
    change (o :: l) with ([o] ++ l). rewrite run_app, run_one. apply IH; auto; [apply inv_step; assumption|apply owned_step; assumption].
  Qed.
  Lemma owned_fresh s c local : owned (fresh s c local). Proof. intros j H. cbn in H. lia. Qed.

  Definition rests (y : sys) (i : nat) (d : bool) (a : sockaddr) : Prop :=
    (i < length (y_ag y))%nat /\ g_side (nth_ag y i) = d /\ done y i = true /\ settled (get d (y_rtp y)) a.
  Lemma rests_step y o i d a : inv y -> owned y -> possible o -> ~ gives_up o -> locked o -> rests y i d a -> rests (fst (step y o)) i d a.
  Proof.
    intros V W P G L (Hi & Sd & D & St).
    destruct o as [e args rnd|e k empty chg taken|e k empty taken| |e b b' now|e].
    - cbn [IceModel.step]. pose proof (command_done mac crc sw pton cand_line y e args rnd i V) as Cd. destruct (command pton cand_line y e args rnd) as [y' r] eqn:E. cbn [fst] in *.
      destruct (command_outcome pton cand_line _ _ _ _ _ _ V E) as [|j l1 l3 P' A -> ->|c j g r P' A T|c ul pl y1 g r P' A Cl H1 H2 Ac T].
      + repeat split; auto; apply St.
      + exfalso. exact (G P').
      + apply told_core in T as (Co & _). split; [rewrite len_put; exact Hi|]. split; [|split; [rewrite Cd; exact D|exact St]].
        rewrite nth_put. destruct (Nat.eqb_spec j i) as [->|]; cbn [andb]; [|exact Sd]. destruct (_ <? _)%nat; [rewrite (proj1 Co); exact Sd|exact Sd].
      + apply told_core in T as (Co & _). destruct (activate_is y _ ul pl rnd V A H1 H2) as (y2 & E2 & Ag & Er & El & Eq & Es & C & C1 & C2). rewrite Ac in E2. injection E2 as <-.
        destruct (created_inv y _ ul pl rnd y1 g V A H1 H2 Ac Co) as (V1 & V2 & Nn & An & N).
        split; [rewrite len_put, Ag, app_length; lia|]. split; [rewrite N; destruct (Nat.eqb_spec i (length (y_ag y))); [lia|exact Sd]|].
        split; [rewrite Cd; exact D|]. cbn [put_ag with_ag y_rtp]. rewrite Es. rewrite get_set_other; [exact St|].
        destruct (W i Hi) as (A' & _). rewrite Sd in A'. congruence.
    - cbn [possible locked] in P, L. subst empty. pose proof (rtp_step mac crc sw pton cand_line y e k false chg taken V P) as H.
      destruct (other_steps mac crc sw pton cand_line y (RtpIn e k false chg taken) V P ltac:(discriminate) ltac:(discriminate)) as (E1 & E2 & _).
      split; [rewrite E1; exact Hi|]. split; [rewrite (nth_same y _ i E1); exact Sd|]. split; [unfold done; rewrite (nth_same y _ i E1); exact D|]. clear E1 E2.
      destruct (let_in y e false k false) as [y1 v] eqn:Li.
      assert (S1 : settled (get d (y_rtp y1)) a).
      { unfold let_in in Li. pose proof (settled_rx (get d (y_rtp y)) (Some (get d (y_rtcp y))) (lpkt k) a St) as R.
        destruct (Bool.bool_dec e d) as [->|N].
        - destruct (LatchModel.rx _ _ _ _) as [[s c] v']. assert (E1 : y_rtp y1 = set d (y_rtp y) s) by (destruct c; injection Li as <- _; reflexivity).
          rewrite E1, get_set. exact (proj1 R).
        - clear R. destruct (LatchModel.rx _ _ _ _) as [[s c] v']. assert (E1 : y_rtp y1 = set e (y_rtp y) s) by (destruct c; injection Li as <- _; reflexivity).
          rewrite E1, get_set_other by congruence. exact St. }
      destruct v.
      + destruct H as (y2 & -> & -> & _). cbn [fst]. unfold analysed. destruct (fate_of y e false k) as [| |x|[f|f]]; try exact S1.
        destruct (Bool.eqb f e && negb (rtcp k)); [|exact S1]. cbn [with_rtp y_rtp with_q].
        apply (get_two (fun s => settled s a)); [intros ->; apply settled_analyze; exact S1|intros _; exact S1].
      + destruct H as (-> & _). exact S1.
    - cbn [possible] in P. pose proof (rtcp_step mac crc sw pton cand_line y e k empty taken V P) as H. destruct (let_in y e true k empty) as [y1 v] eqn:Li.
      assert (E1 : y_rtp y1 = y_rtp y /\ y_ag y1 = y_ag y). { unfold let_in in Li. destruct (LatchModel.rx _ _ _ _) as [[s c] v']. injection Li as <- _. split; reflexivity. }
      destruct E1 as (E1 & E2). unfold rests, done. destruct v; destruct H as (-> & _); cbn [fst]; rewrite E1, E2, (nth_same y y1 i E2); auto.
    - cbn [IceModel.step]. destruct (y_q y) as [|w q] eqn:Q; [unfold worker; rewrite Q; cbn; unfold rests; auto|].
      pose proof (step_done mac crc sw pton cand_line y Work i V Logic.I) as SD. cbn [IceModel.step] in SD.
      destruct (worker_is mac crc sw y w q V Q) as (g' & E & _ & Sd' & _ & _ & _ & _ & _ & Dn & _). destruct (worker mac crc sw y) as [y' r]. cbn [fst] in *.
      pose proof (i_q y V) as FQ. rewrite Q in FQ. apply Forall_inv in FQ. destruct FQ as (_ & Hlt & Hs).
      assert (Nth : g_side (nth_ag y' i) = d).
      { subst y'. rewrite nth_put. destruct (Nat.eqb_spec (w_ag w) i) as [Z1|Z1]; cbn [andb]; [|destruct (negb _ && _); exact Sd].
        destruct (_ <? _)%nat; [rewrite Sd', Z1; exact Sd|destruct (negb _ && _); exact Sd]. }
      split; [subst y'; rewrite len_put; destruct (negb _ && _); exact Hi|]. split; [exact Nth|]. split; [apply SD; left; exact D|].
      subst y'. cbn [put_ag with_ag y_rtp]. destruct (negb (g_done (nth_ag y (w_ag w))) && g_done g') eqn:Tr; [|exact St].
      apply andb_prop in Tr as (Tr & _). cbn [with_rtp y_rtp]. rewrite get_set_other; [exact St|]. intros X. 
      assert (X2 : i = w_ag w) by (apply (owned_side y i (w_ag w) W Hi Hlt); rewrite Sd, X; exact Hs). rewrite <- X2 in Tr. unfold done in D. rewrite D in Tr. discriminate.
    - split; [exact Hi|]. split; [exact Sd|]. split; [exact D|]. cbn [IceModel.step fst with_rtcp with_rtp y_rtp].
      apply (get_two (fun s => settled s a)); [intros ->; apply settled_prefill; exact St|intros _; exact St].
    - split; [exact Hi|]. split; [exact Sd|]. split; [exact D|]. cbn [IceModel.step fst with_rtcp with_rtp y_rtp].
      apply (get_two (fun s => settled s a)); [intros ->; destruct St as (M & R & L' & U); repeat split; assumption|intros _; exact St].
  Qed.
  Lemma rests_run l i d a : forall y, inv y -> owned y -> Forall possible l -> Forall (fun o => ~ gives_up o) l -> Forall locked l ->
    rests y i d a -> rests (fst (run y l)) i d a.
  Proof.
    induction l as [|o l IH]; intros y V W P G L R; [exact R|]. inversion P as [|? ? P1 P2]; inversion G as [|? ? G1 G2]; inversion L as [|? ? L1 L2]; subst.
    change (o :: l) with ([o] ++ l). rewrite run_app, run_one.
    apply IH; auto; [apply inv_step; assumption|apply owned_step; assumption|apply rests_step; assumption].
  Qed.
  Lemma rests_first y w q : inv y -> y_q y = w :: q -> done y (w_ag w) = false -> nominates mac crc (nth_ag y (w_ag w)) (w_pkt w) ->
    LatchModel.l_prev (get (w_side w) (y_rtp y)) <> Some (sock (k_src (w_pkt w))) \/ LatchModel.l_latched (get (w_side w) (y_rtp y)) = true ->
    rests (fst (step y Work)) (w_ag w) (w_side w) (sock (k_src (w_pkt w))).
  Proof.
    intros V Q D N H. cbn [IceModel.step]. destruct (worker_is mac crc sw y w q V Q) as (g' & E & _ & Sd' & _ & _ & _ & _ & _ & Dn & _).
    destruct (worker mac crc sw y) as [y' r]. cbn [fst] in *. unfold done in D. assert (D' : g_done g' = true) by (apply Dn; right; exact N).
    rewrite D, D' in E. cbn [negb andb] in E. subst y'.
    pose proof (i_q y V) as FQ. rewrite Q in FQ. apply Forall_inv in FQ. destruct FQ as (_ & Hlt & Hs).
    assert (Nt : nth_ag (put_ag (with_rtp (with_q y q) (set (w_side w) (y_rtp y) (LatchModel.latch (LatchModel.with_mode (get (w_side w) (y_rtp y)) LatchModel.FORCE_ON)
                   (k_time (w_pkt w)) (lpkt (w_pkt w))))) (w_ag w) g') (w_ag w) = g').
    { rewrite nth_put, Nat.eqb_refl. cbn [with_rtp with_q y_ag andb]. destruct (Nat.ltb_spec (w_ag w) (length (y_ag y))); [reflexivity|lia]. }
    split; [rewrite len_put; exact Hlt|]. unfold done. rewrite Nt. split; [rewrite Sd'; symmetry; exact Hs|]. split; [exact D'|].
    cbn [put_ag with_ag with_rtp y_rtp]. rewrite get_set. exact (settled_now (get (w_side w) (y_rtp y)) (lpkt (w_pkt w)) H).
  Qed.
  Lemma rests_keeps_out y i d a k chg taken : inv y -> datagram k -> rests y i d a -> LatchModel.l_asym (get d (y_rtp y)) = false ->
    sock (k_src k) <> a -> snd (step y (RtpIn d k false chg taken)) = Packet Outside 1.
  Proof.
    intros V K (_ & _ & _ & St) As N. pose proof (rtp_step mac crc sw pton cand_line y d k false chg taken V K) as H. destruct (let_in y d false k false) as [y1 v] eqn:Li.
    assert (v = LatchModel.Discard).
    { unfold let_in in Li. pose proof (settled_rx (get d (y_rtp y)) (Some (get d (y_rtcp y))) (lpkt k) a St) as R.
      destruct (LatchModel.rx _ _ _ _) as [[s c] v']. destruct R as (_ & R). specialize (R As N). destruct c; injection Li as _ <-; exact R. }
    subst v. destruct H as (-> & _). reflexivity.
  Qed.
  Lemma not_yet y d i k empty chg taken : inv y -> owned y -> datagram k -> agent_of y d = Some i -> done y i = false ->
    let '(y', x) := step y (RtpIn d k empty chg taken) in
    y_rtp y' = y_rtp y /\ y_rtcp y' = y_rtcp y /\ (stun k = false -> x = Packet DroppedHere 1) /\ (stun k = true -> x = Packet (Queued i) 0).
  Proof.
    intros V W K A D. pose proof (rtp_step mac crc sw pton cand_line y d k empty chg taken V K) as H.
    pose proof (i_chain y V d) as C. rewrite A in C. destruct C as (_ & _ & Hi & Sd). destruct (W i Hi) as (_ & F). specialize (F D). rewrite Sd in F.
    unfold let_in, LatchModel.rx in H. unfold mode in F. rewrite F in H. rewrite !set_id in H.
    destruct H as (y2 & -> & -> & _). unfold fate_of, analysed, frees, fate_of. rewrite A. cbn [option_map index]. rewrite D. cbn [destiny].
    destruct (stun k); cbn [negb]; cbn; repeat split; intros; try congruence; unfold kept, depth; cbn; try reflexivity.
  Qed.
End addresses.

(** * Candidates, names and the reply to S *)
Lemma fold_value s : forall acc, fold_left (fun a c => a * 10 + (c - 48)) s acc = acc * 10 ^ Z.of_nat (length s) + NumSpec.place_value s.
Proof.
  induction s as [|c s IH]; intros acc; [cbn; lia|]. cbn [fold_left length NumSpec.place_value]. rewrite IH, Nat2Z.inj_succ, Z.pow_succ_r by lia. ring.
Qed.
Lemma digits_iff s : forallb digit s = true <-> Forall NumSpec.digit s.
Proof. rewrite forallb_forall, Forall_forall. unfold digit, NumSpec.digit. split; intros H c Hc; specialize (H c Hc); lia. Qed.
Lemma reads_pl s n : reads_as s n <-> pl_u32 s = n.
Proof.
  unfold reads_as, pl_u32. rewrite <- digits_iff. destruct (forallb digit s).
  - rewrite fold_value. cbn [Z.mul]. split; [intros [(_ & ->)|(X & _)]; [reflexivity|congruence]|intros <-; left; auto].
  - split; [intros [(X & _)|(_ & ->)]; [discriminate|reflexivity]|intros <-; right; split; [discriminate|reflexivity]].
Qed.
Section candidates.
  Context (pton : list Z -> option sa) (cand_line : sa -> list Z).
  Lemma sa_set_some t p a : sa_set pton t p = Some a -> exists a0, pton (firstn 63 t) = Some a0 /\ a = at_port a0 (p mod 65536).
  Proof.
    unfold sa_set. destruct (pton (firstn 63 t)) as [[h q|h q]|]; [| |discriminate]; intros E; apply some_inj in E; subst a; eexists; (split; [reflexivity|reflexivity]).
  Qed.
  Lemma sa_set_is t p a : pton (firstn 63 t) = Some a -> sa_set pton t p = Some (at_port a (p mod 65536)).
  Proof. unfold sa_set. intros ->. destruct a; reflexivity. Qed.
  Lemma cand_decode_adds g args g' : cand_decode pton g (skipn 1 args) = Some g' ->
    g' = g \/ exists c, described pton args c /\ g' = with_cands g (g_cands g ++ [c]).
  Proof.
    destruct args as [|a0 args]; [discriminate|]. cbn [skipn]. unfold cand_decode.
    destruct args as [|a1 [|a2 [|a3 [|a4 [|a5 [|a6 [|a7 [|a8 extra]]]]]]]]; try discriminate.
    destruct (negb (caseeq _ (B "typ"))); [discriminate|]. destruct (negb (caseeq _ (B "UDP"))); [discriminate|].
    destruct (negb (extras_ok _ _)); [discriminate|]. destruct (sa_set pton a5 (pl_u32 a6)) as [a|] eqn:Sa; [|discriminate].
    cbv zeta. destruct (cand_find _ _ _) as [n|]; intros E; apply some_inj in E; subst g'; [left; reflexivity|]. right. eexists. split; [|reflexivity].
    apply sa_set_some in Sa as (a' & Pa & ->). exists a', (pl_u32 a6), (pl_u32 a2). cbn [nth]. rewrite !reads_pl. auto.
  Qed.
  Lemma candidate_added y d f comp prio addr port ty rnd a i : inv y -> agent_of y d = Some i -> pton (firstn 63 addr) = Some a ->
    Forall NumSpec.digit comp -> 0 < NumSpec.place_value comp < 256 -> Forall NumSpec.digit port -> 0 <= NumSpec.place_value port < 65536 ->
    exists y', command pton cand_line y d [B "C"; f; comp; B "UDP"; prio; addr; port; B "typ"; ty] rnd = (y', COk []) /\
      In (mkRc (NumSpec.place_value comp) (at_port a (NumSpec.place_value port))) (g_cands (nth_ag y' i)) /\
      incl (g_cands (nth_ag y i)) (g_cands (nth_ag y' i)).
  Proof.
    intros V A Pa D1 R1 D2 R2. pose proof (i_chain y V d) as C. rewrite A in C. destruct C as (_ & _ & Hi & _).
    assert (E1 : pl_u32 comp = NumSpec.place_value comp). { apply reads_pl. left. split; [exact D1|]. rewrite Z.mod_small; lia. }
    assert (E2 : pl_u32 port = NumSpec.place_value port). { apply reads_pl. left. split; [exact D2|]. rewrite Z.mod_small; lia. }
    unfold command. change (parse [B "C"; f; comp; B "UDP"; prio; addr; port; B "typ"; ty]) with (Some RIL_C). cbv beta iota zeta.
    fold (agent_of y d). rewrite A. cbn [skipn]. unfold cand_decode. change (caseeq (B "typ") (B "typ")) with true. change (caseeq (B "UDP") (B "UDP")) with true.
    cbn [negb extras_ok]. rewrite (sa_set_is _ _ _ Pa), E1, E2. cbv zeta. rewrite !Z.mod_small by lia.
    pose proof (cand_find_some (g_cands (nth_ag y i)) (NumSpec.place_value comp) (at_port a (NumSpec.place_value port)) ltac:(lia)) as Cf.
    destruct (cand_find _ _ _) as [n|]; (eexists; split; [reflexivity|]); rewrite nth_put, Nat.eqb_refl; (destruct (Nat.ltb_spec i (length (y_ag y))); [|lia]); cbn [andb].
    - split; [apply Cf; reflexivity|apply incl_refl].
    - cbn [with_cands g_cands]. split; [apply in_or_app; right; left; reflexivity|apply incl_appl, incl_refl].
  Qed.
  Lemma told_cands c args laddr g g' r : told pton cand_line c args laddr g g' r ->
    g_cands g' = g_cands g \/ c = RIL_C /\ exists x, described pton args x /\ g_cands g' = g_cands g ++ [x].
  Proof.
    destruct c; cbn [told]; try contradiction.
    - intros (-> & _). left. reflexivity.
    - intros (E & _). apply cand_decode_adds in E as [->|(x & Dx & ->)]; [left; reflexivity|right; split; [reflexivity|]]. exists x. auto.
    - intros (E & _). left. unfold start in E. injection E as -> _. destruct (g_local g); reflexivity.
  Qed.
End candidates.

Lemma charset_ok : Forall ice_char CHARSET /\ length CHARSET = 64%nat.
Proof. split; [|reflexivity]. apply Forall_forall. intros c Hc. unfold ice_char. repeat (destruct Hc as [<-|Hc]; [cbn; lia|]). destruct Hc. Qed.
Lemma rand_ok rnd from len : length (rand_string rnd from len) = len /\ Forall ice_char (rand_string rnd from len).
Proof.
  unfold rand_string. split; [rewrite map_length; apply seq_length|]. apply Forall_forall. intros c Hc. apply in_map_iff in Hc as (n & <- & _).
  destruct charset_ok as (F & L). rewrite Forall_forall in F. apply F. apply nth_In. rewrite L. pose proof (Z.mod_pos_bound (rnd n) 64). lia.
Qed.
Definition well_named (g : agent) : Prop :=
  (4 <= length (g_lufrag g))%nat /\ (22 <= length (g_lpwd g))%nat /\ Forall ice_char (g_lufrag g) /\ Forall ice_char (g_lpwd g).
Lemma new_named d ul pl rnd : (4 <= ul)%nat -> (22 <= pl)%nat -> well_named (new_agent d ul pl rnd).
Proof.
  intros H1 H2. unfold well_named. cbn. destruct (rand_ok rnd 0 ul) as (L1 & F1), (rand_ok rnd ul pl) as (L2 & F2). rewrite L1, L2. auto.
Qed.

(** The reply to S *)
Lemma plain_iff c : QuoteModel.unreserved c = true <-> QuoteSpec.plain c.
Proof. unfold QuoteModel.unreserved, QuoteSpec.plain. lia. Qed.
Lemma hex_upper c : 0 <= c < 16 -> QuoteModel.hexdig c = QuoteSpec.upper_hex c.
Proof.
  intros H. assert (c = 0 \/ c = 1 \/ c = 2 \/ c = 3 \/ c = 4 \/ c = 5 \/ c = 6 \/ c = 7 \/ c = 8 \/ c = 9 \/ c = 10 \/ c = 11 \/ c = 12 \/ c = 13 \/ c = 14 \/ c = 15) as X by lia.
  repeat (destruct X as [->|X]; [reflexivity|]). subst c. reflexivity.
Qed.
Lemma quoted_is s : bytes s -> QuoteSpec.quoted s (quoted s).
Proof.
  induction 1 as [|c s Hc _ IH]; [constructor|]. unfold quoted. cbn [map concat]. fold (quoted s). unfold quote1.
  destruct (QuoteModel.unreserved c) eqn:U.
  - cbn [app]. constructor; [apply plain_iff; exact U|exact IH].
  - cbn [app]. rewrite Z.shiftr_div_pow2 by lia. change (2 ^ 4) with 16. change 15 with (Z.ones 4). rewrite Z.land_ones by lia. change (2 ^ 4) with 16.
    rewrite !hex_upper by lia. constructor; [intros P; apply plain_iff in P; congruence|exact IH].
Qed.
Lemma quoted_one s q q' : QuoteSpec.quoted s q -> QuoteSpec.quoted s q' -> q = q'.
Proof.
  intros H. revert q'. induction H as [|c s q P H IH|c s q P H IH]; intros q' H'; inversion H'; subst; try contradiction; f_equal; auto. do 2 f_equal. auto.
Qed.
Lemma quoted_nonzero s : bytes s -> ~ In 0 (quoted s).
Proof.
  induction 1 as [|c s Hc _ IH]; [intros []|]. unfold quoted. cbn [map concat]. fold (quoted s). intros X. apply in_app_or in X as [X|X]; [|exact (IH X)].
  unfold quote1 in X. destruct (QuoteModel.unreserved c) eqn:U.
  - destruct X as [->|[]]. discriminate.
  - assert (Hx : forall v, 0 <= v -> QuoteModel.hexdig v <> 0) by (intros v Hv; unfold QuoteModel.hexdig; destruct (v <? 10); lia).
    destruct X as [X|[X|[X|[]]]]; [discriminate|refine (Hx _ _ X); apply Z.shiftr_nonneg; lia|refine (Hx _ _ X); apply Z.land_nonneg; lia].
Qed.
Lemma quoted_length s : zlen s <= zlen (quoted s) <= 3 * zlen s.
Proof.
  induction s as [|c s IH]; [cbn; lia|]. unfold quoted. cbn [map concat]. fold (quoted s). rewrite zlen_app, zlen_cons. unfold quote1.
  destruct (QuoteModel.unreserved c); cbn [zlen length]; unfold zlen at 2 4; cbn [length]; lia.
Qed.

Section agents.
  Context (mac : list Z -> list Z -> list Z) (crc : list Z -> Z) (sw : list Z) (pton : list Z -> option sa) (cand_line : sa -> list Z).
  Notation step := (IceModel.step mac crc sw pton cand_line).
  Notation run := (IceModel.run mac crc sw pton cand_line).

  Definition grown (o : op) (y : sys) (j : nat) (g g' : agent) : Prop :=
    g_side g' = g_side g /\ g_lufrag g' = g_lufrag g /\ g_lpwd g' = g_lpwd g /\
    (g_cands g' = g_cands g \/
     exists d args rnd c, o = Command d args rnd /\ parse args = Some RIL_C /\ agent_of y d = Some j /\ described pton args c /\ g_cands g' = g_cands g ++ [c]).
  Lemma grown_refl o y j g : grown o y j g g. Proof. unfold grown. auto. Qed.
  Lemma step_agents y o : inv y -> possible o ->
    (length (y_ag y) <= length (y_ag (fst (step y o))))%nat /\
    (forall j, (j < length (y_ag y))%nat -> grown o y j (nth_ag y j) (nth_ag (fst (step y o)) j)) /\
    (forall j, (length (y_ag y) <= j)%nat -> (j < length (y_ag (fst (step y o))))%nat ->
       well_named (nth_ag (fst (step y o)) j) /\ g_cands (nth_ag (fst (step y o)) j) = []).
  Proof.
    intros V P.
    assert (Same : y_ag (fst (step y o)) = y_ag y -> (length (y_ag y) <= length (y_ag (fst (step y o))))%nat /\
      (forall j, (j < length (y_ag y))%nat -> grown o y j (nth_ag y j) (nth_ag (fst (step y o)) j)) /\
      (forall j, (length (y_ag y) <= j)%nat -> (j < length (y_ag (fst (step y o))))%nat ->
         well_named (nth_ag (fst (step y o)) j) /\ g_cands (nth_ag (fst (step y o)) j) = [])).
    { intros E. rewrite E. split; [lia|]. split; [|intros; lia]. intros j _. rewrite (nth_same y _ j E). apply grown_refl. }
    destruct o as [d args rnd|d k empty chg taken|d k empty taken| |d a b now|d];
      try (apply Same; exact (proj1 (other_steps mac crc sw pton cand_line y _ V P ltac:(discriminate) ltac:(discriminate)))).
    - cbn [IceModel.step] in *. destruct (command pton cand_line y d args rnd) as [y' r] eqn:E. cbn [fst] in *.
      destruct (command_outcome pton cand_line _ _ _ _ _ _ V E) as [|i l1 l3 P' A -> ->|c i g r P' A T|c ul pl y1 g r P' A Cl H1 H2 Ac T]; try (apply Same; reflexivity).
      + rewrite len_put. split; [lia|]. split; [|intros; lia]. intros j Hj. rewrite nth_put. destruct (Nat.eqb_spec i j) as [->|]; [|apply grown_refl].
        destruct (Nat.ltb_spec j (length (y_ag y))); [|lia]. cbn [andb]. pose proof (told_core _ _ _ _ _ _ _ _ T) as ((S1 & S2 & S3 & _) & _).
        unfold grown. do 3 (split; [assumption|]). apply told_cands in T as [T|(-> & x & Dx & T)]; [left; exact T|right].
        exists d, args, rnd, x. split; [reflexivity|]. split; [exact P'|]. unfold acted in A. rewrite P' in A. auto.
      + pose proof (told_core _ _ _ _ _ _ _ _ T) as (Co & _). destruct (activate_is y _ ul pl rnd V A H1 H2) as (y2 & E2 & Ag & _). rewrite Ac in E2. injection E2 as <-.
        destruct (created_inv y _ ul pl rnd y1 g V A H1 H2 Ac Co) as (_ & _ & _ & _ & N). rewrite len_put, Ag, app_length. cbn [length]. split; [lia|]. split.
        * intros j Hj. rewrite N. destruct (Nat.eqb_spec j (length (y_ag y))); [lia|apply grown_refl].
        * intros j Hj Hj'. rewrite N. destruct (Nat.eqb_spec j (length (y_ag y))); [|lia]. split.
          -- destruct Co as (_ & C1 & C2 & _). unfold well_named. rewrite C1, C2. apply new_named; assumption.
          -- apply told_cands in T as [T|(-> & _)]; [exact T|]. destruct Cl as [(X & _)|(X & _)]; discriminate.
    - cbn [IceModel.step] in *. destruct (y_q y) as [|w q] eqn:Q; [apply Same; unfold worker; rewrite Q; reflexivity|].
      destruct (worker_is mac crc sw y w q V Q) as (g' & E & _ & Sd & Eu & Ep & _ & Ec & _ & _ & _). destruct (worker mac crc sw y) as [y' r]. cbn [fst] in *. subst y'.
      match goal with |- context [put_ag ?t (w_ag w) g'] => set (y2 := t) end.
      assert (Ey : y_ag y2 = y_ag y) by (unfold y2; destruct (negb _ && _); reflexivity). clearbody y2.
      rewrite len_put, Ey. split; [lia|]. split; [|intros; lia]. intros j Hj. rewrite nth_put, Ey, (nth_same y y2 j Ey).
      destruct (Nat.eqb_spec (w_ag w) j) as [<-|]; [|apply grown_refl]. destruct (Nat.ltb_spec (w_ag w) (length (y_ag y))); [|lia]. cbn [andb].
      unfold grown. auto.
  Qed.
  Lemma inv_ops s c local ops : Forall possible ops -> inv (fst (run (fresh s c local) ops)).
  Proof. intros F. apply inv_run; [apply inv_fresh|exact F]. Qed.
  Lemma names_ok s c local ops i : Forall possible ops -> (i < length (y_ag (fst (run (fresh s c local) ops))))%nat ->
    well_named (nth_ag (fst (run (fresh s c local) ops)) i).
  Proof.
    induction ops as [|o ops IH] using rev_ind; intros F; [cbn; lia|]. apply Forall_app in F as (F & Fo). apply Forall_inv in Fo.
    pose proof (inv_ops s c local ops F) as V. rewrite run_app, run_one. destruct (step_agents _ o V Fo) as (L & G & N). intros Hi.
    destruct (Nat.ltb_spec i (length (y_ag (fst (run (fresh s c local) ops))))) as [X|X].
    - destruct (G i X) as (_ & E1 & E2 & _). unfold well_named. rewrite E1, E2. exact (IH F X).
    - exact (proj1 (N i X Hi)).
  Qed.
  (** The name, the password and the side of an agent stay what they were. *)
  Lemma names_kept ops : forall y i, inv y -> Forall possible ops -> (i < length (y_ag y))%nat ->
    (i < length (y_ag (fst (run y ops))))%nat /\ g_lufrag (nth_ag (fst (run y ops)) i) = g_lufrag (nth_ag y i) /\ g_lpwd (nth_ag (fst (run y ops)) i) = g_lpwd (nth_ag y i).
  Proof.
    induction ops as [|o ops IH]; intros y i V F Hi; [auto|]. inversion F as [|? ? F1 F2]; subst.
    change (o :: ops) with ([o] ++ ops). rewrite run_app, run_one. destruct (step_agents y o V F1) as (L & G & _). destruct (G i Hi) as (_ & E1 & E2 & _).
    rewrite <- E1, <- E2. apply IH; [apply inv_step; assumption|exact F2|lia].
  Qed.
  Lemma candidates_from s c local ops i x : Forall possible ops -> In x (g_cands (nth_ag (fst (run (fresh s c local) ops)) i)) ->
    exists pre d args rnd post, ops = pre ++ Command d args rnd :: post /\ parse args = Some RIL_C /\
      agent_of (fst (run (fresh s c local) pre)) d = Some i /\ described pton args x.
  Proof.
    induction ops as [|o ops IH] using rev_ind; intros F.
    - cbn. unfold nth_ag. cbn. destruct i; intros [].
    - apply Forall_app in F as (F & Fo). apply Forall_inv in Fo. pose proof (inv_ops s c local ops F) as V. rewrite run_app, run_one.
      destruct (step_agents _ o V Fo) as (L & G & N). intros Hx.
      assert (Old : In x (g_cands (nth_ag (fst (run (fresh s c local) ops)) i)) -> exists pre d args rnd post, ops ++ [o] = pre ++ Command d args rnd :: post /\
        parse args = Some RIL_C /\ agent_of (fst (run (fresh s c local) pre)) d = Some i /\ described pton args x).
      { intros Hin. destruct (IH F Hin) as (pre & d & args & rnd & post & -> & R). exists pre, d, args, rnd, (post ++ [o]). rewrite <- app_assoc. auto. }
      destruct (Nat.ltb_spec i (length (y_ag (fst (run (fresh s c local) ops))))) as [X|X].
      + destruct (G i X) as (_ & _ & _ & [E|(d & args & rnd & z & Eo & Pa & Ag & Dz & E)]); rewrite E in Hx; [exact (Old Hx)|].
        apply in_app_or in Hx as [Hx|[<-|[]]]; [exact (Old Hx)|]. exists ops, d, args, rnd, []. subst o. auto.
      + destruct (Nat.ltb_spec i (length (y_ag (fst (step (fst (run (fresh s c local) ops)) o))))) as [Y|Y].
        * rewrite (proj2 (N i X Y)) in Hx. destruct Hx.
        * unfold nth_ag in Hx. rewrite nth_overflow in Hx by exact Y. destruct Hx.
  Qed.

  (** ** S *)
  Lemma append_fits t room s : zlen s < room -> append (mkBuf t room) s = mkBuf (t ++ s) (room - zlen s).
  Proof.
    intros H. unfold append. cbn [b_text b_room]. destruct (Z.gtb_spec (zlen s) room); [lia|]. destruct (Z.eqb_spec (zlen s) room); [lia|]. reflexivity.
  Qed.
  Lemma start_says g la : Forall ice_char (g_lufrag g) -> Forall ice_char (g_lpwd g) -> bytes (cand_line la) -> g_local g = Some la \/ g_local g = None ->
    forall g' r laddr, (g_local g = None -> laddr = la) -> start cand_line g laddr = (g', r) ->
    g_local g' = Some la /\ g_lufrag g' = g_lufrag g /\ g_lpwd g' = g_lpwd g /\
    (zlen (g_lufrag g) + zlen (g_lpwd g) + 4 + zlen (quoted (cand_line la)) < 512 ->
     r = Some (g_lufrag g ++ B " " ++ g_lpwd g ++ B " c:" ++ quoted (cand_line la))).
  Proof.
    intros F1 F2 Bl Lo g' r laddr La E. unfold start in E.
    assert (G : exists g0, g0 = match g_local g with Some _ => g | None => with_local g laddr end /\ g_local g0 = Some la /\ g_lufrag g0 = g_lufrag g /\ g_lpwd g0 = g_lpwd g).
    { eexists. split; [reflexivity|]. destruct (g_local g) as [x|] eqn:Gl; [destruct Lo as [Lo|Lo]; [|discriminate]; rewrite Gl; auto|]. rewrite (La eq_refl). auto. }
    destruct G as (g0 & Eg & L0 & U0 & P0). rewrite <- Eg in E. injection E as <- <-. split; [exact L0|]. split; [exact U0|]. split; [exact P0|]. intros Fit.
    rewrite L0, U0, P0. pose proof (quoted_length (cand_line la)) as Ql. pose proof (zlen_nonneg (g_lufrag g)). pose proof (zlen_nonneg (g_lpwd g)). pose proof (zlen_nonneg (cand_line la)).
    unfold RESP_SIZE. rewrite append_fits by lia. rewrite append_fits by (change (zlen (B " ")) with 1; lia). change (zlen (B " ")) with 1.
    rewrite append_fits by lia. rewrite append_fits by (change (zlen (B " c:")) with 3; lia). change (zlen (B " c:")) with 3.
    unfold put_cand. cbn [b_room b_text]. destruct (Z.gtb_spec (zlen (cand_line la) + 1) (512 - zlen (g_lufrag g) - 1 - zlen (g_lpwd g) - 3)); [lia|].
    destruct (Z.gtb_spec (zlen (quoted (cand_line la))) (512 - zlen (g_lufrag g) - 1 - zlen (g_lpwd g) - 3)); [lia|]. cbn [b_text]. f_equal.
    cbn [app]. rewrite <- !app_assoc. match goal with |- cstr ?t = _ => transitivity (cstr (t ++ [])); [rewrite app_nil_r; reflexivity|] end.
    assert (Nz : forall l, Forall ice_char l -> ~ In 0 l).
    { intros l F X. rewrite Forall_forall in F. specialize (F 0 X). unfold ice_char in F. lia. }
    apply cstr_app; [|left; reflexivity]. intros X. repeat (apply in_app_or in X as [X|X]).
    - exact (Nz _ F1 X).
    - destruct X as [X|[]]. discriminate.
    - exact (Nz _ F2 X).
    - destruct X as [X|[X|[X|[]]]]; discriminate.
    - exact (quoted_nonzero _ Bl X).
  Qed.
  Lemma S_reply y d args rnd y' r : inv y -> (forall i, (i < length (y_ag y))%nat -> well_named (nth_ag y i)) -> parse args = Some RIL_S ->
    command pton cand_line y d args rnd = (y', r) ->
    exists i la, agent_of y' (negb d) = Some i /\ g_local (nth_ag y' i) = Some la /\
      (agent_of y (negb d) = None -> length (g_lufrag (nth_ag y' i)) = 4%nat /\ length (g_lpwd (nth_ag y' i)) = 24%nat) /\
      (agent_of y (negb d) = None -> la = get (negb d) (y_local y)) /\
      (bytes (cand_line la) -> forall q, QuoteSpec.quoted (cand_line la) q -> zlen (g_lufrag (nth_ag y' i)) + zlen (g_lpwd (nth_ag y' i)) + 4 + zlen q < 512 ->
       r = COk (g_lufrag (nth_ag y' i) ++ B " " ++ g_lpwd (nth_ag y' i) ++ B " c:" ++ q)).
  Proof.
    intros V Nm P E. unfold command in E. rewrite P in E. cbv beta iota zeta in E. fold (agent_of y (negb d)) in E. pose proof (i_chain y V (negb d)) as C.
    destruct (agent_of y (negb d)) as [i|] eqn:A.
    - cbn [chained] in C. destruct C as (_ & _ & Hi & _). destruct (start cand_line (nth_ag y i) (get (negb d) (y_local y))) as [g t] eqn:St.
      apply pair_equal_spec in E as (<- & <-). exists i.
      set (la := match g_local (nth_ag y i) with Some a => a | None => get (negb d) (y_local y) end). exists la.
      assert (Nth : nth_ag (put_ag y i g) i = g). { rewrite nth_put, Nat.eqb_refl. destruct (Nat.ltb_spec i (length (y_ag y))); [reflexivity|lia]. }
      rewrite Nth. split; [exact A|]. destruct (Nm i Hi) as (_ & _ & F1 & F2).
      assert (Lg : g_local g = Some la). { unfold start in St. injection St as <- _. unfold la. destruct (g_local (nth_ag y i)) eqn:Gl; [exact Gl|reflexivity]. }
      split; [exact Lg|]. split; [discriminate|]. split; [discriminate|]. intros Bl q Hq Fit.
      rewrite (quoted_one _ _ _ Hq (quoted_is _ Bl)) in *.
      assert (X : g_local (nth_ag y i) = Some la \/ g_local (nth_ag y i) = None) by (unfold la; destruct (g_local (nth_ag y i)); auto).
      destruct (start_says (nth_ag y i) la F1 F2 Bl X g t _ ltac:(unfold la; intros ->; reflexivity) St) as (_ & U & Pw & R). rewrite U, Pw in *. rewrite (R Fit). reflexivity.
    - destruct (activate_is y (negb d) 4 24 rnd V A ltac:(lia) ltac:(lia)) as (y1 & E1 & Ag & Er & El & Eq & Es & C' & C1 & C2). rewrite E1 in E.
      assert (Nt : nth_ag y1 (length (y_ag y)) = new_agent (negb d) 4 24 rnd). { rewrite (nth_same (with_ag y (y_ag y ++ [new_agent (negb d) 4 24 rnd])) y1 _ Ag), nth_snoc, Nat.eqb_refl. reflexivity. }
      rewrite Nt in E. set (i := length (y_ag y)) in *. destruct (start cand_line (new_agent (negb d) 4 24 rnd) (get (negb d) (y_local y1))) as [g t] eqn:St.
      apply pair_equal_spec in E as (<- & <-). exists i, (get (negb d) (y_local y1)).
      assert (Nth : nth_ag (put_ag y1 i g) i = g).
      { rewrite nth_put, Nat.eqb_refl. destruct (Nat.ltb_spec i (length (y_ag y1))) as [|X]; [reflexivity|]. rewrite Ag, app_length in X. unfold i in X. cbn in X. lia. }
      rewrite Nth. split; [exact (inv_chained _ _ _ C')|]. destruct (new_named (negb d) 4 24 rnd ltac:(lia) ltac:(lia)) as (_ & _ & F1 & F2).
      assert (Lg : g_local g = Some (get (negb d) (y_local y1)) /\ g_lufrag g = g_lufrag (new_agent (negb d) 4 24 rnd) /\ g_lpwd g = g_lpwd (new_agent (negb d) 4 24 rnd)).
      { unfold start in St. apply (f_equal fst) in St. cbn [fst] in St. subst g. split; [reflexivity|]. split; reflexivity. }
      destruct Lg as (Lg & U & Pw). split; [exact Lg|]. rewrite U, Pw. split; [intros _; split; apply rand_ok|]. split; [rewrite El; reflexivity|]. intros Bl q Hq Fit.
      rewrite (quoted_one _ _ _ Hq (quoted_is _ Bl)) in *.
      destruct (start_says _ _ F1 F2 Bl (or_intror eq_refl) g t _ (fun _ => eq_refl) St) as (_ & _ & _ & R). rewrite (R Fit). reflexivity.
  Qed.
End agents.

(** ** The classes of datagrams *)
Lemma stun_looks k : datagram k -> stun k = true <-> RtpSpec.looks_stun (k_bytes k).
Proof.
  intros (Hb & _). rewrite <- (RtpProof.stun_exact _ Hb). unfold stun. destruct (RtpModel.is_stun (k_bytes k)) as [[]|]; split; congruence.
Qed.
Lemma rtcp_looks k : datagram k -> rtcp k = true <-> RtpSpec.looks_rtcp (k_bytes k).
Proof.
  intros (Hb & _). rewrite <- (RtpProof.rtcp_exact _ Hb). unfold rtcp. destruct (RtpModel.is_rtcp (k_bytes k)) as [[]|]; split; congruence.
Qed.
Lemma is_st k st : datagram k -> (st = true <-> RtpSpec.looks_stun (k_bytes k)) -> st = stun k.
Proof. intros K H. rewrite <- (stun_looks k K) in H. destruct st, (stun k); intuition congruence. Qed.
Lemma is_rc k rc : datagram k -> (rc = true <-> RtpSpec.looks_rtcp (k_bytes k)) -> rc = rtcp k.
Proof. intros K H. rewrite <- (rtcp_looks k K) in H. destruct rc, (rtcp k); intuition congruence. Qed.
