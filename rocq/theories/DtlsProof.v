(** Proofs about the DTLS gateway. *)
From Verif Require Import Base Str DtlsModel DtlsSpec.
From Verif Require NumModel NumSpec NumProof RtpModel QuoteModel.

Lemma get_set {A} d e (t : two A) x : get d (set e t x) = if Bool.eqb d e then x else get d t.
Proof. destruct d, e; reflexivity. Qed.
Lemma get_set_eq {A} d (t : two A) x : get d (set d t x) = x.
Proof. destruct d; reflexivity. Qed.
Lemma get_set_other {A} d (t : two A) x : get (negb d) (set d t x) = get (negb d) t.
Proof. destruct d; reflexivity. Qed.
Lemma get_set_other' {A} d (t : two A) x : get d (set (negb d) t x) = get d t.
Proof. destruct d; reflexivity. Qed.

(** Text of a fingerprint. *)
Lemma hexdig_digit v : 0 <= v < 16 -> QuoteModel.hexdig v = upper_digit v.
Proof.
  intros H. assert (X : forallb (fun a => QuoteModel.hexdig (Z.of_nat a) =? upper_digit (Z.of_nat a)) (seq 0 16) = true) by (vm_compute; reflexivity).
  rewrite forallb_forall in X. specialize (X (Z.to_nat v)). rewrite Z2Nat.id in X by lia. apply Z.eqb_eq, X, in_seq. lia.
Qed.
Lemma colon_hex_writes d : d <> [] -> Forall byte d -> writes_bytes d (colon_hex d).
Proof.
  induction d as [|x d IH]; intros N F; [congruence|]. inversion F as [|? ? Bx Fd]; subst. unfold byte in Bx.
  destruct d as [|y d].
  - cbn [colon_hex]. rewrite !hexdig_digit by lia. constructor.
  - change (colon_hex (x :: y :: d)) with (QuoteModel.hexdig (x / 16) :: QuoteModel.hexdig (x mod 16) :: 58 :: colon_hex (y :: d)).
    rewrite !hexdig_digit by lia. constructor. apply IH; [discriminate|exact Fd].
Qed.
Lemma writes_bytes_length d s : writes_bytes d s -> (length s + 1 = 3 * length d)%nat.
Proof. induction 1; cbn [length] in *; lia. Qed.
Lemma upper_digit_inj v w : 0 <= v < 16 -> 0 <= w < 16 -> upper_digit v = upper_digit w -> v = w.
Proof.
  intros Hv Hw. rewrite <- !hexdig_digit by assumption. unfold QuoteModel.hexdig.
  destruct (Z.ltb_spec v 10), (Z.ltb_spec w 10); lia.
Qed.
Lemma writes_bytes_inj d1 s d2 : writes_bytes d1 s -> writes_bytes d2 s -> Forall byte d1 -> Forall byte d2 -> d1 = d2.
Proof.
  intros W. revert d2. induction W as [x|x d s W IH]; intros d2 W2 F1 F2.
  - inversion W2 as [y E|y d s' W' E]; subst.
    + inversion F1; inversion F2; subst. unfold byte in *.
      match goal with H : upper_digit _ = upper_digit _, H' : upper_digit _ = upper_digit _ |- _ =>
        apply upper_digit_inj in H; [|lia|lia]; apply upper_digit_inj in H'; [|lia|lia] end.
      f_equal. lia.
  - inversion W2 as [y E|y d' s' W' E]; subst.
    inversion F1; inversion F2; subst. unfold byte in *.
      match goal with H : upper_digit _ = upper_digit _, H' : upper_digit _ = upper_digit _ |- _ =>
        apply upper_digit_inj in H; [|lia|lia]; apply upper_digit_inj in H'; [|lia|lia] end.
    f_equal; [lia|]. apply IH; assumption.
Qed.

(** Keys. *)
Lemma keys_layout s m k : layout s m k -> keys s m = (client_key k, server_key k).
Proof.
  intros (-> & L1 & L2 & L3 & L4). unfold keys, client_key, server_key.
  rewrite <- L1, <- L3, firstn_app, Nat.sub_diag, firstn_all, firstn_O, app_nil_r.
  rewrite skipn_app, Nat.sub_diag, skipn_all. cbn [skipn app].
  rewrite L1, <- L2. rewrite firstn_app, Nat.sub_diag, firstn_all, firstn_O, app_nil_r.
  rewrite skipn_app, Nat.sub_diag, skipn_all. cbn [skipn app].
  rewrite firstn_app, Nat.sub_diag, firstn_all, firstn_O, app_nil_r.
  rewrite skipn_app, Nat.sub_diag, skipn_all. cbn [skipn app].
  rewrite L3, <- L4, firstn_all. reflexivity.
Qed.
Lemma layout_exists s f : exists k, layout s (exported s f) k.
Proof.
  set (m := exported s f). assert (L : length m = (2 * (s_key s + s_iv s))%nat) by (unfold m, exported; rewrite map_length, seq_length; reflexivity).
  exists (mkKeying (firstn (s_key s) m) (firstn (s_key s) (skipn (s_key s) m))
     (firstn (s_iv s) (skipn (s_key s) (skipn (s_key s) m)))
     (skipn (s_iv s) (skipn (s_key s) (skipn (s_key s) m)))).
  unfold layout. cbn [k_ck k_sk k_cs k_ss]. rewrite !firstn_length, !skipn_length.
  split; [rewrite !firstn_skipn; reflexivity|lia].
Qed.

Lemma mode_eqb_eq a b : mode_eqb a b = true <-> a = b.
Proof. destruct a, b; cbn; split; congruence. Qed.

Lemma is_dtls_record b : is_dtls b = true <-> dtls_record b.
Proof.
  unfold is_dtls, dtls_record. destruct b as [|c t]; [cbn; split; [discriminate|lia]|]. cbn [nth].
  destruct (Z.ltb_spec (Z.of_nat (length (c :: t))) 13); [split; [discriminate|lia]|]. rewrite andb_true_iff, !Z.ltb_lt. lia.
Qed.

(** Numbers. *)
Lemma place_value_nonneg ds : Forall NumSpec.digit ds -> 0 <= NumSpec.place_value ds.
Proof.
  induction 1 as [|d ds H F IH]; cbn [NumSpec.place_value]; [lia|]. unfold NumSpec.digit in H.
  assert (0 <= (d - 48) * 10 ^ Z.of_nat (length ds)) by (apply Z.mul_nonneg_nonneg; [lia|apply Z.pow_nonneg; lia]). lia.
Qed.
Definition ulclamp (v : Z) : Z := if Z.abs v >=? 2 ^ 64 then 2 ^ 64 - 1 else v mod 2 ^ 64.
Lemma strtoul_numeral s v rest : NumSpec.numeral s v rest -> strtoul s = (ulclamp v, Some rest).
Proof.
  intros (ws & sg & k & ds & -> & Fw & Hs & Hn & Fd & Hr & ->).
  destruct ds as [|d ds]; [congruence|]. assert (Hd : NumSpec.digit d) by (inversion Fd; assumption).
  pose proof (place_value_nonneg _ Fd) as P. set (pv := NumSpec.place_value (d :: ds)) in *.
  assert (Big : 0 < 2 ^ 64) by lia.
  assert (U1 : (if pv >=? 2 ^ 64 then (2 ^ 64 - 1, Some rest) else (pv, Some rest)) = (ulclamp pv, Some rest)).
  { unfold ulclamp. rewrite Z.abs_eq by exact P. destruct (Z.geb_spec pv (2 ^ 64)); [reflexivity|]. rewrite Z.mod_small by lia. reflexivity. }
  assert (U2 : (if pv >=? 2 ^ 64 then (2 ^ 64 - 1, Some rest) else ((- pv) mod 2 ^ 64, Some rest)) = (ulclamp (- pv), Some rest)).
  { unfold ulclamp. rewrite Z.abs_opp, Z.abs_eq by exact P. destruct (Z.geb_spec pv (2 ^ 64)); reflexivity. }
  unfold strtoul. rewrite NumProof.skip_space_app; [|assumption|].
  2:{ intros c t E. unfold NumSpec.blank, NumSpec.digit in *. inversion Hs; subst sg; cbn in E; injection E as <- _; lia. }
  unfold NumSpec.digit in Hd. cbv zeta.
  inversion Hs; subst sg k; cbn [app NumModel.head0 tl].
  - assert (d =? 45 = false) as -> by lia. assert (d =? 43 = false) as -> by lia. cbn [orb].
    change (d :: ds ++ rest) with ((d :: ds) ++ rest). rewrite NumProof.digits_app by assumption.
    fold pv. rewrite Z.mul_0_l, Z.add_0_l, Z.mul_1_l. exact U1.
  - change (43 =? 45) with false. change (43 =? 43) with true. cbn [orb].
    change (d :: ds ++ rest) with ((d :: ds) ++ rest). rewrite NumProof.digits_app by assumption.
    fold pv. rewrite Z.mul_0_l, Z.add_0_l, Z.mul_1_l. exact U1.
  - change (45 =? 45) with true. cbn [orb].
    change (d :: ds ++ rest) with ((d :: ds) ++ rest). rewrite NumProof.digits_app by assumption.
    fold pv. rewrite Z.mul_0_l, Z.add_0_l. replace (-1 * pv) with (- pv) by ring. exact U2.
Qed.
Lemma strtoul_some s v0 rest : strtoul s = (v0, Some rest) -> exists v, NumSpec.numeral s v rest.
Proof.
  intros H. assert (X : exists w e, NumModel.strtol s = (w, Some rest, e)).
  { unfold strtoul in H. unfold NumModel.strtol. cbv zeta in *. destruct (NumModel.digits 0 0 _) as [[v n] r].
    destruct (n =? 0)%nat; [discriminate|].
    assert (r = rest) as -> by (destruct (v >=? 2 ^ 64); congruence).
    match goal with |- context [if ?b then _ else _] => idtac end.
    repeat match goal with |- exists w e, (if ?b then _ else _) = _ => destruct b end; eauto. }
  destruct X as (w & e & X). exact (NumProof.strtol_some _ _ _ _ X).
Qed.
Lemma strtoul_text s x : ssrc_text s x <-> exists v, strtoul s = (v, Some []) /\ x = u32 v.
Proof.
  assert (V : forall v, u32 (ulclamp v) = if Z.abs v <? 2 ^ 64 then v mod 2 ^ 32 else 2 ^ 32 - 1).
  { intros v. unfold ulclamp, u32. destruct (Z.geb_spec (Z.abs v) (2 ^ 64)), (Z.ltb_spec (Z.abs v) (2 ^ 64)); try lia. }
  split.
  - intros (v & N & ->). exists (ulclamp v). split; [apply strtoul_numeral, N|symmetry; apply V].
  - intros (v & E & ->). destruct (strtoul_some _ _ _ E) as (v' & N). pose proof (strtoul_numeral _ _ _ N) as E'. rewrite E in E'.
    injection E' as ->. exists v'. split; [exact N|apply V].
Qed.

(** Letters. *)
Lemma same_letters_length a b : same_letters a b -> length a = length b.
Proof. induction 1; cbn; congruence. Qed.
Lemma upper_letters a : map upper a = ALG <-> same_letters a ALG.
Proof.
  assert (X : forall c x, (65 <= c <= 90 \/ c = 45 \/ c = 50 \/ c = 53 \/ c = 54) -> upper x = c <-> (x = c \/ (97 <= x <= 122 /\ c = x - 32))).
  { intros c x H. unfold upper. destruct (Z.leb_spec 97 x), (Z.ltb_spec x 128); cbn [andb]; lia. }
  assert (G : forall l, Forall (fun c => 65 <= c <= 90 \/ c = 45 \/ c = 50 \/ c = 53 \/ c = 54) l -> forall a, map upper a = l <-> same_letters a l).
  { intros l F. induction F as [|c l Hc F IH]; intros b.
    - split; [destruct b; [constructor|discriminate]|intros H; inversion H; reflexivity].
    - destruct b as [|x b]; [split; [discriminate|intros H; inversion H]|]. cbn [map]. split.
      + intros E. injection E as E1 E2. constructor; [apply (X c x Hc), E1|apply IH, E2].
      + intros H. inversion H; subst. f_equal; [apply (X c x Hc); assumption|apply IH; assumption]. }
  apply G. change ALG with [83; 72; 65; 45; 50; 53; 54]. repeat (apply Forall_cons; [lia|]). apply Forall_nil.
Qed.

Section srtp.
  Context {ctx : Type} (create : suite -> list Z -> Z -> option ctx)
    (protect unprotect : ctx -> bool -> list Z -> option (ctx * list Z)).
  Notation sys := (@sys ctx). Notation conn := (@conn ctx).
  Notation step := (step create protect unprotect).
  Notation run := (run create protect unprotect).
  Notation after := (after create protect unprotect).
  Notation worker := (worker create protect unprotect).
  Notation dtls_recv := (dtls_recv create).
  Notation established := (established create).
  Notation srtp_recv := (srtp_recv unprotect).
  Notation rtp_send := (rtp_send protect).

  Lemma nth_put (y : sys) i c j : (i < length (y_con y))%nat -> nth_con (put_con y i c) j = if (j =? i)%nat then c else nth_con y j.
  Proof.
    intros H. unfold nth_con, put_con. cbn [y_con with_con].
    destruct (Nat.eqb_spec j i) as [->|N]; [apply nth_upd_same|apply nth_upd_other]; auto.
  Qed.
  Lemma length_put (y : sys) i c : length (y_con (put_con y i c)) = length (y_con y).
  Proof. unfold put_con. cbn [y_con with_con]. apply upd_length. Qed.

  (** What stays of a connection when time is looked at. *)
  Lemma check_timer_keeps c t c' ok : check_timer c t = (c', ok) -> exists v, c' = @with_timer ctx c v.
  Proof.
    unfold check_timer. destruct (t_timeout t && c_timer c); intros E.
    - apply pair_equal_spec in E as (<- & _). exists (c_timer c). destruct c; reflexivity.
    - destruct (t_timeout t); [destruct (t_sched t)|]; apply pair_equal_spec in E as (<- & _); eauto.
      exists (c_timer c). destruct c; reflexivity.
  Qed.
  Definition quiet (c c' : conn) : Prop :=
    c_side c' = c_side c /\ c_state c' = c_state c /\ c_mode c' = c_mode c /\ c_out c' = c_out c /\ c_in c' = c_in c /\
    c_fp c' = c_fp c /\ c_ssrc c' = c_ssrc c.
  Lemma quiet_refl c : quiet c c. Proof. repeat split. Qed.
  Lemma tls_accept_quiet (c : conn) t c' ok : tls_accept c t = (c', ok) -> quiet c c'.
  Proof.
    unfold tls_accept. destruct (t_shake t).
    - intros E. apply pair_equal_spec in E as (<- & _). repeat split.
    - intros E. apply check_timer_keeps in E as (v & ->). repeat split.
    - intros E. apply check_timer_keeps in E as (v & ->). repeat split.
  Qed.
  Lemma tls_connect_quiet (c : conn) t c' ok : tls_connect c t = (c', ok) -> quiet c c'.
  Proof.
    unfold tls_connect. destruct (check_timer (with_unread c 0) t) as [c1 b] eqn:E1.
    apply check_timer_keeps in E1 as (v & ->).
    destruct (t_shake t); intros E; apply pair_equal_spec in E as (<- & _); repeat split.
  Qed.
  Lemma tls_connect_ok (c : conn) t c' : tls_connect c t = (c', true) -> t_shake t <> SErr.
  Proof. unfold tls_connect. destruct (t_shake t); intros E; try discriminate; congruence. Qed.
  Lemma tls_accept_ok (c : conn) t c' : tls_accept c t = (c', true) -> t_shake t <> SErr.
  Proof. unfold tls_accept. destruct (t_shake t); intros E; try discriminate; congruence. Qed.

  (** setmode *)
  Definition good_peer (p : peer) : Prop := p_alg p = ALG /\ length (p_fp p) = FP_STR_LEN.
  Lemma setmode_keeps (c : conn) o t c' m : setmode c o t = (c', m) ->
    c_side c' = c_side c /\ c_out c' = c_out c /\ c_in c' = c_in c /\
    (c_state c' = c_state c \/ (c_state c = RDC_INIT /\ c_state c' = RDC_CONNECTING)) /\
    (c_mode c' = c_mode c \/ c_state c = RDC_INIT) /\
    (c_fp c' = c_fp c \/ exists p, o = Some p /\ good_peer p /\ c_fp c' = ALG ++ [32] ++ p_fp p).
  Proof.
    destruct o as [p|]; unfold setmode; [|intros E; apply pair_equal_spec in E as (<- & _); auto 10].
    set (my := pickmode (p_mode p)).
    assert (Hmy : c_state c = RDC_INIT \/ my = c_mode c \/ (negb (mode_eqb my (c_mode c)) && negb (match c_state c with RDC_INIT => true | _ => false end)) = true).
    { destruct (mode_eqb my (c_mode c)) eqn:Em; [apply mode_eqb_eq in Em; auto|]. destruct (c_state c); auto. }
    destruct (negb (mode_eqb my (c_mode c)) && _); [intros E; apply pair_equal_spec in E as (<- & _); auto 10|].
    assert (Hm : my = c_mode c \/ c_state c = RDC_INIT) by (destruct Hmy as [?|[?|?]]; auto; discriminate). clear Hmy.
    destruct (negb (length (p_alg p) =? length ALG)%nat || negb (beq (p_alg p) ALG)) eqn:Ea; [intros E; apply pair_equal_spec in E as (<- & _); auto 10|].
    destruct (negb (length (p_fp p) =? FP_STR_LEN)%nat) eqn:Ef; [intros E; apply pair_equal_spec in E as (<- & _); auto 10|].
    apply orb_false_elim in Ea as (_ & Ea). apply negb_false_iff, beq_eq in Ea. apply negb_false_iff, Nat.eqb_eq in Ef.
    assert (G : good_peer p) by (split; assumption).
    cbv zeta.
    set (c0 := with_fp c _).
    match goal with |- context [snd ?r] => set (r0 := r) end.
    assert (Hr : exists v, fst r0 = with_ssrc c0 v).
    { unfold r0. destruct (p_ssrc p) as [s|]; [|exists (c_ssrc c); reflexivity].
      destruct (strtoul s) as [v [[|? ?]|]]; cbn [fst]; eauto; exists (c_ssrc c); reflexivity. }
    destruct Hr as (v & Hr). rewrite Hr.
    assert (Fp : c_fp c = ALG ++ [32] ++ p_fp p \/ exists q, Some p = Some q /\ good_peer q /\ ALG ++ [32] ++ p_fp p = ALG ++ [32] ++ p_fp q) by eauto.
    assert (Rest : c_fp c0 = ALG ++ [32] ++ p_fp p) by (unfold c0; cbn [c_fp with_fp]; rewrite Ea; reflexivity).
    destruct (negb (snd r0)).
    { intros E. apply pair_equal_spec in E as (<- & _). cbn [with_ssrc c_side c_out c_in c_state c_mode c_fp].
      rewrite Rest. unfold c0. cbn [with_fp c_side c_out c_in c_state c_mode]. eauto 15. }
    assert (S0 : c_state (with_ssrc c0 v) = c_state c) by reflexivity.
    assert (K : forall c1 m1, (with_mode (with_ssrc c0 v) my, Some my) = (c1, m1) -> 
      c_side c1 = c_side c /\ c_out c1 = c_out c /\ c_in c1 = c_in c /\
    (c_state c1 = c_state c \/ (c_state c = RDC_INIT /\ c_state c1 = RDC_CONNECTING)) /\
    (c_mode c1 = c_mode c \/ c_state c = RDC_INIT) /\
    (c_fp c1 = c_fp c \/ exists p0, Some p = Some p0 /\ good_peer p0 /\ c_fp c1 = ALG ++ [32] ++ p_fp p0)).
    { intros c1 m1 E. apply pair_equal_spec in E as (<- & _). cbn [with_mode with_ssrc c_side c_out c_in c_state c_mode c_fp].
      rewrite Rest. unfold c0. cbn [with_fp c_side c_out c_in c_state c_mode]. eauto 15. }
    destruct my eqn:Emy; [exact (K _ _)| |exact (K _ _)].
    rewrite S0. destruct (c_state c) eqn:Es; try exact (K _ _).
    destruct (tls_connect _ t) as [c1 ok] eqn:Ec. pose proof (tls_connect_quiet _ _ _ _ Ec) as (q1 & q2 & q3 & q4 & q5 & q6 & q7).
    cbn [with_state with_ssrc c_side c_out c_in c_state c_mode c_fp c_ssrc] in q1, q2, q3, q4, q5, q6, q7.
    destruct ok; intros E; apply pair_equal_spec in E as (<- & _); cbn [with_mode c_side c_out c_in c_state c_mode c_fp];
      rewrite q1, q2, q4, q5, q6, ?q3, Rest; unfold c0; cbn [with_fp c_side c_out c_in c_state c_mode]; eauto 15.
  Qed.

  (** The handshake *)
  Definition comes_up (c : conn) (t : tls) (c' : conn) : Prop :=
    (c_state c = RDC_INIT \/ c_state c = RDC_CONNECTING) /\ c_state c' = RDC_UP /\
    t_shake t <> SErr /\ t_ok1 t = true /\
    exists dg id s f km o i, t_digest t = Some dg /\ verified c dg /\ t_profile t = Some id /\ suite_of id = Some s /\
      t_keymat t = Some f /\ layout s (exported s f) km /\
      c_out c' = Some o /\ create s (key_out (c_mode c) km) SSRC_BAD = Some o /\
      c_in c' = Some i /\ create s (key_in (c_mode c) km) (c_ssrc c) = Some i.
  Definition told_same (c c' : conn) : Prop :=
    c_side c' = c_side c /\ c_mode c' = c_mode c /\ c_fp c' = c_fp c /\ c_ssrc c' = c_ssrc c.
  Lemma keyinfo_some t s cli srv : keyinfo t = Ok (Some (s, (cli, srv))) ->
    exists id f km, t_profile t = Some id /\ suite_of id = Some s /\ t_keymat t = Some f /\ layout s (exported s f) km /\
      cli = client_key km /\ srv = server_key km.
  Proof.
    unfold keyinfo. destruct (t_profile t) as [id|]; [|discriminate]. destruct (suite_of id) as [s0|] eqn:Es; [|discriminate].
    destruct (32 + 14 <? s_key s0 + s_iv s0)%nat; [discriminate|]. destruct (t_keymat t) as [f|]; [|discriminate].
    destruct (layout_exists s0 f) as (km & L). fold (exported s0 f). rewrite (keys_layout _ _ _ L).
    intros E. injection E as E1 E2 E3. subst s0 cli srv.
    exists id, f, km. auto 10.
  Qed.
  Lemma established_keeps (c : conn) t c' : established c t = Ok c' ->
    told_same c c' /\
    (c' = c \/ c_state c' = RDC_DEAD \/
     (c_state c' = RDC_UP /\ t_ok1 t = true /\
      exists dg id s f km o i, t_digest t = Some dg /\ verified c dg /\ t_profile t = Some id /\ suite_of id = Some s /\
      t_keymat t = Some f /\ layout s (exported s f) km /\
      c_out c' = Some o /\ create s (key_out (c_mode c) km) SSRC_BAD = Some o /\
      c_in c' = Some i /\ create s (key_in (c_mode c) km) (c_ssrc c) = Some i)).
  Proof.
    assert (D : forall x : conn, told_same c x -> told_same c (dead x) /\ (dead x = c \/ c_state (dead x) = RDC_DEAD \/
     (c_state (dead x) = RDC_UP /\ t_ok1 t = true /\
      exists dg id s f km o i, t_digest t = Some dg /\ verified c dg /\ t_profile t = Some id /\ suite_of id = Some s /\
      t_keymat t = Some f /\ layout s (exported s f) km /\
      c_out (dead x) = Some o /\ create s (key_out (c_mode c) km) SSRC_BAD = Some o /\
      c_in (dead x) = Some i /\ create s (key_in (c_mode c) km) (c_ssrc c) = Some i))).
    { intros x T. split; [exact T|]. right. left. reflexivity. }
    assert (R : told_same c c) by (repeat split).
    unfold DtlsModel.established. destruct (t_ok1 t) eqn:E1; cbn [negb]; [|intros E; injection E as <-; auto].
    destruct (keyinfo t) as [[[s [cli srv]]|]| | |] eqn:Ek; try discriminate; [|intros E; injection E as <-; auto].
    destruct (t_digest t) as [dg|] eqn:Ed; [|intros E; injection E as <-; apply D, R].
    destruct (negb (match c_fp c with [] => true | _ => false end) && negb (beq (c_fp c) (fp_gen dg))) eqn:Ev.
    { intros E; injection E as <-; apply D, R. }
    assert (V : verified c dg).
    { unfold verified. destruct (c_fp c) as [|? ?] eqn:Ec; [auto|]. cbn [negb andb] in Ev. apply negb_false_iff, beq_eq in Ev. auto. }
    apply keyinfo_some in Ek as (id & f & km & P1 & P2 & P3 & P4 & -> & ->).
    unfold setup_srtp. destruct (s_policy s) eqn:Ep; [|discriminate].
    destruct (create s (if is_active c then client_key km else server_key km) SSRC_BAD) as [o|] eqn:Eo;
      [|intros E; injection E as <-; apply D; repeat split].
    change (is_active (with_out c (Some o))) with (is_active c). change (c_ssrc (with_out c (Some o))) with (c_ssrc c).
    destruct (create s (if is_active c then server_key km else client_key km) (c_ssrc c)) as [i|] eqn:Ei;
      [|intros E; injection E as <-; apply D; repeat split].
    intros E; injection E as <-. split; [repeat split|]. right. right. split; [reflexivity|]. split; [reflexivity|].
    exists dg, id, s, f, km, o, i. unfold key_out, key_in. unfold is_active in Eo, Ei.
    destruct (c_mode c); cbn [with_state with_in with_out c_out c_in]; auto 20.
  Qed.
  Lemma drive_keeps (c : conn) b t c' : drive create c b t = Ok c' -> c_state c = RDC_UP \/ c_state c = RDC_CONNECTING ->
    told_same c c' /\
    ((c_out c' = c_out c /\ c_in c' = c_in c /\ c_state c' = c_state c) \/
     c_state c' = RDC_DEAD \/ comes_up c t c').
  Proof.
    intros E S. unfold drive in E. destruct (t_write t); cbn [negb] in E; [|injection E as <-; split; [repeat split|auto]].
    cbv zeta in E. set (c1 := with_unread c _) in E.
    assert (T1 : told_same c c1) by (repeat split).
    destruct (t_ok0 t); [injection E as <-; split; [exact T1|auto]|].
    change (c_state c1) with (c_state c) in E. change (is_active c1) with (is_active c) in E.
    destruct S as [S|S]; rewrite S in E; [injection E as <-; split; [exact T1|right; left; reflexivity]|].
    destruct (if is_active c then tls_connect c1 t else tls_accept c1 t) as [c2 ok] eqn:E2.
    assert (Q : quiet c1 c2 /\ (ok = true -> t_shake t <> SErr)).
    { destruct (is_active c); (split; [solve [eapply tls_connect_quiet; eassumption | eapply tls_accept_quiet; eassumption]|]).
      - intros ->. eapply tls_connect_ok, E2.
      - intros ->. eapply tls_accept_ok, E2. }
    destruct Q as ((q1 & q2 & q3 & q4 & q5 & q6 & q7) & Hs).
    assert (T2 : told_same c c2) by (unfold told_same; rewrite q1, q3, q6, q7; exact T1).
    destruct ok; cbn [negb] in E; [|injection E as <-; split; [exact T2|right; left; reflexivity]].
    apply established_keeps in E as (T3 & E).
    assert (T : told_same c c') by (unfold told_same in *; intuition congruence).
    split; [exact T|]. destruct E as [->|[E|(U & K & dg & id & s & f & km & o & i & P1 & P2 & P3 & P4 & P5 & P6 & P7 & P8 & P9 & P10)]].
    - left. rewrite q4, q5, q2. auto.
    - auto.
    - right. right. destruct T2 as (t1 & t2 & t3 & t4). unfold comes_up. rewrite t2, t4 in *.
      do 4 (split; [auto|]). exists dg, id, s, f, km, o, i. unfold verified in *. rewrite t3 in *. auto 20.
  Qed.
  Lemma dtls_recv_keeps (c : conn) b t c' : dtls_recv c b t = Ok c' ->
    told_same c c' /\
    ((c_out c' = c_out c /\ c_in c' = c_in c /\
        (c_state c' = c_state c \/ (c_state c = RDC_INIT /\ c_state c' = RDC_CONNECTING))) \/
     (c_state c <> RDC_DEAD /\ c_state c' = RDC_DEAD) \/ comes_up c t c').
  Proof.
    unfold DtlsModel.dtls_recv. destruct (c_state c) eqn:Es; intros E.
    - apply drive_keeps in E as (T & E); [|right; reflexivity]. split; [exact T|].
      destruct E as [(E1 & E2 & E3)|[E|E]]; [left; auto|right; left; split; [congruence|auto]|right; right].
      destruct E as (E1 & E2 & E3 & E4 & E5). unfold comes_up. auto.
    - apply drive_keeps in E as (T & E); [|auto]. split; [exact T|].
      destruct E as [(E1 & E2 & E3)|[E|E]]; [left; rewrite E3, Es; auto|right; left; split; [congruence|auto]|auto].
    - apply drive_keeps in E as (T & E); [|auto]. split; [exact T|].
      destruct E as [(E1 & E2 & E3)|[E|E]]; [left; rewrite E3, Es; auto|right; left; split; [congruence|auto]|auto].
    - injection E as <-. split; [repeat split|]. rewrite Es. auto.
  Qed.
  Lemma dtls_recv_dead (c : conn) b t : c_state c = RDC_DEAD -> dtls_recv c b t = Ok c.
  Proof. unfold DtlsModel.dtls_recv. intros ->. reflexivity. Qed.

  (** Media *)
  Lemma srtp_recv_cases (c : conn) b c' o : srtp_recv c b = Ok (c', o) ->
    (o = None /\ c' = c) \/
    exists x x' p, o = Some p /\ c_state c = RDC_UP /\ c_in c = Some x /\ unprotect x (rtcp b) b = Some (x', p) /\ c' = with_in c (Some x').
  Proof.
    unfold DtlsModel.srtp_recv. destruct (c_state c) eqn:Es; intros E; try (injection E as <- <-; auto; fail).
    destruct (c_in c) as [x|]; [|discriminate]. destruct (unprotect x (rtcp b) b) as [[x' p]|] eqn:Eu; [|injection E as <- <-; auto].
    destruct (MAX_RPKT_LEN <? _); [discriminate|]. injection E as <- <-. right. exists x, x', p. auto.
  Qed.
  Lemma rtp_send_cases (c : conn) cow al b c' o : rtp_send c cow al b = Ok (c', o) ->
    (o = None /\ c' = c) \/
    exists x x' w, o = Some (w, negb cow) /\ c_state c = RDC_UP /\ c_out c = Some x /\ protect x (rtcp b) b = Some (x', w) /\ c' = with_out c (Some x').
  Proof.
    unfold DtlsModel.rtp_send. destruct (c_state c) eqn:Es; intros E; try (injection E as <- <-; auto; fail).
    destruct (cow && negb al); [injection E as <- <-; auto|].
    destruct (c_out c) as [x|]; [|discriminate]. destruct (protect x (rtcp b) b) as [[x' p]|] eqn:Eu; [|injection E as <- <-; auto].
    destruct (MAX_RPKT_LEN <? _); [discriminate|]. injection E as <- <-. right. exists x, x', p. auto.
  Qed.
  Lemma timeout_keeps (c : conn) h t :
    told_same c (timeout c h t) /\ c_out (timeout c h t) = c_out c /\ c_in (timeout c h t) = c_in c /\
    (c_state (timeout c h t) = c_state c \/ (c_state c = RDC_CONNECTING /\ c_state (timeout c h t) = RDC_DEAD)).
  Proof.
    unfold timeout. destruct (c_timer c); cbn [negb]; [|split; [repeat split|auto]].
    change (c_state (with_timer c false)) with (c_state c).
    destruct (c_state c) eqn:Es; try (split; [repeat split|auto]; fail).
    destruct h; [|split; [repeat split|auto]].
    destruct (check_timer (with_timer c false) t) as [c1 ok] eqn:E1. apply check_timer_keeps in E1 as (v & ->).
    destruct ok; (split; [repeat split|]); auto.
  Qed.

  (** Commands *)
  Definition base_same (y y1 : sys) : Prop :=
    y_dec y1 = y_dec y /\ y_enc y1 = y_enc y /\ y_con y1 = y_con y /\ y_q y1 = y_q y.
  Lemma sender_same (y : sys) d e : base_same y (fst (setup_sender y d e)).
  Proof. unfold setup_sender. destruct (get d (y_skt y)); [repeat split|]. destruct (e_listen e); repeat split. Qed.

  Lemma act_found (y : sys) d i o own e t y' r : act y d i true o own e t = (y', r) ->
    exists y1 c' m, base_same y y1 /\ setmode (nth_con y i) o t = (c', m) /\
      ((y' = y1 /\ r = CFail /\ o <> None) \/ (y' = put_con y1 i c' /\
         r = match m with None => CFail | Some m => COk (match o with None => mode_word m ++ own | Some _ => [] end) end)).
  Proof.
    unfold act. cbv zeta.
    match goal with |- context [snd ?x] => set (s := x) end.
    assert (B1 : base_same y (fst s)).
    { unfold s. destruct o as [p|]; [|repeat split]. destruct (p_mode p); [repeat split|repeat split|apply sender_same]. }
    assert (So : snd s = false -> o <> None) by (unfold s; destruct o; [discriminate|intros X; cbn in X; discriminate]).
    destruct (setmode (nth_con y i) o t) as [c' m] eqn:Em.
    assert (En : nth_con (fst s) i = nth_con y i) by (unfold nth_con; destruct B1 as (_ & _ & -> & _); reflexivity).
    destruct (snd s); cbn [negb].
    - rewrite En, Em. cbn [andb]. destruct m as [m|]; intros E; apply pair_equal_spec in E as (<- & <-); exists (fst s), c'; eauto 10.
    - intros E. apply pair_equal_spec in E as (<- & <-). exists (fst s), c', m. split; [exact B1|]. split; [reflexivity|]. left. auto.
  Qed.
  Lemma nth_snoc (y : sys) c : nth_con (with_con y (y_con y ++ [c])) (length (y_con y)) = c.
  Proof. unfold nth_con. cbn [y_con with_con]. rewrite app_nth2, Nat.sub_diag by lia. reflexivity. Qed.
  Lemma put_snoc (y y1 : sys) c c' : y_con y1 = y_con y ++ [c] -> put_con y1 (length (y_con y)) c' = with_con y1 (y_con y ++ [c']).
  Proof. intros E. unfold put_con. rewrite E, upd_app_r, Nat.sub_diag by lia. reflexivity. Qed.
  Lemma act_new (y : sys) d o own e t y' r :
    act (with_con y (y_con y ++ [newconn d])) d (length (y_con y)) false o own e t = (y', r) ->
    exists c' m cf, setmode (newconn d) o t = (c', m) /\ y_con y' = y_con y ++ [cf] /\ y_q y' = y_q y /\
      ((r = CFail /\ y_dec y' = y_dec y /\ y_enc y' = y_enc y /\ c_state cf = RDC_DEAD /\ c_side cf = d) \/
       (cf = c' /\ y_dec y' = set d (y_dec y) (Some (length (y_con y))) /\ y_enc y' = set (negb d) (y_enc y) (Some (length (y_con y))) /\
        exists m', m = Some m' /\ r = COk (match o with None => mode_word m' ++ own | Some _ => [] end))).
  Proof.
    unfold act. cbv zeta. set (y0 := with_con y (y_con y ++ [newconn d])).
    match goal with |- context [snd ?x] => set (s := x) end.
    assert (B1 : base_same y0 (fst s)).
    { unfold s. destruct o as [p|]; [|repeat split]. destruct (p_mode p); [repeat split|repeat split|apply sender_same]. }
    destruct B1 as (b1 & b2 & b3 & b4).
    assert (En : nth_con (fst s) (length (y_con y)) = newconn d).
    { unfold nth_con. rewrite b3. apply nth_snoc. }
    destruct (setmode (newconn d) o t) as [c' m] eqn:Em.
    pose proof (setmode_keeps _ _ _ _ _ Em) as (K1 & _).
    assert (Hc : forall c, nth_con (put_con (fst s) (length (y_con y)) c) (length (y_con y)) = c).
    { intros c. rewrite nth_put, Nat.eqb_refl; [reflexivity|]. rewrite b3. unfold y0. cbn [y_con with_con]. rewrite app_length. cbn [length]. lia. }
    assert (Hp : forall c, y_con (put_con (fst s) (length (y_con y)) c) = y_con y ++ [c]).
    { intros c. rewrite (put_snoc y (fst s) (newconn d) c) by (rewrite b3; reflexivity). reflexivity. }
    assert (Hpp : forall c c2, y_con (put_con (put_con (fst s) (length (y_con y)) c) (length (y_con y)) c2) = y_con y ++ [c2]).
    { intros c c2. rewrite (put_snoc y _ c c2) by apply Hp. reflexivity. }
    destruct (snd s); cbn [negb].
    2: { intros E. apply pair_equal_spec in E as (<- & <-). rewrite En. exists c', m, (godead (newconn d)).
      split; [reflexivity|]. split; [apply Hp|]. cbn [y_q y_dec y_enc put_con with_con]. split; [exact b4|]. left.
      rewrite b1, b2. auto. }
    rewrite En, Em. destruct m as [m|].
    2: { intros E. apply pair_equal_spec in E as (<- & <-). rewrite Hc. exists c', None, (godead c').
      split; [reflexivity|]. split; [apply Hpp|]. cbn [y_q y_dec y_enc put_con with_con]. split; [exact b4|]. left.
      rewrite b1, b2. cbn [godead with_timer dead with_state c_state c_side]. auto. }
    cbn [andb]. destruct (e_reg_in e && e_reg_out e); cbn [negb]; intros E; apply pair_equal_spec in E as (<- & <-).
    - exists c', (Some m), c'. split; [reflexivity|]. cbn [y_con y_q y_dec y_enc with_dec with_enc]. split; [apply Hp|].
      split; [exact b4|]. right. split; [reflexivity|]. cbn [y_q y_dec y_enc put_con with_con]. rewrite b1, b2. eauto 10.
    - rewrite Hc. exists c', (Some m), (godead c').
      split; [reflexivity|]. split; [apply Hpp|]. cbn [y_q y_dec y_enc put_con with_con]. split; [exact b4|]. left.
      rewrite b1, b2. cbn [godead with_timer dead with_state c_state c_side]. auto.
  Qed.

  Lemma command_cases (y : sys) d args own e t y' r : command y d args own e t = (y', r) ->
    (y' = y /\ r = CFail) \/
    exists cmd, parse args = Some cmd /\ let s := target d cmd in
      ((puts cmd = false /\ exists i, get s (y_dec y) = Some i /\
          ((get (negb s) (y_enc y) = None /\ r = CAbort /\ y_q y' = y_q y) \/
           (get (negb s) (y_enc y) <> None /\ r = COk [] /\
            y' = put_con (with_enc (with_dec y (set s (y_dec y) None)) (set (negb s) (y_enc y) None)) i (godead (nth_con y i))))) \/
       (puts cmd = true /\ exists i, get s (y_dec y) = Some i /\ act y s i true (spec_of cmd args) own e t = (y', r)) \/
       (puts cmd = true /\ get s (y_dec y) = None /\
          act (with_con y (y_con y ++ [newconn s])) s (length (y_con y)) false (spec_of cmd args) own e t = (y', r))).
  Proof.
    unfold command. destruct (parse args) as [cmd|] eqn:Ep; [|intros E; apply pair_equal_spec in E as (<- & <-); auto].
    destruct (match cmd with RDG_A | RDG_P => _ | _ => false end); [intros E; apply pair_equal_spec in E as (<- & <-); auto|].
    cbv zeta. fold (target d cmd).
    assert (F : forall s, puts cmd = true -> (match get s (y_dec y) with
              | Some i => act y s i true (spec_of cmd args) own e t
              | None =>
                  if e_ctor e then act (with_con y (y_con y ++ [newconn s])) s (length (y_con y)) false (spec_of cmd args) own e t
                  else (y, CFail)
              end) = (y', r) -> s = target d cmd ->
       (y' = y /\ r = CFail) \/
    exists cmd0, Some cmd = Some cmd0 /\ let s := target d cmd0 in
      ((puts cmd0 = false /\ exists i, get s (y_dec y) = Some i /\
          ((get (negb s) (y_enc y) = None /\ r = CAbort /\ y_q y' = y_q y) \/
           (get (negb s) (y_enc y) <> None /\ r = COk [] /\
            y' = put_con (with_enc (with_dec y (set s (y_dec y) None)) (set (negb s) (y_enc y) None)) i (godead (nth_con y i))))) \/
       (puts cmd0 = true /\ exists i, get s (y_dec y) = Some i /\ act y s i true (spec_of cmd0 args) own e t = (y', r)) \/
       (puts cmd0 = true /\ get s (y_dec y) = None /\
          act (with_con y (y_con y ++ [newconn s])) s (length (y_con y)) false (spec_of cmd0 args) own e t = (y', r)))).
    { intros s Hp E ->. destruct (get (target d cmd) (y_dec y)) as [i|] eqn:Eg.
      - right. exists cmd. split; [reflexivity|]. cbv zeta. right. left. eauto.
      - destruct (e_ctor e); [|apply pair_equal_spec in E as (<- & <-); auto].
        right. exists cmd. split; [reflexivity|]. cbv zeta. right. right. auto. }
    assert (R : forall s, puts cmd = false -> (match get s (y_dec y) with
              | None => (y, CFail)
              | Some i =>
                  let y := with_dec y (set s (y_dec y) None) in
                  match get (negb s) (y_enc y) with
                  | None => (y, CAbort)
                  | Some _ =>
                      let y := with_enc y (set (negb s) (y_enc y) None) in
                      (put_con y i (godead (nth_con y i)), COk [])
                  end
              end) = (y', r) -> s = target d cmd ->
       (y' = y /\ r = CFail) \/
    exists cmd0, Some cmd = Some cmd0 /\ let s := target d cmd0 in
      ((puts cmd0 = false /\ exists i, get s (y_dec y) = Some i /\
          ((get (negb s) (y_enc y) = None /\ r = CAbort /\ y_q y' = y_q y) \/
           (get (negb s) (y_enc y) <> None /\ r = COk [] /\
            y' = put_con (with_enc (with_dec y (set s (y_dec y) None)) (set (negb s) (y_enc y) None)) i (godead (nth_con y i))))) \/
       (puts cmd0 = true /\ exists i, get s (y_dec y) = Some i /\ act y s i true (spec_of cmd0 args) own e t = (y', r)) \/
       (puts cmd0 = true /\ get s (y_dec y) = None /\
          act (with_con y (y_con y ++ [newconn s])) s (length (y_con y)) false (spec_of cmd0 args) own e t = (y', r)))).
    { intros s Hp E ->. destruct (get (target d cmd) (y_dec y)) as [i|] eqn:Eg; [|apply pair_equal_spec in E as (<- & <-); auto].
      right. exists cmd. split; [reflexivity|]. cbv zeta in *. left. split; [exact Hp|]. exists i. split; [exact Eg|].
      cbn [y_enc with_dec] in E. destruct (get (negb (target d cmd)) (y_enc y)) as [j|] eqn:Ee; apply pair_equal_spec in E as (<- & <-).
      - right. split; [discriminate|]. split; reflexivity.
      - left. auto. }
    destruct cmd; intros E; [apply (F _ eq_refl E eq_refl)|apply (F _ eq_refl E eq_refl)|apply (F _ eq_refl E eq_refl)|apply (R _ eq_refl E eq_refl)|apply (R _ eq_refl E eq_refl)].
  Qed.

  Definition item_ok (y : sys) (w : work) : Prop :=
    (w_conn w < length (y_con y))%nat /\
    match w_dir w with
    | DTLS_IN => w_side w = c_side (nth_con y (w_conn w)) /\ is_dtls (w_pkt w) = true
    | SRTP_IN => w_side w = c_side (nth_con y (w_conn w)) /\ is_dtls (w_pkt w) = false
    | RTP_OUT => w_side w = negb (c_side (nth_con y (w_conn w)))
    end.
  Record inv (y : sys) : Prop := mkInv {
    i_dec : forall d i, get d (y_dec y) = Some i -> (i < length (y_con y))%nat /\ c_side (nth_con y i) = d;
    i_enc : forall d, get (negb d) (y_enc y) = get d (y_dec y);
    i_off : forall i, (i < length (y_con y))%nat -> get (c_side (nth_con y i)) (y_dec y) <> Some i -> c_state (nth_con y i) = RDC_DEAD;
    i_up : forall i, (i < length (y_con y))%nat -> c_state (nth_con y i) = RDC_UP -> c_in (nth_con y i) <> None /\ c_out (nth_con y i) <> None;
    i_q : Forall (item_ok y) (y_q y) }.

  (** What one step can do to a connection that is there. *)
  Inductive moves (own : list Z) (y : sys) (o : op) (i : nat) (c : conn) : conn -> out -> Prop :=
  | mv_same x : moves own y o i c c x
  | mv_set d args e t cmd c' m x : o = Command d args e t -> parse args = Some cmd -> puts cmd = true ->
      target d cmd = c_side c -> get (c_side c) (y_dec y) = Some i -> setmode c (spec_of cmd args) t = (c', m) ->
      x = Answered (match m with None => CFail | Some m => COk (match spec_of cmd args with None => mode_word m ++ own | Some _ => [] end) end) ->
      moves own y o i c c' x
  | mv_off d args e t cmd x : o = Command d args e t -> parse args = Some cmd -> puts cmd = false ->
      target d cmd = c_side c -> get (c_side c) (y_dec y) = Some i -> x = Answered (COk []) -> moves own y o i c (godead c) x
  | mv_shake t al w q c' x : o = Work t al -> y_q y = w :: q -> w_dir w = DTLS_IN -> w_conn w = i ->
      dtls_recv c (w_pkt w) t = Ok c' -> x = Worked (Shaken i) -> moves own y o i c c' x
  | mv_recv t al w q x0 x1 p x : o = Work t al -> y_q y = w :: q -> w_dir w = SRTP_IN -> w_conn w = i ->
      c_state c = RDC_UP -> c_in c = Some x0 -> unprotect x0 (rtcp (w_pkt w)) (w_pkt w) = Some (x1, p) ->
      x = Worked (Behind (w_side w) i p) -> moves own y o i c (with_in c (Some x1)) x
  | mv_send t al w q x0 x1 p x : o = Work t al -> y_q y = w :: q -> w_dir w = RTP_OUT -> w_conn w = i ->
      c_state c = RDC_UP -> c_out c = Some x0 -> protect x0 (rtcp (w_pkt w)) (w_pkt w) = Some (x1, p) ->
      x = Worked (Relayed (w_side w) i p (negb (w_cow w))) -> moves own y o i c (with_out c (Some x1)) x
  | mv_timer h t x : o = Timer i h t -> moves own y o i c (timeout c h t) x.

  Lemma nth_with_q (y : sys) q i : nth_con (with_q y q) i = nth_con y i. Proof. reflexivity. Qed.

  Lemma step_moves own (y : sys) o y' x : inv y -> step own y o = (y', x) ->
    (length (y_con y) <= length (y_con y'))%nat /\
    forall i, (i < length (y_con y))%nat -> moves own y o i (nth_con y i) (nth_con y' i) x.
  Proof.
    intros V E. destruct o as [d args e t|d cow room b|d cow dst room b|t al|i h t]; unfold DtlsModel.step in E.
    - destruct (command y d args own e t) as [y1 r] eqn:Ec. apply pair_equal_spec in E as (<- & <-).
      apply command_cases in Ec as [(-> & ->)|(cmd & Ep & [(Hp & i & Eg & [(Ee & -> & Hq)|(Ee & -> & ->)])|[(Hp & i & Eg & Ea)|(Hp & Eg & Ea)]])].
      + split; [lia|]. intros; constructor.
      + exfalso. rewrite (i_enc _ V), Eg in Ee. discriminate.
      + destruct (i_dec _ V _ _ Eg) as (Hi & Hs). rewrite length_put. split; [reflexivity|]. intros j Hj.
        rewrite nth_put by exact Hi. destruct (Nat.eqb_spec j i) as [->|N]; [|constructor].
        eapply mv_off; eauto. rewrite Hs. exact Eg.
      + destruct (i_dec _ V _ _ Eg) as (Hi & Hs).
        apply act_found in Ea as (y2 & c' & m & (b1 & b2 & b3 & b4) & Em & Hr).
        assert (Hn : forall j, nth_con y2 j = nth_con y j) by (intros j; unfold nth_con; rewrite b3; reflexivity).
        destruct Hr as [(-> & -> & _)|(-> & Er)].
        * rewrite b3. split; [lia|]. intros j Hj. rewrite Hn. constructor.
        * rewrite length_put, b3. split; [lia|]. intros j Hj. rewrite nth_put by (rewrite b3; exact Hi).
          destruct (Nat.eqb_spec j i) as [->|N]; [|rewrite Hn; constructor].
          eapply mv_set; eauto; [congruence|]. f_equal. exact Er.
      + apply act_new in Ea as (c' & m & cf & Em & Hcon & Hq & _).
        rewrite Hcon, app_length. split; [lia|]. intros j Hj.
        assert (Hn : nth_con y1 j = nth_con y j) by (unfold nth_con; rewrite Hcon, app_nth1 by exact Hj; reflexivity).
        rewrite Hn. constructor.
    - unfold incoming in E. destruct (get d (y_dec y)); [destruct room|]; apply pair_equal_spec in E as (<- & <-); (split; [cbn [y_con with_q]; lia|intros; apply mv_same]).
    - unfold outgoing in E. destruct (get d (y_enc y)); [destruct dst; cbn [negb] in E; [destruct room|]|]; apply pair_equal_spec in E as (<- & <-); (split; [cbn [y_con with_q]; lia|intros; apply mv_same]).
    - destruct (worker y t al) as [y1 w0] eqn:Ew. apply pair_equal_spec in E as (<- & <-). unfold DtlsModel.worker in Ew.
      destruct (y_q y) as [|w q] eqn:Eq; [apply pair_equal_spec in Ew as (<- & <-); split; [lia|intros; constructor]|].
      pose proof (i_q _ V) as Fq. rewrite Eq in Fq. inversion Fq as [|? ? (Hw & _) _]; subst.
      rewrite nth_with_q in Ew. cbv zeta in Ew.
      destruct (w_dir w) eqn:Ed.
      + destruct (dtls_recv (nth_con y (w_conn w)) (w_pkt w) t) as [c'| | |] eqn:Er; apply pair_equal_spec in Ew as (<- & <-);
          try (split; [cbn [y_con with_q]; lia|intros; apply mv_same]).
        rewrite length_put. cbn [y_con with_q]. split; [lia|]. intros j Hj. rewrite nth_put by exact Hw.
        destruct (Nat.eqb_spec j (w_conn w)) as [->|N]; [|constructor]. eapply mv_shake; eauto.
      + destruct (srtp_recv (nth_con y (w_conn w)) (w_pkt w)) as [[c' o]| | |] eqn:Er;
          try (apply pair_equal_spec in Ew as (<- & <-); split; [cbn [y_con with_q]; lia|intros; apply mv_same]; fail).
        apply srtp_recv_cases in Er as [(-> & ->)|(x0 & x1 & p & -> & S & C & U & ->)]; apply pair_equal_spec in Ew as (<- & <-);
        rewrite length_put; cbn [y_con with_q]; (split; [lia|]); intros j Hj; rewrite nth_put by exact Hw;
        (destruct (Nat.eqb_spec j (w_conn w)) as [->|N]; [|constructor]); [constructor|]. eapply mv_recv; eauto.
      + destruct (rtp_send (nth_con y (w_conn w)) (w_cow w) al (w_pkt w)) as [[c' o]| | |] eqn:Er;
          try (apply pair_equal_spec in Ew as (<- & <-); split; [cbn [y_con with_q]; lia|intros; apply mv_same]; fail).
        apply rtp_send_cases in Er as [(-> & ->)|(x0 & x1 & p & -> & S & C & U & ->)]; apply pair_equal_spec in Ew as (<- & <-);
        rewrite length_put; cbn [y_con with_q]; (split; [lia|]); intros j Hj; rewrite nth_put by exact Hw;
        (destruct (Nat.eqb_spec j (w_conn w)) as [->|N]; [|constructor]); [constructor|]. eapply mv_send; eauto.
    - destruct (Nat.ltb_spec i (length (y_con y))) as [Hi|Hi]; apply pair_equal_spec in E as (<- & <-); [|split; [lia|intros; constructor]].
      rewrite length_put. split; [lia|]. intros j Hj. rewrite nth_put by exact Hi.
      destruct (Nat.eqb_spec j i) as [->|N]; [|constructor]. apply mv_timer. reflexivity.
  Qed.

  Lemma moves_side own y o i c c' x : moves own y o i c c' x -> c_side c' = c_side c.
  Proof.
    intros M. destruct M; try reflexivity.
    - apply setmode_keeps in H4. apply H4.
    - apply dtls_recv_keeps in H3 as ((T & _) & _). exact T.
    - destruct (timeout_keeps c h t) as ((T & _) & _). exact T.
  Qed.
  (** A connection comes up in one way only. *)
  Definition shakes (y : sys) (o : op) (i : nat) (c c' : conn) : Prop :=
    exists t al w q, o = Work t al /\ y_q y = w :: q /\ w_dir w = DTLS_IN /\ w_conn w = i /\ comes_up c t c'.
  Lemma moves_state own y o i c c' x : moves own y o i c c' x ->
    (stage (c_state c) <= stage (c_state c'))%nat /\
    (c_state c' = RDC_UP -> c_state c <> RDC_UP -> shakes y o i c c') /\
    (c_state c' = RDC_UP -> c_state c = RDC_UP ->
       (c_in c' = c_in c \/ exists x0 x1 r b p, c_in c = Some x0 /\ c_in c' = Some x1 /\ unprotect x0 r b = Some (x1, p)) /\
       (c_out c' = c_out c \/ exists x0 x1 r b p, c_out c = Some x0 /\ c_out c' = Some x1 /\ protect x0 r b = Some (x1, p))).
  Proof.
    intros M. destruct M as [x|d args e t cmd c' m x Ho Ep Hp Ht Hd Em Hx|d args e t cmd x Ho Ep Hp Ht Hd Hx
      |t al w q c' x Ho Eq Ed Ei Er Hx|t al w q x0 x1 p x Ho Eq Ed Ei Es Ec Eu Hx|t al w q x0 x1 p x Ho Eq Ed Ei Es Ec Eu Hx|h t x Ho].
    - split; [lia|]. split; [congruence|auto].
    - apply setmode_keeps in Em as (K1 & K2 & K3 & K4 & K5 & K6). rewrite K2, K3.
      destruct K4 as [K4|(K4 & K4')].
      + rewrite K4. split; [lia|]. split; [congruence|auto].
      + rewrite K4, K4'. split; [cbn; lia|]. split; discriminate.
    - cbn [godead with_timer dead with_state c_state]. split; [destruct (c_state c); cbn; lia|]. split; discriminate.
    - apply dtls_recv_keeps in Er as (T & [(K1 & K2 & K3)|[(K1 & K2)|K]]).
      + rewrite K1, K2. destruct K3 as [K3|(K3 & K3')].
        * rewrite K3. split; [lia|]. split; [congruence|auto].
        * rewrite K3, K3'. split; [cbn; lia|]. split; discriminate.
      + rewrite K2. split; [destruct (c_state c); cbn; lia|]. split; discriminate.
      + pose proof K as (K1 & K2 & _). rewrite K2. split; [destruct K1 as [-> | ->]; cbn; lia|]. split.
        * intros _ _. exists t, al, w, q. auto 10.
        * intros _ U. rewrite U in K1. destruct K1; discriminate.
    - cbn [with_in c_state c_in c_out]. split; [lia|]. split; [congruence|]. intros _ _. split; [|auto]. right. eauto 10.
    - cbn [with_out c_state c_in c_out]. split; [lia|]. split; [congruence|]. intros _ _. split; [auto|]. right. eauto 10.
    - destruct (timeout_keeps c h t) as (T & K1 & K2 & K3). rewrite K1, K2.
      destruct K3 as [K3|(K3 & K3')].
      + rewrite K3. split; [lia|]. split; [congruence|auto].
      + rewrite K3, K3'. split; [cbn; lia|]. split; discriminate.
  Qed.

  Lemma setmode_up (c : conn) o t c' m : setmode c o t = (c', m) -> c_state c' = RDC_UP -> c_state c = RDC_UP.
  Proof. intros E U. apply setmode_keeps in E as (_ & _ & _ & [K|(_ & K)] & _); congruence. Qed.

  Lemma item_ok_mono (y y' : sys) w : (length (y_con y) <= length (y_con y'))%nat ->
    (forall i, (i < length (y_con y))%nat -> c_side (nth_con y' i) = c_side (nth_con y i)) -> item_ok y w -> item_ok y' w.
  Proof.
    intros L S (H1 & H2). split; [lia|]. destruct (w_dir w); rewrite S by exact H1; exact H2.
  Qed.

  (** The two chains and the queue after a step. *)
  Lemma step_dec own (y : sys) o y' x : inv y -> step own y o = (y', x) ->
    (forall d, get (negb d) (y_enc y') = get d (y_dec y')) /\
    (forall d, get d (y_dec y') =
       match about d o x with
       | None => get d (y_dec y)
       | Some false => None
       | Some true => match get d (y_dec y) with Some i => Some i | None => Some (length (y_con y)) end
       end) /\
    (forall i, (length (y_con y) <= i < length (y_con y'))%nat -> i = length (y_con y) /\
       ((get (c_side (nth_con y' i)) (y_dec y') = Some i /\ c_state (nth_con y' i) <> RDC_UP) \/ c_state (nth_con y' i) = RDC_DEAD)) /\
    (forall d i, get d (y_dec y') = Some i -> (i < length (y_con y'))%nat /\ ((length (y_con y) <= i)%nat -> c_side (nth_con y' i) = d)).
  Proof.
    intros V E.
    assert (Same : y_dec y' = y_dec y -> y_enc y' = y_enc y -> length (y_con y') = length (y_con y) -> (forall d, about d o x = None) ->
      (forall d, get (negb d) (y_enc y') = get d (y_dec y')) /\
    (forall d, get d (y_dec y') =
       match about d o x with
       | None => get d (y_dec y)
       | Some false => None
       | Some true => match get d (y_dec y) with Some i => Some i | None => Some (length (y_con y)) end
       end) /\
    (forall i, (length (y_con y) <= i < length (y_con y'))%nat -> i = length (y_con y) /\
       ((get (c_side (nth_con y' i)) (y_dec y') = Some i /\ c_state (nth_con y' i) <> RDC_UP) \/ c_state (nth_con y' i) = RDC_DEAD)) /\
    (forall d i, get d (y_dec y') = Some i -> (i < length (y_con y'))%nat /\ ((length (y_con y) <= i)%nat -> c_side (nth_con y' i) = d))).
    { intros E1 E2 E3 E4. rewrite E1, E2, E3. split; [apply (i_enc _ V)|]. split; [intros d; rewrite E4; reflexivity|].
      split; [intros i H; lia|]. intros d i H. apply (i_dec _ V) in H as (H & _). split; [exact H|lia]. }
    destruct o as [d args e t|d cow room b|d cow dst room b|t al|i h t]; unfold DtlsModel.step in E.
    - destruct (command y d args own e t) as [y1 r] eqn:Ec. apply pair_equal_spec in E as (<- & <-).
      apply command_cases in Ec as [(-> & ->)|(cmd & Ep & Hc)]; [apply Same; reflexivity|].
      cbv zeta in Hc. set (s := target d cmd) in *.
      assert (Ha : forall txt d0, about d0 (Command d args e t) (Answered (COk txt)) = if Bool.eqb s d0 then Some (puts cmd) else None).
      { intros txt d0. unfold about. rewrite Ep. reflexivity. }
      destruct Hc as [(Hp & i & Eg & [(Ee & -> & Hq)|(Ee & -> & ->)])|[(Hp & i & Eg & Ea)|(Hp & Eg & Ea)]].
      + exfalso. rewrite (i_enc _ V), Eg in Ee. discriminate.
      + rewrite length_put. cbn [put_con with_con y_dec y_enc y_con with_enc with_dec].
        split. { intros d0. rewrite !get_set. pose proof (i_enc _ V d0). destruct d0, s; cbn [Bool.eqb negb] in *; auto. }
        split. { intros d0. rewrite Ha, Hp, get_set. destruct d0, s; reflexivity. }
        split; [intros; lia|]. intros d0 j. rewrite get_set. destruct (Bool.eqb d0 s); [discriminate|]. intros H. apply (i_dec _ V) in H as (H & _). split; [exact H|lia].
      + apply act_found in Ea as (y2 & c' & m & (b1 & b2 & b3 & b4) & Em & Hr).
        destruct Hr as [(-> & -> & _)|(-> & ->)].
        * apply Same; auto. rewrite b3. reflexivity.
        * destruct m as [m|].
          2: { apply Same; auto. rewrite length_put, b3. reflexivity. }
          rewrite length_put. cbn [put_con with_con y_dec y_enc y_con]. rewrite b1, b2, b3.
          split; [apply (i_enc _ V)|]. split.
          { intros d0. rewrite Ha, Hp. destruct (Bool.eqb_spec s d0) as [<-|]; [rewrite Eg|]; reflexivity. }
          split; [intros; lia|]. intros d0 j H. apply (i_dec _ V) in H as (H & _). split; [exact H|lia].
      + apply act_new in Ea as (c' & m & cf & Em & Hcon & Hq & [(-> & E1 & E2 & E3 & E4)|(-> & E1 & E2 & m' & Em' & ->)]).
        * assert (Hn : nth_con y1 (length (y_con y)) = cf) by (unfold nth_con; rewrite Hcon, app_nth2, Nat.sub_diag by lia; reflexivity).
          rewrite E1, E2, Hcon, app_length. cbn [length]. split; [apply (i_enc _ V)|]. split; [reflexivity|].
          split; [intros i H; assert (i = length (y_con y)) by lia; subst i; rewrite Hn; auto|].
          intros d0 j H. apply (i_dec _ V) in H as (H & _). split; lia.
        * assert (Hn : nth_con y1 (length (y_con y)) = c') by (unfold nth_con; rewrite Hcon, app_nth2, Nat.sub_diag by lia; reflexivity).
          pose proof (setmode_keeps _ _ _ _ _ Em) as (K1 & _). cbn [newconn c_side] in K1.
          rewrite E1, E2, Hcon, app_length. cbn [length].
          split. { intros d0. rewrite !get_set. pose proof (i_enc _ V d0). destruct d0, s; cbn [Bool.eqb negb] in *; auto. }
          split. { intros d0. rewrite Ha, Hp, get_set. destruct (Bool.eqb_spec s d0) as [<-|N]; [rewrite Eg, Bool.eqb_reflx; reflexivity|].
            destruct (Bool.eqb_spec d0 s) as [->|]; [congruence|reflexivity]. }
          split.
          { intros i H. assert (i = length (y_con y)) by lia. subst i. split; [reflexivity|]. left. rewrite Hn, K1, get_set_eq. split; [reflexivity|].
            intros U. apply (setmode_up _ _ _ _ _ Em) in U. discriminate. }
          intros d0 j. rewrite get_set. destruct (Bool.eqb_spec d0 s) as [->|N].
          { intros H. assert (j = length (y_con y)) by congruence; subst j. rewrite Hn. split; [lia|auto]. }
          intros H. apply (i_dec _ V) in H as (H & _). split; lia.
    - unfold incoming in E. destruct (get d (y_dec y)); [destruct room|]; apply pair_equal_spec in E as (<- & <-); apply Same; reflexivity.
    - unfold outgoing in E. destruct (get d (y_enc y)); [destruct dst; cbn [negb] in E; [destruct room|]|]; apply pair_equal_spec in E as (<- & <-); apply Same; reflexivity.
    - destruct (worker y t al) as [y1 w0] eqn:Ew. apply pair_equal_spec in E as (<- & <-). unfold DtlsModel.worker in Ew.
      destruct (y_q y) as [|w q] eqn:Eq; [apply pair_equal_spec in Ew as (<- & <-); apply Same; reflexivity|].
      rewrite nth_with_q in Ew. cbv zeta in Ew.
      destruct (w_dir w) eqn:Ed.
      + destruct (dtls_recv (nth_con y (w_conn w)) (w_pkt w) t) as [c'| | |] eqn:Er; apply pair_equal_spec in Ew as (<- & <-);
          apply Same; first [reflexivity | rewrite length_put; reflexivity].
      + destruct (srtp_recv (nth_con y (w_conn w)) (w_pkt w)) as [[c' [o|]]| | |] eqn:Er;
          apply pair_equal_spec in Ew as (<- & <-); apply Same; first [reflexivity | rewrite length_put; reflexivity].
      + destruct (rtp_send (nth_con y (w_conn w)) (w_cow w) al (w_pkt w)) as [[c' [[o pl]|]]| | |] eqn:Er;
          apply pair_equal_spec in Ew as (<- & <-); apply Same; first [reflexivity | rewrite length_put; reflexivity].
    - destruct (i <? length (y_con y))%nat; apply pair_equal_spec in E as (<- & <-); apply Same; first [reflexivity | rewrite length_put; reflexivity].
  Qed.
  (** What the queue becomes. *)
  Lemma step_queue own (y : sys) o y' x : step own y o = (y', x) ->
    y_q y' = match o, x with
             | Incoming d cow _ b, Packet Queued =>
                 y_q y ++ [mkWork (if is_dtls b then DTLS_IN else SRTP_IN) (match get d (y_dec y) with Some i => i | None => O end) d cow b]
             | Outgoing d cow _ _ b, Packet Queued => y_q y ++ [mkWork RTP_OUT (match get d (y_enc y) with Some i => i | None => O end) d cow b]
             | Work _ _, _ => tl (y_q y)
             | _, _ => y_q y
             end /\
    (forall d cow r b, o = Incoming d cow r b -> x = Packet Queued -> get d (y_dec y) <> None) /\
    (forall d cow dst r b, o = Outgoing d cow dst r b -> x = Packet Queued -> get d (y_enc y) <> None).
  Proof.
    intros E. destruct o as [d args e t|d cow room b|d cow dst room b|t al|i h t]; unfold DtlsModel.step in E.
    - split; [|split; discriminate]. destruct (command y d args own e t) as [y1 r] eqn:Ec. apply pair_equal_spec in E as (<- & <-).
      apply command_cases in Ec as [(-> & ->)|(cmd & Ep & Hc)]; [reflexivity|]. cbv zeta in Hc.
      destruct Hc as [(Hp & i & Eg & [(Ee & -> & Hq)|(Ee & -> & ->)])|[(Hp & i & Eg & Ea)|(Hp & Eg & Ea)]].
      + exact Hq.
      + reflexivity.
      + apply act_found in Ea as (y2 & c' & m & (b1 & b2 & b3 & b4) & Em & [(-> & -> & _)|(-> & ->)]); [exact b4|]. cbn [put_con with_con y_q]. exact b4.
      + apply act_new in Ea as (c' & m & cf & Em & Hcon & Hq & _). exact Hq.
    - unfold incoming in E. destruct (get d (y_dec y)) eqn:Eg; [destruct room|]; apply pair_equal_spec in E as (<- & <-);
        (split; [reflexivity|]); (split; [|discriminate]); intros ? ? ? ? Ho Hx; injection Ho as <- <- <- <-; congruence.
    - unfold outgoing in E. destruct (get d (y_enc y)) eqn:Eg; [destruct dst; cbn [negb] in E; [destruct room|]|]; apply pair_equal_spec in E as (<- & <-);
        (split; [reflexivity|]); (split; [discriminate|]); intros ? ? ? ? ? Ho Hx; injection Ho as <- <- <- <- <-; congruence.
    - split; [|split; discriminate]. destruct (worker y t al) as [y1 w0] eqn:Ew. apply pair_equal_spec in E as (<- & <-). unfold DtlsModel.worker in Ew.
      destruct (y_q y) as [|w q] eqn:Eq; [apply pair_equal_spec in Ew as (<- & <-); rewrite Eq; reflexivity|].
      rewrite nth_with_q in Ew. cbv zeta in Ew.
      destruct (w_dir w) eqn:Ed.
      + destruct (dtls_recv (nth_con y (w_conn w)) (w_pkt w) t) as [c'| | |] eqn:Er; apply pair_equal_spec in Ew as (<- & <-); reflexivity.
      + destruct (srtp_recv (nth_con y (w_conn w)) (w_pkt w)) as [[c' [o|]]| | |] eqn:Er; apply pair_equal_spec in Ew as (<- & <-); reflexivity.
      + destruct (rtp_send (nth_con y (w_conn w)) (w_cow w) al (w_pkt w)) as [[c' [[o pl]|]]| | |] eqn:Er; apply pair_equal_spec in Ew as (<- & <-); reflexivity.
    - split; [|split; discriminate]. destruct (i <? length (y_con y))%nat; apply pair_equal_spec in E as (<- & <-); reflexivity.
  Qed.

  Lemma step_inv own (y : sys) o y' x : inv y -> step own y o = (y', x) -> inv y'.
  Proof.
    intros V E. destruct (step_moves _ _ _ _ _ V E) as (L & M). destruct (step_dec _ _ _ _ _ V E) as (D1 & D2 & D3 & D4).
    destruct (step_queue _ _ _ _ _ E) as (Q1 & Q2 & Q3).
    assert (S : forall i, (i < length (y_con y))%nat -> c_side (nth_con y' i) = c_side (nth_con y i)) by (intros i Hi; eapply moves_side, M, Hi).
    assert (D5 : forall d i, get d (y_dec y') = Some i -> (i < length (y_con y'))%nat /\ c_side (nth_con y' i) = d).
    { intros d i H. destruct (D4 _ _ H) as (H1 & H2). split; [exact H1|].
      destruct (Nat.le_gt_cases (length (y_con y)) i) as [H3|H3]; [auto|]. rewrite S by exact H3.
      rewrite D2 in H. destruct (about d o x) as [[|]|]; [|discriminate|apply (i_dec _ V) in H; apply H].
      destruct (get d (y_dec y)) as [j|] eqn:Eg; [|injection H as <-; lia]. injection H as <-. apply (i_dec _ V) in Eg. apply Eg. }
    split.
    - exact D5.
    - exact D1.
    - intros i Hi. destruct (Nat.le_gt_cases (length (y_con y)) i) as [H3|H3].
      + destruct (D3 i (conj H3 Hi)) as (_ & [(H & _)|H]); [congruence|auto].
      + rewrite S by exact H3. intros N. specialize (M i H3). destruct (moves_state _ _ _ _ _ _ _ M) as (R & _).
        rewrite D2 in N.
        destruct (about (c_side (nth_con y i)) o x) as [[|]|] eqn:Ea.
        * destruct (get (c_side (nth_con y i)) (y_dec y)) as [j|] eqn:Eg.
          -- assert (get (c_side (nth_con y i)) (y_dec y) <> Some i) as N' by congruence.
             apply (i_off _ V) in N'; [|exact H3]. rewrite N' in R. destruct (c_state (nth_con y' i)); cbn in R; lia || reflexivity.
          -- assert (get (c_side (nth_con y i)) (y_dec y) <> Some i) as N' by congruence.
             apply (i_off _ V) in N'; [|exact H3]. rewrite N' in R. destruct (c_state (nth_con y' i)); cbn in R; lia || reflexivity.
        * (* taken off *)
          destruct (get (c_side (nth_con y i)) (y_dec y)) as [j|] eqn:Eg; [destruct (Nat.eq_dec j i) as [->|Nj]|].
          -- unfold about in Ea. destruct o as [d args e t| | | |]; try discriminate. destruct x as [[txt| |]| | |]; try discriminate.
             destruct (parse args) as [cmd|] eqn:Ep; [|discriminate].
             destruct (Bool.eqb_spec (target d cmd) (c_side (nth_con y i))) as [Et|]; [|discriminate]. injection Ea as Ea.
             unfold DtlsModel.step in E. destruct (command y d args own e t) as [y1 r] eqn:Ec.
             apply pair_equal_spec in E as (<- & Ex). injection Ex as ->.
             apply command_cases in Ec as [(_ & ?)|(cmd0 & Ep0 & Hc)]; [discriminate|].
             rewrite Ep in Ep0. injection Ep0 as <-. cbv zeta in Hc. rewrite Et in Hc.
             destruct Hc as [(Hp & k & Egk & [(_ & ? & _)|(Ee & _ & ->)])|[(Hp & _)|(Hp & _)]]; [discriminate| |congruence|congruence].
             rewrite Eg in Egk. injection Egk as <-. rewrite nth_put by exact H3. rewrite Nat.eqb_refl. reflexivity.
          -- assert (get (c_side (nth_con y i)) (y_dec y) <> Some i) as N' by congruence.
             apply (i_off _ V) in N'; [|exact H3]. rewrite N' in R. destruct (c_state (nth_con y' i)); cbn in R; lia || reflexivity.
          -- assert (get (c_side (nth_con y i)) (y_dec y) <> Some i) as N' by congruence.
             apply (i_off _ V) in N'; [|exact H3]. rewrite N' in R. destruct (c_state (nth_con y' i)); cbn in R; lia || reflexivity.
        * apply (i_off _ V) in N; [|exact H3]. rewrite N in R. destruct (c_state (nth_con y' i)); cbn in R; lia || reflexivity.
    - intros i Hi U. destruct (Nat.le_gt_cases (length (y_con y)) i) as [H3|H3].
      + destruct (D3 i (conj H3 Hi)) as (_ & [(_ & H)|H]); congruence.
      + destruct (moves_state _ _ _ _ _ _ _ (M i H3)) as (R & U1 & U2).
        destruct (c_state (nth_con y i)) eqn:Es.
        3: { destruct (U2 U eq_refl) as (K1 & K2). destruct (i_up _ V i H3 Es) as (N1 & N2). split.
          - destruct K1 as [->|(x0 & x1 & r & b & p & _ & -> & _)]; [exact N1|discriminate].
          - destruct K2 as [->|(x0 & x1 & r & b & p & _ & -> & _)]; [exact N2|discriminate]. }
        all: destruct (U1 U ltac:(discriminate)) as (t & al & w & q & _ & _ & _ & _ & (_ & _ & _ & _ & dg & id & s & f & km & o1 & i1 & _ & _ & _ & _ & _ & _ & -> & _ & -> & _)); split; discriminate.
    - assert (F : Forall (item_ok y') (y_q y)).
      { eapply Forall_impl; [|apply (i_q _ V)]. intros w. apply item_ok_mono; assumption. }
      rewrite Q1. destruct o as [d args e t|d cow room b|d cow dst room b|t al|i h t]; try exact F.
      + destruct x as [|[| |]| |]; try exact F. apply Forall_app. split; [exact F|]. constructor; [|constructor].
        specialize (Q2 _ _ _ _ eq_refl eq_refl). destruct (get d (y_dec y)) as [i|] eqn:Eg; [|congruence].
        destruct (i_dec _ V _ _ Eg) as (H1 & H2). split; [cbn [w_conn]; lia|]. cbn [w_dir w_side w_conn w_pkt].
        rewrite S by exact H1. destruct (is_dtls b) eqn:Ed; auto.
      + destruct x as [|[| |]| |]; try exact F. apply Forall_app. split; [exact F|]. constructor; [|constructor].
        specialize (Q3 _ _ _ _ _ eq_refl eq_refl). pose proof (i_enc _ V (negb d)) as En. rewrite Bool.negb_involutive in En. rewrite En in *.
        destruct (get (negb d) (y_dec y)) as [i|] eqn:Eg; [|congruence].
        destruct (i_dec _ V _ _ Eg) as (H1 & H2). split; [cbn [w_conn]; lia|]. cbn [w_dir w_side w_conn w_pkt].
        rewrite S, H2 by exact H1. rewrite Bool.negb_involutive. reflexivity.
      + destruct (y_q y) as [|w q]; [exact F|]. inversion F; assumption.
  Qed.

  Lemma run_app own (y : sys) a b : run own y (a ++ b) =
    let '(y1, xs) := run own y a in let '(y2, zs) := run own y1 b in (y2, xs ++ zs).
  Proof.
    revert y. induction a as [|o a IH]; intros y; cbn [app DtlsModel.run].
    - destruct (run own y b); reflexivity.
    - destruct (step own y o) as [y1 x]. rewrite IH. destruct (run own y1 a) as [y2 xs]. destruct (run own y2 b) as [y3 zs]. reflexivity.
  Qed.
  Lemma run_snoc own (y : sys) l o y1 xs y2 x : run own y l = (y1, xs) -> step own y1 o = (y2, x) -> run own y (l ++ [o]) = (y2, xs ++ [x]).
  Proof. intros E1 E2. rewrite run_app, E1. cbn [DtlsModel.run]. rewrite E2. reflexivity. Qed.
  Lemma run_length own (y : sys) l y1 xs : run own y l = (y1, xs) -> length xs = length l.
  Proof.
    revert y y1 xs. induction l as [|o l IH]; intros y y1 xs E; cbn [DtlsModel.run] in E; [injection E as <- <-; reflexivity|].
    destruct (step own y o) as [y2 x]. destruct (run own y2 l) as [y3 zs] eqn:E3. injection E as <- <-. cbn [length]. f_equal. eapply IH, E3.
  Qed.
  Lemma fresh_inv skt port cpl : inv (fresh skt port cpl).
  Proof.
    split; cbn [fresh y_dec y_enc y_con y_q length].
    - intros [] i; discriminate.
    - intros []; reflexivity.
    - intros i H; lia.
    - intros i H; lia.
    - constructor.
  Qed.
  (** Induction on a history, from its end. *)
  Lemma run_ind own (y0 : sys) (P : list op -> sys -> list out -> Prop) : inv y0 -> P [] y0 [] ->
    (forall l y xs o y' x, run own y0 l = (y, xs) -> inv y -> P l y xs -> step own y o = (y', x) -> inv y' -> P (l ++ [o]) y' (xs ++ [x])) ->
    forall l y xs, run own y0 l = (y, xs) -> inv y /\ P l y xs.
  Proof.
    intros V0 P0 St l. induction l as [|o l IH] using rev_ind; intros y xs E.
    - cbn in E. injection E as <- <-. auto.
    - destruct (run own y0 l) as [y1 xs1] eqn:E1. destruct (step own y1 o) as [y2 x] eqn:E2.
      rewrite (run_snoc _ _ _ _ _ _ _ _ E1 E2) in E. injection E as <- <-. destruct (IH _ _ eq_refl) as (V1 & P1).
      pose proof (step_inv _ _ _ _ _ V1 E2) as V2. split; [exact V2|]. eapply St; eauto.
  Qed.
  Lemma run_inv own (y0 : sys) l y xs : inv y0 -> run own y0 l = (y, xs) -> inv y.
  Proof. intros V E. apply (run_ind own y0 (fun _ _ _ => True) V) in E; [apply E|exact Logic.I|auto]. Qed.
  Lemma reached_inv own (y : sys) : reached create protect unprotect own y -> inv y.
  Proof.
    intros (skt & port & cpl & ops & ->). unfold DtlsSpec.after. destruct (run own (fresh skt port cpl) ops) as [y xs] eqn:E.
    eapply run_inv, E. apply fresh_inv.
  Qed.

  Lemma combine_snoc {A B} (l : list A) (m : list B) a b : length l = length m -> combine (l ++ [a]) (m ++ [b]) = combine l m ++ [(a, b)].
  Proof. revert m. induction l as [|x l IH]; intros [|y m] H; cbn in *; try discriminate; [reflexivity|]. rewrite IH by lia. reflexivity. Qed.

  Definition is_some {A} (o : option A) : bool := match o with Some _ => true | None => false end.
  Lemma gateway_dec own skt port cpl l y xs : run own (fresh skt port cpl) l = (y, xs) ->
    forall d, gateway_on d l xs = is_some (get d (y_dec y)).
  Proof.
    intros E. apply (run_ind own _ (fun l y xs => forall d, gateway_on d l xs = is_some (get d (y_dec y))) (fresh_inv _ _ _)) in E; [apply E| |].
    - intros []; reflexivity.
    - clear. intros l y xs o y' x Er V IH Es V' d. unfold gateway_on.
      rewrite combine_snoc by (symmetry; eapply run_length, Er). rewrite rev_app_distr. cbn [rev app on_latest].
      destruct (step_dec _ _ _ _ _ V Es) as (_ & D & _). rewrite D. specialize (IH d). unfold gateway_on in IH. rewrite IH.
      destruct (about d o x) as [[|]|]; [destruct (get d (y_dec y))| |]; reflexivity.
  Qed.

  (** What the connections that are up go back to. *)
  Lemma up_origin own y0 l y xs : inv y0 -> y_con y0 = [] -> run own y0 l = (y, xs) ->
    forall i, (i < length (y_con y))%nat -> c_state (nth_con y i) = RDC_UP ->
    exists y1 s km dg x0 z0 x z, established_by create protect unprotect own y0 l i y1 s km dg /\ verified (nth_con y1 i) dg /\
      create s (key_in (c_mode (nth_con y1 i)) km) (c_ssrc (nth_con y1 i)) = Some x0 /\ used unprotect x0 x /\ c_in (nth_con y i) = Some x /\
      create s (key_out (c_mode (nth_con y1 i)) km) SSRC_BAD = Some z0 /\ used protect z0 z /\ c_out (nth_con y i) = Some z.
  Proof.
    intros V0 N0 E. apply (run_ind own _ (fun l y xs => forall i, (i < length (y_con y))%nat -> c_state (nth_con y i) = RDC_UP ->
    exists y1 s km dg x0 z0 x z, established_by create protect unprotect own y0 l i y1 s km dg /\ verified (nth_con y1 i) dg /\
      create s (key_in (c_mode (nth_con y1 i)) km) (c_ssrc (nth_con y1 i)) = Some x0 /\ used unprotect x0 x /\ c_in (nth_con y i) = Some x /\
      create s (key_out (c_mode (nth_con y1 i)) km) SSRC_BAD = Some z0 /\ used protect z0 z /\ c_out (nth_con y i) = Some z) V0) in E; [apply E| |].
    - rewrite N0. intros i H. cbn in H. lia.
    - clear l y xs E. intros l y xs o y' x Er V IH Es V' i Hi U.
      destruct (step_moves _ _ _ _ _ V Es) as (L & M). destruct (step_dec _ _ _ _ _ V Es) as (_ & _ & D3 & _).
      destruct (Nat.le_gt_cases (length (y_con y)) i) as [H3|H3].
      { destruct (D3 i (conj H3 Hi)) as (_ & [(_ & H)|H]); congruence. }
      destruct (moves_state _ _ _ _ _ _ _ (M i H3)) as (R & U1 & U2).
      assert (Dec : c_state (nth_con y i) = RDC_UP \/ c_state (nth_con y i) <> RDC_UP) by (destruct (c_state (nth_con y i)); auto; right; discriminate).
      destruct Dec as [Up|Nup].
      + destruct (IH i H3 Up) as (y1 & s & km & dg & x0 & z0 & x1 & z1 & (l1 & t & al & l2 & El & Rest) & Hv & C1 & C2 & C3 & C4 & C5 & C6).
        destruct (U2 U Up) as (K1 & K2).
        assert (Kin : exists x2, used unprotect x0 x2 /\ c_in (nth_con y' i) = Some x2).
        { destruct K1 as [K1|(a & b & r & p & q & A1 & A2 & A3)]; [rewrite K1; eauto|]. rewrite A2. exists b. split; [|reflexivity].
          rewrite C3 in A1. injection A1 as ->. econstructor; eassumption. }
        assert (Kout : exists z2, used protect z0 z2 /\ c_out (nth_con y' i) = Some z2).
        { destruct K2 as [K2|(a & b & r & p & q & A1 & A2 & A3)]; [rewrite K2; eauto|]. rewrite A2. exists b. split; [|reflexivity].
          rewrite C6 in A1. injection A1 as ->. econstructor; eassumption. }
        destruct Kin as (x2 & Kin1 & Kin2). destruct Kout as (z2 & Kout1 & Kout2).
        exists y1, s, km, dg, x0, z0, x2, z2. split; [|auto 20]. exists l1, t, al, (l2 ++ [o]).
        split; [rewrite El, <- app_assoc; reflexivity|exact Rest].
      + destruct (U1 U Nup) as (t & al & w & q & -> & Eq & Ed & Ei & (S1 & S2 & S3 & S4 & dg & id & s & f & km & z0 & x0 & P1 & P2 & P3 & P4 & P5 & P6 & P7 & P8 & P9 & P10)).
        exists y, s, km, dg, x0, z0, x0, z0. split; [|split; [exact P2|]].
        * exists l, t, al, []. split; [reflexivity|]. split; [unfold DtlsSpec.after; rewrite Er; reflexivity|]. split; [exact H3|]. split; [exact S1|].
          split. { exists w, q. pose proof (i_q _ V) as F. rewrite Eq in F. inversion F as [|? ? (_ & Fw) _]; subst. rewrite Ed in Fw. destruct Fw as (_ & Fw). apply is_dtls_record in Fw. auto. }
          split; [exact S3|]. split; [exact S4|]. split; [exact P1|]. exists id, f. auto.
        * split; [exact P10|]. split; [constructor|]. split; [exact P9|]. split; [exact P8|]. split; [constructor|exact P7].
  Qed.

  (** The queue. *)
  Definition seen (w : work) : bool * bool * bool * list Z := (match w_dir w with RTP_OUT => true | _ => false end, w_side w, w_cow w, w_pkt w).
  Lemma worker_idle (y : sys) t al y' w : worker y t al = (y', w) -> (w = Idle <-> y_q y = []).
  Proof.
    unfold DtlsModel.worker. destruct (y_q y) as [|i q]; [intros E; apply pair_equal_spec in E as (_ & <-); tauto|].
    rewrite nth_with_q. cbv zeta. intros E. split; [intros ->|discriminate]. exfalso. destruct (w_dir i).
    - destruct (dtls_recv (nth_con y (w_conn i)) (w_pkt i) t); apply pair_equal_spec in E as (_ & E); discriminate.
    - destruct (srtp_recv (nth_con y (w_conn i)) (w_pkt i)) as [[? [?|]]| | |]; apply pair_equal_spec in E as (_ & E); discriminate.
    - destruct (rtp_send (nth_con y (w_conn i)) (w_cow i) al (w_pkt i)) as [[? [[? ?]|]]| | |]; apply pair_equal_spec in E as (_ & E); discriminate.
  Qed.
  Lemma list_sum_snoc l n : list_sum (l ++ [n]) = (list_sum l + n)%nat.
  Proof. rewrite list_sum_app. cbn. lia. Qed.
  Lemma waiting_queue own skt port cpl l y xs : run own (fresh skt port cpl) l = (y, xs) -> waiting l xs = map seen (y_q y).
  Proof.
    intros E.
    apply (run_ind own _ (fun l y xs => waiting l xs = map seen (y_q y) /\ (list_sum (map served xs) <= length (concat (map (fun q => taken (fst q) (snd q)) (combine l xs))))%nat) (fresh_inv _ _ _)) in E;
      [apply E|split; [reflexivity|cbn; lia]|].
    clear l y xs E. intros l y xs o y' x Er V (IH & Le) Es V'. unfold waiting in *.
    rewrite combine_snoc by (symmetry; eapply run_length, Er). rewrite !map_app, concat_app. cbn [map concat fst snd]. rewrite app_nil_r, list_sum_snoc.
    set (T := concat (map (fun q => taken (fst q) (snd q)) (combine l xs))) in *. set (n := list_sum (map served xs)) in *.
    destruct (step_queue _ _ _ _ _ Es) as (Q & Q2 & Q3). rewrite Q.
    assert (Same : taken o x = [] -> served x = O -> y_q y' = y_q y ->
      skipn (n + served x) (T ++ taken o x) = map seen (y_q y') /\ (n + served x <= length (T ++ taken o x))%nat).
    { intros -> -> ->. rewrite app_nil_r, Nat.add_0_r. auto. }
    assert (Add : forall p, taken o x = [seen p] -> served x = O -> y_q y' = y_q y ++ [p] ->
      skipn (n + served x) (T ++ taken o x) = map seen (y_q y') /\ (n + served x <= length (T ++ taken o x))%nat).
    { intros p -> -> ->. rewrite Nat.add_0_r, skipn_app, IH, map_app. replace (n - length T)%nat with O by lia. split; [reflexivity|]. rewrite app_length. lia. }
    rewrite <- Q. destruct o as [d args e t|d cow room b|d cow dst room b|t al|i h t].
    - apply Same; [reflexivity| |exact Q]. unfold DtlsModel.step in Es. destruct (command y d args own e t). apply pair_equal_spec in Es as (_ & <-). reflexivity.
    - destruct x as [|[| |]| |]; try (apply Same; [reflexivity|reflexivity|exact Q]; fail).
      + refine (Add _ _ eq_refl Q). unfold seen. cbn [w_dir w_side w_cow w_pkt]. destruct (is_dtls b); reflexivity.
      + exfalso. unfold DtlsModel.step in Es. destruct (incoming y d cow room b); discriminate.
    - destruct x as [|[| |]| |]; try (apply Same; [reflexivity|reflexivity|exact Q]; fail).
      + refine (Add _ _ eq_refl Q). reflexivity.
      + exfalso. unfold DtlsModel.step in Es. destruct (outgoing y d cow dst room b); discriminate.
    - unfold DtlsModel.step in Es. destruct (worker y t al) as [y1 w] eqn:Ew. apply pair_equal_spec in Es as (<- & <-).
      pose proof (worker_idle _ _ _ _ _ Ew) as Id. change (taken (Work t al) (Worked w)) with (@nil (bool * bool * bool * list Z)). rewrite app_nil_r, Q.
      destruct (y_q y) as [|p q] eqn:Eq.
      + rewrite (proj2 Id eq_refl). cbn [served tl map]. rewrite Nat.add_0_r. auto.
      + assert (Hs : served (Worked w) = 1%nat) by (destruct w; try reflexivity; destruct Id as (Id & _); specialize (Id eq_refl); discriminate).
        rewrite Hs. cbn [tl]. assert (Lt : (n < length T)%nat).
        { assert (H : length (skipn n T) = length (map seen (p :: q))) by (rewrite IH; reflexivity). rewrite skipn_length, map_length in H. cbn [length] in H. lia. }
        split; [|lia]. rewrite Nat.add_1_r.
        assert (Sk : forall (A : Type) (m : nat) (z : list A), skipn (S m) z = tl (skipn m z)).
        { intros A m. induction m as [|m IHm]; intros [|a z]; try reflexivity. apply IHm. }
        rewrite Sk, IH. reflexivity.
    - apply Same; [reflexivity| |exact Q]. unfold DtlsModel.step in Es. destruct (i <? length (y_con y))%nat; apply pair_equal_spec in Es as (_ & <-); reflexivity.
  Qed.

  (** What the thread gives out. *)
  Lemma worker_behind (y : sys) t al y' d i b : worker y t al = (y', Behind d i b) ->
    exists w q x x', y_q y = w :: q /\ w_dir w = SRTP_IN /\ w_conn w = i /\ w_side w = d /\ c_state (nth_con y i) = RDC_UP /\
      c_in (nth_con y i) = Some x /\ unprotect x (rtcp (w_pkt w)) (w_pkt w) = Some (x', b).
  Proof.
    unfold DtlsModel.worker. destruct (y_q y) as [|w q]; [discriminate|]. rewrite nth_with_q. cbv zeta.
    destruct (w_dir w) eqn:Ed; intros E.
    - destruct (dtls_recv (nth_con y (w_conn w)) (w_pkt w) t); discriminate.
    - destruct (srtp_recv (nth_con y (w_conn w)) (w_pkt w)) as [[c [p|]]| | |] eqn:Er; try discriminate.
      apply srtp_recv_cases in Er as [(? & _)|(x & x' & p' & E1 & E2 & E3 & E4 & _)]; [discriminate|].
      injection E as _ <- <- <-. injection E1 as ->. exists w, q, x, x'. auto 10.
    - destruct (rtp_send (nth_con y (w_conn w)) (w_cow w) al (w_pkt w)) as [[? [[? ?]|]]| | |]; discriminate.
  Qed.
  Lemma worker_relayed (y : sys) t al y' d i b pl : worker y t al = (y', Relayed d i b pl) ->
    exists w q x x', y_q y = w :: q /\ w_dir w = RTP_OUT /\ w_conn w = i /\ w_side w = d /\ pl = negb (w_cow w) /\ c_state (nth_con y i) = RDC_UP /\
      c_out (nth_con y i) = Some x /\ protect x (rtcp (w_pkt w)) (w_pkt w) = Some (x', b).
  Proof.
    unfold DtlsModel.worker. destruct (y_q y) as [|w q]; [discriminate|]. rewrite nth_with_q. cbv zeta.
    destruct (w_dir w) eqn:Ed; intros E.
    - destruct (dtls_recv (nth_con y (w_conn w)) (w_pkt w) t); discriminate.
    - destruct (srtp_recv (nth_con y (w_conn w)) (w_pkt w)) as [[? [?|]]| | |]; discriminate.
    - destruct (rtp_send (nth_con y (w_conn w)) (w_cow w) al (w_pkt w)) as [[c [[p pl0]|]]| | |] eqn:Er; try discriminate.
      apply rtp_send_cases in Er as [(? & _)|(x & x' & p' & E1 & E2 & E3 & E4 & _)]; [discriminate|].
      injection E as _ <- <- <- <-. injection E1 as -> ->. exists w, q, x, x'. auto 10.
  Qed.

  (** A dead connection stays so and gives nothing out. *)
  Lemma dead_for_good own (y : sys) i l : inv y -> (i < length (y_con y))%nat -> c_state (nth_con y i) = RDC_DEAD ->
    forall y' xs, run own y l = (y', xs) -> c_state (nth_con y' i) = RDC_DEAD /\ (i < length (y_con y'))%nat /\
      forall d b pl, ~ In (Worked (Behind d i b)) xs /\ ~ In (Worked (Relayed d i b pl)) xs.
  Proof.
    revert y. induction l as [|o l IH]; intros y V Hi Hd y' xs E.
    - cbn in E. injection E as <- <-. auto.
    - cbn [DtlsModel.run] in E. destruct (step own y o) as [y1 x] eqn:Es. destruct (run own y1 l) as [y2 zs] eqn:Er. injection E as <- <-.
      destruct (step_moves _ _ _ _ _ V Es) as (L & M). destruct (moves_state _ _ _ _ _ _ _ (M i Hi)) as (R & _).
      assert (Hd1 : c_state (nth_con y1 i) = RDC_DEAD) by (rewrite Hd in R; destruct (c_state (nth_con y1 i)); cbn in R; lia || reflexivity).
      destruct (IH y1 (step_inv _ _ _ _ _ V Es) ltac:(lia) Hd1 _ _ Er) as (K1 & K2 & K3). split; [exact K1|]. split; [exact K2|].
      intros d b pl. destruct (K3 d b pl) as (K4 & K5). split; intros [H|H]; auto; subst x; unfold DtlsModel.step in Es;
        destruct o as [d0 args e t|d0 cow room b0|d0 cow dst room b0|t al|i0 h t];
        try (destruct (command y d0 args own e t); discriminate); try (destruct (incoming y d0 cow room b0); discriminate);
        try (destruct (outgoing y d0 cow dst room b0); discriminate); try (destruct (i0 <? length (y_con y))%nat; discriminate);
        destruct (worker y t al) as [yy w] eqn:Ew; apply pair_equal_spec in Es as (_ & Es); injection Es as ->.
      + apply worker_behind in Ew as (w & q & x & x' & _ & _ & _ & _ & U & _). congruence.
      + apply worker_relayed in Ew as (w & q & x & x' & _ & _ & _ & _ & _ & U & _). congruence.
  Qed.
  Lemma removed own (y : sys) d args e t y' txt cmd : inv y -> command y d args own e t = (y', COk txt) -> parse args = Some cmd -> puts cmd = false ->
    exists i, get (target d cmd) (y_dec y) = Some i /\ (i < length (y_con y'))%nat /\ c_state (nth_con y' i) = RDC_DEAD /\
      get (target d cmd) (y_dec y') = None /\ get (negb (target d cmd)) (y_enc y') = None.
  Proof.
    intros V Ec Ep Hp. apply command_cases in Ec as [(_ & ?)|(cmd0 & Ep0 & Hc)]; [discriminate|].
    rewrite Ep in Ep0. injection Ep0 as <-. cbv zeta in Hc.
    destruct Hc as [(_ & i & Eg & [(_ & ? & _)|(Ee & _ & ->)])|[(Hp' & _)|(Hp' & _)]]; [discriminate| |congruence|congruence].
    exists i. destruct (i_dec _ V _ _ Eg) as (Hi & _). split; [exact Eg|]. rewrite length_put. split; [exact Hi|].
    rewrite nth_put, Nat.eqb_refl by exact Hi. split; [reflexivity|]. cbn [put_con with_con y_dec y_enc with_dec with_enc]. rewrite !get_set_eq. auto.
  Qed.

  (** The other side. *)
  Lemma act_sockets (y : sys) d i fnd o own e t y' r d0 : act y d i fnd o own e t = (y', r) -> d0 <> d ->
    get d0 (y_skt y') = get d0 (y_skt y) /\ get d0 (y_port y') = get d0 (y_port y).
  Proof.
    intros E N. unfold act in E. cbv zeta in E.
    match type of E with context [snd ?x] => set (s := x) in E end.
    assert (B1 : get d0 (y_skt (fst s)) = get d0 (y_skt y) /\ get d0 (y_port (fst s)) = get d0 (y_port y)).
    { unfold s. destruct o as [p|]; [|auto]. destruct (p_mode p); auto. unfold setup_sender. destruct (get d (y_skt y)); [auto|].
      destruct (e_listen e); [|auto]. cbn [fst with_complete with_port with_skt y_skt y_port]. rewrite !get_set.
      destruct (Bool.eqb_spec d0 d); [congruence|auto]. }
    destruct (snd s); cbn [negb] in E.
    - destruct (setmode (nth_con (fst s) i) o t) as [c m]. destruct m as [m|].
      + destruct fnd; cbn [negb andb] in E; [apply pair_equal_spec in E as (<- & _); exact B1|].
        destruct (e_reg_in e && e_reg_out e); apply pair_equal_spec in E as (<- & _); exact B1.
      + destruct fnd; apply pair_equal_spec in E as (<- & _); exact B1.
    - destruct fnd; apply pair_equal_spec in E as (<- & _); exact B1.
  Qed.
  Lemma one_side own (y : sys) d args e t y' r cmd : inv y -> command y d args own e t = (y', r) -> parse args = Some cmd ->
    let s := negb (target d cmd) in
    get s (y_dec y') = get s (y_dec y) /\ get (negb s) (y_enc y') = get (negb s) (y_enc y) /\
    get s (y_skt y') = get s (y_skt y) /\ get s (y_port y') = get s (y_port y) /\ y_q y' = y_q y /\
    forall i, (i < length (y_con y))%nat -> c_side (nth_con y i) = s -> nth_con y' i = nth_con y i.
  Proof.
    intros V Ec Ep s. pose proof Ec as Ec'.
    assert (Es : step own y (Command d args e t) = (y', Answered r)) by (unfold DtlsModel.step; rewrite Ec; reflexivity).
    destruct (step_dec _ _ _ _ _ V Es) as (D1 & D2 & _). destruct (step_moves _ _ _ _ _ V Es) as (_ & M).
    destruct (step_queue _ _ _ _ _ Es) as (Q & _).
    assert (Ha : about s (Command d args e t) (Answered r) = None).
    { unfold about. destruct r; try reflexivity. rewrite Ep. unfold s. destruct (target d cmd); reflexivity. }
    assert (Dd : get s (y_dec y') = get s (y_dec y)) by (rewrite D2, Ha; reflexivity).
    split; [exact Dd|]. split. { rewrite D1, (i_enc _ V). exact Dd. }
    assert (Sk : get s (y_skt y') = get s (y_skt y) /\ get s (y_port y') = get s (y_port y)).
    { assert (Ns : s <> target d cmd) by (unfold s; destruct (target d cmd); discriminate).
      apply command_cases in Ec' as [(-> & _)|(cmd0 & Ep0 & Hc)]; [auto|].
      rewrite Ep in Ep0. injection Ep0 as <-. cbv zeta in Hc.
      destruct Hc as [(_ & i & Eg & [(Ee & -> & _)|(Ee & _ & ->)])|[(_ & i & Eg & Ea)|(_ & Eg & Ea)]].
      - exfalso. rewrite (i_enc _ V), Eg in Ee. discriminate.
      - auto.
      - eapply act_sockets; eauto.
      - apply act_sockets with (d0 := s) in Ea; [|exact Ns]. exact Ea. }
    destruct Sk as (S1 & S2). split; [exact S1|]. split; [exact S2|]. split; [exact Q|].
    intros i Hi Hs. specialize (M i Hi).
    assert (Np : forall cmd0, parse args = Some cmd0 -> target d cmd0 = c_side (nth_con y i) -> False).
    { intros cmd0 E1 E2. rewrite Ep in E1. injection E1 as <-. unfold s in Hs. rewrite Hs in E2. destruct (target d cmd); discriminate. }
    inversion M as [x E1 E2|? ? ? ? ? ? ? ? Ho Ep0 Hp Ht|? ? ? ? ? ? Ho Ep0 Hp Ht|? ? ? ? ? ? Ho|? ? ? ? ? ? ? ? Ho|? ? ? ? ? ? ? ? Ho|? ? ? Ho]; try discriminate.
    - congruence.
    - injection Ho as <- <- <- <-. exfalso. eapply Np; eauto.
    - injection Ho as <- <- <- <-. exfalso. eapply Np; eauto.
  Qed.

  (** When a command is granted. *)
  Lemma setmode_result (c : conn) p t c' m : setmode c (Some p) t = (c', Some m) ->
    (pickmode (p_mode p) = c_mode c \/ c_state c = RDC_INIT) /\ good_peer p /\
    (forall s, p_ssrc p = Some s -> exists v, strtoul s = (v, Some []) /\ c_ssrc c' = u32 v) /\
    (p_ssrc p = None -> c_ssrc c' = c_ssrc c) /\
    (pickmode (p_mode p) = ACTIVE -> c_state c = RDC_INIT -> t_shake t <> SErr) /\
    c_fp c' = ALG ++ [32] ++ p_fp p /\ c_mode c' = pickmode (p_mode p) /\ m = pickmode (p_mode p).
  Proof.
    unfold setmode. set (my := pickmode (p_mode p)).
    destruct (negb (mode_eqb my (c_mode c)) && negb (match c_state c with RDC_INIT => true | _ => false end)) eqn:Em; [discriminate|].
    destruct (negb (length (p_alg p) =? length ALG)%nat || negb (beq (p_alg p) ALG)) eqn:Ea; [discriminate|].
    destruct (negb (length (p_fp p) =? FP_STR_LEN)%nat) eqn:Ef; [discriminate|].
    assert (Hm : my = c_mode c \/ c_state c = RDC_INIT).
    { apply andb_false_iff in Em as [Em|Em]; apply negb_false_iff in Em; [left; apply mode_eqb_eq, Em|right; destruct (c_state c); congruence]. }
    apply orb_false_elim in Ea as (_ & Ea). apply negb_false_iff, beq_eq in Ea. apply negb_false_iff, Nat.eqb_eq in Ef.
    cbv zeta. set (c0 := with_fp c _). match goal with |- context [snd ?r] => set (r0 := r) end.
    destruct (snd r0) eqn:Er; cbn [negb]; [|discriminate].
    assert (Hr : quiet c0 (with_ssrc (fst r0) (c_ssrc c0)) /\ (forall s, p_ssrc p = Some s -> exists v, strtoul s = (v, Some []) /\ c_ssrc (fst r0) = u32 v) /\ (p_ssrc p = None -> c_ssrc (fst r0) = c_ssrc c)).
    { unfold r0 in *. destruct (p_ssrc p) as [s|]; [|split; [repeat split|split; [discriminate|reflexivity]]].
      destruct (strtoul s) as [v [[|? ?]|]] eqn:Es; cbn [snd] in Er; try discriminate.
      split; [repeat split|]. split; [|discriminate]. intros s0 E0. injection E0 as <-. exists v. auto. }
    destruct Hr as ((q1 & q2 & q3 & q4 & q5 & q6 & q7) & Hs & Hn). cbn [with_ssrc c_side c_state c_mode c_out c_in c_fp] in q1, q2, q3, q4, q5, q6.
    assert (Sc : c_state (fst r0) = c_state c) by (rewrite q2; reflexivity).
    assert (Fp : c_fp (fst r0) = ALG ++ [32] ++ p_fp p) by (rewrite q6; unfold c0; cbn [with_fp c_fp]; rewrite Ea; reflexivity).
    assert (K : (my = ACTIVE -> c_state c = RDC_INIT -> t_shake t <> SErr) -> (with_mode (fst r0) my, Some my) = (c', Some m) ->
     (my = c_mode c \/ c_state c = RDC_INIT) /\ good_peer p /\
    (forall s, p_ssrc p = Some s -> exists v, strtoul s = (v, Some []) /\ c_ssrc c' = u32 v) /\
    (p_ssrc p = None -> c_ssrc c' = c_ssrc c) /\
    (my = ACTIVE -> c_state c = RDC_INIT -> t_shake t <> SErr) /\
    c_fp c' = ALG ++ [32] ++ p_fp p /\ c_mode c' = my /\ m = my).
    { intros Ht E. apply pair_equal_spec in E as (<- & E). injection E as <-. split; [exact Hm|]. split; [split; assumption|].
      split; [exact Hs|]. split; [exact Hn|]. split; [exact Ht|]. split; [exact Fp|]. split; reflexivity. }
    destruct my eqn:Emy; [apply K; discriminate| |apply K; discriminate].
    rewrite Sc in *. destruct (c_state c) eqn:Es; try (apply K; discriminate).
    destruct (tls_connect _ t) as [c1 ok] eqn:Ec. destruct ok; [|discriminate].
    pose proof (tls_connect_ok _ _ _ Ec) as Hok. pose proof (tls_connect_quiet _ _ _ _ Ec) as (k1 & k2 & k3 & k4 & k5 & k6 & k7).
    cbn [with_state c_fp c_ssrc] in k6, k7.
    intros E. apply pair_equal_spec in E as (<- & E). injection E as <-. cbn [with_mode c_ssrc c_fp c_mode]. rewrite k6, k7.
    split; [exact Hm|]. split; [split; assumption|]. auto 10.
  Qed.
  Lemma setmode_granted (c : conn) p t :
    (pickmode (p_mode p) = c_mode c \/ c_state c = RDC_INIT) -> good_peer p ->
    (forall s, p_ssrc p = Some s -> exists v, strtoul s = (v, Some [])) ->
    (pickmode (p_mode p) = ACTIVE -> c_state c = RDC_INIT -> t_shake t <> SErr) ->
    snd (setmode c (Some p) t) <> None.
  Proof.
    intros Hm (Ha & Hf) Hs Ht. unfold setmode. set (my := pickmode (p_mode p)) in *.
    assert (E1 : negb (mode_eqb my (c_mode c)) && negb (match c_state c with RDC_INIT => true | _ => false end) = false).
    { destruct Hm as [Hm|Hm]; [rewrite (proj2 (mode_eqb_eq _ _) Hm); reflexivity|rewrite Hm; apply andb_false_r]. }
    rewrite E1, Ha, beq_refl, Nat.eqb_refl, Hf, Nat.eqb_refl. cbn [negb orb]. cbv zeta.
    match goal with |- context [snd (?a, ?b)] => idtac | |- _ => idtac end.
    destruct (p_ssrc p) as [s|].
    - destruct (Hs s eq_refl) as (v & ->). cbn [snd fst negb with_ssrc c_state with_fp].
      destruct my; try discriminate. destruct (c_state c) eqn:Es; try discriminate.
      unfold tls_connect. destruct (t_shake t) eqn:Et; [exfalso; apply Ht; reflexivity|discriminate|discriminate].
    - cbn [snd fst negb with_ssrc c_state with_fp].
      destruct my; try discriminate. destruct (c_state c) eqn:Es; try discriminate.
      unfold tls_connect. destruct (t_shake t) eqn:Et; [exfalso; apply Ht; reflexivity|discriminate|discriminate].
  Qed.
  Definition sender_ok (y : sys) (d : bool) (o : option peer) (e : env) : Prop :=
    match o with Some p => p_mode p = PASSIVE -> get d (y_skt y) = true \/ e_listen e <> None | None => True end.
  Lemma act_ok (y : sys) d i fnd o own e t :
    (exists txt, snd (act y d i fnd o own e t) = COk txt) <->
    sender_ok y d o e /\ snd (setmode (nth_con y i) o t) <> None /\ (fnd = true \/ (e_reg_in e = true /\ e_reg_out e = true)).
  Proof.
    unfold act. cbv zeta. match goal with |- context [negb (snd ?x)] => set (s := x) end.
    assert (En : nth_con (fst s) i = nth_con y i).
    { assert (B1 : base_same y (fst s)) by (unfold s; destruct o as [p|]; [destruct (p_mode p); [repeat split|repeat split|apply sender_same]|repeat split]).
      unfold nth_con. destruct B1 as (_ & _ & -> & _). reflexivity. }
    assert (Hs : snd s = true <-> sender_ok y d o e).
    { unfold s, sender_ok. destruct o as [p|]; [|cbn; tauto]. destruct (p_mode p); try (cbn [snd]; split; [discriminate|reflexivity]; fail).
      unfold setup_sender. destruct (get d (y_skt y)); [cbn; tauto|]. destruct (e_listen e); cbn [snd]; split; try discriminate; try reflexivity; auto.
      - intros _ _. right. discriminate.
      - intros H. destruct (H eq_refl); [discriminate|congruence]. }
    destruct (snd s); cbn [negb].
    - rewrite En. destruct (setmode (nth_con y i) o t) as [c m]. destruct m as [m|]; cbn [snd].
      + destruct fnd; cbn [negb andb].
        * split; [intros _|intros _; eexists; reflexivity]. split; [apply Hs; reflexivity|]. split; [discriminate|auto].
        * destruct (e_reg_in e), (e_reg_out e); cbn [andb negb snd]; split; try (intros (txt & ?); discriminate).
          -- intros _. split; [apply Hs; reflexivity|]. split; [discriminate|auto].
          -- intros _. eexists; reflexivity.
          -- intros (_ & _ & [?|(? & ?)]); discriminate.
          -- intros (_ & _ & [?|(? & ?)]); discriminate.
          -- intros (_ & _ & [?|(? & ?)]); discriminate.
      + split; [intros (txt & ?); discriminate|]. intros (_ & ? & _); congruence.
    - cbn [snd]. split; [intros (txt & ?); discriminate|]. intros (H & _). apply Hs in H. discriminate.
  Qed.
  Lemma command_granted (y : sys) d args own e t cmd : parse args = Some cmd -> puts cmd = true ->
    (exists txt, snd (command y d args own e t) = COk txt) <->
    (match cmd with RDG_A | RDG_P => (length (nth 1 args []) <= length ALG)%nat | _ => True end) /\
    sender_ok y (target d cmd) (spec_of cmd args) e /\
    match get (target d cmd) (y_dec y) with
    | Some i => snd (setmode (nth_con y i) (spec_of cmd args) t) <> None
    | None => e_ctor e = true /\ e_reg_in e = true /\ e_reg_out e = true /\ snd (setmode (newconn (target d cmd) : conn) (spec_of cmd args) t) <> None
    end.
  Proof.
    intros Ep Hp. unfold command. rewrite Ep. fold (target d cmd).
    destruct (match cmd with RDG_A | RDG_P => (length ALG <? length (nth 1 args []))%nat | _ => false end) eqn:El.
    { split; [intros (txt & ?); discriminate|]. intros (H & _). destruct cmd; try discriminate; apply Nat.ltb_lt in El; lia. }
    assert (HL : match cmd with RDG_A | RDG_P => (length (nth 1 args []) <= length ALG)%nat | _ => True end).
    { destruct cmd; auto; apply Nat.ltb_ge in El; exact El. }
    cbv zeta.
    assert (F : (exists txt, snd (match get (target d cmd) (y_dec y) with
              | Some i => act y (target d cmd) i true (spec_of cmd args) own e t
              | None =>
                  if e_ctor e then act (with_con y (y_con y ++ [newconn (target d cmd)])) (target d cmd) (length (y_con y)) false (spec_of cmd args) own e t
                  else (y, CFail)
              end) = COk txt) <-> (match cmd with RDG_A | RDG_P => (length (nth 1 args []) <= length ALG)%nat | _ => True end) /\
    sender_ok y (target d cmd) (spec_of cmd args) e /\
    match get (target d cmd) (y_dec y) with
    | Some i => snd (setmode (nth_con y i) (spec_of cmd args) t) <> None
    | None => e_ctor e = true /\ e_reg_in e = true /\ e_reg_out e = true /\ snd (setmode (newconn (target d cmd) : conn) (spec_of cmd args) t) <> None
    end).
    { destruct (get (target d cmd) (y_dec y)) as [i|].
      - rewrite act_ok. tauto.
      - destruct (e_ctor e); [|split; [intros (txt & ?); discriminate|intros (_ & _ & ? & _); discriminate]].
        rewrite act_ok, nth_snoc. unfold sender_ok. cbn [y_skt with_con]. intuition discriminate. }
    destruct cmd; try discriminate; exact F.
  Qed.

  (** Nothing goes wrong for good. *)
  Lemma offered_suite id : offered id = true -> exists s, suite_of id = Some s /\ s_policy s = true /\ (s_key s + s_iv s <= 46)%nat.
  Proof.
    unfold offered, suite_of. intros H.
    destruct (Z.eqb_spec id 1); [eexists; split; [reflexivity|]; split; [reflexivity|cbn; lia]|].
    destruct (Z.eqb_spec id 2); [eexists; split; [reflexivity|]; split; [reflexivity|cbn; lia]|].
    destruct (Z.eqb_spec id 3); [subst; discriminate|]. destruct (Z.eqb_spec id 4); [subst; discriminate|].
    destruct (Z.eqb_spec id 7); [eexists; split; [reflexivity|]; split; [reflexivity|cbn; lia]|].
    destruct (Z.eqb_spec id 8); [eexists; split; [reflexivity|]; split; [reflexivity|cbn; lia]|].
    discriminate.
  Qed.
  Lemma established_ok (c : conn) t : (forall id, t_profile t = Some id -> offered id = true) -> exists c', established c t = Ok c'.
  Proof.
    intros H. unfold DtlsModel.established. destruct (t_ok1 t); cbn [negb]; [|eauto].
    unfold keyinfo. destruct (t_profile t) as [id|]; [|eauto]. destruct (offered_suite id (H id eq_refl)) as (s & -> & Pl & Sz).
    change (32 + 14)%nat with 46%nat. destruct (Nat.ltb_spec 46 (s_key s + s_iv s)); [lia|]. destruct (t_keymat t) as [f|]; [|eauto].
    destruct (keys s _) as [cli srv]. destruct (t_digest t) as [dg|]; [|eauto].
    destruct (negb (match c_fp c with [] => true | _ => false end) && negb (beq (c_fp c) (fp_gen dg))); [eauto|].
    unfold setup_srtp. rewrite Pl. destruct (create s _ SSRC_BAD); [|eauto].
    destruct (create s _ (c_ssrc _)); eauto.
  Qed.
  Lemma dtls_recv_ok (c : conn) b t : (forall id, t_profile t = Some id -> offered id = true) -> exists c', dtls_recv c b t = Ok c'.
  Proof.
    intros H. assert (D : forall c : conn, exists c', drive create c b t = Ok c').
    { intros c0. unfold drive. destruct (t_write t); cbn [negb]; [|eauto]. cbv zeta. destruct (t_ok0 t); [eauto|].
      assert (F : forall c1 ok, exists c', (if negb ok then Ok (dead c1) else established c1 t) = Ok c').
      { intros c1 ok. destruct ok; cbn [negb]; [apply established_ok, H|eauto]. }
      destruct (c_state _); eauto; match goal with |- context [let '(_, _) := ?x in _] => destruct x end; apply F. }
    unfold DtlsModel.dtls_recv. destruct (c_state c); eauto.
  Qed.
  Definition small (grow : Z) (w : work) : Prop :=
    match w_dir w with RTP_OUT => Z.of_nat (length (w_pkt w)) + grow <= MAX_RPKT_LEN | _ => Z.of_nat (length (w_pkt w)) <= MAX_RPKT_LEN end.
  Lemma survives grow own skt port cpl l y xs : srtp_library create protect unprotect grow ->
    Forall (fits grow) l -> run own (fresh skt port cpl) l = (y, xs) ->
    ~ In (Worked Died) xs /\ ~ In (Answered CAbort) xs.
  Proof.
    intros Lib F E.
    apply (run_ind own _ (fun l y xs => Forall (fits grow) l -> Forall (small grow) (y_q y) /\ ~ In (Worked Died) xs /\ ~ In (Answered CAbort) xs) (fresh_inv _ _ _)) in E.
    - destruct E as (_ & E). apply E, F.
    - intros _. split; [constructor|]. split; intros [].
    - clear l y xs F E. intros l y xs o y' x Er V IH Es V' F. apply Forall_app in F as (F & Fo). inversion Fo as [|? ? Fo' _]; subst.
      destruct (IH F) as (Q & N1 & N2). destruct (step_queue _ _ _ _ _ Es) as (Qe & _).
      split; [|split; intros H; apply in_app_or in H as [H|[H|[]]]; auto; subst x].
      + rewrite Qe. destruct o as [d args e t|d cow room b|d cow dst room b|t al|i h t]; try exact Q.
        * destruct x as [|[| |]| |]; try exact Q. apply Forall_app. split; [exact Q|]. constructor; [|constructor].
          unfold small. cbn [w_dir w_pkt]. destruct (is_dtls b); exact Fo'.
        * destruct x as [|[| |]| |]; try exact Q. apply Forall_app. split; [exact Q|]. constructor; [|constructor]. exact Fo'.
        * destruct (y_q y); [exact Q|]. inversion Q; assumption.
      + unfold DtlsModel.step in Es. destruct o as [d args e t|d cow room b|d cow dst room b|t al|i h t];
        try (destruct (command y d args own e t); discriminate); try (destruct (incoming y d cow room b); discriminate);
        try (destruct (outgoing y d cow dst room b); discriminate); try (destruct (i <? length (y_con y))%nat; discriminate).
        destruct (worker y t al) as [yy w] eqn:Ew. apply pair_equal_spec in Es as (_ & Es). injection Es as ->.
        unfold DtlsModel.worker in Ew. destruct (y_q y) as [|w q] eqn:Eq; [discriminate|]. rewrite nth_with_q in Ew. cbv zeta in Ew.
        pose proof (i_q _ V) as Fq. rewrite Eq in Fq. inversion Fq as [|? ? (Hw & _) _]; subst. inversion Q as [|? ? Sm _]; subst.
        unfold small in Sm. destruct (w_dir w).
        * destruct (dtls_recv_ok (nth_con y (w_conn w)) (w_pkt w) t Fo') as (c' & Ec). rewrite Ec in Ew. discriminate.
        * unfold DtlsModel.srtp_recv in Ew. destruct (c_state (nth_con y (w_conn w))) eqn:Est; try discriminate.
          destruct (i_up _ V _ Hw Est) as (Ni & _). destruct (c_in (nth_con y (w_conn w))) as [x0|]; [|congruence].
          destruct (unprotect x0 (rtcp (w_pkt w)) (w_pkt w)) as [[x1 p]|] eqn:Eu; [|discriminate].
          pose proof (lib_shrink _ _ _ _ Lib _ _ _ _ _ Eu). destruct (Z.ltb_spec MAX_RPKT_LEN (Z.of_nat (length p))); [lia|discriminate].
        * unfold DtlsModel.rtp_send in Ew. destruct (c_state (nth_con y (w_conn w))) eqn:Est; try discriminate.
          destruct (w_cow w && negb al); [discriminate|].
          destruct (i_up _ V _ Hw Est) as (_ & Ni). destruct (c_out (nth_con y (w_conn w))) as [x0|]; [|congruence].
          destruct (protect x0 (rtcp (w_pkt w)) (w_pkt w)) as [[x1 p]|] eqn:Eu; [|discriminate].
          pose proof (lib_grow _ _ _ _ Lib _ _ _ _ _ Eu). destruct (Z.ltb_spec MAX_RPKT_LEN (Z.of_nat (length p))); [lia|discriminate].
      + unfold DtlsModel.step in Es. destruct o as [d args e t|d cow room b|d cow dst room b|t al|i h t];
        try (destruct (worker y t al); discriminate); try (destruct (incoming y d cow room b); discriminate);
        try (destruct (outgoing y d cow dst room b); discriminate); try (destruct (i <? length (y_con y))%nat; discriminate).
        destruct (command y d args own e t) as [yy r] eqn:Ec. apply pair_equal_spec in Es as (_ & Es). injection Es as ->.
        apply command_cases in Ec as [(_ & ?)|(cmd & Ep & Hc)]; [discriminate|]. cbv zeta in Hc.
        destruct Hc as [(_ & i & Eg & [(Ee & _)|(_ & ? & _)])|[(_ & i & Eg & Ea)|(_ & Eg & Ea)]].
        * rewrite (i_enc _ V), Eg in Ee. discriminate.
        * discriminate.
        * apply act_found in Ea as (y2 & c' & m & _ & _ & [(_ & ? & _)|(_ & E)]); [discriminate|]. destruct m; discriminate.
        * apply act_new in Ea as (c' & m & cf & _ & _ & _ & [(? & _)|(_ & _ & _ & m' & _ & ?)]); discriminate.
  Qed.

  (** The two ends. *)
  Lemma rtcp_first2 b w : (2 <= length b)%nat -> firstn 2 w = firstn 2 b -> rtcp w = rtcp b.
  Proof.
    intros L E. destruct b as [|b0 [|b1 b]]; cbn in L; try lia. destruct w as [|w0 [|w1 w]]; cbn in E; try discriminate.
    injection E as -> ->. unfold rtcp, RtpModel.is_rtcp.
    assert (L2 : forall z : list Z, (Z.of_nat (length (b0 :: b1 :: z)) <? 2) = false) by (intros z; apply Z.ltb_ge; cbn [length]; lia).
    rewrite !L2. reflexivity.
  Qed.
  Lemma through grow (sync : ctx -> ctx -> Prop) :
    (forall o r b o' w, protect o r b = Some (o', w) -> Z.of_nat (length w) <= Z.of_nat (length b) + grow) ->
    (forall o i r b, sync o i -> rtp_like b -> exists o' w i', protect o r b = Some (o', w) /\
         unprotect i r w = Some (i', b) /\ sync o' i' /\ firstn 2 w = firstn 2 b) ->
    0 <= grow ->
    forall l c1 c2 o i, c_state c1 = RDC_UP -> c_state c2 = RDC_UP -> c_out c1 = Some o -> c_in c2 = Some i -> sync o i ->
    Forall (fun b => rtp_like b /\ Z.of_nat (length b) + grow <= MAX_RPKT_LEN) l ->
    recv_all unprotect c2 (send_all protect c1 l) = map Some l.
  Proof.
    intros G P Hg l. induction l as [|b l IH]; intros c1 c2 o i U1 U2 O1 I2 Sy F; [reflexivity|].
    inversion F as [|? ? (Hb & Sz) F']; subst. destruct (P o i (rtcp b) b Sy Hb) as (o' & w & i' & E1 & E2 & Sy' & E3).
    pose proof (G _ _ _ _ _ E1) as Gw. cbn [send_all]. unfold DtlsModel.rtp_send. rewrite U1, O1, E1. cbn [andb negb].
    destruct (Z.ltb_spec MAX_RPKT_LEN (Z.of_nat (length w))); [lia|]. cbn [recv_all]. unfold DtlsModel.srtp_recv. rewrite U2, I2.
    rewrite (rtcp_first2 b w) by (destruct Hb; lia || exact E3). rewrite E2.
    destruct (Z.ltb_spec MAX_RPKT_LEN (Z.of_nat (length b))); [lia|]. cbn [map]. f_equal.
    apply (IH _ _ o' i'); auto.
  Qed.

  Lemma two_ends grow (c1 c2 c1' c2' : conn) b1 b2 t1 t2 : srtp_library create protect unprotect grow -> 0 <= grow ->
    dtls_recv c1 b1 t1 = Ok c1' -> dtls_recv c2 b2 t2 = Ok c2' ->
    c_state c1 <> RDC_UP -> c_state c2 <> RDC_UP -> c_state c1' = RDC_UP -> c_state c2' = RDC_UP ->
    c_mode c1 = ACTIVE -> c_mode c2 <> ACTIVE -> t_profile t1 = t_profile t2 -> t_keymat t1 = t_keymat t2 ->
    forall l, Forall (fun b => rtp_like b /\ Z.of_nat (length b) + grow <= MAX_RPKT_LEN) l ->
    (c_ssrc c2 = 0 -> recv_all unprotect c2' (send_all protect c1' l) = map Some l) /\
    (c_ssrc c1 = 0 -> recv_all unprotect c1' (send_all protect c2' l) = map Some l).
  Proof.
    intros Lib Hg E1 E2 N1 N2 U1 U2 M1 M2 Pr Km l F.
    assert (X : forall (c : conn) b t c', dtls_recv c b t = Ok c' -> c_state c <> RDC_UP -> c_state c' = RDC_UP -> comes_up c t c').
    { intros c b t c' E N U. apply dtls_recv_keeps in E as (_ & [(_ & _ & [E|(E & E')])|[(_ & E)|E]]); [congruence|congruence|congruence|exact E]. }
    destruct (X _ _ _ _ E1 N1 U1) as (_ & _ & _ & _ & dg1 & id1 & s1 & f1 & k1 & o1 & i1 & _ & _ & P1 & S1 & F1 & L1 & O1 & O1' & I1 & I1').
    destruct (X _ _ _ _ E2 N2 U2) as (_ & _ & _ & _ & dg2 & id2 & s2 & f2 & k2 & o2 & i2 & _ & _ & P2 & S2 & F2 & L2 & O2 & O2' & I2 & I2').
    rewrite P1, P2 in Pr. injection Pr as <-. rewrite S1 in S2. injection S2 as <-. rewrite F1, F2 in Km. injection Km as <-.
    pose proof (keys_layout _ _ _ L1) as K1. rewrite (keys_layout _ _ _ L2) in K1. apply pair_equal_spec in K1 as (Kc & Ks).
    destruct (lib_pair _ _ _ _ Lib) as (sync & Sy & Tr). rewrite M1 in O1', I1'. cbn [key_out key_in] in O1', I1'.
    assert (O2'' : create s1 (server_key k2) SSRC_BAD = Some o2) by (destruct (c_mode c2); [exact O2'|congruence|exact O2']).
    assert (I2'' : create s1 (client_key k2) (c_ssrc c2) = Some i2) by (destruct (c_mode c2); [exact I2'|congruence|exact I2']).
    split; intros Z0.
    - rewrite Z0, Kc in I2''. unfold SSRC_BAD in O1'. rewrite O1' in I2''. injection I2'' as <-.
      exact (through grow sync (lib_grow _ _ _ _ Lib) Tr Hg l c1' c2' o1 o1 U1 U2 O1 I2 (Sy _ _ _ O1') F).
    - rewrite Z0, <- Ks in I1'. unfold SSRC_BAD in O2''. rewrite O2'' in I1'. injection I1' as <-.
      exact (through grow sync (lib_grow _ _ _ _ Lib) Tr Hg l c2' c1' o2 o2 U2 U1 O2 I1 (Sy _ _ _ O2'') F).
  Qed.

  (** How a handshake ends. *)
  Lemma engine (c : conn) t : t_shake t <> SErr -> (t_timeout t = true -> c_timer c = true \/ t_sched t = true) ->
    exists c', (if is_active c then tls_connect c t else tls_accept c t) = (c', true) /\ quiet c c'.
  Proof.
    intros H T. assert (Q : exists c', check_timer (with_unread c 0) t = (c', true) /\ quiet c c').
    { unfold check_timer. cbn [c_timer with_unread]. destruct (t_timeout t), (c_timer c), (t_sched t); cbn [andb]; try (eexists; split; [reflexivity|repeat split]).
      destruct (T eq_refl); discriminate. }
    destruct Q as (c' & E & Q). exists c'. split; [|exact Q]. unfold tls_connect, tls_accept. rewrite E.
    destruct (t_shake t); [congruence| |]; destruct (is_active c); reflexivity.
  Qed.
  Lemma drive_shake (c : conn) b t : c_state c = RDC_CONNECTING -> t_write t = true -> t_ok0 t = false -> t_shake t <> SErr ->
    (t_timeout t = true -> c_timer c = true \/ t_sched t = true) ->
    exists c', quiet c c' /\ drive create c b t = established c' t.
  Proof.
    intros S W O H T. unfold drive. rewrite W, O. cbn [negb]. cbv zeta.
    destruct (engine (with_unread c (c_unread c + Z.of_nat (length b))) t H T) as (c' & E & Q). rewrite E. cbn [c_state with_unread negb]. rewrite S.
    exists c'. split; [exact Q|reflexivity].
  Qed.
  Lemma recv_shake (c : conn) b t : c_state c = RDC_INIT \/ c_state c = RDC_CONNECTING -> t_write t = true -> t_ok0 t = false -> t_shake t <> SErr ->
    (t_timeout t = true -> c_timer c = true \/ t_sched t = true) ->
    exists c', quiet (with_state c RDC_CONNECTING) c' /\ dtls_recv c b t = established c' t.
  Proof.
    intros S W O H T. unfold DtlsModel.dtls_recv. destruct S as [S|S]; rewrite S.
    - exact (drive_shake (with_state c RDC_CONNECTING) b t eq_refl W O H T).
    - destruct (drive_shake c b t S W O H T) as (c' & Q & E). exists c'. split; [|exact E].
      destruct Q as (q1 & q2 & q3 & q4 & q5 & q6 & q7). rewrite S in q2. repeat split; assumption.
  Qed.
  Lemma handshake_up (c : conn) b t id s f km dg o i : c_state c = RDC_INIT \/ c_state c = RDC_CONNECTING -> t_write t = true -> t_ok0 t = false -> t_shake t <> SErr ->
    (t_timeout t = true -> c_timer c = true \/ t_sched t = true) -> t_ok1 t = true -> t_profile t = Some id -> offered id = true -> suite_of id = Some s ->
    t_keymat t = Some f -> layout s (exported s f) km -> t_digest t = Some dg -> verified c dg ->
    create s (key_out (c_mode c) km) SSRC_BAD = Some o -> create s (key_in (c_mode c) km) (c_ssrc c) = Some i ->
    exists c', dtls_recv c b t = Ok c' /\ c_state c' = RDC_UP /\ c_out c' = Some o /\ c_in c' = Some i.
  Proof.
    intros S W O H T O1 P Of Su K L D V Co Ci. destruct (recv_shake c b t S W O H T) as (c' & (q1 & q2 & q3 & q4 & q5 & q6 & q7) & ->).
    cbn [with_state c_side c_state c_mode c_fp c_ssrc] in *.
    unfold DtlsModel.established. rewrite O1. cbn [negb]. unfold keyinfo. rewrite P, Su. destruct (offered_suite id Of) as (s' & Su' & Pl & Sz).
    rewrite Su in Su'. injection Su' as <-. change (32 + 14)%nat with 46%nat. destruct (Nat.ltb_spec 46 (s_key s + s_iv s)); [lia|]. rewrite K.
    change (map f (seq 0 (2 * (s_key s + s_iv s)))) with (exported s f). rewrite (keys_layout _ _ _ L), D.
    assert (B1 : negb (match c_fp c' with [] => true | _ => false end) && negb (beq (c_fp c') (fp_gen dg)) = false).
    { rewrite q6. destruct V as [V|V]; rewrite V; [reflexivity|]. rewrite beq_refl. apply andb_false_r. }
    rewrite B1. unfold setup_srtp. rewrite Pl.
    assert (Ko : (if is_active c' then client_key km else server_key km) = key_out (c_mode c) km) by (unfold is_active; rewrite q3; destruct (c_mode c); reflexivity).
    rewrite Ko, Co. cbv zeta.
    assert (Ki : (if is_active (with_out c' (Some o)) then server_key km else client_key km) = key_in (c_mode c) km) by (unfold is_active; cbn [with_out c_mode]; rewrite q3; destruct (c_mode c); reflexivity).
    rewrite Ki. cbn [with_out c_ssrc]. rewrite q7, Ci. eexists. split; [reflexivity|]. split; [reflexivity|]. split; reflexivity.
  Qed.
  Lemma wrong_digest (c : conn) b t c' dg : t_digest t = Some dg -> ~ verified c dg -> c_state c <> RDC_UP -> dtls_recv c b t = Ok c' ->
    c_state c' <> RDC_UP /\
    (c_state c <> RDC_DEAD -> t_write t = true -> t_ok0 t = false -> t_ok1 t = true -> (forall id, t_profile t = Some id -> offered id = true) -> c_state c' = RDC_DEAD).
  Proof.
    intros D V N E. split.
    - intros U. apply dtls_recv_keeps in E as (_ & [(_ & _ & [E|(E & E')])|[(_ & E)|E]]); try congruence.
      destruct E as (_ & _ & _ & _ & dg' & id & s & f & km & o & i & D' & V' & _). congruence.
    - intros Nd W O O1 Of.
      assert (Est : forall c0 : conn, c_fp c0 = c_fp c -> forall c1, established c0 t = Ok c1 -> c_state c1 = RDC_DEAD).
      { intros c0 Ef c1. unfold DtlsModel.established. rewrite O1. cbn [negb]. destruct (keyinfo t) as [[[s [cli srv]]|]| | |]; try discriminate.
        - rewrite D. destruct (negb (match c_fp c0 with [] => true | _ => false end) && negb (beq (c_fp c0) (fp_gen dg))) eqn:B1.
          + intros X. injection X as <-. reflexivity.
          + exfalso. apply V. unfold verified. rewrite <- Ef. apply andb_false_iff in B1 as [B1|B1]; apply negb_false_iff in B1.
            * left. destruct (c_fp c0); [reflexivity|discriminate].
            * right. apply beq_eq, B1.
        - intros X. injection X as <-. reflexivity. }
      assert (Dr : forall c0 : conn, c_fp c0 = c_fp c -> c_state c0 = RDC_CONNECTING -> forall c1, drive create c0 b t = Ok c1 -> c_state c1 = RDC_DEAD).
      { intros c0 Ef S0 c1. unfold drive. rewrite W, O. cbn [negb]. cbv zeta. cbn [with_unread c_state]. rewrite S0.
        match goal with |- context [let '(_, _) := ?x in _] => destruct x as [c2 ok] eqn:Et end.
        assert (Q : quiet (with_unread c0 (c_unread c0 + Z.of_nat (length b))) c2) by (destruct (is_active _); [exact (tls_connect_quiet _ _ _ _ Et)|exact (tls_accept_quiet _ _ _ _ Et)]).
        destruct ok; cbn [negb]; [|intros X; injection X as <-; reflexivity]. apply Est. destruct Q as (_ & _ & _ & _ & _ & q6 & _). rewrite q6. exact Ef. }
      unfold DtlsModel.dtls_recv in E. destruct (c_state c) eqn:Es; try congruence.
      + exact (Dr (with_state c RDC_CONNECTING) eq_refl eq_refl _ E).
      + exact (Dr c eq_refl Es _ E).
  Qed.

  (** Where the fingerprint comes from. *)
  Lemma spec_tells d args e t cmd p : parse args = Some cmd -> spec_of cmd args = Some p -> target d cmd = d /\ tells d (p_fp p) (Command d args e t).
  Proof.
    intros Ep Es. destruct cmd; try discriminate; injection Es as <-; (split; [reflexivity|]); exists args, e, t; (split; [reflexivity|]); (split; [auto|reflexivity]).
  Qed.
  Lemma step_new own (y : sys) o y' x : inv y -> step own y o = (y', x) -> (length (y_con y) < length (y_con y'))%nat ->
    exists d args e t cmd cf, o = Command d args e t /\ parse args = Some cmd /\ y_con y' = y_con y ++ [cf] /\
      (c_state cf = RDC_DEAD \/ exists m, setmode (newconn (target d cmd)) (spec_of cmd args) t = (cf, Some m)) /\ c_side cf = target d cmd.
  Proof.
    intros V E L. unfold DtlsModel.step in E. destruct o as [d args e t|d cow room b|d cow dst room b|t al|i h t].
    - destruct (command y d args own e t) as [yy r] eqn:Ec. injection E as <- _.
      apply command_cases in Ec as [(-> & _)|(cmd & Ep & Hc)]; [lia|]. cbv zeta in Hc. exists d, args, e, t, cmd.
      destruct Hc as [(_ & i & Eg & [(Ee & _ & Q)|(_ & _ & ->)])|[(_ & i & Eg & Ea)|(_ & Eg & Ea)]].
      + rewrite (i_enc _ V), Eg in Ee. discriminate.
      + rewrite length_put in L. cbn in L. lia.
      + apply act_found in Ea as (y2 & c' & m & (_ & _ & B3 & _) & _ & [(-> & _)|(-> & _)]); rewrite ?length_put, B3 in L; lia.
      + apply act_new in Ea as (c' & m & cf & Es & Ec & _ & [(_ & _ & _ & Sd & Sc)|(-> & _ & _ & m' & -> & _)]).
        * exists cf. auto 10.
        * exists c'. split; [reflexivity|]. split; [exact Ep|]. split; [exact Ec|]. split; [right; exists m'; exact Es|].
          apply setmode_keeps in Es as (-> & _). reflexivity.
    - unfold incoming in E. destruct (get d (y_dec y)); [destruct room|]; injection E as <- _; cbn in L; lia.
    - unfold outgoing in E. destruct (get d (y_enc y)); [destruct dst; [destruct room|]|]; injection E as <- _; cbn in L; lia.
    - exfalso. unfold DtlsModel.worker in E. destruct (y_q y) as [|w q]; [injection E as <- _; lia|]. cbv zeta in E.
      assert (X : forall c, length (y_con (put_con (with_q y q) (w_conn w) c)) = length (y_con y)) by (intros; rewrite length_put; reflexivity).
      destruct (w_dir w).
      + destruct (DtlsModel.dtls_recv _ _ _ _); injection E as <- _; rewrite ?X in L; cbn in L; lia.
      + destruct (DtlsModel.srtp_recv _ _ _) as [[? [?|]]| | |]; injection E as <- _; rewrite ?X in L; cbn in L; lia.
      + destruct (DtlsModel.rtp_send _ _ _ _ _) as [[? [[? ?]|]]| | |]; injection E as <- _; rewrite ?X in L; cbn in L; lia.
    - destruct (i <? length (y_con y))%nat; injection E as <- _; rewrite ?length_put in L; lia.
  Qed.

  Definition from_told (d : bool) (l : list op) (fp : list Z) : Prop :=
    exists f o, In o l /\ tells d f o /\ fp = ALG ++ [32] ++ f.
  Lemma from_told_more d l o fp : from_told d l fp -> from_told d (l ++ [o]) fp.
  Proof. intros (f & o' & H & T). exists f, o'. split; [apply in_or_app; auto|exact T]. Qed.
  Lemma setmode_told (c : conn) d args e t cmd c' m : parse args = Some cmd -> target d cmd = c_side c -> setmode c (spec_of cmd args) t = (c', m) ->
    c_fp c' = c_fp c \/ (c_fp c' <> [] /\ forall l, from_told (c_side c) (l ++ [Command d args e t]) (c_fp c')).
  Proof.
    intros Ep Et Es. apply setmode_keeps in Es as (_ & _ & _ & _ & _ & [E|(p & Eo & _ & E)]); [left; exact E|]. right. split; [rewrite E; discriminate|].
    intros l. destruct (spec_tells d args e t cmd p Ep Eo) as (Td & T). exists (p_fp p), (Command d args e t).
    split; [apply in_or_app; right; left; reflexivity|]. split; [|exact E]. rewrite Td in Et. rewrite <- Et. exact T.
  Qed.
  Lemma moves_fp own y o i c c' x : moves own y o i c c' x ->
    c_fp c' = c_fp c \/ (c_fp c' <> [] /\ forall l, from_told (c_side c) (l ++ [o]) (c_fp c')).
  Proof.
    intros M. destruct M as [x|d args e t cmd c' m x Eo Ep Pu Ta G Es _|d args e t cmd x Eo Ep Pu Ta G _|t al w q c' x Eo Q Wd Wc E _
      |t al w q x0 x1 p x Eo Q Wd Wc U I0 E _|t al w q x0 x1 p x Eo Q Wd Wc U O0 E _|h t x Eo]; try (left; reflexivity).
    - subst o. exact (setmode_told _ _ _ e _ _ _ _ Ep Ta Es).
    - apply dtls_recv_keeps in E as ((_ & _ & E & _) & _). left; exact E.
    - destruct (timeout_keeps c h t) as ((_ & _ & E & _) & _). left; exact E.
  Qed.
  Lemma fp_origin own y0 l y xs : inv y0 -> y_con y0 = [] -> run own y0 l = (y, xs) ->
    forall i, (i < length (y_con y))%nat -> c_state (nth_con y i) <> RDC_DEAD ->
    c_fp (nth_con y i) = [] \/ from_told (c_side (nth_con y i)) l (c_fp (nth_con y i)).
  Proof.
    intros V0 N E. apply (run_ind own y0 (fun l y xs => forall i, (i < length (y_con y))%nat -> c_state (nth_con y i) <> RDC_DEAD ->
      c_fp (nth_con y i) = [] \/ from_told (c_side (nth_con y i)) l (c_fp (nth_con y i))) V0) in E; [exact (proj2 E)| |].
    - intros i H. rewrite N in H. cbn in H. lia.
    - clear l y xs E. intros l y xs o y' x Er V IH Es V' i Hi Nd. destruct (step_moves own y o y' x V Es) as (Ln & Mv).
      destruct (Nat.lt_ge_cases i (length (y_con y))) as [H|H].
      + specialize (Mv i H). pose proof (moves_state _ _ _ _ _ _ _ Mv) as (Rk & _). rewrite (moves_side _ _ _ _ _ _ _ Mv).
        assert (Nd0 : c_state (nth_con y i) <> RDC_DEAD) by (intros D; rewrite D in Rk; destruct (c_state (nth_con y' i)); cbn in Rk; try lia; congruence).
        destruct (moves_fp _ _ _ _ _ _ _ Mv) as [Ef|(_ & T)]; [|right; apply T]. rewrite Ef. destruct (IH i H Nd0) as [A|A]; [left; exact A|right; apply from_told_more, A].
      + destruct (step_new own y o y' x V Es ltac:(lia)) as (d & args & e & t & cmd & cf & -> & Ep & Ec & K & Sc).
        assert (i = length (y_con y)) by (rewrite Ec, app_length in Hi; cbn in Hi; lia). subst i.
        assert (Ei : nth_con y' (length (y_con y)) = cf) by (unfold nth_con; rewrite Ec, app_nth2, Nat.sub_diag by lia; reflexivity).
        rewrite Ei in *. destruct K as [K|(m & K)]; [congruence|]. rewrite Sc.
        destruct (setmode_told (newconn (target d cmd)) d args e _ _ _ _ Ep eq_refl K) as [A|(_ & A)]; [left; exact A|right; apply A].
  Qed.
  Lemma fp_stays own y l i : inv y -> (i < length (y_con y))%nat -> c_fp (nth_con y i) <> [] ->
    forall y' xs, run own y l = (y', xs) -> (i < length (y_con y'))%nat /\ c_fp (nth_con y' i) <> [].
  Proof.
    intros V H N y' xs E. apply (run_ind own y (fun l y xs => (i < length (y_con y))%nat /\ c_fp (nth_con y i) <> []) V) in E; [exact (proj2 E)|auto|].
    clear l y' xs E. intros l y1 xs o y2 x Er V1 (H1 & N1) Es V2. destruct (step_moves own y1 o y2 x V1 Es) as (Ln & Mv). specialize (Mv i H1).
    split; [lia|]. destruct (moves_fp _ _ _ _ _ _ _ Mv) as [->|(A & _)]; assumption.
  Qed.
  (** After an A or P that was granted. *)
  Lemma command_told own (y : sys) d args e t y' txt cmd p : inv y -> command y d args own e t = (y', COk txt) -> parse args = Some cmd -> spec_of cmd args = Some p ->
    exists i, get d (y_dec y') = Some i /\ (i < length (y_con y'))%nat /\ c_side (nth_con y' i) = d /\
      c_fp (nth_con y' i) = ALG ++ [32] ++ p_fp p /\ c_mode (nth_con y' i) = pickmode (p_mode p) /\
      (forall s, p_ssrc p = Some s -> ssrc_text s (c_ssrc (nth_con y' i))).
  Proof.
    intros V E Ep Eo. assert (Es : step own y (Command d args e t) = (y', Answered (COk txt))) by (cbn [DtlsModel.step]; rewrite E; reflexivity).
    pose proof (step_inv _ _ _ _ _ V Es) as V'.
    assert (Td : target d cmd = d) by (destruct cmd; try discriminate; reflexivity).
    apply command_cases in E as [(_ & ?)|(cmd' & Ep' & Hc)]; [discriminate|]. rewrite Ep in Ep'. injection Ep' as <-. cbv zeta in Hc. rewrite Td, Eo in Hc.
    assert (Fin : forall (c c' : conn) m, setmode c (Some p) t = (c', Some m) -> c_fp c' = ALG ++ [32] ++ p_fp p /\ c_mode c' = pickmode (p_mode p) /\
      (forall s, p_ssrc p = Some s -> ssrc_text s (c_ssrc c'))).
    { intros c c' m Hs. apply setmode_result in Hs as (_ & _ & Hs & _ & _ & Hf & Hm & _). split; [exact Hf|]. split; [exact Hm|].
      intros s Ps. destruct (Hs s Ps) as (v & Ev & Ex). apply strtoul_text. exists v. auto. }
    destruct Hc as [(Pu & i & Eg & _)|[(_ & i & Eg & Ea)|(_ & Eg & Ea)]].
    - destruct cmd; discriminate.
    - apply act_found in Ea as (y2 & c' & m & (B1 & B2 & B3 & B4) & Sm & [(_ & ? & _)|(-> & Er)]); [discriminate|]. destruct m as [m|]; [|discriminate].
      destruct (i_dec _ V d i Eg) as (Hi & Si). exists i. rewrite length_put, B3. split; [cbn [put_con with_con y_dec]; rewrite B1; exact Eg|]. split; [exact Hi|].
      rewrite nth_put, Nat.eqb_refl by (rewrite B3; exact Hi). split; [apply setmode_keeps in Sm as (-> & _); exact Si|]. exact (Fin _ _ _ Sm).
    - apply act_new in Ea as (c' & m & cf & Sm & Ec & _ & [(? & _)|(-> & Ed & _ & m' & -> & _)]); [discriminate|].
      exists (length (y_con y)). rewrite Ed, get_set_eq, Ec, app_length. split; [reflexivity|]. split; [cbn; lia|].
      assert (Ei : nth_con y' (length (y_con y)) = c') by (unfold nth_con; rewrite Ec, app_nth2, Nat.sub_diag by lia; reflexivity).
      rewrite Ei. split; [apply setmode_keeps in Sm as (-> & _); reflexivity|]. exact (Fin _ _ _ Sm).
  Qed.

  (** Records for a connection that is up stay in memory. *)
  Lemma unread_grows own d i b t n : dtls_record b -> t_write t = true -> t_ok0 t = true -> forall y : sys,
    get d (y_dec y) = Some i -> (i < length (y_con y))%nat -> c_state (nth_con y i) = RDC_UP -> y_q y = [] ->
    let y' := fst (run own y (concat (repeat [Incoming d true true b; Work t true] n))) in
    c_unread (nth_con y' i) = c_unread (nth_con y i) + Z.of_nat n * Z.of_nat (length b).
  Proof.
    intros Rb W O. apply is_dtls_record in Rb. induction n as [|n IH]; intros y G H U Q; [cbn [repeat concat DtlsModel.run fst]; lia|].
    cbn [repeat concat app]. cbn [DtlsModel.run DtlsModel.step]. unfold incoming. rewrite G. unfold DtlsModel.worker at 1. cbn [with_q y_q]. rewrite Q. cbn [app].
    rewrite Rb. cbn [w_dir w_conn w_pkt]. rewrite !nth_with_q. unfold DtlsModel.dtls_recv, drive. rewrite U, W, O. cbn [negb].
    match goal with |- context [DtlsModel.run _ _ _ _ ?z _] => set (y1 := z) end.
    assert (L1 : (i < length (y_con y1))%nat) by (unfold y1; rewrite length_put; exact H).
    assert (N1 : nth_con y1 i = with_unread (nth_con y i) (c_unread (nth_con y i) + Z.of_nat (length b))) by (unfold y1; rewrite nth_put, Nat.eqb_refl by exact H; reflexivity).
    specialize (IH y1 G L1). rewrite N1 in IH. specialize (IH U eq_refl). cbv zeta in IH.
    destruct (DtlsModel.run create protect unprotect own y1 _) as [y2 xs2]. cbn [fst] in *. rewrite IH. cbn [with_unread c_unread]. lia.
  Qed.

  Lemma worker_kind (y : sys) t al y' r w q : y_q y = w :: q -> worker y t al = (y', r) ->
    match r with
    | Idle => False
    | Shaken i => w_dir w = DTLS_IN /\ w_conn w = i
    | Behind d i _ => w_dir w = SRTP_IN /\ w_side w = d /\ w_conn w = i
    | Relayed d i _ _ => w_dir w = RTP_OUT /\ w_side w = d /\ w_conn w = i
    | Dropped d true => w_dir w = SRTP_IN /\ w_side w = d
    | Dropped d false => w_dir w = RTP_OUT /\ w_side w = d
    | Died => True
    end.
  Proof.
    intros Q E. unfold DtlsModel.worker in E. rewrite Q in E. cbv zeta in E. destruct (w_dir w) eqn:Ed.
    - destruct (DtlsModel.dtls_recv _ _ _ _); injection E as _ <-; auto.
    - destruct (DtlsModel.srtp_recv _ _ _) as [[? [?|]]| | |]; injection E as _ <-; auto.
    - destruct (DtlsModel.rtp_send _ _ _ _ _) as [[? [[? ?]|]]| | |]; injection E as _ <-; auto.
  Qed.
  Lemma life own (y : sys) l i : inv y -> (i < length (y_con y))%nat -> forall y' xs, run own y l = (y', xs) ->
    (i < length (y_con y'))%nat /\ c_side (nth_con y' i) = c_side (nth_con y i) /\ (stage (c_state (nth_con y i)) <= stage (c_state (nth_con y' i)))%nat /\
    (c_state (nth_con y i) <> RDC_INIT -> c_mode (nth_con y' i) = c_mode (nth_con y i)).
  Proof.
    intros V H y' xs E. apply (run_ind own y (fun l y' xs => (i < length (y_con y'))%nat /\ c_side (nth_con y' i) = c_side (nth_con y i) /\
      (stage (c_state (nth_con y i)) <= stage (c_state (nth_con y' i)))%nat /\ (c_state (nth_con y i) <> RDC_INIT -> c_mode (nth_con y' i) = c_mode (nth_con y i))) V) in E; [exact (proj2 E)|auto|].
    clear l y' xs E. intros l y1 xs o y2 x Er V1 (H1 & S1 & R1 & M1) Es V2. destruct (step_moves own y1 o y2 x V1 Es) as (Ln & Mv). specialize (Mv i H1).
    split; [lia|]. rewrite (moves_side _ _ _ _ _ _ _ Mv). split; [exact S1|]. pose proof (moves_state _ _ _ _ _ _ _ Mv) as (Rk & _). split; [lia|].
    intros N. rewrite <- (M1 N). assert (N1 : c_state (nth_con y1 i) <> RDC_INIT) by (intros D; rewrite D in R1; destruct (c_state (nth_con y i)); cbn in R1; try lia; congruence).
    destruct Mv as [x0|d args e t cmd c' m x0 Eo Ep Pu Ta G Es0 _|d args e t cmd x0 Eo Ep Pu Ta G _|t al w q c' x0 Eo Q Wd Wc E _
      |t al w q x0 x1 p x2 Eo Q Wd Wc U I0 E _|t al w q x0 x1 p x2 Eo Q Wd Wc U O0 E _|h t x0 Eo]; try reflexivity.
    - apply setmode_keeps in Es0 as (_ & _ & _ & _ & [E|E] & _); [exact E|contradiction].
    - apply dtls_recv_keeps in E as ((_ & E & _) & _). exact E.
    - destruct (timeout_keeps (nth_con y1 i) h t) as ((_ & E & _) & _). exact E.
  Qed.

  Lemma setmode_ok (c : conn) p t : snd (setmode c (Some p) t) <> None <->
    (pickmode (p_mode p) = c_mode c \/ c_state c = RDC_INIT) /\ good_peer p /\
    (forall s, p_ssrc p = Some s -> exists x, ssrc_text s x) /\
    (p_mode p = PASSIVE -> c_state c = RDC_INIT -> t_shake t <> SErr).
  Proof.
    assert (Pm : pickmode (p_mode p) = ACTIVE <-> p_mode p = PASSIVE) by (destruct (p_mode p); cbn; split; congruence).
    split.
    - destruct (setmode c (Some p) t) as [c' [m|]] eqn:E; [intros _|cbn; congruence].
      apply setmode_result in E as (A & B & C & _ & D & _). split; [exact A|]. split; [exact B|]. split; [|intros X; apply D, Pm, X].
      intros s Hs. destruct (C s Hs) as (v & Ev & _). exists (u32 v). apply strtoul_text. exists v. auto.
    - intros (A & B & C & D). apply setmode_granted; auto.
      + intros s Hs. destruct (C s Hs) as (x & Hx). apply strtoul_text in Hx as (v & Ev & _). exists v. exact Ev.
      + intros X. apply D, Pm, X.
  Qed.
  Lemma parse_tell c alg fp rest cmd : letter c cmd -> cmd = RDG_A \/ cmd = RDG_P -> (length rest <= 1)%nat -> parse ([c] :: alg :: fp :: rest) = Some cmd.
  Proof.
    intros L [->| ->] R; destruct rest as [|a [|? ?]]; cbn in R; try lia; cbn in L; destruct L as [->| ->]; reflexivity.
  Qed.
  Lemma parse_short c cmd : letter c cmd -> cmd <> RDG_A -> cmd <> RDG_P -> parse [[c]] = Some cmd.
  Proof. intros L N1 N2. destruct cmd; try congruence; cbn in L; destruct L as [->| ->]; reflexivity. Qed.
  Lemma tell_granted (y : sys) d c alg fp rest cmd own e t : letter c cmd -> cmd = RDG_A \/ cmd = RDG_P -> (length rest <= 1)%nat ->
    (exists txt, snd (command y d ([c] :: alg :: fp :: rest) own e t) = COk txt) <->
    same_letters alg ALG /\ length fp = FP_STR_LEN /\ (forall s, In s rest -> exists x, ssrc_text s x) /\
    (cmd = RDG_P -> get d (y_skt y) = true \/ e_listen e <> None) /\
    match get d (y_dec y) with
    | Some i => (c_state (nth_con y i) = RDC_INIT \/ c_mode (nth_con y i) = (match cmd with RDG_P => ACTIVE | _ => PASSIVE end)) /\
                (cmd = RDG_P -> c_state (nth_con y i) = RDC_INIT -> t_shake t <> SErr)
    | None => e_ctor e = true /\ e_reg_in e = true /\ e_reg_out e = true /\ (cmd = RDG_P -> t_shake t <> SErr)
    end.
  Proof.
    intros L C R. rewrite (command_granted y d _ own e t cmd (parse_tell c alg fp rest cmd L C R)) by (destruct C as [->| ->]; reflexivity).
    set (pm := match cmd with RDG_P => PASSIVE | _ => ACTIVE end).
    assert (So : spec_of cmd ([c] :: alg :: fp :: rest) = Some (mkPeer pm (map upper alg) fp (nth_error rest 0))) by (destruct C as [->| ->]; reflexivity).
    assert (Td : target d cmd = d) by (destruct C as [->| ->]; reflexivity).
    assert (Lm : (match cmd with RDG_A | RDG_P => (length (nth 1 ([c] :: alg :: fp :: rest) []) <= length ALG)%nat | _ => True end) <-> (length alg <= length ALG)%nat) by (destruct C as [->| ->]; reflexivity).
    assert (Pp : pm = PASSIVE <-> cmd = RDG_P) by (unfold pm; destruct cmd; split; congruence).
    assert (Pk : pickmode pm = match cmd with RDG_P => ACTIVE | _ => PASSIVE end) by (unfold pm; destruct cmd; reflexivity).
    rewrite Lm, So, Td. unfold sender_ok. cbn [p_mode]. rewrite <- Pk, <- Pp.
    assert (Al : (length alg <= length ALG)%nat /\ map upper alg = ALG <-> same_letters alg ALG).
    { rewrite upper_letters. split; [intros (_ & A); exact A|]. intros A. split; [|exact A]. apply same_letters_length in A. rewrite A. apply le_n. }
    rewrite <- Al.
    assert (Sr : (forall s, nth_error rest 0 = Some s -> exists x, ssrc_text s x) <-> (forall s, In s rest -> exists x, ssrc_text s x)).
    { destruct rest as [|a [|? ?]]; cbn in R; try lia; cbn; split; intros H s Hs.
      - contradiction.
      - discriminate.
      - destruct Hs as [<-|[]]. apply H. reflexivity.
      - injection Hs as <-. apply H. auto. }
    destruct (get d (y_dec y)) as [i|]; rewrite setmode_ok; unfold good_peer; cbn [p_mode p_alg p_fp p_ssrc]; rewrite Sr.
    - assert (Sy : pickmode pm = c_mode (nth_con y i) <-> c_mode (nth_con y i) = pickmode pm) by (split; congruence). rewrite Sy. tauto.
    - cbn [newconn c_state c_mode]. intuition congruence.
  Qed.
  Lemma short_granted (y : sys) d c cmd own e t : inv y -> letter c cmd -> cmd <> RDG_A -> cmd <> RDG_P ->
    snd (command y d [[c]] own e t) =
      match get (target d cmd) (y_dec y), cmd with
      | Some i, RDG_S => COk (mode_word (c_mode (nth_con y i)) ++ own)
      | None, RDG_S => if e_ctor e && e_reg_in e && e_reg_out e then COk (B "actpass " ++ own) else CFail
      | Some _, _ => COk []
      | None, _ => CFail
      end.
  Proof.
    intros V L N1 N2. unfold command. rewrite (parse_short c cmd L N1 N2). cbv zeta.
    destruct cmd; try congruence; cbn [target spec_of].
    - destruct (get (negb d) (y_dec y)) as [i|]; [reflexivity|].
      destruct (e_ctor e); cbn [andb]; [|reflexivity]. unfold act. cbv zeta. cbn [snd fst negb]. rewrite nth_snoc. cbn [setmode newconn c_mode].
      destruct (e_reg_in e && e_reg_out e); reflexivity.
    - destruct (get d (y_dec y)) as [i|] eqn:G; [|reflexivity]. cbn [with_dec y_enc]. rewrite (i_enc _ V), G. reflexivity.
    - destruct (get (negb d) (y_dec y)) as [i|] eqn:G; [|reflexivity]. cbn [with_dec y_enc]. rewrite (i_enc _ V), G. reflexivity.
  Qed.
End srtp.
