(** C22, C47: theorems about command recognition *)
From Verif Require Import Base Str StrSpec StrProof NumModel NumSpec ParseModel ParseSpec ParseProof.

(** C22: whatever words a client sends, no argument is read that the client did not give. *)
Theorem parse_no_missing_argument : forall e a subs, tokens a -> Forall tokens subs -> parse_command e a subs <> Null.
Proof. exact parse_nn. Qed.
Print Assumptions parse_no_missing_argument.

(** C22: a command is carried out exactly when it has the documented form, with its arguments in
    their documented positions. *)
Theorem parse_exact : forall e a subs r, tokens a -> Forall tokens subs -> (parse_command e a subs = Ok r <-> command e a subs r).
Proof. intros e a subs r TA TS. split; [apply parses_command|apply command_parses]; assumption. Qed.
Print Assumptions parse_exact.

Definition ex_env : env := mkEnv 29 (fun _ _ => false) (fun _ _ _ _ _ => 0).
Example parse_exact_ex : command ex_env [B "Uc8,0"; B "call-1"; B "192.0.2.1"; B "5004"; B "from"; B "to"; B "sock"; B "tag"] [[B "sR"; B "ttl=35"]; [B "D"]]
    (RUpdate (B "c8,0") (B "call-1") (B "192.0.2.1") (B "5004") (B "from") (Some (B "to")) (Some (B "sock", B "tag")) [SSet true false 35; SDelete false])
  /\ ~ exists r, command ex_env [B "P"; B "call-1"; B "prompt"; B "0"] [] r.
Proof.
  split.
  - apply parse_exact; [|repeat constructor; discriminate|vm_compute; reflexivity]. split; [discriminate|]. repeat constructor; discriminate.
  - intros [r H]. apply parse_exact in H; [discriminate H|split; [discriminate|]; repeat constructor; discriminate|constructor].
Qed.

(** C22: the error given to a command with an unknown letter, a wrong number of arguments, modifiers
    or sub-commands it does not take. *)
Theorem parse_refuses : forall e w more subs, tokens (w :: more) ->
  ((forall mn mx cm sc m, ~ shape (e_nstats e) w mn mx cm sc m) -> parse_command e (w :: more) subs = Err 0) /\
  (forall mn mx cm sc m, shape (e_nstats e) w mn mx cm sc m ->
    let n := Z.of_nat (S (length more)) in
    (~ (mn <= n <= mx) -> parse_command e (w :: more) subs = Err 1) /\
    (mn <= n <= mx -> cm = false -> m <> [] -> parse_command e (w :: more) subs = Err 2) /\
    (mn <= n <= mx -> (cm = false -> m = []) -> sc = false -> subs <> [] -> parse_command e (w :: more) subs = Err 3)).
Proof.
  intros e w more subs [_ T]. inversion T as [|? ? [Nw Cw] _]; subst. split.
  - intros N. unfold parse_command, pre_parse. change (arg (w :: more) 0) with (Ok w). cbn [rbind].
    destruct (fill_cmd_props (e_nstats e) w) as [p|] eqn:F; [|reflexivity].
    exfalso. eapply N. apply shape_fill; [exact Nw|]. exists p. split; [exact F|]. repeat split; reflexivity.
  - intros mn mx cm sc m H n. assert (S := H). apply shape_fill in S as (p & F & <- & <- & <- & <- & <-); [|exact Nw].
    destruct (refused e w more subs p F) as (R1 & R2 & R3). split; [exact R1|]. split; [|exact R3].
    intros Hn Hc Hm. apply R2; auto. intros X. apply Hm. apply cstring_head0; [|exact X].
    unfold fill_cmd_props in F. repeat match type of F with (if ?b then _ else _) = _ => destruct b end; try discriminate F; injection F as <-; cbn [pr_mods]; repeat apply cstring_tl; exact Cw.
Qed.
Print Assumptions parse_refuses.

Example parse_refuses_ex : parse_command ex_env [B "Z"] [] = Err 0 /\ parse_command ex_env [B "D"; B "c"] [] = Err 1 /\
  parse_command ex_env [B "Xa"] [] = Err 2 /\ parse_command ex_env [B "D"; B "c"; B "f"] [[B "D"]] = Err 3.
Proof. repeat split; reflexivity. Qed.
Example parse_refuses_shapes : shape 29 (B "D") 3 4 true false [] /\ shape 29 (B "Xa") 1 1 false false (B "a").
Proof. split; [apply sh_d; left; reflexivity|apply sh_x; left; reflexivity]. Qed.

(** C47: the capability query answers 1 exactly for the published dates, the notification one only
    when notifications are enabled; otherwise 0. *)
Theorem ver_feature_exact : forall notify d,
  (ver_feature notify d = 1 /\ exists v, capability v /\ dec v d /\ (v = 20081224 -> notify = true)) \/
  (ver_feature notify d = 0 /\ forall v, dec v d -> capability v -> v = 20081224 /\ notify = false).
Proof.
  intros notify d. unfold ver_feature. change (B "20081224") with (fmt_d 20081224). destruct (beq d (fmt_d 20081224) && negb notify) eqn:E1.
  - apply andb_prop in E1 as [E1 E2]. apply beq_eq in E1. right. split; [reflexivity|]. intros v Hd Hv. apply (fmt_d_dec _ _ (cap_printable _ Hv)) in Hd.
    split; [apply cap_2008; congruence|]. destruct notify; [discriminate|auto].
  - destruct (in_caps d proto_caps) eqn:E2.
    + left. split; [reflexivity|]. apply in_caps_spec, cap_iff in E2 as (v & Hv & ->). exists v. split; [exact Hv|]. split; [apply fmt_d_dec; [apply cap_printable, Hv|reflexivity]|]. intros ->.
      rewrite (proj2 (beq_eq _ _) eq_refl) in E1. destruct notify; [reflexivity|discriminate].
    + right. split; [reflexivity|]. intros v Hd Hv. apply (fmt_d_dec _ _ (cap_printable _ Hv)) in Hd. subst d.
      exfalso. assert (X : in_caps (fmt_d v) proto_caps = true) by (apply in_caps_spec, cap_iff; eauto). congruence.
Qed.
Print Assumptions ver_feature_exact.

Example ver_feature_ex : ver_feature true (B "20081224") = 1 /\ ver_feature false (B "20081224") = 0 /\ ver_feature false (B "20071218") = 1 /\ ver_feature true (B "20081225") = 0.
Proof. repeat split; reflexivity. Qed.
