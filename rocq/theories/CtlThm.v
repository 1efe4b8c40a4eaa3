(** C68: control sockets. *)
From Verif Require Import Base Str CtlModel CtlSpec CtlProof.

(** The argument of -s is read as the forms say, and has one meaning *)
Theorem ctl_forms lib s c : ctrl_parse lib s = c <-> denotes lib s c.
Proof.
  assert (A : denotes lib s (ctrl_parse lib s)).
  { unfold ctrl_parse. destruct lib; cbv iota;
      repeat match goal with |- context [match after (B ?p) ?x with _ => _ end] =>
        let H := fresh "P" in pose proof (after_spec (B p) x) as H; destruct (after (B p) x) end.
    all: try (left; eexists; split; [|eassumption]; unfold forms; cbn [cs_kind cs_exit cs_text app In]; tauto).
    all: right; split; [|reflexivity]; intros p k t I; unfold forms in I; cbn [app In] in I;
      repeat (destruct I as [I|I]; [injection I as <- <-; auto|]); destruct I. }
  split; [intros <-; exact A|]. intros [(p & I & E)|[N ->]].
  - destruct c as [k x t]. cbn [cs_kind cs_exit cs_text] in *. subst s. unfold forms in I. destruct lib; cbn [app In] in I;
      repeat (destruct I as [I|I]; [injection I as <- <- <-; reflexivity|]); destruct I.
  - destruct A as [(p & I & E)|[_ E]]; [exfalso; exact (N _ _ _ I E) | exact E].
Qed.
Print Assumptions ctl_forms.
Example ctl_forms_ex : ctrl_parse false (B "udp6:::1:9000") = CSock KUdp6 false (B "::1:9000") /\ ctrl_parse false (B "fd:3") = CSock KUnix false (B "fd:3")
  /\ ctrl_parse true (B "fd:3") = CSock KFd false (B "3").
Proof. repeat split. Qed.

(** Host and port *)
Theorem ctl_host_port s h p : host_port s = (h, p) <-> host_port_is s h p.
Proof.
  unfold host_port, host_port_is. split.
  - pose proof (last_colon_spec s) as X. destruct (last_colon s) as [[h' p']|].
    + destruct X as [-> X]. destruct p' as [|c p']; intros [= <- <-]; [right; auto | left; split; [discriminate | auto]].
    + intros [= <- <-]. right. auto.
  - intros [(P1 & P2 & ->)|[-> [->|[-> P]]]].
    + rewrite last_colon_app by assumption. destruct p; [congruence|reflexivity].
    + rewrite last_colon_app by (intros []). reflexivity.
    + rewrite last_colon_none by assumption. reflexivity.
Qed.
Print Assumptions ctl_host_port.
Example ctl_host_port_ex : host_port (B "10.0.0.1:7722") = (B "10.0.0.1", B "7722") /\ host_port (B "10.0.0.1") = (B "10.0.0.1", B "22222").
Proof. split; reflexivity. Qed.

(** "The port can be left out" is false for IPv6: the last part of the address becomes the port *)
Theorem ctl_ipv6_port_refuted : ~ (forall a, In a [B "::1"; B "2001:db8::7"] -> host_port a = (a, B "22222")).
Proof. intros H. specialize (H (B "::1") (or_introl eq_refl)). discriminate. Qed.
Print Assumptions ctl_ipv6_port_refuted.

(** Opening: paths that are not of a UNIX control socket are left alone, whatever fails; when all is well each UNIX
    socket is at its path, with the descriptor that is read, if no path is given twice *)
Theorem ctl_opened own mode resolves sysd fdnum y l y1 r :
  0 <= y_fd y -> controlfd_init own mode resolves sysd fdnum y l = (y1, r) ->
  (forall q, ~ unix_path l q -> y_fs y1 q = y_fs y q)
  /\ (NoDup (map cs_text (filter is_unix l)) -> forall fds, r = Some fds ->
      length fds = length l /\ forall n c i o, nth_error l n = Some c -> nth_error fds n = Some (i, o) ->
        (cs_kind c = KUnix \/ cs_kind c = KCunix) -> y_fs y1 (cs_text c) = Some (NSock i)).
Proof.
  intros H0 H. pose proof (init_ok own mode resolves sysd fdnum l y H0) as X. rewrite H in X. destruct X as [X1 X2]. split; [exact X1|].
  intros ND fds ->. destruct (X2 ND) as [X3 X4]. split; [exact X3|]. intros n c i o E1 E2 E3. apply (X4 n c i o E1 E2). unfold is_unix. destruct E3 as [-> | ->]; reflexivity.
Qed.
Print Assumptions ctl_opened.
Example ctl_opened_ex :
  let '(y, r) := controlfd_init true true (fun _ _ _ => true) None (fun _ => None) (CSys (fun _ => None) 3 [])
                   [ctrl_parse false (B "/run/a"); ctrl_parse false (B "udp:*"); ctrl_parse false (B "cunix:/run/b")] in
  r = Some [(3, 3); (4, 4); (5, 5)] /\ y_fs y (B "/run/b") = Some (NSock 5).
Proof. split; reflexivity. Qed.

(** Removing at the end: the paths of UNIX control sockets are gone (but for directories), all others are left alone *)
Theorem ctl_removed f l q :
  (unix_path l q -> f q <> Some NDir -> cleanup f l q = None) /\ (~ unix_path l q -> cleanup f l q = f q).
Proof. split; [apply cleanup_gone | apply cleanup_other]. Qed.
Print Assumptions ctl_removed.
Example ctl_removed_ex : let f := cleanup (fun _ => Some NFile) [ctrl_parse false (B "udp:/a"); ctrl_parse false (B "cunix:/b")] in
  f (B "/a") = Some NFile /\ f (B "/b") = None.
Proof. split; reflexivity. Qed.

(** "Every socket opened can be reached" is false when a path is given twice *)
Theorem ctl_twice_refuted :
  ~ (forall own mode resolves sysd fdnum y l y1 fds, controlfd_init own mode resolves sysd fdnum y l = (y1, Some fds) ->
       forall n c i o, nth_error l n = Some c -> nth_error fds n = Some (i, o) -> cs_kind c = KUnix -> y_fs y1 (cs_text c) = Some (NSock i)).
Proof.
  intros H. set (l := [CSock KUnix false (B "/a"); CSock KUnix false (B "/a")]).
  pose (R := controlfd_init false false (fun _ _ _ => true) None (fun _ => None) (CSys (fun _ => None) 3 []) l).
  specialize (H false false (fun _ _ _ => true) None (fun _ => None) (CSys (fun _ => None) 3 []) l (fst R) [(3, 3); (4, 4)] eq_refl 0%nat _ 3 3 eq_refl eq_refl eq_refl). discriminate.
Qed.
Print Assumptions ctl_twice_refuted.

(** "A file that is not a socket is kept" is false: whatever is at the path is removed *)
Theorem ctl_file_kept_refuted :
  ~ (forall own mode resolves sysd fdnum y l p, y_fs y p = Some NFile -> y_fs (fst (controlfd_init own mode resolves sysd fdnum y l)) p = Some NFile).
Proof.
  intros H. specialize (H false false (fun _ _ _ => true) None (fun _ => None) (CSys (fun _ => Some NFile) 3 []) [CSock KUnix false (B "/a")] (B "/a") eq_refl). discriminate.
Qed.
Print Assumptions ctl_file_kept_refuted.

(** "After a failed start no socket is left" is false: a socket opened before the failure stays at its path *)
Theorem ctl_failed_start_refuted :
  ~ (forall own mode resolves sysd fdnum y l y1 q, controlfd_init own mode resolves sysd fdnum y l = (y1, None) -> y_fs y q = None -> y_fs y1 q = None).
Proof.
  intros H. set (l := [CSock KUnix false (B "/a"); CSock KUdp4 false (B "nohost")]).
  pose (R := controlfd_init false false (fun _ _ _ => false) None (fun _ => None) (CSys (fun _ => None) 3 []) l).
  specialize (H false false (fun _ _ _ => false) None (fun _ => None) (CSys (fun _ => None) 3 []) l (fst R) (B "/a") eq_refl eq_refl). discriminate.
Qed.
Print Assumptions ctl_failed_start_refuted.

(** "The port of a control socket is left out of the ports for media" is false: the port table is made before the
    sockets, with a port that is always 0 *)
Theorem ctl_port_left_out_refuted :
  ~ (forall lib s c h p, ctrl_parse lib s = c -> cs_kind c = KUdp4 -> host_port (cs_text c) = (h, p) ->
       forall n, p = fmt_u n -> left_out (cfg_port_ctl [c]) n = true).
Proof. intros H. specialize (H false (B "udp:*:35000") _ _ _ eq_refl eq_refl eq_refl 35000 eq_refl). discriminate. Qed.
Print Assumptions ctl_port_left_out_refuted.
