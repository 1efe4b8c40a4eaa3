(** Theorems about the DTLS gateway (C62). What the TLS library answers is any value of [tls] at each step; the
    SRTP library is any three functions, of which [srtp_library] is asked only where it is said. A history
    starts with a session the module has not been asked anything about. *)
From Verif Require Import Base Str DtlsModel DtlsSpec DtlsProof.
From Verif Require NumSpec.

(** For the examples: a library that puts a sum of the key and a count behind the packet. *)
Definition ex_ctx : Type := list Z * Z.
Definition ex_create (s : suite) (k : list Z) (_ : Z) : option ex_ctx := if s_policy s then Some (k, 0) else None.
Definition ex_tail (x : ex_ctx) : list Z := [fold_right Z.add 0 (fst x) mod 256; snd x mod 256].
Definition ex_protect (x : ex_ctx) (_ : bool) (b : list Z) : option (ex_ctx * list Z) := Some ((fst x, snd x + 1), b ++ ex_tail x).
Definition ex_unprotect (x : ex_ctx) (_ : bool) (w : list Z) : option (ex_ctx * list Z) :=
  let b := firstn (length w - 2) w in if beq w (b ++ ex_tail x) then Some ((fst x, snd x + 1), b) else None.
Definition ex_own : list Z := B "SHA-256 00".
Definition ex_fresh : @sys ex_ctx := fresh (Two true true) (Two 35000 35002) true.
Definition ex_run := run ex_create ex_protect ex_unprotect ex_own ex_fresh.
Definition ex_env : env := mkEnv true None true true.
Definition ex_digest : list Z := repeat 171 32.
Definition ex_done (dg : list Z) : tls := mkTls true false SDone true false true (Some 1) (Some (fun n => Z.of_nat n)) (Some dg).
Definition ex_want : tls := mkTls true false SWant false true true None None None.
Definition ex_fail : tls := mkTls true false SErr false true true None None None.
Definition ex_idle : tls := mkTls true true SWant true true true None None None.
Definition ex_hello : list Z := 22 :: repeat 1 12.
Definition ex_media : list Z := 128 :: repeat 7 15.
Definition ex_wire (n : Z) : list Z := ex_media ++ ex_tail (map Z.of_nat (seq 0 16 ++ seq 32 14), n).
Definition ex_S : op := Command true [B "S"] ex_env ex_want.
Definition ex_A (fp : list Z) : op := Command false [B "A"; B "sha-256"; fp] ex_env ex_want.
Definition ex_P (fp : list Z) (t : tls) : op := Command false [B "P"; B "sha-256"; fp] ex_env t.
Definition ex_up : list op := [ex_S; ex_A (colon_hex ex_digest); Incoming false false true ex_hello; Work (ex_done ex_digest) true].
Lemma ex_library : srtp_library ex_create ex_protect ex_unprotect 2.
Proof.
  constructor.
  - exists eq. split; [reflexivity|]. intros o i r b <- (L & _). do 3 eexists. split; [reflexivity|]. unfold ex_unprotect.
    assert (E : firstn (length (b ++ ex_tail o) - 2) (b ++ ex_tail o) = b).
    { rewrite app_length. change (length (ex_tail o)) with 2%nat. replace (length b + 2 - 2)%nat with (length b) by lia.
      rewrite firstn_app, Nat.sub_diag, firstn_all, firstn_O, app_nil_r. reflexivity. }
    rewrite E, beq_refl. split; [reflexivity|]. split; [reflexivity|]. rewrite firstn_app. replace (2 - length b)%nat with 0%nat by lia.
    rewrite firstn_O, app_nil_r. reflexivity.
  - intros o r b o' w E. injection E as _ <-. rewrite app_length. cbn. lia.
  - intros i r w i' b. unfold ex_unprotect. destruct (beq w _); [|discriminate]. intros E. injection E as _ <-. rewrite firstn_length. lia.
Qed.

(** Where there is a gateway, every packet from the DTLS side and every packet to it goes to the module and
    none is relayed as it is; where there is none, nothing changes. *)
Theorem dtls_nothing_passes_untouched : forall ctx create protect unprotect own skt port complete ops outs (y : @sys ctx),
  run create protect unprotect own (fresh skt port complete) ops = (y, outs) ->
  forall d cow room b,
  snd (step create protect unprotect own y (Incoming d cow room b)) =
    Packet (if gateway_on d ops outs then if room then Queued else Lost else Passed b) /\
  (forall dst, snd (step create protect unprotect own y (Outgoing (negb d) cow dst room b)) =
    Packet (if gateway_on d ops outs && dst then if room then Queued else Lost else Passed b)).
Proof.
  intros ctx create protect unprotect own skt port cpl ops outs y R d cow room b. rewrite (gateway_dec _ _ _ _ _ _ _ _ _ _ R d).
  pose proof (run_inv _ _ _ _ _ _ _ _ (fresh_inv protect unprotect skt port cpl) R) as V. cbn [step]. unfold incoming, outgoing. split.
  - destruct (get d (y_dec y)); [destruct room; reflexivity|reflexivity].
  - intros dst. rewrite (i_enc _ V). destruct (get d (y_dec y)); [|reflexivity]. destruct dst, room; reflexivity.
Qed.
Print Assumptions dtls_nothing_passes_untouched.
Example dtls_untouched_ex : gateway_on false ex_up (snd (ex_run ex_up)) = true /\ gateway_on true ex_up (snd (ex_run ex_up)) = false /\
  gateway_on false (ex_up ++ [Command true [B "U"] ex_env ex_want]) (snd (ex_run (ex_up ++ [Command true [B "U"] ex_env ex_want]))) = false.
Proof. split; [vm_compute; reflexivity|]. split; vm_compute; reflexivity. Qed.

(** The thread takes the packets in the order in which they came; those of the DTLS side that look like DTLS go
    to the handshake and no others; what it hands on goes on at the stream where the packet came in. *)
Theorem dtls_packets_in_order : forall ctx create protect unprotect own skt port complete ops outs (y : @sys ctx),
  run create protect unprotect own (fresh skt port complete) ops = (y, outs) ->
  forall t al w, snd (step create protect unprotect own y (Work t al)) = Worked w ->
  (w = Idle <-> waiting ops outs = []) /\
  forall to_dtls d cow b r, waiting ops outs = (to_dtls, d, cow, b) :: r ->
  match w with
  | Idle => False
  | Shaken _ => to_dtls = false /\ dtls_record b
  | Behind d' _ _ => to_dtls = false /\ ~ dtls_record b /\ d' = d
  | Relayed d' _ _ in_place => to_dtls = true /\ d' = d /\ in_place = negb cow
  | Dropped d' counted => d' = d /\ to_dtls = negb counted /\ (counted = true -> ~ dtls_record b)
  | Died => True
  end.
Proof.
  intros ctx create protect unprotect own skt port cpl ops outs y R t al w E.
  pose proof (run_inv _ _ _ _ _ _ _ _ (fresh_inv protect unprotect skt port cpl) R) as V. rewrite (waiting_queue _ _ _ _ _ _ _ _ _ _ R).
  cbn [step] in E. destruct (worker create protect unprotect y t al) as [y' w0] eqn:Ew. cbn [snd] in E. injection E as ->.
  split; [rewrite (worker_idle _ _ _ _ _ _ _ _ Ew); destruct (y_q y); split; (reflexivity || discriminate)|].
  intros td d cow b r Q. destruct (y_q y) as [|k q] eqn:Eq; [discriminate|]. cbn [map] in Q. unfold seen at 1 in Q. injection Q as Q1 Q2 Q3 Q4 _.
  pose proof (i_q _ V) as F. rewrite Eq in F. inversion F as [|w1 q1 (_ & Fk) _]; subst w1 q1.
  pose proof (worker_kind _ _ _ _ _ _ _ _ _ _ Eq Ew) as K. destruct w as [|i|d' i p|d' i p pl|d' c|].
  - exact K.
  - destruct K as (Kd & _). rewrite Kd in *. destruct Fk as (_ & Fk). apply is_dtls_record in Fk. rewrite Q4 in Fk. auto.
  - destruct K as (Kd & Ks & _). rewrite Kd in *. destruct Fk as (_ & Fk). rewrite Q4 in Fk. split; [auto|]. split; [|congruence].
    intros D. apply is_dtls_record in D. congruence.
  - destruct (worker_relayed _ _ _ _ _ _ _ _ _ _ _ Ew) as (k' & q' & x & x' & Eq' & Kd & _ & Ks & Kp & _). rewrite Eq in Eq'. injection Eq' as <- <-.
    rewrite Kd in *. split; [auto|]. split; congruence.
  - destruct c; destruct K as (Kd & Ks); rewrite Kd in *.
    + destruct Fk as (_ & Fk). rewrite Q4 in Fk. split; [congruence|]. split; [cbn; congruence|]. intros _ D. apply is_dtls_record in D. congruence.
    + split; [congruence|]. split; [cbn; congruence|discriminate].
  - exact Logic.I.
Qed.
Print Assumptions dtls_packets_in_order.
Example dtls_order_ex : let l := ex_up ++ [Incoming false false true (ex_wire 0); Outgoing true true true true ex_media; Incoming false false true ex_hello] in
  waiting l (snd (ex_run l)) = [(false, false, false, ex_wire 0); (true, true, true, ex_media); (false, false, false, ex_hello)] /\
  snd (ex_run (l ++ [Work ex_idle true; Work ex_idle true; Work ex_idle true])) =
    [Answered (COk (B "actpass SHA-256 00")); Answered (COk []); Packet Queued; Worked (Shaken 0); Packet Queued; Packet Queued; Packet Queued;
     Worked (Behind false 0 ex_media); Worked (Relayed true 0 (ex_media ++ ex_tail (map Z.of_nat (seq 16 16 ++ seq 46 14), 0)) false); Worked (Shaken 0)].
Proof. split; vm_compute; reflexivity. Qed.

(** Media goes on behind the gateway only if its connection went through a handshake, and the certificate seen in it
    was that of the fingerprint known at that moment, if one was; the packet is what the library gets out of the
    datagram at the head of the queue with the key of the sender that this handshake gave. *)
Theorem dtls_media_in_from_handshake : forall ctx create protect unprotect own skt port complete ops outs (y : @sys ctx),
  run create protect unprotect own (fresh skt port complete) ops = (y, outs) ->
  forall t al d i b, snd (step create protect unprotect own y (Work t al)) = Worked (Behind d i b) ->
  exists cow p r y1 s km dg x0 x x', waiting ops outs = (false, d, cow, p) :: r /\
    established_by create protect unprotect own (fresh skt port complete) ops i y1 s km dg /\
    c_side (nth_con y1 i) = d /\ verified (nth_con y1 i) dg /\
    create s (key_in (c_mode (nth_con y1 i)) km) (c_ssrc (nth_con y1 i)) = Some x0 /\ used unprotect x0 x /\
    unprotect x (rtcp p) p = Some (x', b).
Proof.
  intros ctx create protect unprotect own skt port cpl ops outs y R t al d i b E.
  pose proof (run_inv _ _ _ _ _ _ _ _ (fresh_inv protect unprotect skt port cpl) R) as V. rewrite (waiting_queue _ _ _ _ _ _ _ _ _ _ R).
  cbn [step] in E. destruct (worker create protect unprotect y t al) as [y' w0] eqn:Ew. cbn [snd] in E. injection E as ->.
  destruct (worker_behind _ _ _ _ _ _ _ _ _ _ Ew) as (w & q & x & x' & Q & Wd & Wc & Ws & U & Ci & Eu).
  pose proof (i_q _ V) as F. rewrite Q in F. inversion F as [|w1 q1 (Hi & Fk) _]; subst w1 q1. rewrite Wd, Wc in *. destruct Fk as (Sd & _).
  destruct (up_origin _ _ _ own _ _ _ _ (fresh_inv protect unprotect skt port cpl) eq_refl R i Hi U) as (y1 & s & km & dg & x0 & z0 & x2 & z2 & Es & Ve & C1 & U1 & I1 & _).
  rewrite Ci in I1. injection I1 as <-.
  exists (w_cow w), (w_pkt w), (map seen q), y1, s, km, dg, x0, x, x'. rewrite Q. cbn [map]. unfold seen at 1. rewrite Wd, Ws.
  split; [reflexivity|]. split; [exact Es|]. split; [|auto].
  destruct Es as (l1 & tt & al1 & l2 & El & Ey1 & L1 & _). rewrite <- Ws, Sd.
  pose proof R as R'. rewrite El, run_app in R'. unfold after in Ey1. destruct (run create protect unprotect own (fresh skt port cpl) l1) as [ya xa] eqn:Ra. cbn [fst] in Ey1. subst ya.
  destruct (run create protect unprotect own y1 (Work tt al1 :: l2)) as [yb xb] eqn:Rb. injection R' as <- _.
  pose proof (run_inv _ _ _ _ _ _ _ _ (fresh_inv protect unprotect skt port cpl) Ra) as V1. symmetry. exact (proj1 (proj2 (life _ _ _ own y1 _ i V1 L1 _ _ Rb))).
Qed.
Print Assumptions dtls_media_in_from_handshake.
Example dtls_media_in_ex : snd (step ex_create ex_protect ex_unprotect ex_own (fst (ex_run (ex_up ++ [Incoming false false true (ex_wire 0)]))) (Work ex_idle true)) =
  Worked (Behind false 0 ex_media).
Proof. vm_compute. reflexivity. Qed.

(** The same for what is sent to the DTLS side: it is protected with our own key of the handshake. *)
Theorem dtls_media_out_from_handshake : forall ctx create protect unprotect own skt port complete ops outs (y : @sys ctx),
  run create protect unprotect own (fresh skt port complete) ops = (y, outs) ->
  forall t al d i b in_place, snd (step create protect unprotect own y (Work t al)) = Worked (Relayed d i b in_place) ->
  exists cow p r y1 s km dg x0 x x', waiting ops outs = (true, d, cow, p) :: r /\
    established_by create protect unprotect own (fresh skt port complete) ops i y1 s km dg /\
    c_side (nth_con y1 i) = negb d /\ verified (nth_con y1 i) dg /\
    create s (key_out (c_mode (nth_con y1 i)) km) 0 = Some x0 /\ used protect x0 x /\
    protect x (rtcp p) p = Some (x', b).
Proof.
  intros ctx create protect unprotect own skt port cpl ops outs y R t al d i b pl E.
  pose proof (run_inv _ _ _ _ _ _ _ _ (fresh_inv protect unprotect skt port cpl) R) as V. rewrite (waiting_queue _ _ _ _ _ _ _ _ _ _ R).
  cbn [step] in E. destruct (worker create protect unprotect y t al) as [y' w0] eqn:Ew. cbn [snd] in E. injection E as ->.
  destruct (worker_relayed _ _ _ _ _ _ _ _ _ _ _ Ew) as (w & q & x & x' & Q & Wd & Wc & Ws & _ & U & Ci & Eu).
  pose proof (i_q _ V) as F. rewrite Q in F. inversion F as [|w1 q1 (Hi & Sd) _]; subst w1 q1. rewrite Wd, Wc in *.
  destruct (up_origin _ _ _ own _ _ _ _ (fresh_inv protect unprotect skt port cpl) eq_refl R i Hi U) as (y1 & s & km & dg & x0 & z0 & x2 & z2 & Es & Ve & _ & _ & _ & C1 & U1 & I1).
  rewrite Ci in I1. injection I1 as <-.
  exists (w_cow w), (w_pkt w), (map seen q), y1, s, km, dg, z0, x, x'. rewrite Q. cbn [map]. unfold seen at 1. rewrite Wd, Ws.
  split; [reflexivity|]. split; [exact Es|]. split; [|auto].
  destruct Es as (l1 & tt & al1 & l2 & El & Ey1 & L1 & _). rewrite <- Ws, Sd, negb_involutive.
  pose proof R as R'. rewrite El, run_app in R'. unfold after in Ey1. destruct (run create protect unprotect own (fresh skt port cpl) l1) as [ya xa] eqn:Ra. cbn [fst] in Ey1. subst ya.
  destruct (run create protect unprotect own y1 (Work tt al1 :: l2)) as [yb xb] eqn:Rb. injection R' as <- _.
  pose proof (run_inv _ _ _ _ _ _ _ _ (fresh_inv protect unprotect skt port cpl) Ra) as V1. symmetry. exact (proj1 (proj2 (life _ _ _ own y1 _ i V1 L1 _ _ Rb))).
Qed.
Print Assumptions dtls_media_out_from_handshake.
Example dtls_media_out_ex : snd (step ex_create ex_protect ex_unprotect ex_own (fst (ex_run (ex_up ++ [Outgoing true false true true ex_media]))) (Work ex_idle true)) =
  Worked (Relayed true 0 (ex_media ++ ex_tail (map Z.of_nat (seq 16 16 ++ seq 46 14), 0)) true).
Proof. vm_compute. reflexivity. Qed.


(** What is verified in the handshake is what was told: if an A or P command for the side was granted before it, the digest of
    the certificate is that of an A or P command for this side. *)
Theorem dtls_verified_means_told : forall ctx create protect unprotect own skt port complete l1 outs (y1 : @sys ctx),
  run create protect unprotect own (fresh skt port complete) l1 = (y1, outs) ->
  forall i dg la d args e t lb ya txt, (i < length (y_con y1))%nat -> c_state (nth_con y1 i) <> RDC_DEAD -> verified (nth_con y1 i) dg ->
  l1 = la ++ Command d args e t :: lb -> parse args = Some RDG_A \/ parse args = Some RDG_P ->
  step create protect unprotect own (after create protect unprotect own (fresh skt port complete) la) (Command d args e t) = (ya, Answered (COk txt)) ->
  get d (y_dec ya) = Some i ->
  c_side (nth_con y1 i) = d /\
  exists f o, In o l1 /\ tells d f o /\ fp_gen dg = B "SHA-256 " ++ f /\ (dg <> [] -> Forall byte dg -> writes_bytes dg f).
Proof.
  intros ctx create protect unprotect own skt port cpl l1 outs y1 R i dg la d args e t lb ya txt Hi Nd Ve El Pa Es Gi.
  pose proof R as R'. rewrite El, run_app in R'. unfold after in Es. destruct (run create protect unprotect own (fresh skt port cpl) la) as [y0 xa] eqn:Ra. cbn [fst] in Es.
  pose proof (run_inv _ _ _ _ _ _ _ _ (fresh_inv protect unprotect skt port cpl) Ra) as V0.
  assert (Va : inv ya) by exact (step_inv _ _ _ _ _ _ _ _ V0 Es). change (Command d args e t :: lb) with ([Command d args e t] ++ lb) in R'.
  cbn [run app] in R'. rewrite Es in R'. destruct (run create protect unprotect own ya lb) as [yb xb] eqn:Rb. injection R' as -> _.
  assert (Sp : exists cmd p, parse args = Some cmd /\ spec_of cmd args = Some p) by (destruct Pa as [Pa|Pa]; rewrite Pa; eexists _, _; split; reflexivity).
  destruct Sp as (cmd & p & Ep & Eo). cbn [step] in Es. destruct (command y0 d args own e t) as [yc r] eqn:Ec. apply pair_equal_spec in Es as (-> & Es). injection Es as ->.
  destruct (command_told create protect unprotect _ _ _ _ _ _ _ _ _ _ V0 Ec Ep Eo) as (i' & Gi' & Hi' & Si' & Fi' & _). rewrite Gi in Gi'. injection Gi' as <-.
  destruct (life _ _ _ own ya lb i Va Hi' _ _ Rb) as (_ & S1 & _).
  assert (Nf : c_fp (nth_con ya i) <> []) by (rewrite Fi'; discriminate).
  destruct (fp_stays _ _ _ own ya lb i Va Hi' Nf _ _ Rb) as (_ & Nf1). split; [congruence|].
  destruct (fp_origin _ _ _ own _ _ _ _ (fresh_inv protect unprotect skt port cpl) eq_refl R i Hi Nd) as [Z|(f & o & Io & To & Ef)]; [contradiction|].
  destruct Ve as [Z|Ve]; [contradiction|]. rewrite S1, Si' in To. exists f, o. split; [exact Io|]. split; [exact To|].
  assert (Eg : fp_gen dg = B "SHA-256 " ++ f) by (rewrite <- Ve; exact Ef). split; [exact Eg|]. intros N F.
  unfold fp_gen in Eg. change (B "SHA-256 ") with (ALG ++ [32]) in Eg. rewrite <- app_assoc in Eg. apply app_inv_head in Eg. injection Eg as <-. apply colon_hex_writes; assumption.
Qed.
Print Assumptions dtls_verified_means_told.
Example dtls_verified_ex : let y1 := fst (ex_run (firstn 3 ex_up)) in
  (0 < length (y_con y1))%nat /\ c_state (nth_con y1 0) = RDC_INIT /\ verified (nth_con y1 0) ex_digest /\ get false (y_dec y1) = Some 0%nat /\
  writes_bytes [171; 1] (B "AB:01").
Proof. do 4 (split; [vm_compute; auto|]). vm_compute. constructor 2. constructor. Qed.

(** A connection only goes forward: it starts, is up and is given up, each at most once, and the role is settled with
    the first step. *)
Theorem dtls_connection_life : forall ctx create protect unprotect own (y : @sys ctx) l i,
  reached create protect unprotect own y -> (i < length (y_con y))%nat ->
  let y' := after create protect unprotect own y l in
  (stage (c_state (nth_con y i)) <= stage (c_state (nth_con y' i)))%nat /\ c_side (nth_con y' i) = c_side (nth_con y i) /\
  (c_state (nth_con y i) <> RDC_INIT -> c_mode (nth_con y' i) = c_mode (nth_con y i)).
Proof.
  intros ctx create protect unprotect own y l i R H. unfold after. destruct (run create protect unprotect own y l) as [y' xs] eqn:E.
  destruct (life _ _ _ own y l i (reached_inv _ _ _ _ _ R) H _ _ E) as (_ & A & B & C). auto.
Qed.
Print Assumptions dtls_connection_life.
Example dtls_life_ex : map (fun n => c_state (nth_con (fst (ex_run (firstn n (ex_up ++ [Command false [B "D"] ex_env ex_want])))) 0)) [1; 2; 3; 4; 5]%nat =
  [RDC_INIT; RDC_INIT; RDC_INIT; RDC_UP; RDC_DEAD].
Proof. vm_compute. reflexivity. Qed.

(** Taking the gateway away (D or U) leaves nothing of it: the side has none, and nothing of its connection is handed on in all
    that follows, not even packets that wait. *)
Theorem dtls_removed_completely : forall ctx create protect unprotect own (y : @sys ctx) d args e t cmd y' txt,
  reached create protect unprotect own y -> parse args = Some cmd -> cmd = RDG_D \/ cmd = RDG_U ->
  step create protect unprotect own y (Command d args e t) = (y', Answered (COk txt)) ->
  get (target d cmd) (y_dec y') = None /\ get (negb (target d cmd)) (y_enc y') = None /\
  exists i, get (target d cmd) (y_dec y) = Some i /\
    forall l d' b pl, ~ In (Worked (Behind d' i b)) (snd (run create protect unprotect own y' l)) /\
      ~ In (Worked (Relayed d' i b pl)) (snd (run create protect unprotect own y' l)).
Proof.
  intros ctx create protect unprotect own y d args e t cmd y' txt R Ep C Es. pose proof (reached_inv _ _ _ _ _ R) as V.
  pose proof (step_inv _ _ _ _ _ _ _ _ V Es) as V'. cbn [step] in Es. destruct (command y d args own e t) as [yc r] eqn:Ec. apply pair_equal_spec in Es as (-> & Es). injection Es as ->.
  destruct (removed own y d args e t y' txt cmd V Ec Ep ltac:(destruct C as [->| ->]; reflexivity)) as (i & G & Hi & Di & G1 & G2).
  split; [exact G1|]. split; [exact G2|]. exists i. split; [exact G|]. intros l d' b pl.
  destruct (run create protect unprotect own y' l) as [y2 xs] eqn:E. destruct (dead_for_good _ _ _ own y' i l V' Hi Di _ _ E) as (_ & _ & H). cbn [snd]. apply H.
Qed.
Print Assumptions dtls_removed_completely.
Example dtls_removed_ex : snd (ex_run (ex_up ++ [Incoming false false true (ex_wire 0); Command true [B "U"] ex_env ex_want; Work ex_idle true])) =
  [Answered (COk (B "actpass SHA-256 00")); Answered (COk []); Packet Queued; Worked (Shaken 0); Packet Queued; Answered (COk []); Worked (Dropped false true)].
Proof. vm_compute. reflexivity. Qed.

(** A command changes nothing on the other side. *)
Theorem dtls_commands_touch_one_side : forall ctx create protect unprotect own (y : @sys ctx) d args e t cmd y' r,
  reached create protect unprotect own y -> parse args = Some cmd ->
  step create protect unprotect own y (Command d args e t) = (y', r) ->
  let s := negb (target d cmd) in
  get s (y_dec y') = get s (y_dec y) /\ get (negb s) (y_enc y') = get (negb s) (y_enc y) /\
  get s (y_skt y') = get s (y_skt y) /\ get s (y_port y') = get s (y_port y) /\ y_q y' = y_q y /\
  forall i, (i < length (y_con y))%nat -> c_side (nth_con y i) = s -> nth_con y' i = nth_con y i.
Proof.
  intros ctx create protect unprotect own y d args e t cmd y' r R Ep Es. cbn [step] in Es. destruct (command y d args own e t) as [yc rc] eqn:Ec.
  apply pair_equal_spec in Es as (-> & _). exact (one_side create protect unprotect own y d args e t y' rc cmd (reached_inv _ _ _ _ _ R) Ec Ep).
Qed.
Print Assumptions dtls_commands_touch_one_side.
Example dtls_one_side_ex : let y := fst (ex_run (ex_up ++ [Command false [B "S"] ex_env ex_want])) in
  get true (y_dec y) = Some 1%nat /\ get false (y_dec y) = Some 0%nat /\ c_state (nth_con y 0) = RDC_UP /\ c_state (nth_con y 1) = RDC_INIT.
Proof. do 3 (split; [vm_compute; reflexivity|]). vm_compute. reflexivity. Qed.

(** After an A or P that was granted, the connection of the side has this fingerprint, the role that goes with it and the
    ssrc it was told; what a connection has as fingerprint comes from such a command for its side. *)
Theorem dtls_fingerprint_told : forall ctx create protect unprotect own skt port complete ops outs (y : @sys ctx),
  run create protect unprotect own (fresh skt port complete) ops = (y, outs) ->
  (forall d args e t y' txt cmd, parse args = Some cmd -> cmd = RDG_A \/ cmd = RDG_P ->
    step create protect unprotect own y (Command d args e t) = (y', Answered (COk txt)) ->
    exists i, get d (y_dec y') = Some i /\ c_side (nth_con y' i) = d /\
      c_fp (nth_con y' i) = B "SHA-256 " ++ nth 2 args [] /\
      c_mode (nth_con y' i) = (if match cmd with RDG_P => true | _ => false end then ACTIVE else PASSIVE) /\
      (forall s, nth_error args 3 = Some s -> ssrc_text s (c_ssrc (nth_con y' i)))) /\
  (forall i, (i < length (y_con y))%nat -> c_state (nth_con y i) <> RDC_DEAD ->
    c_fp (nth_con y i) = [] \/ exists f o, In o ops /\ tells (c_side (nth_con y i)) f o /\ c_fp (nth_con y i) = B "SHA-256 " ++ f).
Proof.
  intros ctx create protect unprotect own skt port cpl ops outs y R. split.
  - intros d args e t y' txt cmd Ep C Es. pose proof (run_inv _ _ _ _ _ _ _ _ (fresh_inv protect unprotect skt port cpl) R) as V.
    cbn [step] in Es. destruct (command y d args own e t) as [yc r] eqn:Ec. apply pair_equal_spec in Es as (-> & Es). injection Es as ->.
    destruct C as [->| ->]; destruct (command_told create protect unprotect _ _ _ _ _ _ _ _ _ _ V Ec Ep eq_refl) as (i & Gi & _ & Si & Fi & Mi & Xi); exists i; auto 10.
  - intros i H Nd. destruct (fp_origin _ _ _ own _ _ _ _ (fresh_inv protect unprotect skt port cpl) eq_refl R i H Nd) as [Z|(f & o & Io & To & Ef)]; [left; exact Z|].
    right. exists f, o. auto.
Qed.
Print Assumptions dtls_fingerprint_told.
Example dtls_told_ex : let y := fst (ex_run [ex_S; Command false [B "p"; B "Sha-256"; colon_hex ex_digest; B "77"] ex_env ex_want]) in
  c_fp (nth_con y 0) = B "SHA-256 " ++ colon_hex ex_digest /\ c_mode (nth_con y 0) = ACTIVE /\ c_ssrc (nth_con y 0) = 77 /\ c_state (nth_con y 0) = RDC_CONNECTING.
Proof. do 3 (split; [vm_compute; reflexivity|]). vm_compute. reflexivity. Qed.

(** When A and P are granted. *)
Theorem dtls_tell_granted_iff : forall ctx (y : @sys ctx) d c alg fp rest cmd own e t,
  letter c cmd -> cmd = RDG_A \/ cmd = RDG_P -> (length rest <= 1)%nat ->
  ((exists txt, snd (command y d ([c] :: alg :: fp :: rest) own e t) = COk txt) <->
   same_letters alg (B "SHA-256") /\ length fp = 95%nat /\ (forall s, In s rest -> exists x, ssrc_text s x) /\
   (cmd = RDG_P -> get d (y_skt y) = true \/ e_listen e <> None) /\
   match get d (y_dec y) with
   | Some i => (c_state (nth_con y i) = RDC_INIT \/ c_mode (nth_con y i) = (match cmd with RDG_P => ACTIVE | _ => PASSIVE end)) /\
               (cmd = RDG_P -> c_state (nth_con y i) = RDC_INIT -> t_shake t <> SErr)
   | None => e_ctor e = true /\ e_reg_in e = true /\ e_reg_out e = true /\ (cmd = RDG_P -> t_shake t <> SErr)
   end).
Proof. intros ctx y d c alg fp rest cmd own e t L C R. exact (tell_granted (fun _ _ _ => None) (fun _ _ _ => None) (fun _ _ _ => None) y d c alg fp rest cmd own e t L C R). Qed.
Print Assumptions dtls_tell_granted_iff.
Example dtls_granted_ex : letter 65 RDG_A /\ same_letters (B "Sha-256") (B "SHA-256") /\ length (colon_hex ex_digest) = 95%nat /\ ssrc_text (B "77") 77.
Proof.
  split; [left; reflexivity|]. split; [apply upper_letters; vm_compute; reflexivity|]. split; [vm_compute; reflexivity|].
  apply strtoul_text. exists 77. split; vm_compute; reflexivity.
Qed.

(** What S, D and U answer: S says the role and our own fingerprint. *)
Theorem dtls_other_commands_answered : forall ctx create protect unprotect own (y : @sys ctx) d c cmd e t,
  reached create protect unprotect own y -> letter c cmd -> cmd <> RDG_A -> cmd <> RDG_P ->
  snd (step create protect unprotect own y (Command d [[c]] e t)) = Answered
    match get (target d cmd) (y_dec y), cmd with
    | Some i, RDG_S => COk (match c_mode (nth_con y i) with ACTPASS => B "actpass " | ACTIVE => B "active " | PASSIVE => B "passive " end ++ own)
    | None, RDG_S => if e_ctor e && e_reg_in e && e_reg_out e then COk (B "actpass " ++ own) else CFail
    | Some _, _ => COk []
    | None, _ => CFail
    end.
Proof.
  intros ctx create protect unprotect own y d c cmd e t R L N1 N2. cbn [step]. pose proof (short_granted y d c cmd own e t (reached_inv _ _ _ _ _ R) L N1 N2) as H.
  destruct (command y d [[c]] own e t) as [y' r]. cbn [snd] in *. rewrite H. reflexivity.
Qed.
Print Assumptions dtls_other_commands_answered.
Example dtls_answered_ex : snd (ex_run (ex_up ++ [ex_S; Command false [B "d"] ex_env ex_want; Command false [B "D"] ex_env ex_want])) =
  [Answered (COk (B "actpass SHA-256 00")); Answered (COk []); Packet Queued; Worked (Shaken 0); Answered (COk (B "passive SHA-256 00")); Answered (COk []); Answered CFail].
Proof. vm_compute. reflexivity. Qed.

(** A handshake with another certificate than that of the known fingerprint does not open the connection; if it came to its
    end, the connection is given up. *)
Theorem dtls_wrong_certificate_refused : forall ctx create protect unprotect own (y : @sys ctx) w q t al dg,
  reached create protect unprotect own y -> y_q y = w :: q -> w_dir w = DTLS_IN -> (forall id, t_profile t = Some id -> offered id = true) ->
  let i := w_conn w in let y' := fst (step create protect unprotect own y (Work t al)) in
  t_digest t = Some dg -> c_fp (nth_con y i) <> [] -> c_fp (nth_con y i) <> fp_gen dg -> c_state (nth_con y i) <> RDC_UP ->
  c_state (nth_con y' i) <> RDC_UP /\
  (t_write t = true -> t_ok0 t = false -> t_ok1 t = true -> c_state (nth_con y' i) = RDC_DEAD).
Proof.
  intros ctx create protect unprotect own y w q t al dg R Q Wd Of i y' D N1 N2 Nu. pose proof (reached_inv _ _ _ _ _ R) as V.
  pose proof (i_q _ V) as F. rewrite Q in F. inversion F as [|w1 q1 (Hi & _) _]; subst w1 q1.
  destruct (dtls_recv_ok create (nth_con y i) (w_pkt w) t Of) as (c' & Ec).
  assert (Ey : nth_con y' i = c').
  { unfold y'. cbn [step]. unfold worker. rewrite Q. cbv zeta. rewrite Wd. change (nth_con (with_q y q) (w_conn w)) with (nth_con y i). rewrite Ec. cbn [fst].
    rewrite nth_put, Nat.eqb_refl by exact Hi. reflexivity. }
  rewrite Ey. destruct (wrong_digest _ _ _ _ _ _ D (fun X => match X with or_introl A => N1 A | or_intror A => N2 A end) Nu Ec) as (A & B1). split; [exact A|].
  intros W O O1. destruct (c_state (nth_con y i)) eqn:Es; try congruence; try (apply B1; [discriminate|assumption..]).
  rewrite (dtls_recv_dead _ _ _ _ Es) in Ec. injection Ec as <-. exact Es.
Qed.
Print Assumptions dtls_wrong_certificate_refused.
Example dtls_wrong_ex : let y := fst (ex_run (firstn 3 ex_up)) in
  c_state (nth_con (fst (step ex_create ex_protect ex_unprotect ex_own y (Work (ex_done (repeat 172 32)) true))) 0) = RDC_DEAD /\ c_fp (nth_con y 0) <> fp_gen (repeat 172 32).
Proof. split; [vm_compute; reflexivity|]. vm_compute. discriminate. Qed.

(** The handshake of the right peer opens the connection, with keys for both directions. *)
Theorem dtls_right_peer_accepted : forall ctx create protect unprotect own (y : @sys ctx) w q t al id s f km dg o x,
  reached create protect unprotect own y -> y_q y = w :: q -> w_dir w = DTLS_IN ->
  let c := nth_con y (w_conn w) in
  c_state c = RDC_INIT \/ c_state c = RDC_CONNECTING -> t_write t = true -> t_ok0 t = false -> t_shake t <> SErr ->
  (t_timeout t = true -> c_timer c = true \/ t_sched t = true) -> t_ok1 t = true -> t_profile t = Some id -> offered id = true -> suite_of id = Some s ->
  t_keymat t = Some f -> layout s (exported s f) km -> t_digest t = Some dg -> c_fp c = [] \/ c_fp c = fp_gen dg ->
  create s (key_out (c_mode c) km) 0 = Some o -> create s (key_in (c_mode c) km) (c_ssrc c) = Some x ->
  exists y', step create protect unprotect own y (Work t al) = (y', Worked (Shaken (w_conn w))) /\
    c_state (nth_con y' (w_conn w)) = RDC_UP /\ c_out (nth_con y' (w_conn w)) = Some o /\ c_in (nth_con y' (w_conn w)) = Some x.
Proof.
  intros ctx create protect unprotect own y w q t al id s f km dg o x R Q Wd c S W O H T O1 P Of Su K L D Ve Co Ci. pose proof (reached_inv _ _ _ _ _ R) as V.
  pose proof (i_q _ V) as F. rewrite Q in F. inversion F as [|w1 q1 (Hi & _) _]; subst w1 q1.
  destruct (handshake_up create protect unprotect c (w_pkt w) t id s f km dg o x S W O H T O1 P Of Su K L D Ve Co Ci) as (c' & Ec & A).
  exists (put_con (with_q y q) (w_conn w) c'). cbn [step]. unfold worker. rewrite Q. cbv zeta. rewrite Wd. change (nth_con (with_q y q) (w_conn w)) with c. rewrite Ec.
  split; [reflexivity|]. rewrite nth_put, Nat.eqb_refl by exact Hi. exact A.
Qed.
Print Assumptions dtls_right_peer_accepted.
Example dtls_right_ex : let y := fst (ex_run (firstn 3 ex_up)) in
  c_state (nth_con (fst (step ex_create ex_protect ex_unprotect ex_own y (Work (ex_done ex_digest) true))) 0) = RDC_UP /\ c_fp (nth_con y 0) = fp_gen ex_digest /\ offered 1 = true.
Proof. split; [vm_compute; reflexivity|]. split; vm_compute; reflexivity. Qed.

(** The text of a fingerprint is the digest in hexadecimal with colons; texts of different digests differ. *)
Theorem dtls_fingerprint_text : forall d1 d2, d1 <> [] -> Forall byte d1 -> Forall byte d2 ->
  (exists t, fp_gen d1 = B "SHA-256 " ++ t /\ writes_bytes d1 t /\ (length t + 1 = 3 * length d1)%nat) /\ (d2 <> [] -> fp_gen d1 = fp_gen d2 -> d1 = d2).
Proof.
  intros d1 d2 N F1 F2. split.
  - exists (colon_hex d1). pose proof (colon_hex_writes d1 N F1) as W. split; [reflexivity|]. split; [exact W|apply writes_bytes_length, W].
  - intros N2 E. unfold fp_gen in E. apply app_inv_head in E. injection E as E. apply (writes_bytes_inj d1 (colon_hex d1)); [apply colon_hex_writes; assumption| |assumption|assumption].
    rewrite E. apply colon_hex_writes; assumption.
Qed.
Print Assumptions dtls_fingerprint_text.
Example dtls_text_ex : fp_gen [10; 255; 0] = B "SHA-256 0A:FF:00".
Proof. vm_compute. reflexivity. Qed.

(** The keys are cut out of the exported material as RFC 5764 says. *)
Theorem dtls_keys_layout : forall s m k, layout s m k -> keys s m = (client_key k, server_key k).
Proof. exact keys_layout. Qed.
Print Assumptions dtls_keys_layout.
Example dtls_keys_ex : layout (mkSuite [] 2 1 0 true) [1; 2; 3; 4; 5; 6] (mkKeying [1; 2] [3; 4] [5] [6]).
Proof. repeat split. Qed.

(** Two ends that came up with the same keying, one active and one not, understand each other: every packet that one takes is
    what the other hands on, in both directions. *)
Theorem dtls_two_ends_agree : forall ctx create protect unprotect grow (c1 c2 c1' c2' : @conn ctx) b1 b2 t1 t2,
  srtp_library create protect unprotect grow -> 0 <= grow ->
  dtls_recv create c1 b1 t1 = Ok c1' -> dtls_recv create c2 b2 t2 = Ok c2' ->
  c_state c1 <> RDC_UP -> c_state c2 <> RDC_UP -> c_state c1' = RDC_UP -> c_state c2' = RDC_UP ->
  c_mode c1 = ACTIVE -> c_mode c2 <> ACTIVE -> t_profile t1 = t_profile t2 -> t_keymat t1 = t_keymat t2 ->
  forall l, Forall (fun b => rtp_like b /\ Z.of_nat (length b) + grow <= 8192) l ->
  (c_ssrc c2 = 0 -> recv_all unprotect c2' (send_all protect c1' l) = map Some l) /\
  (c_ssrc c1 = 0 -> recv_all unprotect c1' (send_all protect c2' l) = map Some l).
Proof. intros ctx create protect unprotect grow c1 c2 c1' c2' b1 b2 t1 t2. exact (two_ends create protect unprotect grow c1 c2 c1' c2' b1 b2 t1 t2). Qed.
Print Assumptions dtls_two_ends_agree.
Example dtls_ends_ex : exists c1 c2 c1' c2' : @conn ex_ctx, srtp_library ex_create ex_protect ex_unprotect 2 /\ c_mode c1 = ACTIVE /\ c_mode c2 = PASSIVE /\
  dtls_recv ex_create c1 ex_hello (ex_done ex_digest) = Ok c1' /\ dtls_recv ex_create c2 ex_hello (ex_done ex_digest) = Ok c2' /\
  c_state c1' = RDC_UP /\ c_state c2' = RDC_UP /\ recv_all ex_unprotect c2' (send_all ex_protect c1' [ex_media; ex_media]) = [Some ex_media; Some ex_media].
Proof.
  exists (with_mode (with_state (newconn false) RDC_CONNECTING) ACTIVE), (with_mode (newconn false) PASSIVE). do 2 eexists. split; [exact ex_library|].
  do 2 (split; [reflexivity|]). do 2 (split; [vm_compute; reflexivity|]). do 2 (split; [vm_compute; reflexivity|]). vm_compute. reflexivity.
Qed.

(** The program lives through everything, as long as the packets leave room for what the library adds and the profile is one
    that was offered. *)
Theorem dtls_program_survives : forall ctx create protect unprotect grow own skt port complete ops outs (y : @sys ctx),
  srtp_library create protect unprotect grow -> Forall (fits grow) ops ->
  run create protect unprotect own (fresh skt port complete) ops = (y, outs) ->
  ~ In (Worked Died) outs /\ ~ In (Answered CAbort) outs.
Proof. intros ctx create protect unprotect grow own skt port cpl ops outs y L F R. exact (survives create protect unprotect grow own skt port cpl ops y outs L F R). Qed.
Print Assumptions dtls_program_survives.
Example dtls_survives_ex : Forall (fits 2) ex_up /\ snd (ex_run ex_up) <> [].
Proof.
  split; [|vm_compute; discriminate]. apply Forall_cons; [exact Logic.I|]. apply Forall_cons; [exact Logic.I|]. apply Forall_cons; [vm_compute; discriminate|].
  apply Forall_cons; [|constructor]. intros id E. injection E as <-. reflexivity.
Qed.

(** Not true: no media before a fingerprint is known. After S any peer that completes a handshake is let in, whatever its
    certificate. *)
Theorem dtls_no_media_before_fingerprint_refuted : forall dg, exists ops, (forall d f o, In o ops -> ~ tells d f o) /\
  In (Work (ex_done dg) true) ops /\ In (Worked (Behind false 0 ex_media)) (snd (ex_run ops)).
Proof.
  intros dg. exists [ex_S; Incoming false false true ex_hello; Work (ex_done dg) true; Incoming false false true (ex_wire 0); Work ex_idle true]. split; [|split].
  - intros d f o H (args & e & t & -> & P & _). repeat (destruct H as [H|H]; [try discriminate H; injection H as <- <- <- <-; destruct P as [P|P]; vm_compute in P; discriminate|]). exact H.
  - right. right. left. reflexivity.
  - assert (E : snd (ex_run [ex_S; Incoming false false true ex_hello; Work (ex_done dg) true; Incoming false false true (ex_wire 0); Work ex_idle true]) =
      [Answered (COk (B "actpass SHA-256 00")); Packet Queued; Worked (Shaken 0); Packet Queued; Worked (Behind false 0 ex_media)]) by (vm_compute; reflexivity).
    rewrite E. do 4 right. left. reflexivity.
Qed.
Print Assumptions dtls_no_media_before_fingerprint_refuted.

(** Not true: a new fingerprint counts. On a connection that is up it is stored and the peer with the old certificate goes
    on. *)
Theorem dtls_new_fingerprint_enforced_refuted : exists ops fp, let r := ex_run ops in
  last ops ex_S = Work ex_idle true /\ c_fp (nth_con (fst r) 0) = B "SHA-256 " ++ fp /\ fp_gen ex_digest <> B "SHA-256 " ++ fp /\
  snd r = [Answered (COk (B "actpass SHA-256 00")); Answered (COk []); Packet Queued; Worked (Shaken 0); Answered (COk []); Packet Queued; Worked (Behind false 0 ex_media)].
Proof.
  exists (ex_up ++ [ex_A (colon_hex (repeat 1 32)); Incoming false false true (ex_wire 0); Work ex_idle true]), (colon_hex (repeat 1 32)).
  split; [reflexivity|]. split; [vm_compute; reflexivity|]. split; [vm_compute; discriminate|vm_compute; reflexivity].
Qed.
Print Assumptions dtls_new_fingerprint_enforced_refuted.

(** Not true: a command that fails changes nothing. The fingerprint is stored before the ssrc is looked at, and the right peer
    is then refused. *)
Theorem dtls_failed_command_harmless_refuted : exists bad, let l := [ex_S; ex_A (colon_hex ex_digest); bad; Incoming false false true ex_hello; Work (ex_done ex_digest) true] in
  nth 2 (snd (ex_run l)) Nothing = Answered CFail /\ c_state (nth_con (fst (ex_run l)) 0) = RDC_DEAD /\
  c_state (nth_con (fst (ex_run ex_up)) 0) = RDC_UP.
Proof. exists (Command false [B "A"; B "SHA-256"; colon_hex (repeat 1 32); B "12x"] ex_env ex_want). split; [vm_compute; reflexivity|]. split; vm_compute; reflexivity. Qed.
Print Assumptions dtls_failed_command_harmless_refuted.

(** Not true: the answer can be told after the offer whatever the peer did in between. If the first record of the peer
    arrives before it, the answer is refused, because the connection has started in the role actpass. *)
Theorem dtls_answer_after_early_hello_refuted :
  nth 3 (snd (ex_run [ex_S; Incoming false false true ex_hello; Work ex_want true; ex_A (colon_hex ex_digest)])) Nothing = Answered CFail /\
  nth 1 (snd (ex_run [ex_S; ex_A (colon_hex ex_digest)])) Nothing = Answered (COk []).
Proof. split; vm_compute; reflexivity. Qed.
Print Assumptions dtls_answer_after_early_hello_refuted.

(** Not true: a P that failed for a passing reason can be sent again. *)
Theorem dtls_retry_possible_refuted :
  snd (ex_run [ex_S; ex_P (colon_hex ex_digest) ex_fail; ex_P (colon_hex ex_digest) ex_want]) =
    [Answered (COk (B "actpass SHA-256 00")); Answered CFail; Answered CFail] /\
  nth 1 (snd (ex_run [ex_S; ex_P (colon_hex ex_digest) ex_want])) Nothing = Answered (COk []).
Proof. split; vm_compute; reflexivity. Qed.
Print Assumptions dtls_retry_possible_refuted.

(** Not true: the memory a peer can make the program hold is bounded. Records for a connection that is up are put into the
    buffer of the engine and never read. *)
Theorem dtls_memory_bounded_refuted : forall n, exists ops, c_unread (nth_con (fst (ex_run ops)) 0) = 13 * Z.of_nat n.
Proof.
  intros n. exists (ex_up ++ concat (repeat [Incoming false true true ex_hello; Work ex_idle true] n)). unfold ex_run. rewrite run_app.
  assert (E : run ex_create ex_protect ex_unprotect ex_own ex_fresh ex_up = (fst (ex_run ex_up), snd (ex_run ex_up))) by (unfold ex_run; destruct (run _ _ _ _ _ _); reflexivity).
  rewrite E.
  assert (Rb : dtls_record ex_hello) by (split; vm_compute; [lia|split; discriminate]).
  pose proof (unread_grows ex_create ex_protect ex_unprotect ex_own false 0 ex_hello ex_idle n Rb eq_refl eq_refl (fst (ex_run ex_up))) as G.
  assert (G1 : get false (y_dec (fst (ex_run ex_up))) = Some 0%nat) by (vm_compute; reflexivity).
  assert (G2 : (0 < length (y_con (fst (ex_run ex_up))))%nat) by (vm_compute; lia).
  assert (G3 : c_state (nth_con (fst (ex_run ex_up)) 0) = RDC_UP) by (vm_compute; reflexivity).
  assert (G4 : y_q (fst (ex_run ex_up)) = []) by (vm_compute; reflexivity).
  assert (G5 : c_unread (nth_con (fst (ex_run ex_up)) 0) = 0) by (vm_compute; reflexivity).
  specialize (G G1 G2 G3 G4). cbv zeta in G. rewrite G5 in G. destruct (run ex_create ex_protect ex_unprotect ex_own (fst (ex_run ex_up)) _) as [y2 xs]. cbn [fst] in *.
  rewrite G. change (Z.of_nat (length ex_hello)) with 13. lia.
Qed.
Print Assumptions dtls_memory_bounded_refuted.

(** Not true: any packet that can be received can be sent. One that fills its buffer is written past the end of it, because the
    library adds to it. *)
Theorem dtls_big_packet_refuted : forall b, 8190 < Z.of_nat (length b) <= 8192 ->
  In (Worked Died) (snd (ex_run (ex_up ++ [Outgoing true false true true b; Work ex_idle true]))).
Proof.
  intros b L. unfold ex_run. rewrite run_app.
  assert (E : run ex_create ex_protect ex_unprotect ex_own ex_fresh ex_up = (fst (ex_run ex_up), snd (ex_run ex_up))) by (unfold ex_run; destruct (run _ _ _ _ _ _); reflexivity).
  rewrite E. set (y := fst (ex_run ex_up)).
  assert (G1 : get true (y_enc y) = Some 0%nat) by (vm_compute; reflexivity).
  assert (G3 : c_state (nth_con y 0) = RDC_UP) by (vm_compute; reflexivity).
  assert (G4 : y_q y = []) by (vm_compute; reflexivity).
  assert (G5 : exists x, c_out (nth_con y 0) = Some x) by (eexists; vm_compute; reflexivity). destruct G5 as (x & G5).
  cbn [run step]. unfold outgoing. rewrite G1. cbn [negb]. unfold worker. cbn [with_q y_q]. rewrite G4. cbn [app w_dir w_conn w_cow w_pkt]. cbv zeta.
  rewrite !nth_with_q. unfold rtp_send. rewrite G3, G5. cbn [andb]. unfold ex_protect. rewrite app_length. change (length (ex_tail x)) with 2%nat.
  destruct (Z.ltb_spec MAX_RPKT_LEN (Z.of_nat (length b + 2))) as [_|N]; [|unfold MAX_RPKT_LEN in N; lia].
  cbn [snd]. apply in_or_app. right. right. left. reflexivity.
Qed.
Print Assumptions dtls_big_packet_refuted.

(** Not true: fingerprints are compared without regard to case, as RFC 8122 has it for hexadecimal digits. The text in small letters is
    accepted, and the peer is refused. *)
Theorem dtls_fingerprint_case_refuted : exists fp, same_letters fp (colon_hex ex_digest) /\
  let r := ex_run [ex_S; ex_A fp; Incoming false false true ex_hello; Work (ex_done ex_digest) true] in
  nth 1 (snd r) Nothing = Answered (COk []) /\ c_state (nth_con (fst r) 0) = RDC_DEAD.
Proof.
  exists (map (fun c => if 64 <? c then c + 32 else c) (colon_hex ex_digest)). split; [|split; vm_compute; reflexivity].
  assert (X : forall l, Forall (fun c => c <= 64 \/ 65 <= c <= 90) l -> same_letters (map (fun c => if 64 <? c then c + 32 else c) l) l).
  { induction 1 as [|c l H F IH]; constructor; [|exact IH]. destruct (Z.ltb_spec 64 c); [right; lia|left; reflexivity]. }
  apply X. apply Forall_forall. intros c H.
  assert (Q : forallb (fun c => (c <=? 64) || ((65 <=? c) && (c <=? 90))) (colon_hex ex_digest) = true) by (vm_compute; reflexivity).
  rewrite forallb_forall in Q. specialize (Q c H). lia.
Qed.
Print Assumptions dtls_fingerprint_case_refuted.

(** Not true: the commands are those of the letters. The first two bytes are joined bit by bit and the rest is not looked at. *)
Theorem dtls_command_names_exact_refuted : parse [B "@Anything"; B "SHA-256"; []] = Some RDG_A /\ parse [B "QB or what"] = Some RDG_S /\ parse [B "DD"] = Some RDG_D.
Proof. split; [vm_compute; reflexivity|]. split; vm_compute; reflexivity. Qed.
Print Assumptions dtls_command_names_exact_refuted.

(** Not true: an ssrc is a number of 32 bits. *)
Theorem dtls_ssrc_exact_refuted : exists s1 s2, ssrc_text s1 4294967295 /\ ssrc_text s2 1 /\ s1 = B " -1" /\ s2 = B "4294967297".
Proof.
  exists (B " -1"), (B "4294967297"). split; [|split; [|split; reflexivity]]; apply strtoul_text.
  - exists (2 ^ 64 - 1). split; vm_compute; reflexivity.
  - exists 4294967297. split; vm_compute; reflexivity.
Qed.
Print Assumptions dtls_ssrc_exact_refuted.
