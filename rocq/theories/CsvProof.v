(** Proofs about the accounting file. *)
From Verif Require Import Base Str CsvModel CsvSpec.

(** * The row *)

Lemma cells_ne l : cells l <> [].
Proof. induction l as [|x l IH]; cbn [cells]; [discriminate|]. destruct (x =? 44); [discriminate|]. destruct (cells l); discriminate. Qed.
Lemma cells_app x y : cells (x ++ 44 :: y) = cells x ++ cells y.
Proof.
  induction x as [|c x IH]; cbn [cells app].
  - reflexivity.
  - destruct (c =? 44); rewrite IH; [reflexivity|].
    pose proof (cells_ne x). destruct (cells x); [congruence|reflexivity].
Qed.
Lemma cells_plain t : ~ In 44 t -> cells t = [t].
Proof.
  induction t as [|c t IH]; intros N; [reflexivity|]. cbn [cells].
  destruct (c =? 44) eqn:E; [exfalso; apply N; left; lia|].
  rewrite IH by (intros I; apply N; right; exact I). reflexivity.
Qed.
Lemma cells_seps l : l <> [] -> cells (seps l) = concat (map cells l).
Proof.
  induction l as [|a l IH]; intros N; [congruence|].
  destruct l as [|b l]; [cbn; now rewrite app_nil_r|].
  change (seps (a :: b :: l)) with (sep a (seps (b :: l))). unfold sep.
  rewrite cells_app, IH by discriminate. reflexivity.
Qed.
Lemma seps_nl l : Forall (fun t => ~ In 10 t) l -> ~ In 10 (seps l).
Proof.
  induction 1 as [|a l A L IH]; [intros []|].
  destruct l as [|b l]; [exact A|].
  change (seps (a :: b :: l)) with (sep a (seps (b :: l))). unfold sep. intros I.
  apply in_app_iff in I. destruct I as [I|[I|I]]; [tauto|lia|tauto].
Qed.
Lemma udec_plain f : forall n acc, 0 <= n -> plain acc -> plain (udec f n acc).
Proof.
  induction f as [|f IH]; intros n acc Hn A; [exact A|]. cbn [udec].
  destruct (n <? 10) eqn:E.
  - destruct A as [A1 A2]. split; intros [I|I]; (lia || tauto).
  - apply IH; [lia|]. destruct A as [A1 A2]. split; intros [I|I]; (lia || tauto).
Qed.
Lemma plain_nil : plain [].
Proof. split; intros []. Qed.
Lemma fmt_u_plain n : u64_ok n -> plain (fmt_u n).
Proof. intros [H _]. apply udec_plain; [lia|apply plain_nil]. Qed.
Lemma fmt_d_plain n : plain (fmt_d n).
Proof.
  unfold fmt_d. destruct (n <? 0) eqn:E.
  - destruct (udec_plain 20 (- n) [] ltac:(lia) plain_nil) as [A1 A2]. split; intros [I|I]; (lia || tauto).
  - apply udec_plain; [lia|apply plain_nil].
Qed.
Lemma hexn_plain n v : plain (hexn n v).
Proof.
  induction n as [|n [I1 I2]]; [apply plain_nil|]. cbn [hexn].
  assert (48 <= hexd (v / 16 ^ Z.of_nat n mod 16)).
  { unfold hexd. pose proof (Z.mod_pos_bound (v / 16 ^ Z.of_nat n) 16 ltac:(lia)) as M.
    set (d := _ mod 16) in *. clearbody d. destruct (d <? 10); lia. }
  split; intros [I|I]; (lia || tauto).
Qed.
Lemma ssrc_plain s : plain (format_ssrc s).
Proof.
  destruct s as [v|]; [|apply plain_nil]. unfold format_ssrc. destruct (hexn_plain 8 v) as [H1 H2].
  split; intros I; apply in_app_iff in I; destruct I as [I|I]; try tauto;
  destruct I as [I|[I|[]]]; vm_compute in I; lia.
Qed.
Lemma bool_plain x : plain (fmt_bool x).
Proof. unfold fmt_bool. destruct (x =? 0); split; intros [I|[]]; vm_compute in I; lia. Qed.
Lemma opt_plain t : plain_opt t -> plain (es_if_null t).
Proof. destruct t; cbn; auto using plain_nil. Qed.

Definition host_text (a : cadr) : list Z := if ca_six a then [91] ++ ca_host a ++ [93] else ca_host a.
Lemma host_plain a : plain (ca_host a) -> plain (host_text a).
Proof.
  unfold host_text. intros [A1 A2]. destruct (ca_six a); [|split; assumption]. cbn [app].
  split; intros [I|I]; try lia; apply in_app_iff in I; destruct I as [I|[I|[]]]; (lia || tauto).
Qed.
Lemma adr_cells a : adr_ok a -> cells (format_netaddr a) = [ip_cell a; port_cell a].
Proof.
  destruct a as [a|]; [|reflexivity]. intros [A P].
  unfold format_netaddr, sip_print. fold (host_text a). cbn [app]. rewrite cells_app.
  rewrite !cells_plain; [reflexivity| |].
  - apply fmt_u_plain. unfold u64_ok. lia.
  - apply host_plain, A.
Qed.
Lemma adr_nl a : adr_ok a -> ~ In 10 (format_netaddr a).
Proof.
  destruct a as [a|]; [|intros _ [I|[]]; lia]. intros [A P].
  unfold format_netaddr, sip_print. fold (host_text a). intros I. apply in_app_iff in I.
  destruct I as [I|I]; [now apply (host_plain a A)|].
  destruct I as [I|I]; [lia|].
  assert (U : u64_ok (ca_port a)) by (unfold u64_ok; lia).
  now apply (fmt_u_plain _ U).
Qed.
Lemma flag_eq x : fmt_bool x = flag_cell x.
Proof. unfold fmt_bool. destruct x; reflexivity. Qed.

Lemma names_are nid pid c : cells csv_names = map fst (record_of nid pid c).
Proof. vm_compute. reflexivity. Qed.

Lemma plain_comma t : plain t -> ~ In 44 t.
Proof. intros [A _]. exact A. Qed.
Lemma plain_nl t : plain t -> ~ In 10 t.
Proof. intros [_ A]. exact A. Qed.
Ltac plains :=
  first [ apply fmt_u_plain; assumption | apply fmt_d_plain | apply ssrc_plain | apply bool_plain
        | apply opt_plain; assumption | assumption ].

Lemma row_reads nid pid c :
  acct_ok c -> plain nid -> plain_opt (cc_call c) -> plain_opt (cc_from c) ->
  exists line, csv_row nid pid c = line ++ [10] /\ ~ In 10 line
    /\ cells line = map snd (record_of nid pid c).
Proof.
  intros ((T1 & T2) & (N1 & N2 & N3 & N4) & Fo & Fa) Hn Hc Hf.
  destruct Fo as ((O1 & O2 & O3 & O4 & O5) & (U1 & U2 & U3 & U4 & U5 & U6 & U7 & U8) & Ao1 & Ao2).
  destruct Fa as ((P1 & P2 & P3 & P4 & P5) & (V1 & V2 & V3 & V4 & V5 & V6 & V7 & V8) & Aa1 & Aa2).
  assert (V : plain (B "1.2")).
  { split; intros I; vm_compute in I; repeat destruct I as [I|I]; try lia; destruct I. }
  unfold csv_row.
  match goal with |- exists line, seps ?l ++ _ = _ /\ _ => exists (seps l) end.
  split; [reflexivity|]. split.
  - apply seps_nl.
    repeat (constructor; [cbv beta; first [apply adr_nl; assumption | apply plain_nl; plains]|]).
    constructor.
  - rewrite cells_seps by discriminate. cbn [map].
    repeat match goal with |- context [cells (format_netaddr ?a)] => rewrite (adr_cells a) by assumption end.
    repeat match goal with
           | |- context [cells ?t] =>
               rewrite (cells_plain t) by (apply plain_comma; plains)
           end.
    rewrite !flag_eq. reflexivity.
Qed.

Lemma hexd_value d acc l : 0 <= d < 16 -> hex_value acc (hexd d :: l) = hex_value (acc * 16 + d) l.
Proof.
  intros H. unfold hexd. destruct (d <? 10) eqn:E; cbn [hex_value].
  - replace ((48 <=? 48 + d) && (48 + d <=? 57)) with true by lia. f_equal. lia.
  - replace ((48 <=? 55 + d) && (55 + d <=? 57)) with false by lia.
    replace ((65 <=? 55 + d) && (55 + d <=? 70)) with true by lia. f_equal. lia.
Qed.
Lemma hexn_value n : forall v acc, 0 <= v ->
  hex_value acc (hexn n v) = Some (acc * 16 ^ Z.of_nat n + v mod 16 ^ Z.of_nat n).
Proof.
  induction n as [|n IH]; intros v acc Hv.
  - cbn. f_equal. rewrite Z.mod_1_r. lia.
  - cbn [hexn]. rewrite hexd_value by (apply Z.mod_pos_bound; lia).
    rewrite IH by exact Hv. f_equal.
    replace (16 ^ Z.of_nat (S n)) with (16 ^ Z.of_nat n * 16)
      by (replace (Z.of_nat (S n)) with (Z.of_nat n + 1) by lia; rewrite Z.pow_add_r by lia; reflexivity).
    assert (0 < 16 ^ Z.of_nat n) by (apply Z.pow_pos_nonneg; lia).
    rewrite (Z.rem_mul_r v (16 ^ Z.of_nat n) 16) by lia.
    ring.
Qed.
Lemma hexn_length n v : length (hexn n v) = n.
Proof. induction n; cbn [hexn length]; congruence. Qed.

(** * The name of the node *)

(** The name was the host's at a session that ended no more than [ival] before the last. *)
Definition fresh_at (ival : Z) (hist : list (Z * list Z)) (n : cnid) : Prop :=
  exists t, In (t, cn_id n) hist /\ cn_next n = t + ival.

Lemma get_nid_fresh ival n d h :
  0 < ival -> 0 < d -> (cn_next n = 0 \/ exists t, 0 < t /\ cn_next n = t + ival) ->
  let n' := get_nid ival n d (Some h) in
  (cn_id n' = h /\ cn_next n' = d + ival) \/ (n' = n /\ exists t, cn_next n = t + ival /\ 0 < t /\ d <= t + ival).
Proof.
  intros Hi Hd Hn. unfold get_nid.
  destruct ((cn_next n =? 0) || (cn_next n <? d)) eqn:E; [left; split; reflexivity|right].
  split; [reflexivity|]. destruct Hn as [Hn|(t & Ht & Hn)]; [lia|]. exists t. lia.
Qed.
