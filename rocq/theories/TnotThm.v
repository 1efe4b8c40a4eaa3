(** C36: lookup of timeout notification targets (src/rtpp_tnotify_set.c). *)
From Verif Require Import Base AddrModel NumModel TnotModel TnotSpec TnotProof.

(** A target that is found was configured under a name the given one refers to, and is where that
    name says; or the name was configured as a wildcard, and the target is the configured port of
    the requester. *)
Theorem found_only_if_configured : forall lib cs n cc la ok i,
  Forall wf_call cs -> wf_sa cc -> wf_sa la -> found lib cs n cc la ok i ->
  exists t, target_of lib (cs ++ [TLookup n cc la ok]) i = Some t /\
   ((exists m rslv, configured lib cs m rslv /\ refers lib n m /\ place lib m rslv (t_place t)) \/
    (exists rslv port, configured lib cs n rslv /\ names_self n port /\
        t_place t = PInet (SaIn (requester cc) port))).
Proof. exact found_sound. Qed.

(** A target that was configured is found. *)
Theorem configured_is_found : forall lib cs n m rslv cc la ok,
  Forall wf_call cs -> wf_sa la -> configured lib cs m rslv -> refers lib n m ->
  (forall port, ~ names_self m port) -> exists i, found lib cs n cc la ok i.
Proof. exact found_complete. Qed.

(** A configured wildcard is found as long as there is room for the requester. *)
Theorem wildcard_is_found : forall lib cs n rslv port cc la,
  Forall wf_call cs -> wf_sa la -> configured lib cs n rslv -> names_self n port ->
  ((length (ts_tp (fst (trun lib ts_empty cs))) < TARGETS_MAX)%nat \/
   (exists j t, target_of lib cs j = Some t /\ t_name t = None /\
                t_place t = PInet (SaIn (requester cc) port))) ->
  exists i, found lib cs n cc la true i.
Proof. exact wild_complete. Qed.

(** The same name gives the same target for ever (a wildcard: to the same requester), whatever is
    configured and looked up in between. *)
Theorem same_name_same_target : forall lib pre n cc la ok mid cc' la' ok' i,
  Forall wf_call (pre ++ TLookup n cc la ok :: mid) -> wf_sa cc' -> wf_sa la' ->
  found lib pre n cc la ok i ->
  requester cc' = requester cc \/ (forall port, ~ names_self n port) ->
  found lib (pre ++ TLookup n cc la ok :: mid) n cc' la' ok' i.
Proof. exact stable_lemma. Qed.

(** And the target stays where it is. *)
Theorem targets_do_not_change : forall lib cs mid i t, Forall wf_call (cs ++ mid) ->
  target_of lib cs i = Some t -> target_of lib (cs ++ mid) i = Some t.
Proof. exact immutable_lemma. Qed.

(** A target made for a requester is reached from the IPv4 address the request came in on, at any
    free port; from any address if it did not come in on an IPv4 one. *)
Theorem wildcard_sends_from : forall lib cs n cc la ok i,
  found lib cs n cc la ok i -> target_of lib cs i = None ->
  (forall f, la <> Some (SaOther f)) ->
  exists t, target_of lib (cs ++ [TLookup n cc la ok]) i = Some t /\
    t_local t = match la with Some (SaIn h _) => Some (SaIn h 0) | _ => None end.
Proof.
  intros lib cs n cc la ok i F N NF. unfold target_of in *. rewrite trun_app, trun_cons.
  unfold found, tanswer in F. cbn [tstep trun fst snd] in *.
  destruct (tn_lookup _ n cc la ok) as [s' r] eqn:E. cbn [fst snd] in *. injection F as ->.
  destruct (new_local _ _ _ _ _ _ _ E N) as (t & A & B). exists t. split; [exact A|].
  destruct la as [[h p|h p|f]|]; auto. destruct (NF f); reflexivity.
Qed.

(** Exactly the well-formed names are accepted, while there is room: 64 targets, 2 wildcards. *)
Theorem configure_accepts_exactly : forall lib cs m rslv ok, Forall wf_call cs ->
  tanswer lib cs (TAppend m rslv ok) = AAdded true <->
  ok = true /\
  (((exists p, place lib m rslv p) /\ (length (ts_tp (fst (trun lib ts_empty cs))) < 64)%nat) \/
   ((exists port, names_self m port) /\ (length (ts_wp (fst (trun lib ts_empty cs))) < 2)%nat)).
Proof. exact append_lemma. Qed.

(** Notification is reported as enabled exactly when something was configured. *)
Theorem enabled_iff_configured : forall lib cs, Forall wf_call cs ->
  tn_isenabled (fst (trun lib ts_empty cs)) = true <-> exists m rslv, configured lib cs m rslv.
Proof. exact enabled_lemma. Qed.

(** No lookup dies in an assert or abort(). *)
Theorem lookup_never_aborts : forall lib cs n cc la ok, Forall wf_call cs -> wf_sa la ->
  tanswer lib cs (TLookup n cc la ok) <> AFound TAbort.
Proof. exact no_abort_lemma. Qed.

(** Not every configured name is found by that very name: a path that contains a colon and was
    configured without "unix:" is only found with it. *)
Theorem configured_name_found_refuted : exists lib m rslv,
  configured lib [TAppend m rslv true] m rslv /\
  tanswer lib [TAppend m rslv true] (TLookup m None None true) = AFound TNull.
Proof.
  exists false, [47; 97; 58; 98], None. split; [|reflexivity].
  exists [], [], true. split; reflexivity.
Qed.

(** A configuration: "unix:/a", "/b", "tcp:h:80", "tcp:%%CC_SELF%%:90", something that does not
    resolve, and requests for them. *)
Definition n_a := S_UNIX ++ [47; 97].
Definition n_b := [47; 98].
Definition n_h := S_TCP ++ [104; 58; 56; 48].
Definition n_w := S_TCP ++ S_SELF ++ [58; 57; 48].
Definition tn_hist : list tcall :=
  [TAppend n_a None true; TAppend n_b None true; TAppend n_h (Some 167772161) true;
   TAppend n_w None true; TAppend n_h None true; TAppend S_UNIX None true;
   TLookup [47; 97] None None true; TLookup n_a None None true;
   TLookup n_b (Some (SaIn 5 6)) None true; TLookup (S_UNIX ++ n_b) None None true;
   TLookup n_h None None true;
   TLookup n_w (Some (SaIn 5 6)) (Some (SaIn 9 22222)) true;
   TLookup n_w None (Some (SaIn6 [] 1)) true;
   TLookup n_w (Some (SaIn 5 7)) None false;
   TLookup n_w (Some (SaIn 6 6)) None false;
   TLookup (S_TCP ++ S_SELF ++ [58; 57; 49]) None None true;
   TLookup (S_FD ++ [51]) None None true].

Example tnot_ex :
  snd (trun false ts_empty tn_hist) =
    [AAdded true; AAdded true; AAdded true; AAdded true; AAdded false; AAdded false;
     AFound (TObj 0); AFound (TObj 0); AFound (TObj 1); AFound (TObj 1); AFound (TObj 2);
     AFound (TObj 3); AFound (TObj 4); AFound (TObj 3); AFound TNull; AFound TNull; AFound TNull] /\
  target_of false tn_hist 2 = Some {| t_name := Some n_h; t_type := TNS_INET;
                                      t_place := PInet (SaIn 167772161 80); t_local := None |} /\
  target_of false tn_hist 3 = Some {| t_name := None; t_type := TNS_INET;
                                      t_place := PInet (SaIn 5 90); t_local := Some (SaIn 9 0) |}.
Proof. repeat split; vm_compute; reflexivity. Qed.

(** The hypotheses of the theorems above hold for it. *)
Example tnot_hyp :
  Forall wf_call tn_hist /\ configured false tn_hist n_h (Some 167772161) /\
  configured false tn_hist n_w None /\ names_self n_w 90 /\ refers false [47; 97] n_a /\
  refers false n_b n_b /\ (forall port, ~ names_self n_a port).
Proof.
  split; [|split; [|split; [|split; [|split; [|split]]]]].
  - repeat constructor.
  - exists (firstn 2 tn_hist), (skipn 3 tn_hist), true. split; reflexivity.
  - exists (firstn 3 tn_hist), (skipn 4 tn_hist), true. split; reflexivity.
  - exists (S_SELF ++ [58; 57; 48]). split; [reflexivity|]. exists [57; 48].
    split; [reflexivity|]. split; [cbn; intuition discriminate|].
    repeat split; try discriminate; try reflexivity; vm_compute; discriminate.
  - right. split; [cbn; intuition discriminate|]. right. split; [|reflexivity].
    intros (N & _). apply (N [47; 97]). reflexivity.
  - right. split; [cbn; intuition discriminate|]. left. split; [|reflexivity].
    repeat split; discriminate.
  - intros port (x & H & _). discriminate.
Qed.

Print Assumptions found_only_if_configured.
Print Assumptions configured_is_found.
Print Assumptions wildcard_is_found.
Print Assumptions same_name_same_target.
Print Assumptions targets_do_not_change.
Print Assumptions wildcard_sends_from.
Print Assumptions configure_accepts_exactly.
Print Assumptions enabled_iff_configured.
Print Assumptions lookup_never_aborts.
Print Assumptions configured_name_found_refuted.
