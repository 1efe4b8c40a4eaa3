From Verif Require Import Base Str AddrModel BindModel NumSpec ConfModel ConfSpec ConfProof.
From Verif Require OptsModel OptsSpec.

(** The daemon starts with the addresses [es] and the external one [b1] exactly when the options are within the limits and mean these. *)
Theorem configuration_exact_partial : forall rs nr os es b1, families rs -> labels_not_empty os ->
  ((exists c, configure rs nr os = COk c /\ shows c es b1) <-> within_limits os /\ setup rs nr os es b1).
Proof. intros rs nr os es b1. exact (configure_exact rs nr os es b1). Qed.
Print Assumptions configuration_exact_partial.

(** Whatever the options: it starts or stops with a message. *)
Theorem configuration_never_aborts : forall rs nr os, families rs -> configure rs nr os <> CAbort.
Proof. exact configure_safe. Qed.
Print Assumptions configuration_never_aborts.

(** There is one meaning. *)
Theorem setup_unambiguous : forall rs nr os es b1 es' b1', within_limits os -> setup rs nr os es b1 -> setup rs nr os es' b1' -> es = es' /\ b1 = b1'.
Proof. intros rs nr os es b1 es' b1' [L _]. exact (setup_fun rs nr os es b1 es' b1' L). Qed.
Print Assumptions setup_unambiguous.

(** The answer to an update that creates a session has the port and the address the configuration and the modifiers ask for, advertised
    or real; and it is given exactly when the modifiers are acceptable and there is such an address. *)
Theorem answer_exact_partial : forall rs nr os c es b1 ntop more mods ms remote port t,
  families rs -> labels_not_empty os -> configure rs nr os = COk c -> setup rs nr os es b1 ->
  cstring mods -> OptsSpec.many mods ms [] -> no_address ms -> served more remote ->
  (update_new ntop c more mods remote port = Some t <-> acceptable es b1 ms /\ exists e, wanted es b1 ms e /\ says ntop e port t).
Proof. intros. eapply answer_exact; eauto. Qed.
Print Assumptions answer_exact_partial.

Theorem wanted_unambiguous : forall rs nr os es b1 ms e e', families rs -> setup rs nr os es b1 -> wanted es b1 ms e -> wanted es b1 ms e' -> e = e'.
Proof. intros rs nr os es b1 ms e e' Fa S. destruct (setup_good _ _ _ _ _ Fa S) as (_ & ND & _). apply wanted_fun; auto. Qed.
Print Assumptions wanted_unambiguous.

(** The address of a label is answered for that label, in whatever order the options are given. *)
Theorem label_answered : forall rs nr os c es b1 ntop more l e port,
  families rs -> labels_not_empty os -> configure rs nr os = COk c -> setup rs nr os es b1 ->
  In e es -> e_label e = Some l -> cstring l -> ~ In 125 l -> l <> [] -> served more None ->
  exists t, update_new ntop c more (108 :: 123 :: l ++ [125]) None port = Some t /\ says ntop e port t.
Proof.
  intros rs nr os c es b1 ntop more l e port Fa LN C S I EL CS NB NE SV.
  assert (MA : OptsSpec.many (108 :: 123 :: l ++ [125]) [OptsSpec.Label l] []).
  { eapply OptsSpec.many_cons; [|constructor]. apply OptsSpec.one_ll; auto. right; reflexivity. }
  assert (Y : exists t, says ntop e port t).
  { unfold says. assert (D : null_host (e_addr e) \/ ~ null_host (e_addr e)).
    { destruct (host_null (e_addr e)) eqn:H; [left; apply host_null_iff; auto|right; intros X; apply host_null_iff in X; congruence]. }
    destruct D as [D|D]; eexists; [left|right]; split; auto. }
  destruct Y as (t & Y). exists t. split; auto.
  apply (answer_exact rs nr os c es b1 ntop more _ [OptsSpec.Label l] None port t); auto.
  - constructor; [lia|]. constructor; [lia|]. apply Forall_app. split; auto. constructor; [lia|constructor].
  - constructor; [exact Logic.I|constructor].
  - split; [split; [cbn; congruence|]; split; [cbn; lia|]; split; [cbn; lia|]; constructor; [eauto|constructor]|].
    exists e. split; auto. eapply want_label; eauto. reflexivity.
Qed.
Print Assumptions label_answered.

(** ** Examples *)

(** A name service that makes up an address from the name, one without names that are not numbers *)
Definition rs0 : resolver := fun h f num _ =>
  match h with
  | None => Some (if f then SaIn6 (repeat 0 16) 0 else SaIn 0 0)
  | Some h => if f then Some (SaIn6 h 0) else Some (SaIn (fold_left (fun a c => a * 256 + c) h 0) 0)
  end.
Example rs0_families : families rs0.
Proof. intros [h|] [|] n c a; cbn; intros [= <-]; auto. Qed.
Definition a4 (h : list Z) : sockaddr := SaIn (fold_left (fun a c => a * 256 + c) h 0) 0.
Definition a6 (h : list Z) : sockaddr := SaIn6 h 0.
Definition more0 : OptsModel.env := OptsModel.mkEnv false 0 None (fun _ => OptsModel.INET) (fun _ => None) (fun _ _ => None) (fun _ _ => None) (fun _ => None)
  (fun _ _ _ => Some (1, 5)) true true true.
Example more0_served : served more0 (Some (B "1.2.3.4", B "5")).
Proof. repeat split. intros f _. eexists. reflexivity. Qed.
Definition name (a : sockaddr) : list Z :=
  match a with
  | SaIn6 h _ => h
  | SaIn h _ => if h =? 0 then B "0.0.0.0" else match find (fun n => h =? fold_left (fun a c => a * 256 + c) n 0) [B "10.0.0.1"; B "10.0.0.2"; B "10.0.0.3"] with Some n => n | None => B "?" end
  | SaOther _ => []
  end.
Definition ask (os : list copt) (mods : list Z) : option (option (list Z)) :=
  match configure rs0 false os with COk c => Some (update_new name c more0 mods None 4000) | _ => None end.

(** -l 10.0.0.1 -6 v@::1 -l lab@10.0.0.2=1.2.3.4 *)
Definition os1 : list copt := [OptL (B "10.0.0.1"); Opt6 (B "v@::1"); OptL (B "lab@10.0.0.2=1.2.3.4")].
Definition es1 : list entry :=
  [mkEnt (a4 (B "10.0.0.1")) None None; mkEnt (a6 (B "::1")) (Some (B "v")) None; mkEnt (a4 (B "10.0.0.2")) (Some (B "lab")) (Some (B "1.2.3.4"))].
Example ex_setup1 : within_limits os1 /\ setup rs0 false os1 es1 None.
Proof.
  assert (N : forall f h, (if existsb (bytes_eqb h) [B "*"; B "0.0.0.0"; B "::"] then false else true) = true -> ~ any_address h f).
  { intros f h H [->|[[_ ->]|[_ ->]]]; vm_compute in H; discriminate. }
  assert (EN : forall g e, cut 47 (host g) = None -> (if existsb (bytes_eqb (host g)) [B "*"; B "0.0.0.0"; B "::"] then false else true) = true ->
    is_numhost (host g) (v6 g) = true -> rs0 (Some (host g)) (v6 g) true true = Some (e_addr e) -> e_label e = label g -> e_adv e = adv g -> entry_of rs0 false g e).
  { intros g e C H NH R L A. split; [apply cut_none; auto|]. split; auto. right. split; [apply N; auto|]. exists true. split; auto.
    split; auto. intros _. right. apply numeric_numhost; auto. }
  split.
  - split; [cbn; lia|]. exists None, None. unfold os1. apply (adv_l [_; _]), (adv_6 [_]), (adv_l []), adv_none.
  - apply (setup_plain rs0 false os1 (mkGiven false None (B "10.0.0.1") None)
      [mkGiven true (Some (B "v")) (B "::1") None; mkGiven false (Some (B "lab")) (B "10.0.0.2") (Some (B "1.2.3.4"))]).
    + unfold understood, os1. cbn [listens flat_map app]. repeat constructor; cbn [fst snd v6 label host adv].
      * vm_compute. intuition discriminate.
      * vm_compute. intuition discriminate.
      * apply (at_label (B "v") (B "::1")); vm_compute; intuition discriminate.
      * apply (at_both (B "lab") (B "10.0.0.2") (B "1.2.3.4")); vm_compute; intuition discriminate.
    + intros [|] g [= <-]; vm_compute; intuition discriminate.
    + apply EN; reflexivity.
    + constructor; [split; [discriminate|apply EN; reflexivity]|]. constructor; [split; [discriminate|apply EN; reflexivity]|constructor].
    + vm_compute. repeat constructor; vm_compute; intuition discriminate.
Qed.
Example ex_answers1 : map (ask os1) [[]; B "6"; B "l{lab}"; B "l{v}"; B "l{v}l{lab}6"; B "l{x}"; B "e"] =
  map Some [Some (B "4000 10.0.0.1"); Some (B "4000 ::1 6"); Some (B "4000 1.2.3.4"); Some (B "4000 ::1 6"); Some (B "4000 1.2.3.4"); None; None].
Proof. vm_compute. reflexivity. Qed.
(** Bridging, from one option and from two; the directions *)
Definition os2 : list copt := [OptL (B "10.0.0.1/10.0.0.2"); OptA (B "1.1.1.1/2.2.2.2"); OptL (B "lab@10.0.0.3")].
Definition os3 : list copt := [OptL (B "/10.0.0.2"); Opt6 (B "::1")].
Example ex_answers2 : map (ask os2) [[]; B "ie"; B "ei"; B "e"; B "eie"; B "iel{lab}"] =
  map Some [Some (B "4000 1.1.1.1"); Some (B "4000 2.2.2.2"); Some (B "4000 1.1.1.1"); Some (B "4000 1.1.1.1"); None; Some (B "4000 10.0.0.3")].
Proof. vm_compute. reflexivity. Qed.
Example ex_answers3 : map (ask os3) [B "ie6"; B "ei"; []; B "6"] = map Some [Some (B "4000 10.0.0.2"); Some (B "4000 ::1 6"); Some (B "4000 10.0.0.2"); Some (B "4000 ::1 6")].
Proof. vm_compute. reflexivity. Qed.
(** Not accepted: two external addresses; no label; a label used twice; a third interface; half of -A; nothing after the '/' of -A *)
Example ex_refused : map (fun os => configure rs0 false os)
  [[OptL (B "a/b"); Opt6 (B "a/b")]; [OptL (B "a"); OptL (B "b")]; [OptL (B "x@a"); OptL (B "x@b")]; [OptL (B "a/b"); Opt6 (B "c")]; [OptL (B "a/b"); OptA (B "c")];
   [OptA (B "c/")]; repeat (OptL (B "a")) 17] = repeat CErr 7.
Proof. vm_compute. reflexivity. Qed.

(** ** What does not hold *)

(** "The address of -A is the one returned" (rtpproxy.8:264): without bridging it is not. *)
Theorem advertised_address_returned_refuted :
  ask [OptL (B "10.0.0.1"); OptA (B "1.2.3.4")] [] = Some (Some (B "4000 10.0.0.1")).
Proof. vm_compute. reflexivity. Qed.
Print Assumptions advertised_address_returned_refuted.

(** ... nor is its second half when both interfaces of the bridge have one address. *)
Theorem second_advertised_address_returned_refuted :
  ask [OptL (B "10.0.0.1/10.0.0.1"); OptA (B "1.1.1.1/2.2.2.2")] (B "ie") = Some (Some (B "4000 1.1.1.1")).
Proof. vm_compute. reflexivity. Qed.
Print Assumptions second_advertised_address_returned_refuted.

(** "The advertised address of an address to listen on is returned": not when it listens on all. *)
Theorem wildcard_advertised_refuted : ask [OptL (B "*=1.2.3.4")] [] = Some (Some (B "4000")).
Proof. vm_compute. reflexivity. Qed.
Print Assumptions wildcard_advertised_refuted.

(** "Additional labelled addresses can be given" (rtpproxy.8:81): not for the family that is not bridged, if one is. *)
Theorem labelled_address_added_refuted : configure rs0 false [OptL (B "10.0.0.1/10.0.0.2"); Opt6 (B "lab@::1")] = CErr /\
  exists c, configure rs0 false [OptL (B "10.0.0.1/10.0.0.2"); OptL (B "lab@10.0.0.3")] = COk c.
Proof. split; [vm_compute; reflexivity|]. eexists. vm_compute. reflexivity. Qed.
Print Assumptions labelled_address_added_refuted.

(** Empty labels: the second address is taken for the first one, and what it advertises is lost. *)
Theorem empty_label_refuted : exists c, configure rs0 false [OptL (B "10.0.0.1"); OptL (B "@10.0.0.1=1.2.3.4")] = COk c /\
  object c 0 = Some (mkEnt (a4 (B "10.0.0.1")) None None) /\ object c 1 = None.
Proof. eexists. split; [vm_compute; reflexivity|]. split; vm_compute; reflexivity. Qed.
Print Assumptions empty_label_refuted.

(** "Answers have an address": the first half of -A can be empty. *)
Theorem advertised_address_not_empty_refuted : ask [OptL (B "10.0.0.1/10.0.0.2"); OptA (B "/2.2.2.2")] [] = Some (Some (B "4000 ")).
Proof. vm_compute. reflexivity. Qed.
Print Assumptions advertised_address_not_empty_refuted.
