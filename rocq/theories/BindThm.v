(** C27: local addresses are shared, unique and stable (src/rtpp_bindaddrs.c). *)
From Verif Require Import Base AddrModel BindModel BindSpec BindProof.

(** Asking for an address again gives the same object, however many calls were made in between,
    as long as none of them configured this very address. *)
Theorem same_address_same_object : forall pre c1 mid c2 a p,
  Forall inet_call (pre ++ c1 :: mid) ->
  asks_any c1 a -> asks_any c2 a -> Forall (fun c => ~ configures c a) mid ->
  answer pre c1 = BObj p -> answer (pre ++ c1 :: mid) c2 = BObj p.
Proof.
  intros pre c1 mid c2 a p F Q1 Q2 M E.
  exact (again_lemma pre c1 mid c2 a None p F (or_introl (conj Q1 (conj Q2 (conj eq_refl M)))) E).
Qed.

(** Without the last condition it does not: configuring a labelled alias of the address in between
    changes the answer (the list is searched most recent first and the label is ignored). *)
Theorem same_address_same_object_refuted : exists pre c1 mid c2 a p,
  Forall inet_call (pre ++ c1 :: mid) /\ asks_any c1 a /\ asks_any c2 a /\
  answer pre c1 = BObj p /\ answer (pre ++ c1 :: mid) c2 <> BObj p.
Proof.
  exists [], (CAddr (SaIn 1 0) true), [CHost (Some (SaIn 1 0)) (Some (Some [65])) true],
    (CAddr (SaIn 1 0) true), (SaIn 1 0), 0%nat.
  split; [repeat constructor|]. split; [reflexivity|]. split; [reflexivity|].
  split; [reflexivity|]. vm_compute. discriminate.
Qed.

(** Configuring an address without a label always gives the same object. *)
Theorem configured_address_same_object : forall pre c1 mid c2 a p,
  Forall inet_call (pre ++ c1 :: mid) -> asks_plain c1 a -> asks_plain c2 a ->
  answer pre c1 = BObj p -> answer (pre ++ c1 :: mid) c2 = BObj p.
Proof.
  intros pre c1 mid c2 a p F Q1 Q2 E.
  exact (again_lemma pre c1 mid c2 a (Some None) p F (or_intror (conj Q1 (conj Q2 eq_refl))) E).
Qed.

(** The object given for an address is, and stays, an object of that address. *)
Theorem object_has_the_address : forall pre c mid a p,
  Forall inet_call (pre ++ c :: mid) -> asks c a -> answer pre c = BObj p ->
  exists x, addr_of (pre ++ c :: mid) p = Some x /\ same_host x a.
Proof. exact obj_addr_lemma. Qed.

(** Different addresses give different objects. *)
Theorem different_addresses_different_objects : forall pre c1 mid c2 a1 a2 p,
  Forall inet_call (pre ++ c1 :: mid ++ [c2]) -> asks c1 a1 -> asks c2 a2 ->
  answer pre c1 = BObj p -> answer (pre ++ c1 :: mid) c2 = BObj p -> same_host a1 a2.
Proof. exact different_lemma. Qed.

(** A label refers to the object it was configured with, for ever, and to nothing else. *)
Theorem label_refers_to_its_address : forall cs l p, Forall inet_call cs -> l <> [] ->
  answer cs (CLabel l) = BObj p <->
  exists pre c mid a, cs = pre ++ c :: mid /\ labels c a l /\ answer pre c = BObj p.
Proof. exact label_exact_lemma. Qed.

(** A label in use is refused and nothing changes. *)
Theorem duplicate_label_refused : forall pre c mid c2 a a2 l p,
  Forall inet_call (pre ++ c :: mid) -> labels c a l -> l <> [] -> answer pre c = BObj p ->
  labels c2 a2 l -> answer (pre ++ c :: mid) c2 = BNull /\
  fst (brun b_empty (pre ++ c :: mid ++ [c2])) = fst (brun b_empty (pre ++ c :: mid)).
Proof. exact duplicate_lemma. Qed.

(** Asking by family gives an object of the family, and NULL only if there is none. *)
Theorem address_for_family : forall cs af, Forall inet_call cs ->
  (exists p x, answer cs (CFor af) = BObj p /\ addr_of cs p = Some x /\ family x = af) \/
  (answer cs (CFor af) = BNull /\ forall p x, addr_of cs p = Some x -> family x <> af).
Proof. exact foraf_lemma. Qed.

(** No call dies in abort(). *)
Theorem bind_never_aborts : forall cs c, Forall inet_call cs -> inet_call c -> answer cs c <> BAbort.
Proof. exact no_abort_lemma. Qed.

(** A daemon with two configured addresses, one labelled, and calls for them and for others. *)
Definition bind_hist : list bcall :=
  [CHost (Some (SaIn 16909060 0)) (Some None) true;
   CHost (Some (SaIn6 [1;2;3;4;5;6;7;8;9;10;11;12;13;14;15;16] 0)) (Some (Some [101; 120; 116])) true;
   CAddr (SaIn 16909060 5060) true;
   CLabel [101; 120; 116];
   CAddr (SaIn 2130706433 0) false;
   CAddr (SaIn 2130706433 0) true;
   CHost (Some (SaIn 2130706433 7)) None false;
   CHost (Some (SaIn 5 0)) (Some (Some [101; 120; 116])) true;
   CHost None None true;
   CFor AF_INET; CFor AF_INET6; CFor 1;
   CHost (Some (SaIn 16909060 9)) (Some None) true].

Example bind_ex :
  Forall inet_call bind_hist /\
  snd (brun b_empty bind_hist) =
    [BObj 0; BObj 1; BObj 0; BObj 1; BNull; BObj 2; BObj 2; BNull; BNull; BObj 2; BObj 1; BNull; BObj 0] /\
  addr_of bind_hist 2 = Some (SaIn 2130706433 0) /\
  asks_any (CAddr (SaIn 16909060 5060) true) (SaIn 16909060 0) /\
  asks_plain (CHost (Some (SaIn 16909060 9)) (Some None) true) (SaIn 16909060 0) /\
  labels (CHost (Some (SaIn 5 0)) (Some (Some [101; 120; 116])) true) (SaIn 5 0) [101; 120; 116].
Proof. split; [repeat constructor|]. repeat split; vm_compute; reflexivity. Qed.

Print Assumptions same_address_same_object.
Print Assumptions same_address_same_object_refuted.
Print Assumptions configured_address_same_object.
Print Assumptions object_has_the_address.
Print Assumptions different_addresses_different_objects.
Print Assumptions label_refers_to_its_address.
Print Assumptions duplicate_label_refused.
Print Assumptions address_for_family.
Print Assumptions bind_never_aborts.
