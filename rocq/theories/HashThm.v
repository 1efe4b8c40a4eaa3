(** C11: the hash table is a multimap with insertion order per key. *)
From Coq Require Import Permutation.
From Verif Require Import Base HashModel HashSpec HashProof.

(** For every key type with decidable equality, every hash function, string or integer key mode,
    with or without the no-duplicates/abort flags, and every history of append, remove, remove by
    key, find, foreach, foreach by key, length and purge calls (any callbacks, any success or
    failure of the table's re-allocation): the answers of the table are those of a list of
    (key, value) pairs in insertion order; it never goes out of bounds, and it aborts only on a
    duplicate key when told to. *)
Theorem hash_table_is_multimap :
  forall (K : Type) (keqb : K -> K -> bool) (is_str : bool) (hash : K -> Z),
  (forall x y, keqb x y = true <-> x = y) ->
  forall (nodups abrt : bool) (os : list (ht_op K)),
  exists al, mm_exec keqb nodups abrt 0 [] os (fst (ht_run keqb is_str hash (ht_ctor nodups abrt) 0 os)) al.
Proof.
  intros K keqb is_str hash Hk nodups abrt os.
  destruct (run_ok keqb is_str hash Hk os (ht_ctor nodups abrt) [] 0 (R_ctor keqb hash Hk nodups abrt)) as (al & H & _).
  - intros e [].
  - exists al. exact H.
Qed.
Print Assumptions hash_table_is_multimap.

(** Moving an entry to another table with the same hash: if the other table does not hold the key
    (or allows duplicates), the oldest entry of the key disappears from the first table and
    becomes the newest of the second; the flags tell exactly whether the first became empty and
    the second became non-empty. [R] relates a table to its list of pairs and holds initially
    and after every operation (second part). *)
Theorem hash_table_transfer :
  forall (K : Type) (keqb : K -> K -> bool) (is_str : bool) (hash : K -> Z),
  (forall x y, keqb x y = true <-> x = y) ->
  forall t o al ao k mem, R keqb hash t al -> R keqb hash o ao ->
  (forall e, In e al -> ~ In (m_id e) (map m_id ao)) ->
  ht_nodups o && negb (length (of_key keqb k ao) =? 0)%nat = false ->
  exists t' o', match of_key keqb k al with
    | [] => ht_transfer keqb is_str hash t o k mem = HRet t (o, None, false, false) /\ t' = t /\ o' = o
    | e :: _ => ht_transfer keqb is_str hash t o k mem = HRet t' (o', Some (m_val e), (length al =? 1)%nat, (length ao =? 0)%nat) /\
                R keqb hash t' (without [m_id e] al) /\ R keqb hash o' (ao ++ [e]) /\
                ht_nodups t' = ht_nodups t /\ ht_abrt t' = ht_abrt t /\ ht_nodups o' = ht_nodups o /\ ht_abrt o' = ht_abrt o
    end.
Proof. intros K keqb is_str hash Hk. exact (transfer_ok keqb is_str hash Hk). Qed.
Print Assumptions hash_table_transfer.

(** If the other table refuses duplicates and holds the key, the entry is in neither afterwards
    although the call reports success: "transfer keeps the entry" is false without the side
    condition. *)
Theorem hash_table_transfer_dup_refuted :
  exists (t o t' o' : htab Z), fst (ht_step Z.eqb false (fun _ => 0) (ht_ctor false false) 1 (OAppend 5 50 true)) = RIns true true /\
    ht_transfer Z.eqb false (fun _ => 0) t o 5 true = HRet t' (o', Some 50, true, false) /\
    ht_find Z.eqb false (fun _ => 0) t 5 = Some 50 /\
    ht_find Z.eqb false (fun _ => 0) t' 5 = None /\ ht_find Z.eqb false (fun _ => 0) o' 5 = Some 60.
Proof.
  exists (snd (ht_run Z.eqb false (fun _ => 0) (ht_ctor false false) 1 [OAppend 5 50 true])),
         (snd (ht_run Z.eqb false (fun _ => 0) (ht_ctor true false) 2 [OAppend 5 60 true])).
  eexists. eexists. repeat split; vm_compute; reflexivity.
Qed.
Print Assumptions hash_table_transfer_dup_refuted.

(** Concrete run: all keys collide, 400 insertions force a resize, duplicates keep their order. *)
Example hash_table_is_multimap_ex :
  let os := map (fun i => OAppend (Z.of_nat i mod 3) (Z.of_nat i) true) (seq 0 400) ++
            [OFind 2; ORemoveByKey 2; ORemove 5; OFind 2; OForeachKey 2 (fun seen _ => (false, (2 <=? length seen)%nat));
             OLength; OPurge; OLength] in
  let r := ht_run Z.eqb false (fun _ => 7) (ht_ctor false false) 0 os in
  length (ht_b (snd r)) = 1024%nat /\
  match skipn 400 (fst r) with
  | [RVal (Some 2); RRem (Some 2) false; RDone; RVal (Some 8); RSeen [14; 11; 8] false; RLen 398; RPurged 7 _; RLen 0] => True
  | _ => False
  end.
Proof. vm_compute. auto. Qed.
