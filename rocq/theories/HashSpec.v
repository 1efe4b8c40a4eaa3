(** C11: a multimap with insertion order, as a plain list of (handle, key, value). *)
From Coq Require Import Permutation.
From Verif Require Import Base HashModel.

Section HashSpec.
  Context {K : Type} (keqb : K -> K -> bool).
  Notation ent := (Z * K * Z)%type.
  Definition m_id (e : ent) : Z := fst (fst e).
  Definition m_key (e : ent) : K := snd (fst e).
  Definition m_val (e : ent) : Z := snd e.

  (** The entries of a key, oldest first. *)
  Definition of_key (k : K) (al : list ent) : list ent := filter (fun e => keqb (m_key e) k) al.

  Definition without (ids : list Z) (al : list ent) : list ent :=
    filter (fun e => negb (existsb (Z.eqb (m_id e)) ids)) al.

  (** Showing entries one by one to a callback: handles deleted, objects shown (newest first). *)
  Fixpoint visit (f : matchf) (es : list ent) (seen : list Z) : list Z * list Z :=
    match es with
    | [] => ([], seen)
    | e :: t =>
        let (del, brk) := f seen (m_val e) in
        let d := if del then [m_id e] else [] in
        if brk then (d, m_val e :: seen)
        else let (d', s') := visit f t (m_val e :: seen) in (d ++ d', s')
    end.

  Inductive ht_op :=
  | OAppend (k : K) (v : Z) (mem : bool)
  | ORemove (id : Z)
  | ORemoveByKey (k : K)
  | OFind (k : K)
  | OForeach (f : matchf)
  | OForeachKey (k : K) (f : matchf)
  | OLength
  | OPurge.

  Inductive ht_out :=
  | RIns (ok first : bool)          (* inserted?, is it now the only entry? *)
  | RDone
  | RRem (v : option Z) (last : bool)  (* value removed, is the table now empty? *)
  | RVal (v : option Z)
  | RSeen (seen : list Z) (last : bool)
  | RLen (n : Z)
  | RPurged (batches : Z) (vals : list Z)
  | RAbort
  | RBad.

  (** One operation on the abstract multimap; [nid] is the handle of the next entry. The order in
      which foreach shows entries of different keys is left open, the order within a key is
      not. *)
  Inductive mm_step (nodups abrt : bool) (nid : Z) : list ent -> ht_op -> ht_out -> list ent -> Prop :=
  | mm_append al k v mem : nodups && negb (length (of_key k al) =? 0)%nat = false ->
      mm_step nodups abrt nid al (OAppend k v mem) (RIns true (length al =? 0)%nat) (al ++ [(nid, k, v)])
  | mm_dup al k v mem : nodups = true -> abrt = false -> of_key k al <> [] ->
      mm_step nodups abrt nid al (OAppend k v mem) (RIns false false) al
  | mm_dup_abort al k v mem : nodups = true -> abrt = true -> of_key k al <> [] ->
      mm_step nodups abrt nid al (OAppend k v mem) RAbort al
  | mm_remove al id : mm_step nodups abrt nid al (ORemove id) RDone (without [id] al)
  | mm_rem_key al k e r : of_key k al = e :: r ->
      mm_step nodups abrt nid al (ORemoveByKey k) (RRem (Some (m_val e)) (length al =? 1)%nat) (without [m_id e] al)
  | mm_rem_key_none al k : of_key k al = [] ->
      mm_step nodups abrt nid al (ORemoveByKey k) (RRem None false) al
  | mm_find al k : mm_step nodups abrt nid al (OFind k) (RVal (option_map m_val (hd_error (of_key k al)))) al
  | mm_foreach al f ord dels seen : Permutation ord al -> (forall k, of_key k ord = of_key k al) ->
      visit f ord [] = (dels, seen) ->
      mm_step nodups abrt nid al (OForeach f)
        (RSeen seen (negb (length al =? 0)%nat && (length (without dels al) =? 0)%nat)) (without dels al)
  | mm_foreach_key al k f dels seen : visit f (of_key k al) [] = (dels, seen) ->
      mm_step nodups abrt nid al (OForeachKey k f) (RSeen seen false) (without dels al)
  | mm_length al : mm_step nodups abrt nid al OLength (RLen (Z.of_nat (length al))) al
  | mm_purge al vals : Permutation vals (map m_val al) ->
      mm_step nodups abrt nid al OPurge (RPurged ((Z.of_nat (length al) + 63) / 64) vals) [].

  (** A history; it ends at an abort. *)
  Inductive mm_exec (nodups abrt : bool) : Z -> list ent -> list ht_op -> list ht_out -> list ent -> Prop :=
  | mx_nil nid al : mm_exec nodups abrt nid al [] [] al
  | mx_abort nid al o os : mm_step nodups abrt nid al o RAbort al ->
      mm_exec nodups abrt nid al (o :: os) [RAbort] al
  | mx_step nid al o out al' os outs al'' : mm_step nodups abrt nid al o out al' -> out <> RAbort -> out <> RBad ->
      mm_exec nodups abrt (nid + 1) al' os outs al'' ->
      mm_exec nodups abrt nid al (o :: os) (out :: outs) al''.

  (** The same operations on the model of the code. ORemove is the API call with an entry handle:
      the caller passes the key it inserted the entry under; without such an entry there is no
      handle to pass and nothing is called. *)
  Context (is_str : bool) (hash : K -> Z).
  Definition ht_step (t : htab K) (nid : Z) (o : ht_op) : ht_out * htab K :=
    match o with
    | OAppend k v mem =>
        match ht_append keqb is_str hash t nid k v mem with
        | HRet t' (ok, first) => (RIns ok first, t') | HAbort => (RAbort, t) | HBad => (RBad, t) end
    | ORemove id =>
        match find (fun e => e_id e =? id) (concat (ht_b t)) with
        | None => (RDone, t)
        | Some e => match ht_remove hash t (e_key e) id with
                    | HRet t' _ => (RDone, t') | HAbort => (RAbort, t) | HBad => (RBad, t) end
        end
    | ORemoveByKey k =>
        match ht_remove_by_key keqb is_str hash t k with
        | HRet t' (e, last) => (RRem (option_map e_val e) last, t') | HAbort => (RAbort, t) | HBad => (RBad, t) end
    | OFind k => (RVal (ht_find keqb is_str hash t k), t)
    | OForeach f =>
        match ht_foreach t f with
        | HRet t' (seen, last) => (RSeen seen last, t') | HAbort => (RAbort, t) | HBad => (RBad, t) end
    | OForeachKey k f =>
        match ht_foreach_key keqb is_str hash t k f with
        | HRet t' seen => (RSeen seen false, t') | HAbort => (RAbort, t) | HBad => (RBad, t) end
    | OLength => (RLen (ht_length t), t)
    | OPurge =>
        match ht_purge t with
        | Some (HRet t' (n, vals)) => (RPurged n vals, t')
        | Some HAbort => (RAbort, t) | _ => (RBad, t) end
    end.

  Fixpoint ht_run (t : htab K) (nid : Z) (os : list ht_op) : list ht_out * htab K :=
    match os with
    | [] => ([], t)
    | o :: os' =>
        match ht_step t nid o with
        | (RAbort, _) => ([RAbort], t)
        | (RBad, _) => ([RBad], t)
        | (out, t') => let (outs, t'') := ht_run t' (nid + 1) os' in (out :: outs, t'')
        end
    end.
End HashSpec.
Arguments ht_op : clear implicits.
