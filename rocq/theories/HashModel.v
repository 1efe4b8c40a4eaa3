(** Model of src/rtpp_hash_table.c *)
From Verif Require Import Base.

Section Hash.
  (** Keys: byte strings or u16/u32/u64 integers, compared by [keqb] (rtpp_ht_cmpkey /
      rtpp_ht_cmpkey2, src/rtpp_hash_table.c:235-280); [is_str] is key_type ==
      rtpp_ht_key_str_t. [hash] is XXH64 with the table's seed (rtpp_ht_hashkey, :206-211): an
      arbitrary function here. *)
  Context {K : Type} (keqb : K -> K -> bool) (is_str : bool) (hash : K -> Z).

  (** struct rtpp_hash_table_entry, src/rtpp_hash_table.c:49-63; [e_id] is the entry's address,
      [e_val] the reference counted object. Chains (prev/next pointers) are lists. *)
  Record hent := mkEnt { e_id : Z; e_key : K; e_hash : Z; e_val : Z }.

  (** struct rtpp_hash_table_l1 and the flags, src/rtpp_hash_table.c:80-97; ht_len is the length
      of [ht_b]. *)
  Record htab := mkHt { ht_num : Z; ht_b : list (list hent); ht_nodups : bool; ht_abrt : bool }.

  (** rtpp_hash_table_ctor, src/rtpp_hash_table.c:147-177 *)
  Definition ht_ctor (nodups abrt : bool) : htab := mkHt 0 (repeat [] 256) nodups abrt.

  (** HT_GET, src/rtpp_hash_table.c:46 *)
  Definition bidx (len : nat) (h : Z) : nat := Z.to_nat (Z.land h (Z.of_nat len - 1)).

  (** rtpp_ht_cmpkey2, src/rtpp_hash_table.c:257-280 *)
  Definition cmpkey2 (a b : hent) : bool :=
    if is_str then if negb (e_hash a =? e_hash b) then false else keqb (e_key a) (e_key b)
    else keqb (e_key a) (e_key b).

  Inductive ins_res := InsOk (num : Z) (b : list (list hent)) | InsDup | InsAbort | InsOOB.

  (** hash_table_insert_locked, src/rtpp_hash_table.c:309-343, into the buckets [b] holding
      [num] entries. *)
  Definition insert_locked (nodups abrt : bool) (num : Z) (b : list (list hent)) (sp : hent) : ins_res :=
    let i := bidx (length b) (e_hash sp) in
    match nth_error b i with
    | None => InsOOB
    | Some chain =>
        if nodups && existsb (fun tsp => cmpkey2 sp tsp) chain then
          if abrt then InsAbort else InsDup
        else InsOk (num + 1) (upd b i (chain ++ [sp]))
    end.

  (** the re-insertion loop of hash_table_resize_locked, src/rtpp_hash_table.c:804-811: the
      entries in bucket order. The result of hash_table_insert_locked is ignored there: a
      rejected entry would be lost. *)
  Fixpoint reinsert (nodups abrt : bool) (num : Z) (b : list (list hent)) (es : list hent) : ins_res :=
    match es with
    | [] => InsOk num b
    | e :: t =>
        match insert_locked nodups abrt num b e with
        | InsOk n' b' => reinsert nodups abrt n' b' t
        | InsDup => reinsert nodups abrt num b t
        | InsAbort => InsAbort
        | InsOOB => InsOOB
        end
    end.

  Inductive ht_res (A : Type) := HRet (t : htab) (a : A) | HAbort | HBad.
  Arguments HRet {A}. Arguments HAbort {A}. Arguments HBad {A}.

  (** hash_table_resize_locked, src/rtpp_hash_table.c:794-815; [mem] tells whether the
      allocation succeeded. *)
  Definition resize_locked (t : htab) (len : nat) (mem : bool) : ht_res unit :=
    if mem then
      match reinsert (ht_nodups t) (ht_abrt t) 0 (repeat [] len) (concat (ht_b t)) with
      | InsOk n b => HRet (mkHt n b (ht_nodups t) (ht_abrt t)) tt
      | InsAbort => HAbort
      | _ => HBad
      end
    else HRet t tt.

  (** hash_table_insert, src/rtpp_hash_table.c:345-362; the result says whether it was inserted
      and whether hosp->first was set. The float comparison of line 356 is done exactly
      (ht_len is a power of two, so the float quotient is exact for fewer than 2^24 entries). *)
  Definition ht_insert (t : htab) (sp : hent) (mem : bool) : ht_res (bool * bool) :=
    match insert_locked (ht_nodups t) (ht_abrt t) (ht_num t) (ht_b t) sp with
    | InsDup => HRet t (false, false)
    | InsAbort => HAbort
    | InsOOB => HBad
    | InsOk n b =>
        let t1 := mkHt n b (ht_nodups t) (ht_abrt t) in
        let r := if ht_num t1 * 10 >? Z.of_nat (length (ht_b t1)) * 7
                 then resize_locked t1 (length (ht_b t1) * 2) mem else HRet t1 tt in
        match r with
        | HRet t2 _ => HRet t2 (true, ht_num t2 =? 1)
        | HAbort => HAbort
        | HBad => HBad
        end
    end.

  (** hash_table_append_raw / hash_table_append_refcnt, src/rtpp_hash_table.c:364-443: [id] is
      the address of the new entry. *)
  Definition ht_append (t : htab) (id : Z) (k : K) (v : Z) (mem : bool) : ht_res (bool * bool) :=
    ht_insert t (mkEnt id k (hash k) v) mem.

  (** hash_table_remove_locked, src/rtpp_hash_table.c:445-466: unlink [id] given the hash of its
      key; [HBad] when the entry is not on that hash's chain (the caller passed a foreign key).
      The result is hosp->last. *)
  Definition remove_locked (t : htab) (id : Z) (h : Z) : ht_res bool :=
    let i := bidx (length (ht_b t)) h in
    match nth_error (ht_b t) i with
    | None => HBad
    | Some chain =>
        if existsb (fun e => e_id e =? id) chain then
          HRet (mkHt (ht_num t - 1) (upd (ht_b t) i (filter (fun e => negb (e_id e =? id)) chain))
                     (ht_nodups t) (ht_abrt t)) (ht_num t - 1 =? 0)
        else HBad
    end.

  (** hash_table_remove(_str), src/rtpp_hash_table.c:468-504 *)
  Definition ht_remove (t : htab) (k : K) (id : Z) : ht_res bool := remove_locked t id (hash k).

  (** the chain walk of find/remove_by_key, src/rtpp_hash_table.c:517-523, 588-594 *)
  Fixpoint walk (chain : list hent) (k : K) (h : Z) : option hent :=
    match chain with
    | [] => None
    | sp :: t =>
        if is_str && negb (h =? e_hash sp) then walk t k h
        else if keqb (e_key sp) k then Some sp
        else walk t k h
    end.

  Definition bucket (t : htab) (h : Z) : list hent := nth (bidx (length (ht_b t)) h) (ht_b t) [].

  (** hash_table_remove_by_key, src/rtpp_hash_table.c:506-551: value removed and hosp->last *)
  Definition ht_remove_by_key (t : htab) (k : K) : ht_res (option hent * bool) :=
    match walk (bucket t (hash k)) k (hash k) with
    | None => HRet t (None, false)
    | Some sp =>
        match remove_locked t (e_id sp) (hash k) with
        | HRet t' last => HRet t' (Some sp, last)
        | HAbort => HAbort
        | HBad => HBad
        end
    end.

  (** hash_table_find, src/rtpp_hash_table.c:579-624 *)
  Definition ht_find (t : htab) (k : K) : option Z :=
    match walk (bucket t (hash k)) k (hash k) with Some sp => Some (e_val sp) | None => None end.

  (** A match callback: told what it has been shown so far and the object, it answers
      (RTPP_HT_MATCH_DEL, RTPP_HT_MATCH_BRK). *)
  Definition matchf := list Z -> Z -> bool * bool.

  (** inner loops of hash_table_foreach_rc / hash_table_foreach_key_raw, src/rtpp_hash_table.c:
      643-659, 700-719, over the entries [es] (saved sp_next: the walk is not disturbed by the
      removal); [sel] is the key filter. State: table, objects shown so far (newest first),
      hosp->last. The boolean result: stopped by BRK. *)
  Fixpoint foreach_loop (sel : hent -> bool) (f : matchf) (es : list hent) (t : htab) (seen : list Z)
           (last : bool) : ht_res (list Z * bool * bool) :=
    match es with
    | [] => HRet t (seen, last, false)
    | sp :: es' =>
        if sel sp then
          let (del, brk) := f seen (e_val sp) in
          let seen' := e_val sp :: seen in
          let r := if del then remove_locked t (e_id sp) (e_hash sp) else HRet t false in
          match r with
          | HRet t' l =>
              if brk then HRet t' (seen', last || l, true)
              else foreach_loop sel f es' t' seen' (last || l)
          | HAbort => HAbort
          | HBad => HBad
          end
        else foreach_loop sel f es' t seen last
    end.

  (** hash_table_foreach, src/rtpp_hash_table.c:628-683 *)
  Definition ht_foreach (t : htab) (f : matchf) : ht_res (list Z * bool) :=
    if ht_num t =? 0 then HRet t ([], false)
    else match foreach_loop (fun _ => true) f (concat (ht_b t)) t [] false with
         | HRet t' (seen, last, _) => HRet t' (seen, last)
         | HAbort => HAbort
         | HBad => HBad
         end.

  (** hash_table_foreach_key(_str), src/rtpp_hash_table.c:685-743 *)
  Definition ht_foreach_key (t : htab) (k : K) (f : matchf) : ht_res (list Z) :=
    if ht_num t =? 0 then HRet t []
    else match foreach_loop (fun sp => if is_str && negb (hash k =? e_hash sp) then false else keqb (e_key sp) k)
                            f (bucket t (hash k)) t [] false with
         | HRet t' (seen, _, _) => HRet t' seen
         | HAbort => HAbort
         | HBad => HBad
         end.

  (** hash_table_get_length, src/rtpp_hash_table.c:745-757 *)
  Definition ht_length (t : htab) : Z := ht_num t.

  (** PURGE_BATCH and hash_table_purge_f, src/rtpp_hash_table.c:759-774 *)
  Definition PURGE_BATCH : nat := 64.
  Definition purge_f : matchf := fun seen _ => (true, (S (length seen) =? PURGE_BATCH)%nat).

  (** hash_table_purge, src/rtpp_hash_table.c:776-792. Returns the number of batches and the
      objects released; [None] = out of fuel. *)
  Fixpoint purge_loop (fuel : nat) (t : htab) (npurged : Z) (out : list Z) : option (ht_res (Z * list Z)) :=
    match fuel with
    | O => None
    | S fuel' =>
        match ht_foreach t purge_f with
        | HRet t' (seen, _) =>
            if (length seen =? 0)%nat then Some (HRet t' (npurged, out))
            else purge_loop fuel' t' (npurged + 1) (out ++ rev seen)
        | HAbort => Some HAbort
        | HBad => Some HBad
        end
    end.
  Definition ht_purge (t : htab) : option (ht_res (Z * list Z)) :=
    purge_loop (S (S (Z.to_nat (ht_num t)))) t 0 [].

  (** hash_table_transfer, src/rtpp_hash_table.c:553-577: result rptr, hosp->last, hosp->first.
      The result of hash_table_insert is ignored. *)
  Definition ht_transfer (t o : htab) (k : K) (mem : bool) : ht_res (htab * option Z * bool * bool) :=
    match ht_remove_by_key t k with
    | HRet t' (None, last) => HRet t' (o, None, last, false)
    | HRet t' (Some sp, last) =>
        match ht_insert o sp mem with
        | HRet o' (_, first) => HRet t' (o', Some (e_val sp), last, first)
        | HAbort => HAbort
        | HBad => HBad
        end
    | HAbort => HAbort
    | HBad => HBad
    end.
End Hash.
Arguments hent : clear implicits.
Arguments htab : clear implicits.
Arguments ht_res : clear implicits.
Arguments ins_res : clear implicits.
Arguments HRet {K A}. Arguments HAbort {K A}. Arguments HBad {K A}.
