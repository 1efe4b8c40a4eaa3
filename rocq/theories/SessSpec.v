(** C28, C29, C30: what a user expects of tags, delete, update and lookup. *)
From Verif Require Import Base SessModel.

(** A stored tag is a requested one, or one with a media suffix. *)
Definition media_of (stored req : list Z) : Prop := exists suffix, stored = req ++ 59 :: suffix.
(** The text after the last ';' *)
Definition last_part (tag p : list Z) : Prop := exists q, tag = q ++ 59 :: p /\ ~ In 59 p.

(** The side on which tags find a session: 0 for the from tag; 1 for the to tag, which may lack the media
    suffix that the from tag carries. *)
Definition side_of (from : list Z) (to : option (list Z)) (s : sess) (i : Z) : Prop :=
  (i = 0 /\ s_tag s = from) \/
  (i = 1 /\ s_tag s <> from /\ exists t, to = Some t /\
     (s_tag s = t \/ (media_of (s_tag s) t /\ exists p, last_part (s_tag s) p /\ last_part from p))).

(** Sessions that a delete command addresses, with the side whose weak flag it clears; exact or not. *)
Definition tag_match (stored req : list Z) (exact : bool) : Prop := if exact then stored = req else media_of stored req.
Definition addressed (call from to : list Z) (s : sess) (side : Z) (exact : bool) : Prop :=
  s_call s = call /\
  ((side = 1 /\ tag_match (s_tag s) from exact) \/
   (side = 0 /\ (forall e, ~ tag_match (s_tag s) from e) /\ tag_match (s_tag s) to exact)).

(** [s'] is [s] without the strong flag, or without the weak flag of a side. *)
Definition same_stream (x y : strm) : Prop := st_port x = st_port y /\ st_skt x = st_skt y /\ st_laddr x = st_laddr y.
Definition loses (weak : bool) (side : Z) (s s' : sess) : Prop :=
  s_uid s' = s_uid s /\ s_call s' = s_call s /\ s_tag s' = s_tag s /\ s_complete s' = s_complete s /\
  same_stream (s_st0 s') (s_st0 s) /\ same_stream (s_st1 s') (s_st1 s) /\
  s_strong s' = (if weak then s_strong s else false) /\
  st_weak (s_st0 s') = (if weak && (side =? 0) then false else st_weak (s_st0 s)) /\
  st_weak (s_st1 s') = (if weak && (side =? 1) then false else st_weak (s_st1 s)).
(** Nobody holds the session any more. *)
Definition free (s : sess) : Prop := s_strong s = false /\ st_weak (s_st0 s) = false /\ st_weak (s_st1 s) = false.

(** The effect of a delete command on the table: what stays, and the removed sessions. A session that is
    not addressed stays as it is. An addressed one loses the strong flag, or one weak flag; it stays if a
    flag is left and is removed otherwise; nothing changes behind the first removed session that matched
    exactly. *)
Inductive swept (call from to : list Z) (weak : bool) : list sess -> list sess -> list Z -> Prop :=
| sw_nil : swept call from to weak [] [] []
| sw_skip s l l' r : (forall i e, ~ addressed call from to s i e) -> swept call from to weak l l' r -> swept call from to weak (s :: l) (s :: l') r
| sw_keep s s' i e l l' r : addressed call from to s i e -> loses weak i s s' -> ~ free s' ->
    swept call from to weak l l' r -> swept call from to weak (s :: l) (s' :: l') r
| sw_media s s' i l l' r : addressed call from to s i false -> loses weak i s s' -> free s' ->
    swept call from to weak l l' r -> swept call from to weak (s :: l) l' (s_uid s :: r)
| sw_exact s s' i l : addressed call from to s i true -> loses weak i s s' -> free s' ->
    swept call from to weak (s :: l) l [s_uid s].

(** What the environment may do: a port that is found is not zero and not in use. *)
Definition sound_env (es : list event) : Prop :=
  forall es1 c p r es2 tb tr, es = es1 ++ (c, Some p, r) :: es2 -> run table0 es1 = Some (tb, tr) ->
    p <> 0 /\ forall s, In s (t_ht tb) -> st_port (s_st0 s) <> p /\ st_port (s_st1 s) <> p.
Definition wants_new (c : cmd) : bool := match c with Update _ _ _ o | Lookup _ _ _ o => o_new o | _ => false end.
(** All ports in use. *)
Definition ports (ht : list sess) : list Z := filter (fun p => negb (p =? 0)) (flat_map (fun s => [st_port (s_st0 s); st_port (s_st1 s)]) ht).
