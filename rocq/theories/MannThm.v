(** C67: makeann and G.711. *)
From Verif Require Import Base EaudModel MannModel MannSpec MannProof MannProof2.

(** ** G.711 *)

(** Every sample gets the A-law code of the chord and step it is in, and decoding that is off by at most half a step *)
Theorem mann_alaw s : int16 s -> exists e k,
  a_cell s e k /\ alaw s = a_code (s <? 0) e k /\ 2 * Z.abs (law A2sl (alaw s) - s) <= a_step e.
Proof. intros H. destruct (a_cell_exists s H) as (e & k & C). exists e, k. split; [exact C|]. now apply alaw_cell. Qed.
Print Assumptions mann_alaw.

(** The same for mu-law; the error is at most half a step (of 2 ^ (e + 3)) and 3, but for the samples beyond the
    largest level *)
Theorem mann_ulaw s : int16 s -> exists e k,
  u_cell s e k /\ ulaw s = u_code (s <? 0) e k /\ (-32632 <= s <= 32635 -> Z.abs (law u2sl (ulaw s) - s) <= 2 ^ (e + 2) + 3).
Proof. intros H. destruct (u_cell_exists s H) as (e & k & C). exists e, k. split; [exact C|]. now apply ulaw_cell. Qed.
Print Assumptions mann_ulaw.

(** Encoding keeps the order *)
Theorem mann_monotone s t : s <= t -> law A2sl (alaw s) <= law A2sl (alaw t) /\ law u2sl (ulaw s) <= law u2sl (ulaw t).
Proof.
  intros H. unfold alaw, ulaw. split; (apply chain_mono; [apply chains|]); rewrite !Z.shiftr_div_pow2 by lia;
    apply Zplus_le_compat_r; apply Z.div_le_mono; lia.
Qed.
Print Assumptions mann_monotone.

(** Decoding and encoding again gives the same A-law byte, and the same mu-law byte but for 127 *)
Theorem mann_recode b : 0 <= b < 256 -> alaw (law A2sl b) = b /\ (b <> 127 -> ulaw (law u2sl b) = b).
Proof.
  intros H. pose proof recodes as R. rewrite forallb_forall in R. specialize (R b (in_range 256 b ltac:(lia))). cbv beta in R.
  apply andb_true_iff in R. destruct R as [R1 R2]. apply Z.eqb_eq in R2. split; [exact R2|]. intros N. apply orb_true_iff in R1.
  destruct R1 as [R1|R1]; apply Z.eqb_eq in R1; [congruence|exact R1].
Qed.
Print Assumptions mann_recode.

Theorem mann_recode_refuted : ~ (forall b, 0 <= b < 256 -> ulaw (law u2sl b) = b).
Proof. intros H. specialize (H 127 ltac:(lia)). vm_compute in H. discriminate. Qed.
Print Assumptions mann_recode_refuted.

Example mann_g711_ex : map alaw [0; -1; 1000; -20000; 32767] = [213; 85; 250; 38; 170] /\ map ulaw [0; -1; 1000; -20000; 32767] = [255; 126; 206; 12; 128].
Proof. split; reflexivity. Qed.

(** ** makeann *)

(** Without -L, or with a recording of at least 160 samples that can be read: when makeann ends without an error,
    each file is the encoding of what was asked for, in frames of 160 samples *)
Theorem mann_files {G T D} gsm g729 g722 cf f limit loop wok (g : G) (t : T) (d : D) stack m :
  size gsm 33 -> size g729 10 -> size g722 80 -> length stack = 160%nat ->
  (loop = false \/ (in_bad f = false /\ (160 <= length (in_samples f))%nat)) ->
  makeann gsm g729 g722 cf f limit loop wok g t d stack = MExit0 m ->
  let w := wanted (in_samples f) limit loop in
  ms_f0 m = map ulaw w /\ ms_f8 m = map alaw w
  /\ ms_f3 m = (if m_gsm cf then encoded gsm g (frames w) else [])
  /\ ms_f18 m = (if m_729 cf then encoded g729 t (halves (frames w)) else [])
  /\ ms_f9 m = (if m_722 cf then encoded g722 d (halves (frames w)) else []).
Proof.
  intros Sg St Sd B L H w. unfold makeann in H. destruct (loop && _) eqn:LN; [discriminate|].
  apply mloop_files in H; try assumption; [|intros st x; rewrite St; lia].
  destruct H as (H1 & H2 & H3 & H4 & H5). specialize (H5 St). cbn [ms_pos ms_gsm ms_729 ms_722 ms_f0 ms_f3 ms_f18 ms_f8 ms_f9 app] in *.
  set (sl := slices f loop (mturns f limit) limit 0) in *.
  assert (X : concat sl = w /\ fb sl).
  { unfold sl, w, wanted, mturns. destruct loop.
    - destruct limit as [n|]; [|discriminate]. destruct L as [L|[L1 L2]]; [discriminate|].
      destruct (slices_loop f true (S n) n 0 eq_refl L1 ltac:(intros E; rewrite E in L2; cbn in L2; lia) ltac:(lia) ltac:(lia)) as [X1 X2]. split; [exact X1 | exact (X2 L2)].
    - pose proof (slices_plain f false (match limit with Some n => S n | None => S (length (in_samples f)) end) limit 0 eq_refl ltac:(destruct limit; lia)) as X.
      rewrite skipn_O in X. destruct limit; exact X. }
  destruct X as [X1 X2]. rewrite X1 in H1, H2. rewrite (frames_slices sl X2), X1 in H3, H4, H5. auto.
Qed.
Print Assumptions mann_files.

(** With -L the G.711 files are right for recordings of any length *)
Theorem mann_g711_loop {G T D} gsm g729 g722 cf f limit wok (g : G) (t : T) (d : D) stack m :
  size gsm 33 -> size g729 10 -> size g722 80 -> length stack = 160%nat -> in_bad f = false -> in_samples f <> [] ->
  makeann gsm g729 g722 cf f limit true wok g t d stack = MExit0 m ->
  let w := wanted (in_samples f) limit true in ms_f0 m = map ulaw w /\ ms_f8 m = map alaw w.
Proof.
  intros Sg St Sd B L NE H w. unfold makeann in H. destruct limit as [n|]; [|discriminate]. cbn [andb] in H.
  apply mloop_files in H; try assumption; [|intros st x; rewrite St; lia]. destruct H as (H1 & H2 & _). cbn [ms_pos ms_f0 ms_f8 app] in *.
  destruct (slices_loop f true (S n) n 0 eq_refl L NE ltac:(lia) ltac:(lia)) as [X _]. unfold mturns in *. rewrite X in H1, H2. auto.
Qed.
Print Assumptions mann_g711_loop.

(** makeann ends; without an error unless a write fails or -L is given without -l *)
Theorem mann_ends {G T D} gsm g729 g722 cf f limit loop wok (g : G) (t : T) (d : D) stack :
  size gsm 33 -> size g729 10 -> size g722 80 -> length stack = 160%nat ->
  match makeann gsm g729 g722 cf f limit loop wok g t d stack with
  | MExit0 _ => True
  | MExit1 => (exists n pt, wok n pt = false) \/ (loop = true /\ limit = None)
  | MFuel => False
  end.
Proof.
  intros Sg St Sd B. unfold makeann. destruct (loop && _) eqn:LN.
  { right. destruct loop, limit; try discriminate; auto. }
  pose proof (fun X => mloop_ends gsm g729 g722 cf f loop wok Sg (fun st x => ltac:(rewrite St; lia)) Sd (mturns f limit) limit (MSt 0 0 g t d stack [] [] [] [] []) B X) as Y.
  assert (X : (match limit with Some r => r < mturns f limit | None => loop = false /\ length (in_samples f) - 0 < mturns f limit end)%nat).
  { unfold mturns. destruct limit; [lia|]. split; [destruct loop; [discriminate|reflexivity]|lia]. }
  specialize (Y X). destruct (mloop _ _ _ _ _ _ _ _ _ _); auto.
Qed.
Print Assumptions mann_ends.

Definition ex_enc (n : nat) (st : Z) (l : list Z) : Z * list Z := (st + 1, repeat (fold_left Z.add l st) n).
Example mann_files_ex :
  exists m, makeann (ex_enc 33) (ex_enc 10) (ex_enc 80) (MCfg true true true) (Input (repeat 1000 200) false) (Some 401%nat) true (fun _ _ => true) 0 0 0 (repeat 0 160) = MExit0 m
  /\ ms_f0 m = repeat 206 401 /\ ms_f3 m = repeat 160000 33 ++ repeat 160001 33 ++ repeat 81002 33 /\ length (ms_f9 m) = 480%nat.
Proof. eexists. split; [vm_compute; reflexivity|]. repeat split; reflexivity. Qed.

(** "With -L the frames of every codec are those of the repeated recording" is false for a recording of less than 160
    samples: the input is rewound only once for a frame, and what is missing is filled with silence *)
Theorem mann_short_loop_refuted :
  ~ (forall (gsm : Z -> list Z -> Z * list Z) g729 g722 cf f limit wok g t d stack m,
       size gsm 33 -> size g729 10 -> size g722 80 -> length stack = 160%nat -> in_bad f = false -> in_samples f <> [] ->
       @makeann Z Z Z gsm g729 g722 cf f (Some limit) true wok g t d stack = MExit0 m -> m_gsm cf = true ->
       ms_f3 m = encoded gsm g (frames (wanted (in_samples f) (Some limit) true))).
Proof.
  intros H.
  specialize (H (ex_enc 33) (ex_enc 10) (ex_enc 80) (MCfg true false false) (Input [7] false) 3%nat (fun _ _ => true) 0 0 0 (repeat 0 160)).
  eassert (E : makeann (ex_enc 33) (ex_enc 10) (ex_enc 80) (MCfg true false false) (Input [7] false) (Some 3%nat) true (fun _ _ => true) 0 0 0 (repeat 0 160) = MExit0 _) by (vm_compute; reflexivity).
  specialize (H _ ltac:(intros st x; apply repeat_length) ltac:(intros st x; apply repeat_length) ltac:(intros st x; apply repeat_length) eq_refl eq_refl ltac:(discriminate) E eq_refl).
  clear E. discriminate (f_equal (@length Z) H).
Qed.
Print Assumptions mann_short_loop_refuted.

(** "When makeann ends without an error the announcement has the length asked for" is false: after an error reading
    the input it ends as if that were the end of the input *)
Theorem mann_read_error_refuted :
  ~ (forall (gsm : Z -> list Z -> Z * list Z) g729 g722 cf f limit wok g t d stack m,
       size gsm 33 -> size g729 10 -> size g722 80 -> length stack = 160%nat -> in_samples f <> [] ->
       @makeann Z Z Z gsm g729 g722 cf f (Some limit) true wok g t d stack = MExit0 m -> length (ms_f0 m) = limit).
Proof.
  intros H.
  specialize (H (ex_enc 33) (ex_enc 10) (ex_enc 80) (MCfg false false false) (Input [1; 2; 3] true) 10%nat (fun _ _ => true) 0 0 0 (repeat 0 160)).
  eassert (E : makeann (ex_enc 33) (ex_enc 10) (ex_enc 80) (MCfg false false false) (Input [1; 2; 3] true) (Some 10%nat) true (fun _ _ => true) 0 0 0 (repeat 0 160) = MExit0 _) by (vm_compute; reflexivity).
  specialize (H _ ltac:(intros st x; apply repeat_length) ltac:(intros st x; apply repeat_length) ltac:(intros st x; apply repeat_length) eq_refl ltac:(discriminate) E).
  clear E. discriminate H.
Qed.
Print Assumptions mann_read_error_refuted.

(** "The G.729 file is what the encoder gave" is false with -v, when frames can be shorter than 10 bytes: the second
    frame is put at offset 10 all the same, and the bytes between are what was in the buffer *)
Theorem mann_vad_refuted :
  ~ (forall (gsm : Z -> list Z -> Z * list Z) g729 g722 cf f limit wok g t d stack m,
       size gsm 33 -> (forall st x, (length (snd (g729 st x)) <= 10)%nat) -> size g722 80 -> length stack = 160%nat ->
       @makeann Z Z Z gsm g729 g722 cf f limit false wok g t d stack = MExit0 m -> m_729 cf = true ->
       ms_f18 m = encoded g729 t (halves (frames (wanted (in_samples f) limit false)))).
Proof.
  intros H.
  specialize (H (ex_enc 33) (fun st _ => (st + 1, [st; st])) (ex_enc 80) (MCfg false true false) (Input [5] false) None (fun _ _ => true) 0 1 0 (repeat 99 160)).
  eassert (E : makeann (ex_enc 33) (fun st _ => (st + 1, [st; st])) (ex_enc 80) (MCfg false true false) (Input [5] false) None false (fun _ _ => true) 0 1 0 (repeat 99 160) = MExit0 _) by (vm_compute; reflexivity).
  specialize (H _ ltac:(intros st x; apply repeat_length) ltac:(intros; cbn; lia) ltac:(intros st x; apply repeat_length) eq_refl E eq_refl).
  clear E. discriminate (f_equal (fun l => match nth 2 l 0 with Zpos xH => true | Zpos (xI _) => true | _ => false end) H).
Qed.
Print Assumptions mann_vad_refuted.

(** "When makeann ends without an error the files are on the disk" is false: what is buffered is written by fclose(),
    and its result is not looked at *)
Theorem mann_close_refuted :
  ~ (forall (gsm : Z -> list Z -> Z * list Z) g729 g722 cf f limit wok g t d stack m closed flushed,
       @makeann Z Z Z gsm g729 g722 cf f limit false wok g t d stack = MExit0 m -> on_disk closed flushed (ms_f0 m) = ms_f0 m).
Proof.
  intros H.
  specialize (H (ex_enc 33) (ex_enc 10) (ex_enc 80) (MCfg false false false) (Input [1; 2; 3] false) None (fun _ _ => true) 0 0 0 (repeat 0 160)).
  eassert (E : makeann (ex_enc 33) (ex_enc 10) (ex_enc 80) (MCfg false false false) (Input [1; 2; 3] false) None false (fun _ _ => true) 0 0 0 (repeat 0 160) = MExit0 _) by (vm_compute; reflexivity).
  specialize (H _ false 0%nat E). vm_compute in H. discriminate.
Qed.
Print Assumptions mann_close_refuted.
