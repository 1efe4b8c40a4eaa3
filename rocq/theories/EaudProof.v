From Coq Require Import Permutation Sorted.
From Verif Require Import Base EaudModel EaudSpec.

(** ** G.711 *)
Lemma nth_map_seq (A : Type) (l : list A) (f : Z -> A) n d i : l = map (fun k => f (Z.of_nat k)) (seq 0 n) -> (i < n)%nat -> nth i l d = f (Z.of_nat i).
Proof.
  intros -> H. rewrite (nth_indep _ d (f (Z.of_nat O))) by (rewrite map_length, seq_length; exact H).
  rewrite (map_nth (fun k => f (Z.of_nat k)) (seq 0 n) O i). rewrite seq_nth by exact H. reflexivity.
Qed.
Lemma u2sl_is : u2sl = map (fun k => mulaw' (Z.of_nat k)) (seq 0 256).
Proof. vm_compute. reflexivity. Qed.
Lemma A2sl_is : A2sl = map (fun k => alaw (Z.of_nat k)) (seq 0 256).
Proof. vm_compute. reflexivity. Qed.
Lemma ulaw_byte b : 0 <= b < 256 -> law u2sl b = mulaw' b.
Proof.
  intros H. unfold law. rewrite Z.mod_small by lia. rewrite (nth_map_seq _ _ _ 256 0 (Z.to_nat b) u2sl_is) by lia. f_equal. lia.
Qed.
Lemma alaw_byte b : 0 <= b < 256 -> law A2sl b = alaw b.
Proof.
  intros H. unfold law. rewrite Z.mod_small by lia. rewrite (nth_map_seq _ _ _ 256 0 (Z.to_nat b) A2sl_is) by lia. f_equal. lia.
Qed.
Lemma map_bytes (f g : Z -> Z) l : (forall b, 0 <= b < 256 -> f b = g b) -> byte_string l -> map f l = map g l.
Proof. intros E F. apply map_ext_in. intros b H. apply E. unfold byte_string in F. rewrite Forall_forall in F. exact (F b H). Qed.

(** ** The buffer *)
Definition zlen (l : list Z) : Z := Z.of_nat (length l).
Lemma write_ok buf i l : length buf = Z.to_nat OBUF -> 0 <= i -> i + zlen l <= OBUF ->
  exists b, write buf i l = Ok b /\ length b = Z.to_nat OBUF /\ firstn (length l) (skipn (Z.to_nat i) b) = l.
Proof.
  intros L Hi H. unfold write, zlen in *. destruct (Z.ltb_spec OBUF (i + Z.of_nat (length l))) as [X|X]; [lia|].
  eexists. split; [reflexivity|]. unfold OBUF in *.
  assert (Lf : length (firstn (Z.to_nat i) buf) = Z.to_nat i) by (rewrite firstn_length; lia). split.
  - rewrite !app_length, Lf, skipn_length. lia.
  - rewrite skipn_app, Lf, Nat.sub_diag. rewrite (skipn_all2 (firstn (Z.to_nat i) buf)) by lia. cbn [app skipn].
    rewrite firstn_app, Nat.sub_diag, firstn_all. cbn [firstn]. apply app_nil_r.
Qed.
Lemma write_cases buf i l : write buf i l = Oob \/ exists b, write buf i l = Ok b.
Proof. unfold write. destruct (_ <? _); eauto. Qed.
Lemma write_len buf i l b : length buf = Z.to_nat OBUF -> 0 <= i -> write buf i l = Ok b -> length b = Z.to_nat OBUF.
Proof.
  intros L Hi E. unfold write in E. destruct (Z.ltb_spec OBUF (i + Z.of_nat (length l))) as [X|X]; [discriminate|]. injection E as <-. unfold OBUF in *.
  rewrite !app_length, firstn_length, skipn_length. lia.
Qed.

Lemma skipn_nth {A} (l : list A) : forall n v, nth_error l n = Some v -> skipn n l = v :: skipn (S n) l.
Proof. induction l as [|x l IH]; intros [|n] v E; cbn in E; try discriminate; [injection E as ->; reflexivity|]. exact (IH n v E). Qed.

Section Codecs.
  Context {X : Type} (g729_decode g722_decode gsm_decode : X -> list Z -> X * list Z) (c : cfg).
  Notation get := (decoder_get g729_decode g722_decode gsm_decode c).
  Notation fill := (fill g729_decode g722_decode gsm_decode c).
  Notation decode_frame := (decode_frame g729_decode g722_decode gsm_decode c).
  Notation silence := (generate_silence g729_decode c).
  Notation codecs_ok := (codecs_ok g729_decode g722_decode gsm_decode).
  Notation plays := (plays g729_decode g722_decode gsm_decode c).
  Notation fails := (fails g729_decode g722_decode gsm_decode c).
  Notation dec := (@dec X).

  (** ** What is kept by the decoder *)
  Definition lpt_ok (l : Z) : Prop := l = 0 \/ l = 8 \/ l = 9 \/ l = 3 \/ (l = 18 /\ f_729 c <> NoG729).
  Record dok (d : dec) : Prop := {
    k_buf : length (d_obuf d) = Z.to_nat OBUF;
    k_lpt : lpt_ok (d_lpt d);
    k_pos : 0 <= d_obp d /\ 0 <= d_oblen d /\ d_obp d + d_oblen d <= OBUF;
    k_dt : 0 <= d_dticks d;
    k_nt : 0 <= d_nticks d < 2 ^ 32 }.
  (** the samples in obuf that were not yet asked for *)
  Definition pending (d : dec) : list Z := firstn (Z.to_nat (d_oblen d)) (skipn (Z.to_nat (d_obp d)) (d_obuf d)).

  Definition bad {A} (r : res A) : Prop := forall a, r <> Ok a.
  Lemma bad_bind {A C} (r : res A) (k : A -> res C) : bad r -> bad (bind r k).
  Proof. intros B a. destruct r; cbn; try discriminate. exfalso. exact (B a0 eq_refl). Qed.
  Lemma bad_oob {A} : bad (@Oob A). Proof. intros a E. discriminate E. Qed.
  Lemma bad_abort {A} : bad (@Abort A). Proof. intros a E. discriminate E. Qed.
  Lemma bad_conv {A} : bad (@BadConv A). Proof. intros a E. discriminate E. Qed.

  (** ** Frames *)
  Lemma g729_frames_cases (OK : codecs_ok) n f : forall x l, (0 < f)%nat ->
    (exists y o, g729_frames g729_decode c n f x l = Ok (y, o) /\ (length o <= 80 * n)%nat) \/
    (bad (g729_frames g729_decode c n f x l) /\ f_729 c = Bcg729 /\ (10 < f)%nat /\ l <> []).
  Proof.
    induction n as [|n IH]; intros x l Hf; cbn [g729_frames]; [left; exists x, []; split; [reflexivity|cbn; lia]|].
    destruct l as [|b l]; [left; exists x, []; split; [reflexivity|cbn; lia]|].
    destruct (match f_729 c with Bcg729 => (10 <? f)%nat | _ => false end) eqn:E.
    - right. split; [exact bad_abort|]. destruct (f_729 c); try discriminate. split; [reflexivity|]. split; [apply Nat.ltb_lt, E|discriminate].
    - pose proof (proj1 OK x (firstn f (b :: l))) as L. destruct (g729_decode x (firstn f (b :: l))) as (y & o). cbn [snd] in L.
      destruct (IH y (skipn f (b :: l)) Hf) as [(z & o' & -> & L')|(B & E1 & E2 & E3)].
      + left. exists z, (o ++ o'). split; [reflexivity|]. rewrite app_length. lia.
      + right. split; [apply bad_bind, B|]. split; [exact E1|]. split; [exact E2|discriminate].
  Qed.
  Lemma gsm_frames_cases (OK : codecs_ok) n : forall x l,
    (exists y o, gsm_frames gsm_decode n x l = Ok (y, o) /\ (length o <= 160 * n)%nat) \/
    (bad (gsm_frames gsm_decode n x l) /\ Z.of_nat (length l) mod 33 <> 0).
  Proof.
    induction n as [|n IH]; intros x l; cbn [gsm_frames]; [left; exists x, []; split; [reflexivity|cbn; lia]|].
    destruct l as [|b l]; [left; exists x, []; split; [reflexivity|cbn; lia]|].
    destruct (Nat.ltb_spec (length (b :: l)) 33) as [E|E].
    - right. split; [exact bad_oob|]. cbn [length] in *. rewrite Z.mod_small by lia. lia.
    - pose proof (proj2 (proj2 OK) x (firstn 33 (b :: l))) as L. destruct (gsm_decode x (firstn 33 (b :: l))) as (y & o). cbn [snd] in L.
      destruct (IH y (skipn 33 (b :: l))) as [(z & o' & -> & L')|(B & E1)].
      + left. exists z, (o ++ o'). split; [reflexivity|]. rewrite app_length. lia.
      + right. split; [apply bad_bind, B|]. rewrite skipn_length in E1. intros Q. apply E1. lia.
  Qed.

  (** what decode_frame makes of a packet *)
  Definition put (d : dec) (x : X) (b l : list Z) : dec := forward (with_buf d x b) (zlen l) (zlen l).
  Definition objection (p : pkt) : Prop :=
    (p_pt p = 3 /\ f_gsm c = true /\ 33 <= zlen (p_load p) /\ zlen (p_load p) mod 33 <> 0) \/
    (p_pt p = 18 /\ f_729 c = Bcg729 /\ zlen (p_load p) mod 10 <> 0 /\ zlen (p_load p) mod 8 <> 0 /\ zlen (p_load p) mod 15 = 0).
  Lemma decode_cases (OK : codecs_ok) (d : dec) p : length (d_obuf d) = Z.to_nat OBUF ->
    (exists x b l, decode_frame d p = Ok (put d x b l, 2 * zlen l) /\ length b = Z.to_nat OBUF /\ firstn (length l) b = l /\ zlen l <= OBUF /\ lpt_ok (p_pt p)) \/
    (exists j, decode_frame d p = Ok (d, j) /\ j <= 0) \/
    (bad (decode_frame d p) /\ objection p).
  Proof.
    intros L. unfold decode_frame. cbv zeta. set (n := if OBUF * 2 <? _ then _ else _). set (ib := firstn (Z.to_nat n) (p_load p)).
    assert (Lib : zlen ib <= OBUF). { assert (Hn : n <= OBUF) by (unfold n, OBUF; destruct (Z.ltb_spec (4 * 1024 * 2) (Z.of_nat (length (p_load p)) * 2)); lia).
      unfold zlen, ib. rewrite firstn_length. unfold OBUF in *. clearbody n. lia. }
    assert (P : forall x l, zlen l <= OBUF -> lpt_ok (p_pt p) -> exists b, bind (write (d_obuf d) 0 l) (fun b => Ok (forward (with_buf d x b) (Z.of_nat (length l)) (Z.of_nat (length l)), 2 * Z.of_nat (length l))) =
              Ok (put d x b l, 2 * zlen l) /\ length b = Z.to_nat OBUF /\ firstn (length l) b = l /\ zlen l <= OBUF /\ lpt_ok (p_pt p)).
    { intros x l Hl Hp. destruct (write_ok (d_obuf d) 0 l L ltac:(lia) ltac:(lia)) as (b & -> & Lb & E). exists b. cbn [bind]. split; [reflexivity|]. split; [exact Lb|]. split; [exact E|]. auto. }
    destruct (Z.eqb_spec (p_pt p) 0) as [E0|N0].
    { left. destruct (P (d_x d) (map (law u2sl) ib)) as (b & H); [unfold zlen; rewrite map_length; exact Lib|left; exact E0|]. eexists _, b, _. exact H. }
    destruct (Z.eqb_spec (p_pt p) 8) as [E8|N8].
    { left. destruct (P (d_x d) (map (law A2sl) ib)) as (b & H); [unfold zlen; rewrite map_length; exact Lib|right; left; exact E8|]. eexists _, b, _. exact H. }
    destruct (Z.eqb_spec (p_pt p) 18) as [E18|N18].
    { destruct (f_729 c) eqn:Ef.
      - right. left. exists (-1). split; [reflexivity|lia].
      - assert (Hp : lpt_ok (p_pt p)) by (right; right; right; right; split; [exact E18|rewrite Ef; discriminate]).
        assert (R : forall f, (0 < f)%nat -> ((10 < f)%nat -> objection p) ->
          (exists x b l, bind (g729_frames g729_decode c 51 f (d_x d) (p_load p)) (fun '(x, l) => bind (write (d_obuf d) 0 l) (fun b => Ok (forward (with_buf d x b) (Z.of_nat (length l)) (Z.of_nat (length l)), 2 * Z.of_nat (length l)))) = Ok (put d x b l, 2 * zlen l) /\ length b = Z.to_nat OBUF /\ firstn (length l) b = l /\ zlen l <= OBUF /\ lpt_ok (p_pt p)) \/
          (bad (bind (g729_frames g729_decode c 51 f (d_x d) (p_load p)) (fun '(x, l) => bind (write (d_obuf d) 0 l) (fun b => Ok (forward (with_buf d x b) (Z.of_nat (length l)) (Z.of_nat (length l)), 2 * Z.of_nat (length l))))) /\ objection p)).
        { intros f Hf Ho. destruct (g729_frames_cases OK 51 f (d_x d) (p_load p) Hf) as [(y & o & -> & Lo)|(B & _ & B2 & _)].
          - left. destruct (P y o) as (b & H); [unfold zlen, OBUF; lia|exact Hp|]. exists y, b, o. exact H.
          - right. split; [apply bad_bind, B|exact (Ho B2)]. }
        destruct (Z.eqb_spec (Z.of_nat (length (p_load p)) mod 10) 0) as [M10|M10]; [destruct (R 10%nat ltac:(lia) ltac:(lia)) as [H|H]; [left; exact H|right; right; exact H]|].
        destruct (Z.eqb_spec (Z.of_nat (length (p_load p)) mod 8) 0) as [M8|M8]; [destruct (R 8%nat ltac:(lia) ltac:(lia)) as [H|H]; [left; exact H|right; right; exact H]|].
        destruct (Z.eqb_spec (Z.of_nat (length (p_load p)) mod 15) 0) as [M15|M15].
        { destruct (R 15%nat ltac:(lia)) as [H|H]; [intros _; right; unfold zlen; auto|left; exact H|right; right; exact H]. }
        destruct (Z.eqb_spec (Z.of_nat (length (p_load p)) mod 2) 0) as [M2|M2]; [destruct (R 2%nat ltac:(lia) ltac:(lia)) as [H|H]; [left; exact H|right; right; exact H]|].
        right. left. exists (-1). split; [reflexivity|lia].
      - assert (Hp : lpt_ok (p_pt p)) by (right; right; right; right; split; [exact E18|rewrite Ef; discriminate]).
        assert (R : forall f, (0 < f)%nat ->
          exists x b l, bind (g729_frames g729_decode c 51 f (d_x d) (p_load p)) (fun '(x, l) => bind (write (d_obuf d) 0 l) (fun b => Ok (forward (with_buf d x b) (Z.of_nat (length l)) (Z.of_nat (length l)), 2 * Z.of_nat (length l)))) = Ok (put d x b l, 2 * zlen l) /\ length b = Z.to_nat OBUF /\ firstn (length l) b = l /\ zlen l <= OBUF /\ lpt_ok (p_pt p)).
        { intros f Hf. destruct (g729_frames_cases OK 51 f (d_x d) (p_load p) Hf) as [(y & o & -> & Lo)|(_ & B & _)]; [|rewrite Ef in B; discriminate].
          destruct (P y o) as (b & H); [unfold zlen, OBUF; lia|exact Hp|]. exists y, b, o. exact H. }
        destruct (_ =? 0); [left; apply R; lia|]. destruct (_ =? 0); [left; apply R; lia|]. destruct (_ =? 0); [left; apply R; lia|]. destruct (_ =? 0); [left; apply R; lia|].
        right. left. exists (-1). split; [reflexivity|lia]. }
    destruct (Z.eqb_spec (p_pt p) 9) as [E9|N9].
    { destruct (f_722 c) eqn:Ef; [|right; left; exists (-1); split; [reflexivity|lia]].
      left. pose proof (proj1 (proj2 OK) (d_x d) ib) as L2. destruct (g722_decode (d_x d) ib) as (x & l). cbn [snd] in L2.
      destruct (P x l) as (b & H); [unfold zlen in *; lia|right; right; left; exact E9|]. exists x, b, l. exact H. }
    destruct (Z.eqb_spec (p_pt p) 3) as [E3|N3].
    { destruct (f_gsm c) eqn:Ef; [|right; left; exists (-1); split; [reflexivity|lia]].
      destruct (Z.ltb_spec (Z.of_nat (length (p_load p))) 33) as [S|S]; [right; left; exists (-1); split; [reflexivity|lia]|].
      destruct (gsm_frames_cases OK 25 (d_x d) (p_load p)) as [(y & o & -> & Lo)|(B & Q)].
      - left. destruct (P y o) as (b & H); [unfold zlen, OBUF; lia|right; right; right; left; exact E3|]. exists y, b, o. exact H.
      - right. right. split; [apply bad_bind, B|]. left. unfold zlen. auto. }
    right. left. destruct (_ || _); [exists 0|exists (-1)]; split; try reflexivity; lia.
  Qed.

  (** ** Silence *)
  Lemma g729_silence_len n : forall i x b y b', 0 <= i -> length b = Z.to_nat OBUF -> g729_silence g729_decode n i x b = Ok (y, b') -> length b' = Z.to_nat OBUF.
  Proof.
    induction n as [|n IH]; intros i x b y b' Hi L E; cbn [g729_silence] in E; [injection E as <- <-; exact L|].
    destruct (g729_decode x []) as (z & o). destruct (write_cases b i o) as [W|(b1 & W)]; rewrite W in E; cbn [bind] in E; [discriminate|].
    apply (IH (i + 160) z b1 y b'); [lia|exact (write_len b i o b1 L Hi W)|exact E].
  Qed.
  Lemma g729_silence_cases n : forall i x b, bad (g729_silence g729_decode n i x b) \/ exists y b', g729_silence g729_decode n i x b = Ok (y, b').
  Proof.
    induction n as [|n IH]; intros i x b; cbn [g729_silence]; [right; eauto|].
    destruct (g729_decode x []) as (z & o). destruct (write_cases b i o) as [->|(b1 & ->)]; cbn [bind]; [left; exact bad_oob|apply IH].
  Qed.
  Lemma silence_cases (d : dec) t : length (d_obuf d) = Z.to_nat OBUF -> lpt_ok (d_lpt d) -> 0 < t <= 4000 ->
    (exists x b, silence d t = Ok (with_buf d x b, 2 * t) /\ length b = Z.to_nat OBUF /\
       (f_729 c <> Other729 -> x = d_x d /\ firstn (Z.to_nat t) b = repeat 0 (Z.to_nat t))) \/
    (bad (silence d t) /\ f_729 c = Other729).
  Proof.
    intros L K T. unfold generate_silence.
    assert (F : exists b, bind (write (d_obuf d) 0 (repeat 0 (Z.to_nat t))) (fun b => Ok (with_buf d (d_x d) b, t * 2)) = Ok (with_buf d (d_x d) b, 2 * t) /\
              length b = Z.to_nat OBUF /\ firstn (Z.to_nat t) b = repeat 0 (Z.to_nat t)).
    { destruct (write_ok (d_obuf d) 0 (repeat 0 (Z.to_nat t)) L) as (b & -> & Lb & E); [lia|unfold zlen, OBUF; rewrite repeat_length; lia|].
      exists b. cbn [bind]. rewrite repeat_length in E. split; [do 2 f_equal; lia|]. split; [exact Lb|exact E]. }
    destruct (_ || _ || _ || _ || _) eqn:E1.
    { left. destruct F as (b & E & Lb & Z0). exists (d_x d), b. split; [exact E|]. auto. }
    assert (E18 : d_lpt d = 18 /\ f_729 c <> NoG729) by (unfold lpt_ok in K; destruct K as [K|[K|[K|[K|K]]]]; [lia|lia|lia|lia|exact K]).
    destruct E18 as (-> & Nn). cbn [Z.eqb Pos.eqb]. destruct (f_729 c) eqn:Ef; [congruence| |].
    - left. destruct F as (b & E & Lb & Z0). exists (d_x d), b. split; [exact E|]. auto.
    - destruct (g729_silence_cases (Z.to_nat (t / 80)) 0 (d_x d) (d_obuf d)) as [B|(x & b & E)].
      + right. split; [apply bad_bind, B|reflexivity].
      + pose proof (g729_silence_len _ 0 _ _ _ _ ltac:(lia) L E) as Lb. rewrite E. cbn [bind]. destruct (Z.ltb_spec 0 (t mod 80)) as [M|M].
        * destruct (write_cases b (160 * (t / 80)) (repeat 0 (Z.to_nat (t mod 80)))) as [W|(b1 & W)]; rewrite W; cbn [bind]; [right; split; [exact bad_oob|reflexivity]|].
          left. exists x, b1. split; [do 2 f_equal; lia|]. split; [|congruence]. refine (write_len _ _ _ _ Lb _ W). lia.
        * cbn [bind]. left. exists x, b. split; [do 2 f_equal; lia|]. split; [exact Lb|congruence].
  Qed.

  Ltac fld := cbn [d_pp d_nticks d_sticks d_lpt d_obuf d_obp d_oblen d_x d_stime d_dticks d_nosync filled forward with_buf with_pp with_lpt with_ticks put].
  (** ** Filling the buffer *)
  Lemma to_uint_nonneg num den : 0 < den -> 0 <= num -> num / den < 4294967296 -> to_uint num den = Ok (num / den).
  Proof.
    intros D N H. unfold to_uint. rewrite Z.quot_div_nonneg by lia. destruct (Z.ltb_spec (- den) num); [|lia]. destruct (Z.ltb_spec (num / den) 4294967296); [reflexivity|lia].
  Qed.
  Lemma to_uint_cases num den : to_uint num den = BadConv \/ to_uint num den = Ok (Z.quot num den).
  Proof. unfold to_uint. destruct (_ && _); auto. Qed.

  Definition mes (d : dec) : nat :=
    match d_pp d with [] => O | p :: _ => (Z.to_nat (p_ts p - d_nticks d) + Z.to_nat (p_time p - d_stime d - 125 * d_dticks d))%nat end.
  Definition objects (d : dec) (pp : list pkt) : Prop := f_729 c = Other729 \/ ~ Forall (sane (d_stime d)) pp.

  Lemma fill_cases (OK : codecs_ok) pp : Forall (fun p => 0 <= p_ts p < 2 ^ 32) pp -> forall d : dec, dok d -> d_oblen d = 0 -> d_nosync d = false -> d_pp d = pp ->
    (exists d', fill d pp = Ok (d', Full) /\ dok d' /\ 0 < d_oblen d' /\ d_nosync d' = false /\ d_stime d' = d_stime d /\
       (exists pre, pp = pre ++ d_pp d') /\ ((length (d_pp d') < length pp)%nat \/ (d_pp d' = pp /\ (mes d' < mes d)%nat))) \/
    (exists d', fill d pp = Ok (d', Other Eof)) \/
    (bad (fill d pp) /\ objects d pp).
  Proof.
    induction pp as [|p rest IH]; intros Ts d K L0 Ns Ep; cbn [EaudModel.fill]; [right; left; exists d; reflexivity|].
    pose proof (Forall_inv Ts) as Tp. apply Forall_inv_tail in Ts. cbn beta in Tp.
    set (since := p_time p - d_stime d).
    (* the silence *)
    assert (Sil : forall (e : dec) t n, dok e -> d_oblen e = 0 -> d_nosync e = false -> d_pp e = p :: rest -> d_stime e = d_stime d -> 0 < t <= 4000 ->
      ((n = t /\ t <= p_ts p - d_nticks e /\ 0 <= d_nticks e) \/ (n = 0 /\ p_ts p <= d_nticks e < 2 ^ 32 /\ 125 * t <= since - 125 * d_dticks e)) -> (mes e <= mes d)%nat ->
      let r := (if d_nosync e then Ok (forward e n t, Other Skip)
                else bind (silence e t) (fun '(e, j) => if j <=? 0 then Ok (e, Other Err) else Ok (filled (forward e n t) (j / 2), Full))) in
      (exists d', r = Ok (d', Full) /\ dok d' /\ 0 < d_oblen d' /\ d_nosync d' = false /\ d_stime d' = d_stime d /\
         (exists pre, p :: rest = pre ++ d_pp d') /\ ((length (d_pp d') < length (p :: rest))%nat \/ (d_pp d' = p :: rest /\ (mes d' < mes d)%nat))) \/
      (bad r /\ objects d (p :: rest))).
    { intros e t n Ke Le Ne Pe Se T Hn Hm r. unfold r. rewrite Ne.
      destruct (silence_cases e t (k_buf e Ke) (k_lpt e Ke) T) as [(x & b & -> & Lb & _)|(B & Ef)].
      - cbn [bind]. destruct (Z.leb_spec (2 * t) 0); [lia|]. left. eexists. split; [reflexivity|]. fld.
        split. { constructor; fld; [exact Lb|exact (k_lpt e Ke)|unfold OBUF; lia|pose proof (k_dt e Ke); lia|apply u32_range]. }
        split; [lia|]. split; [exact Ne|]. split; [exact Se|]. split; [exists []; rewrite Pe; reflexivity|]. right. split; [exact Pe|].
        enough ((mes (filled (forward (with_buf e x b) n t) (2 * t / 2)) < mes e)%nat) by lia. unfold mes. fld. rewrite Pe, Se. fold since.
        destruct Hn as [(-> & H1 & H2)|(-> & H1 & H2)].
        + rewrite u32_small by lia. lia.
        + rewrite u32_small by lia. lia.
      - right. split; [apply bad_bind, B|left; exact Ef]. }
    (* the check of the timestamp *)
    assert (Chk : bad (bind (A := dec) (if since + 1000000 <? u32 (p_ts p - d_sticks d) / 8000 * 1000000
              then bind (to_uint (125 * p_ts p - since) 125) (fun s => Ok (with_ticks d (p_ts p) s)) else Ok d) (fun d => Ok d)) /\ objects d (p :: rest) \/
      exists e, (if since + 1000000 <? u32 (p_ts p - d_sticks d) / 8000 * 1000000
              then bind (to_uint (125 * p_ts p - since) 125) (fun s => Ok (with_ticks d (p_ts p) s)) else Ok d) = Ok e /\
        dok e /\ d_oblen e = 0 /\ d_nosync e = false /\ d_pp e = p :: rest /\ d_stime e = d_stime d /\ (mes e <= mes d)%nat /\
        (d_nticks e = d_nticks d \/ d_nticks e = p_ts p)).
    { destruct (_ <? _).
      - destruct (to_uint_cases (125 * p_ts p - since) 125) as [Q|Q]; rewrite Q; cbn [bind].
        + left. split; [exact bad_conv|]. right. intros F. pose proof (Forall_inv F) as (S1 & S2 & S3 & _). fold since in S2, S3.
          assert (Q2 : (125 * p_ts p - since) / 125 < 4294967296) by lia.
          rewrite to_uint_nonneg in Q by (lia || assumption). discriminate Q.
        + right. eexists. split; [reflexivity|]. split; [constructor; fld; [exact (k_buf d K)|exact (k_lpt d K)|exact (k_pos d K)|exact (k_dt d K)|exact Tp]|].
          fld. do 4 (split; [assumption || reflexivity|]). split; [|right; reflexivity]. unfold mes. fld. rewrite Ep. lia.
      - right. exists d. split; [reflexivity|]. split; [exact K|]. do 4 (split; [assumption || reflexivity|]). split; [lia|left; reflexivity]. }
    destruct Chk as [(B & O)|(e & E & Ke & Le & Ne & Pe & Se & Me & Te)].
    { right. right. split; [|exact O]. apply bad_bind. intros a Ea. rewrite Ea in B. exact (B a eq_refl). }
    rewrite E. cbn [bind]. destruct (Z.ltb_spec (d_nticks e) (p_ts p)) as [G|G].
    { pose proof (k_nt e Ke) as Nt. destruct (Sil e (Z.min 4000 (p_ts p - d_nticks e)) (Z.min 4000 (p_ts p - d_nticks e)) Ke Le Ne Pe Se) as [H|H]; [lia|left; lia|exact Me|left; exact H|right; right; exact H]. }
    destruct (Z.ltb_spec 200000 (since - 125 * d_dticks e)) as [G2|G2].
    { destruct (to_uint_cases (since - 125 * d_dticks e) 250) as [Q|Q].
      - right. right. rewrite Q. split; [exact bad_conv|]. right. intros F. pose proof (Forall_inv F) as (S1 & S2 & S3 & _). fold since in S2. pose proof (k_dt e Ke) as Dt.
        assert (Q2 : (since - 125 * d_dticks e) / 250 < 4294967296) by (apply Z.div_lt_upper_bound; lia).
        rewrite to_uint_nonneg in Q by (lia || assumption). discriminate Q.
      - rewrite Q. cbn [bind]. rewrite Z.quot_div_nonneg by lia. pose proof (k_nt e Ke) as Nt. set (t := (since - 125 * d_dticks e) / 250).
        assert (Ht : 800 <= t /\ 250 * t <= since - 125 * d_dticks e) by (unfold t; lia). clearbody t.
        destruct (Sil e (Z.min 4000 t) 0 Ke Le Ne Pe Se) as [H|H]; [lia|right; split; [reflexivity|lia]|exact Me|left; exact H|right; right; exact H]. }
    destruct (decode_cases OK e p (k_buf e Ke)) as [(x & b & l & -> & Lb & Eb & Ll & Lp)|[(j & -> & J)|(B & O)]]; cbn [bind].
    - destruct (Z.ltb_spec 0 (2 * zlen l)) as [Pl|Pl].
      + destruct (Z.leb_spec (2 * zlen l) 0); [lia|]. left. eexists. split; [reflexivity|]. fld.
        split. { constructor; fld; [exact Lb|exact Lp|lia|pose proof (k_dt e Ke); unfold zlen in *; lia|apply u32_range]. }
        split; [lia|]. split; [exact Ne|]. split; [exact Se|]. split; [exists [p]; reflexivity|]. left. cbn [length]. lia.
      + destruct (Z.leb_spec (2 * zlen l) 0); [|lia].
        set (e2 := with_pp (put e x b l) rest).
        assert (K2 : dok e2) by (unfold e2; constructor; fld; [exact Lb|exact (k_lpt e Ke)|exact (k_pos e Ke)|pose proof (k_dt e Ke); unfold zlen; lia|apply u32_range]).
        destruct (IH Ts e2 K2 Le Ne eq_refl) as [(d' & E' & K' & L' & N' & S' & (pre & P') & D')|[(d' & E')|(B & O)]].
        * left. exists d'. split; [exact E'|]. split; [exact K'|]. split; [exact L'|]. split; [exact N'|]. split; [rewrite S'; exact Se|].
          split; [exists (p :: pre); cbn; rewrite <- P'; reflexivity|]. left. cbn [length]. destruct D' as [D'|(D' & _)]; [lia|rewrite D'; lia].
        * right. left. exists d'. exact E'.
        * right. right. split; [exact B|]. destruct O as [O|O]; [left; exact O|right; intros F; apply O; apply Forall_inv_tail in F; cbn; rewrite Se; exact F].
    - destruct (Z.ltb_spec 0 j); [lia|]. destruct (Z.leb_spec j 0); [|lia].
      set (e2 := with_pp e rest).
      assert (K2 : dok e2) by (unfold e2; constructor; fld; [exact (k_buf e Ke)|exact (k_lpt e Ke)|exact (k_pos e Ke)|exact (k_dt e Ke)|exact (k_nt e Ke)]).
      destruct (IH Ts e2 K2 Le Ne eq_refl) as [(d' & E' & K' & L' & N' & S' & (pre & P') & D')|[(d' & E')|(B & O)]].
      * left. exists d'. split; [exact E'|]. split; [exact K'|]. split; [exact L'|]. split; [exact N'|]. split; [rewrite S'; exact Se|].
        split; [exists (p :: pre); cbn; rewrite <- P'; reflexivity|]. left. cbn [length]. destruct D' as [D'|(D' & _)]; [lia|rewrite D'; lia].
      * right. left. exists d'. exact E'.
      * right. right. split; [exact B|]. destruct O as [O|O]; [left; exact O|right; intros F; apply O; apply Forall_inv_tail in F; cbn; rewrite Se; exact F].
    - right. right. split; [apply bad_bind, B|]. right. intros F. pose proof (Forall_inv F) as (_ & _ & _ & S3 & S18).
      destruct O as [(O1 & O2 & O3 & O4)|(O1 & O2 & O3 & O4 & O5)]; [destruct (S3 O1) as [S|S]; unfold zlen in *; [lia|exact (O4 S)]|].
      destruct (S18 O1 O5) as [S|S]; [exact (O3 S)|exact (O4 S)].
  Qed.

  (** ** Asking for samples *)
  Lemma get_pending (d : dec) : dok d -> 0 < d_oblen d ->
    exists d' v, get d = Ok (d', Sample v) /\ dok d' /\ pending d = v :: pending d' /\ d_oblen d' = d_oblen d - 1 /\
      d_pp d' = d_pp d /\ d_stime d' = d_stime d /\ d_nosync d' = d_nosync d /\ mes d' = mes d /\ d_nticks d' = d_nticks d /\ d_dticks d' = d_dticks d /\
      d_sticks d' = d_sticks d /\ d_x d' = d_x d.
  Proof.
    intros K L. unfold decoder_get. destruct (Z.eqb_spec (d_oblen d) 0); [lia|]. destruct (k_pos d K) as (P1 & P2 & P3).
    pose proof (k_buf d K) as Lb. unfold OBUF in *.
    destruct (nth_error (d_obuf d) (Z.to_nat (d_obp d))) as [v|] eqn:E; [|apply nth_error_None in E; lia].
    eexists _, v. split; [reflexivity|]. split. { constructor; fld; [exact Lb|exact (k_lpt d K)|unfold OBUF; lia|exact (k_dt d K)|exact (k_nt d K)]. }
    split; [|repeat (split; [reflexivity|]); reflexivity]. unfold pending. fld.
    replace (Z.to_nat (d_oblen d)) with (S (Z.to_nat (d_oblen d - 1))) by lia. replace (Z.to_nat (d_obp d + 1)) with (S (Z.to_nat (d_obp d))) by lia.
    rewrite (skipn_nth _ _ _ E). reflexivity.
  Qed.
  Lemma get_empty (d : dec) : d_oblen d = 0 -> get d = bind (fill d (d_pp d)) (fun '(d, s) => match s with Full => if d_oblen d =? 0 then get d else get d | Other g => Ok (d, g) end) \/
    exists d', fill d (d_pp d) = Ok (d', Full) /\ d_oblen d' = 0.
  Proof.
    intros L. unfold decoder_get at 1. rewrite L, Z.eqb_refl. destruct (fill d (d_pp d)) as [(d' & [|g])| | | |] eqn:E; cbn [bind]; auto.
    destruct (Z.eqb_spec (d_oblen d') 0) as [Q|Q]; [right; exists d'; auto|]. left. unfold decoder_get. destruct (Z.eqb_spec (d_oblen d') 0); [contradiction|reflexivity].
  Qed.
  (** after the buffer is filled it is as if there had been something in it *)
  Lemma get_full (d d' : dec) : d_oblen d = 0 -> fill d (d_pp d) = Ok (d', Full) -> 0 < d_oblen d' -> get d = get d'.
  Proof.
    intros L E L'. unfold decoder_get. rewrite L, Z.eqb_refl, E. cbn [bind]. destruct (Z.eqb_spec (d_oblen d') 0); [lia|reflexivity].
  Qed.

  Definition ends (d : dec) : Prop := (exists l, plays d l) \/ (fails d /\ objects d (d_pp d)).
  Lemma objects_suffix (d d' : dec) : d_stime d' = d_stime d -> (exists pre, d_pp d = pre ++ d_pp d') -> objects d' (d_pp d') -> objects d (d_pp d).
  Proof.
    intros S (pre & P) [O|O]; [left; exact O|right]. intros F. apply O. rewrite P in F. apply Forall_app in F as (_ & F). rewrite S. exact F.
  Qed.
  Lemma ends_pending n : forall d : dec, dok d -> d_oblen d = Z.of_nat n ->
    (forall e : dec, dok e -> d_oblen e = 0 -> d_pp e = d_pp d -> d_stime e = d_stime d -> d_nosync e = d_nosync d -> mes e = mes d -> ends e) -> ends d.
  Proof.
    induction n as [|n IH]; intros d K L H; [apply H; auto; lia|].
    destruct (get_pending d K ltac:(lia)) as (d' & v & E & K' & _ & L' & P' & S' & N' & M' & _).
    assert (Q : ends d').
    { apply IH; [exact K'|lia|]. intros e Ke Le Pe Se Ne Me. apply H; try assumption; congruence. }
    destruct Q as [(l & Q)|(Q & O)]; [left; exists (v :: l); exact (plays_more _ _ _ _ d d' v l E Q)|right].
    split; [exact (fails_later _ _ _ _ d d' v E Q)|]. rewrite P' in O. destruct O as [O|O]; [left; exact O|right; rewrite S' in O; exact O].
  Qed.
  Lemma stream_ends (OK : codecs_ok) : forall n m (d : dec), (length (d_pp d) <= n)%nat -> (mes d <= m)%nat -> Forall (fun p => 0 <= p_ts p < 2 ^ 32) (d_pp d) ->
    dok d -> d_nosync d = false -> ends d.
  Proof.
    induction n as [n IHn] using lt_wf_ind. induction m as [m IHm] using lt_wf_ind. intros d Hn Hm Ts K Ns.
    destruct (k_pos d K) as (_ & P2 & _). apply (ends_pending (Z.to_nat (d_oblen d)) d K ltac:(lia)).
    intros e Ke Le Pe Se Ne Me. rewrite Ns in Ne. rewrite <- Pe in Ts.
    destruct (fill_cases OK (d_pp e) Ts e Ke Le Ne eq_refl) as [(d' & E & K' & L' & N' & S' & Pr & D')|[(d' & E)|(B & O)]].
    - assert (Q : ends d').
      { assert (Ts' : Forall (fun p => 0 <= p_ts p < 2 ^ 32) (d_pp d')) by (destruct Pr as (pre & Pr); rewrite Pr in Ts; apply Forall_app in Ts; tauto).
        destruct D' as [D'|(D' & M')].
        - apply (IHn (length (d_pp d')) ltac:(rewrite Pe in D'; lia) (mes d')); auto.
        - apply (IHm (mes d') ltac:(lia)); auto. rewrite D', Pe. exact Hn. }
      pose proof (get_full e d' Le E L') as G. destruct Q as [(l & Q)|(Q & O)].
      + left. exists l. inversion Q as [d0 d1 E1|d0 d1 v l1 E1 Q1]; subst; [eapply plays_end; rewrite G; exact E1|eapply plays_more; [rewrite G; exact E1|exact Q1]].
      + right. split; [|exact (objects_suffix e d' S' Pr O)]. inversion Q as [d0 B|d0 d1 v E1 Q1]; subst; [apply fails_now; rewrite G; exact B|eapply fails_later; [rewrite G; exact E1|exact Q1]].
    - left. exists []. apply (plays_end _ _ _ _ e d'). unfold decoder_get. rewrite Le, Z.eqb_refl, E. reflexivity.
    - right. split; [|exact O]. apply fails_now. unfold decoder_get. rewrite Le, Z.eqb_refl. apply bad_bind, B.
  Qed.
  Lemma dok_new x nosync s : Forall (fun p => 0 <= p_ts p < 2 ^ 32) s -> dok (decoder_new x nosync s).
  Proof.
    intros F. destruct s as [|p s]; constructor; cbn -[repeat]; try (apply repeat_length); try (left; reflexivity); try (unfold OBUF; lia). exact (Forall_inv F).
  Qed.

  (** ** Packets in time *)
  Notation speech := (speech g729_decode g722_decode gsm_decode c).
  Notation laid := (laid g729_decode g722_decode gsm_decode c).

  Lemma firstn_exact (b r : list Z) n : length b = n -> firstn n (b ++ r) = b.
  Proof. intros <-. rewrite firstn_app, Nat.sub_diag, firstn_all. cbn [firstn]. apply app_nil_r. Qed.
  Lemma skipn_exact (b r : list Z) n : length b = n -> skipn n (b ++ r) = r.
  Proof. intros <-. rewrite skipn_app, Nat.sub_diag, skipn_all. reflexivity. Qed.
  Lemma g729_frames_all f (Hf : (0 < f <= 10)%nat) : forall fs n x, Forall (fun b => length b = f) fs -> (length fs <= n)%nat ->
    g729_frames g729_decode c n f x (concat fs) = Ok (decode_all g729_decode x fs).
  Proof.
    induction fs as [|b fs IH]; intros n x F L; [cbn; destruct n; reflexivity|]. destruct n as [|n]; [cbn in L; lia|].
    pose proof (Forall_inv F) as Lb. apply Forall_inv_tail in F. cbn beta in Lb. cbn [concat g729_frames decode_all].
    destruct (b ++ concat fs) as [|h t] eqn:E; [destruct b; [cbn in Lb; lia|discriminate E]|]. rewrite <- E. clear h t E.
    replace (match f_729 c with Bcg729 => (10 <? f)%nat | _ => false end) with false by (destruct (f_729 c); try reflexivity; symmetry; apply Nat.ltb_ge; lia).
    rewrite (firstn_exact b (concat fs) f Lb), (skipn_exact b (concat fs) f Lb). destruct (g729_decode x b) as (y & o).
    rewrite (IH n y F) by (cbn in L; lia). cbn [bind]. destruct (decode_all g729_decode y fs). reflexivity.
  Qed.
  Lemma gsm_frames_all : forall fs n x, Forall (fun b => length b = 33%nat) fs -> (length fs <= n)%nat ->
    gsm_frames gsm_decode n x (concat fs) = Ok (decode_all gsm_decode x fs).
  Proof.
    induction fs as [|b fs IH]; intros n x F L; [cbn; destruct n; reflexivity|]. destruct n as [|n]; [cbn in L; lia|].
    pose proof (Forall_inv F) as Lb. apply Forall_inv_tail in F. cbn beta in Lb. cbn [concat gsm_frames decode_all].
    destruct (b ++ concat fs) as [|h t] eqn:E; [destruct b; [cbn in Lb; lia|discriminate E]|]. rewrite <- E. clear h t E.
    replace (length (b ++ concat fs) <? 33)%nat with false by (symmetry; apply Nat.ltb_ge; rewrite app_length; lia).
    rewrite (firstn_exact b (concat fs) 33 Lb), (skipn_exact b (concat fs) 33 Lb). destruct (gsm_decode x b) as (y & o).
    rewrite (IH n y F) by (cbn in L; lia). cbn [bind]. destruct (decode_all gsm_decode y fs). reflexivity.
  Qed.
  Lemma concat_len (fs : list (list Z)) n : Forall (fun b => length b = n) fs -> length (concat fs) = (n * length fs)%nat.
  Proof. induction 1 as [|b fs Hb F IH]; cbn [concat length]; [lia|]. rewrite app_length, IH. lia. Qed.
  Lemma decode_all_len f n : (forall x b, length (snd (f x b)) = n) -> forall fs (x : X), length (snd (decode_all f x fs)) = (n * length fs)%nat.
  Proof.
    intros H. induction fs as [|b fs IH]; intros x; cbn [decode_all length]; [cbn; lia|]. pose proof (H x b) as L. destruct (f x b) as (y & o). cbn [snd] in L.
    specialize (IH y). destruct (decode_all f y fs) as (z & t). cbn [snd] in *. rewrite app_length. lia.
  Qed.

  Lemma decode_speech (OK : codecs_ok) (d : dec) p y o : length (d_obuf d) = Z.to_nat OBUF -> byte_string (p_load p) -> speech (d_x d) p y o ->
    (exists b, decode_frame d p = Ok (put d y b o, 2 * zlen o) /\ length b = Z.to_nat OBUF /\ firstn (length o) b = o /\ zlen o <= OBUF /\ lpt_ok (p_pt p)) \/
    (o = [] /\ y = d_x d /\ exists j, decode_frame d p = Ok (d, j) /\ j <= 0).
  Proof.
    intros L By Sp. unfold decode_frame.
    assert (Ib : Z.of_nat (length (p_load p)) <= 4096 -> firstn (Z.to_nat (if OBUF * 2 <? Z.of_nat (length (p_load p)) * 2 then OBUF * 2 / 2 else Z.of_nat (length (p_load p)))) (p_load p) = p_load p).
    { intros H. destruct (Z.ltb_spec (OBUF * 2) (Z.of_nat (length (p_load p)) * 2)) as [Q|Q]; [unfold OBUF in Q; lia|]. rewrite Nat2Z.id. apply firstn_all. }
    assert (P : forall x l, zlen l <= OBUF -> lpt_ok (p_pt p) -> exists b, bind (write (d_obuf d) 0 l) (fun b => Ok (forward (with_buf d x b) (Z.of_nat (length l)) (Z.of_nat (length l)), 2 * Z.of_nat (length l))) =
              Ok (put d x b l, 2 * zlen l) /\ length b = Z.to_nat OBUF /\ firstn (length l) b = l /\ zlen l <= OBUF /\ lpt_ok (p_pt p)).
    { intros x l Hl Hp. destruct (write_ok (d_obuf d) 0 l L ltac:(lia) ltac:(lia)) as (b & -> & Lb & E). exists b. cbn [bind]. split; [reflexivity|]. split; [exact Lb|]. split; [exact E|]. auto. }
    destruct Sp as [Ep H|Ep H|Ep Ef H|fs Ep Ef El Fl Ln|fs Ep Ef El Fl Ln|N].
    - left. rewrite Ib by exact H. rewrite Ep. cbn [Z.eqb]. rewrite (map_bytes _ _ _ ulaw_byte By). rewrite Ep in P. apply P; [unfold zlen, OBUF; rewrite map_length; lia|unfold lpt_ok; auto].
    - left. rewrite Ib by exact H. rewrite Ep. cbn [Z.eqb]. rewrite (map_bytes _ _ _ alaw_byte By). rewrite Ep in P. apply P; [unfold zlen, OBUF; rewrite map_length; lia|unfold lpt_ok; auto].
    - left. rewrite Ib by exact H. rewrite Ep. cbn [Z.eqb Pos.eqb]. rewrite Ef. pose proof (proj1 (proj2 OK) (d_x d) (p_load p)) as Lo. destruct (g722_decode (d_x d) (p_load p)) as (x & l).
      cbn [fst snd] in *. rewrite Ep in P. apply P; [unfold zlen, OBUF; lia|unfold lpt_ok; auto].
    - left. rewrite Ep. cbn [Z.eqb Pos.eqb]. rewrite El. pose proof (concat_len fs 10 Fl) as Lc. rewrite Ep in P.
      assert (M : Z.of_nat (length (concat fs)) mod 10 = 0) by (rewrite Lc; lia). rewrite M. cbn [Z.eqb].
      rewrite (g729_frames_all 10 ltac:(lia) fs 51 (d_x d) Fl Ln). pose proof (decode_all_len g729_decode 80 (proj1 OK) fs (d_x d)) as Lo.
      destruct (decode_all g729_decode (d_x d) fs) as (x & l). cbn [bind fst snd] in *.
      assert (Hp : lpt_ok 18) by (right; right; right; right; split; [reflexivity|exact Ef]). specialize (P x l ltac:(unfold zlen, OBUF; lia) Hp). clear Hp.
      destruct (f_729 c); [congruence|exact P|exact P].
    - left. rewrite Ep. cbn [Z.eqb Pos.eqb]. rewrite Ef, El. pose proof (concat_len fs 33 Fl) as Lc. rewrite Ep in P.
      destruct (Z.ltb_spec (Z.of_nat (length (concat fs))) 33) as [Q|Q]; [rewrite Lc in Q; lia|].
      rewrite (gsm_frames_all fs 25 (d_x d) Fl) by lia. pose proof (decode_all_len gsm_decode 160 (proj2 (proj2 OK)) fs (d_x d)) as Lo.
      destruct (decode_all gsm_decode (d_x d) fs) as (x & l). cbn [bind fst snd] in *. apply P; [unfold zlen, OBUF; lia|unfold lpt_ok; auto].
    - right. split; [reflexivity|]. split; [reflexivity|]. unfold plays_type in N.
      destruct (Z.eqb_spec (p_pt p) 0); [tauto|]. destruct (Z.eqb_spec (p_pt p) 8); [tauto|].
      destruct (Z.eqb_spec (p_pt p) 18). { destruct (f_729 c) eqn:E; [exists (-1); split; [reflexivity|lia]| |]; exfalso; apply N; right; right; right; left; split; try assumption; discriminate. }
      destruct (Z.eqb_spec (p_pt p) 9). { destruct (f_722 c); [tauto|]. exists (-1). split; [reflexivity|lia]. }
      destruct (Z.eqb_spec (p_pt p) 3). { destruct (f_gsm c); [tauto|]. exists (-1). split; [reflexivity|lia]. }
      destruct (_ || _); [exists 0|exists (-1)]; split; try reflexivity; lia.
  Qed.

  Lemma plays_get (d d' : dec) l : get d = get d' -> plays d' l -> plays d l.
  Proof. intros G Q. inversion Q as [d0 d1 E1|d0 d1 v l1 E1 Q1]; subst; [eapply plays_end; rewrite G; exact E1|eapply plays_more; [rewrite G; exact E1|exact Q1]]. Qed.
  (** what the clocks and the codec of two decoders have in common *)
  Definition like (d e : dec) : Prop := d_pp e = d_pp d /\ d_stime e = d_stime d /\ d_nosync e = d_nosync d /\ d_nticks e = d_nticks d /\ d_dticks e = d_dticks d /\
    d_sticks e = d_sticks d /\ d_x e = d_x d.
  Lemma plays_pending n : forall (d : dec) l s, dok d -> d_oblen d = Z.of_nat n -> pending d = l ->
    (forall e, dok e -> d_oblen e = 0 -> like d e -> plays e s) -> plays d (l ++ s).
  Proof.
    induction n as [|n IH]; intros d l s K L P H.
    - assert (l = []) as -> by (rewrite <- P; unfold pending; rewrite L; reflexivity). apply H; [exact K|lia|repeat split].
    - destruct (get_pending d K ltac:(lia)) as (d' & v & E & K' & P' & L' & A1 & A2 & A3 & _ & A4 & A5 & A6 & A7). rewrite P' in P. subst l. cbn [app].
      apply (plays_more _ _ _ _ d d' v _ E). apply (IH d'); [exact K'|lia|reflexivity|]. intros e Ke Le (B1 & B2 & B3 & B4 & B5 & B6 & B7).
      apply H; [exact Ke|exact Le|]. unfold like. repeat split; congruence.
  Qed.

  Lemma laid_plays (OK : codecs_ok) (Nf : f_729 c <> Other729) base t0 : forall x at_ pp s, laid base t0 x at_ pp s -> 0 <= base <= at_ -> at_ < 2 ^ 32 ->
    forall d : dec, dok d -> d_oblen d = 0 -> d_nosync d = false -> d_pp d = pp -> d_x d = x -> d_nticks d = at_ -> d_dticks d = at_ - base ->
    d_sticks d = base -> d_stime d = t0 -> plays d s.
  Proof.
    induction 1 as [x at_|x at_ p y o l s H1 H2 By H3 H4 Sp Ld IH]; intros Hb Ha d K L0 Ns Ep Ex En Ed Es Et.
    { apply (plays_end _ _ _ _ d d). unfold decoder_get. rewrite L0, Z.eqb_refl, Ep. reflexivity. }
    (* first the packet, when its time has come *)
    assert (Now : forall e : dec, dok e -> d_oblen e = 0 -> d_nosync e = false -> d_pp e = p :: l -> d_x e = x -> d_nticks e = p_ts p -> d_dticks e = p_ts p - base ->
                  d_sticks e = base -> d_stime e = t0 -> plays e (o ++ s)).
    { clear d K L0 Ns Ep Ex En Ed Es Et. intros d K L0 Ns Ep Ex En Ed Es Et.
      assert (Fl : fill d (d_pp d) = bind (decode_frame d p) (fun '(d, j) => let d := with_pp (if 0 <? j then with_lpt d (p_pt p) else d) l in
                     if j <=? 0 then fill d l else Ok (filled d (j / 2), Full))).
      { rewrite Ep. cbn [EaudModel.fill]. rewrite Es, Et. rewrite u32_small by lia.
        destruct (Z.ltb_spec (p_time p - t0 + 1000000) ((p_ts p - base) / 8000 * 1000000)) as [Q|_]; [lia|]. cbn [bind]. rewrite En, Z.ltb_irrefl, Ed.
        destruct (Z.ltb_spec 200000 (p_time p - t0 - 125 * (p_ts p - base))) as [Q|_]; [lia|]. reflexivity. }
      rewrite <- Ex in Sp. destruct (decode_speech OK d p y o (k_buf d K) By Sp) as [(b & Dc & Lb & Fb & Lo & Lp)|(-> & -> & j & Dc & J)].
      - rewrite Dc in Fl. cbn [bind] in Fl. destruct o as [|v o].
        + change (2 * zlen []) with 0 in Fl. cbn [Z.ltb Z.leb Z.compare] in Fl. cbn [app]. set (e := with_pp (put d y b []) l) in *.
          assert (Ke : dok e) by (unfold e; constructor; fld; [exact Lb|exact (k_lpt d K)|exact (k_pos d K)|pose proof (k_dt d K); unfold zlen; cbn; lia|apply u32_range]).
          apply (plays_get d e).
          { unfold decoder_get. rewrite L0. change (d_oblen e) with (d_oblen d). rewrite L0, Z.eqb_refl, Fl. reflexivity. }
          assert (Z0 : zlen [] = 0) by reflexivity. cbn [length] in *. apply IH; try (unfold e; fld); try assumption; try reflexivity; try lia.
          rewrite Z0, En, u32_small by lia. lia.
        + assert (Po : 0 < zlen (v :: o)) by (unfold zlen; cbn [length]; lia).
          destruct (Z.ltb_spec 0 (2 * zlen (v :: o))) as [_|]; [|lia]. destruct (Z.leb_spec (2 * zlen (v :: o)) 0) as [|_]; [lia|].
          replace (2 * zlen (v :: o) / 2) with (zlen (v :: o)) in Fl by lia.
          match type of Fl with _ = Ok (?e, Full) => set (e2 := e) in * end.
          assert (Le : d_oblen e2 = zlen (v :: o)) by reflexivity.
          assert (Ke : dok e2) by (unfold e2; constructor; fld; [exact Lb|exact Lp|lia|pose proof (k_dt d K); unfold zlen; cbn [length]; lia|apply u32_range]).
          apply (plays_get d e2); [apply (get_full d e2 L0 Fl); lia|].
          apply (plays_pending (length (v :: o)) e2); [exact Ke|exact Le| |].
          * unfold pending. rewrite Le. unfold e2. fld. unfold zlen. rewrite Nat2Z.id. exact Fb.
          * intros e K' L' (B1 & B2 & B3 & B4 & B5 & B6 & B7). unfold e2 in B1, B2, B3, B4, B5, B6, B7. revert B1 B2 B3 B4 B5 B6 B7. fld. intros B1 B2 B3 B4 B5 B6 B7.
            apply IH; try assumption; try lia; try congruence.
            -- rewrite B4, En, u32_small by (unfold zlen; lia). reflexivity.
            -- rewrite B5, Ed. unfold zlen. lia.
      - rewrite Dc in Fl. cbn [bind] in Fl. destruct (Z.ltb_spec 0 j) as [|_]; [lia|]. destruct (Z.leb_spec j 0) as [_|]; [|lia]. cbn [app]. set (e := with_pp d l) in *.
        assert (Ke : dok e) by (unfold e; constructor; fld; [exact (k_buf d K)|exact (k_lpt d K)|exact (k_pos d K)|exact (k_dt d K)|exact (k_nt d K)]).
        apply (plays_get d e).
        { unfold decoder_get. rewrite L0. change (d_oblen e) with (d_oblen d). rewrite L0, Z.eqb_refl, Fl. reflexivity. }
        cbn [length] in *. apply IH; try (unfold e; fld); try assumption; try reflexivity; try lia. }
    (* then the silence before it *)
    assert (Gap : forall n (e : dec), (Z.to_nat (p_ts p - d_nticks e) <= n)%nat -> base <= d_nticks e <= p_ts p -> dok e -> d_oblen e = 0 -> d_nosync e = false -> d_pp e = p :: l -> d_x e = x ->
                  d_dticks e = d_nticks e - base -> d_sticks e = base -> d_stime e = t0 -> plays e (repeat 0 (Z.to_nat (p_ts p - d_nticks e)) ++ o ++ s)).
    { clear d K L0 Ns Ep Ex En Ed Es Et. induction n as [|n IHn]; intros d Hn Hr K L0 Ns Ep Ex Ed Es Et.
      { assert (E : d_nticks d = p_ts p) by lia. rewrite E, Z.sub_diag. cbn [Z.to_nat repeat app]. apply Now; try assumption. rewrite Ed, E. reflexivity. }
      destruct (Z.eq_dec (d_nticks d) (p_ts p)) as [E|E].
      { rewrite E, Z.sub_diag. cbn [Z.to_nat repeat app]. apply Now; try assumption. rewrite Ed, E. reflexivity. }
      set (t := Z.min 4000 (p_ts p - d_nticks d)). assert (Ht : 0 < t <= 4000 /\ t <= p_ts p - d_nticks d) by (unfold t; lia). destruct Ht as (Ht & Ht2).
      destruct (silence_cases d t (k_buf d K) (k_lpt d K) Ht) as [(z & b & Sl & Lb & Z0)|(_ & Q)]; [|contradiction]. destruct (Z0 Nf) as (-> & Fb).
      assert (Fl : fill d (d_pp d) = Ok (filled (forward (with_buf d (d_x d) b) t t) t, Full)).
      { rewrite Ep. cbn [EaudModel.fill]. rewrite Es, Et. rewrite u32_small by lia.
        destruct (Z.ltb_spec (p_time p - t0 + 1000000) ((p_ts p - base) / 8000 * 1000000)) as [Q|_]; [lia|]. cbn [bind].
        destruct (Z.ltb_spec (d_nticks d) (p_ts p)) as [_|]; [|lia]. fold t. rewrite Ns, Sl. cbn [bind]. destruct (Z.leb_spec (2 * t) 0); [lia|].
        replace (2 * t / 2) with t by lia. reflexivity. }
      match type of Fl with _ = Ok (?e, Full) => set (e2 := e) in * end.
      assert (Ke : dok e2) by (unfold e2; constructor; fld; [exact Lb|exact (k_lpt d K)|unfold OBUF; lia|pose proof (k_dt d K); lia|apply u32_range]).
      apply (plays_get d e2); [apply (get_full d e2 L0 Fl); unfold e2; fld; lia|].
      replace (repeat 0 (Z.to_nat (p_ts p - d_nticks d))) with (repeat 0 (Z.to_nat t) ++ repeat 0 (Z.to_nat (p_ts p - (d_nticks d + t)))) by (rewrite <- repeat_app; f_equal; lia).
      rewrite <- app_assoc. apply (plays_pending (Z.to_nat t) e2); [exact Ke|unfold e2; fld; lia| |].
      - unfold pending, e2. fld. exact Fb.
      - intros e K' L' (B1 & B2 & B3 & B4 & B5 & B6 & B7). unfold e2 in B1, B2, B3, B4, B5, B6, B7. revert B1 B2 B3 B4 B5 B6 B7. fld. intros B1 B2 B3 B4 B5 B6 B7.
        rewrite u32_small in B4 by lia. rewrite <- B4. apply IHn; try assumption; try lia; try congruence. }
    rewrite <- En. apply (Gap (Z.to_nat (p_ts p - d_nticks d))); try assumption; try lia.
  Qed.
End Codecs.
