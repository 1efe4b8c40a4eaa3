From Verif Require Import Base EaudModel MannModel MannSpec.

(** ** Slices and frames *)
Inductive fb : list (list Z) -> Prop :=
| fb_nil : fb []
| fb_last l : (0 < length l <= 160)%nat -> fb [l]
| fb_cons l sl : length l = 160%nat -> fb sl -> fb (l :: sl).

Lemma cut_more n : forall m l, (length l <= n)%nat -> (length l <= m)%nat -> cut n l = cut m l.
Proof.
  induction n as [|n IH]; intros [|m] [|x l] H1 H2; cbn [cut length] in *; try reflexivity; try lia. f_equal. apply IH; rewrite skipn_length; cbn [length]; lia.
Qed.
Lemma pad_slbuf l : (length l <= 160)%nat -> firstn 160 (l ++ repeat 0 160) = slbuf l.
Proof.
  intros H. unfold slbuf. rewrite firstn_app, firstn_all2 by assumption. f_equal.
  replace (repeat 0 160) with (repeat 0 (160 - length l) ++ repeat 0 (length l)) by (rewrite <- repeat_app; f_equal; lia).
  rewrite firstn_app, repeat_length, Nat.sub_diag. cbn [firstn]. rewrite app_nil_r. apply firstn_all2. rewrite repeat_length. lia.
Qed.
Lemma frames_slices sl : fb sl -> map slbuf sl = frames (concat sl).
Proof.
  induction 1 as [|l H|l sl H F IH].
  - reflexivity.
  - cbn [map concat]. rewrite app_nil_r. unfold frames. destruct l as [|x l]; [cbn in H; lia|].
    change (cut (length (x :: l)) (x :: l)) with (firstn 160 ((x :: l) ++ repeat 0 160) :: cut (length l) (skipn 160 (x :: l))).
    rewrite pad_slbuf by lia. f_equal. rewrite skipn_all2 by lia. destruct (length l); reflexivity.
  - cbn [map concat]. unfold frames in *. destruct l as [|x l]; [discriminate|]. set (y := x :: l) in *.
    replace (cut (length (y ++ concat sl)) (y ++ concat sl)) with (firstn 160 ((y ++ concat sl) ++ repeat 0 160) :: cut (length l + length (concat sl)) (skipn 160 (y ++ concat sl)))
      by (rewrite app_length; reflexivity).
    rewrite <- app_assoc, firstn_app, firstn_all2 by lia. rewrite H, Nat.sub_diag, firstn_O, app_nil_r.
    rewrite skipn_app, skipn_all2 by lia. rewrite H, Nat.sub_diag, skipn_O. cbn [app]. f_equal.
    + unfold slbuf. rewrite H. cbn [Nat.sub repeat]. now rewrite app_nil_r.
    + rewrite IH. apply cut_more; lia.
Qed.

(** ** A cyclic recording *)
Definition cycp (src : list Z) (n pos : nat) : list Z := map (fun i => nth (i mod length src) src 0) (seq pos n).
Lemma cycp_app src a b pos : cycp src (a + b) pos = cycp src a pos ++ cycp src b (pos + a).
Proof. unfold cycp. now rewrite seq_app, map_app. Qed.
Lemma cycp_wrap src n pos k : src <> [] -> cycp src n (pos + k * length src) = cycp src n pos.
Proof.
  intros H. unfold cycp. revert pos. induction n as [|n IH]; intros pos; [reflexivity|]. cbn [seq map].
  rewrite Nat.mod_add by (destruct src; [congruence|cbn; lia]). f_equal. exact (IH (S pos)).
Qed.
Lemma skipn_nth (src : list Z) : forall pos, (pos < length src)%nat -> skipn pos src = nth pos src 0 :: skipn (S pos) src.
Proof. induction src as [|x src IH]; intros [|pos] H; cbn [length] in H; try lia; [reflexivity|]. exact (IH pos ltac:(lia)). Qed.
Lemma cycp_in src n : forall pos, (pos + n <= length src)%nat -> cycp src n pos = firstn n (skipn pos src).
Proof.
  induction n as [|n IH]; intros pos H; [reflexivity|]. unfold cycp in *. cbn [seq map]. rewrite IH by lia.
  rewrite Nat.mod_small by lia. rewrite (skipn_nth src pos) by lia. reflexivity.
Qed.
Lemma cycp_length src n pos : length (cycp src n pos) = n.
Proof. unfold cycp. now rewrite map_length, seq_length. Qed.

Lemma firstn_plus {A} a : forall b (l : list A), firstn (a + b) l = firstn a l ++ firstn b (skipn a l).
Proof. induction a as [|a IH]; intros b [|x l]; cbn [Nat.add firstn skipn app]; rewrite ?firstn_nil; try reflexivity. now rewrite IH. Qed.

Lemma skipn_skipn {A} a : forall b (l : list A), skipn a (skipn b l) = skipn (a + b) l.
Proof. intros b. induction b as [|b IH]; intros l; [now rewrite Nat.add_0_r|]. rewrite Nat.add_succ_r. destruct l as [|x l]; [now rewrite !skipn_nil|]. exact (IH l). Qed.

(** ** lawbuf *)
Lemma store0 buf b : store buf 0 b = b ++ skipn (length b) buf.
Proof. reflexivity. Qed.
Lemma store_length buf off b : (off + length b <= length buf)%nat -> length (store buf off b) = length buf.
Proof. intros H. unfold store. rewrite !app_length, firstn_length, skipn_length. lia. Qed.
Lemma store0_out buf b : firstn (length b) (store buf 0 b) = b.
Proof. rewrite store0, firstn_app, Nat.sub_diag, firstn_all. cbn. apply app_nil_r. Qed.
Lemma store_two buf b0 b1 : (length b0 + length b1 <= length buf)%nat ->
  firstn (length b0 + length b1) (store (store buf 0 b0) (length b0) b1) = b0 ++ b1.
Proof.
  intros H. unfold store at 1. rewrite store0_out. rewrite app_assoc, firstn_app, firstn_all2 by (rewrite app_length; lia).
  rewrite app_length, Nat.sub_diag. cbn [firstn]. apply app_nil_r.
Qed.

Section Read.
  Context (f : input) (loop : bool).
  (** the reading alone *)
  Fixpoint slices (fuel : nat) (rl : option nat) (pos : nat) : list (list Z) :=
    match fuel with
    | O => []
    | S fuel =>
        if match rl with Some O => true | _ => false end then []
        else
          let rsize := match rl with Some r => Nat.min 160 r | None => 160%nat end in
          let (l, p) := read_frame f loop pos rsize in
          if (length l =? 0)%nat then []
          else l :: slices fuel (match rl with Some r => Some (r - length l)%nat | None => None end) p
    end.
  Definition rsz (rl : option nat) : nat := match rl with Some r => Nat.min 160 r | None => 160%nat end.
  Lemma read_le pos n : (length (fst (read_frame f loop pos n)) <= n)%nat.
  Proof.
    unfold read_frame, fread. pose proof (firstn_le_length n (skipn pos (in_samples f))). destruct (_ && _ && _); cbn [fst]; [|assumption].
    rewrite app_length. pose proof (firstn_le_length (n - length (firstn n (skipn pos (in_samples f)))) (skipn 0 (in_samples f))). lia.
  Qed.

  Lemma read_pos pos n : fst (read_frame f false pos n) = firstn n (skipn pos (in_samples f)) /\ snd (read_frame f false pos n) = (pos + length (fst (read_frame f false pos n)))%nat.
  Proof. unfold read_frame, fread. rewrite andb_false_r. split; reflexivity. Qed.
  (** the slices without -L *)
  Lemma slices_plain fuel : forall rl pos, loop = false ->
    (match rl with Some r => r < fuel | None => length (in_samples f) - pos < fuel end)%nat ->
    concat (slices fuel rl pos) = (match rl with Some r => firstn r (skipn pos (in_samples f)) | None => skipn pos (in_samples f) end) /\ fb (slices fuel rl pos).
  Proof.
    intros rl0 pos0 LP. revert rl0 pos0. induction fuel as [|fuel IH]; intros rl pos H; [destruct rl; lia|]. cbn [slices].
    destruct rl as [[|r]|]; cbn [concat]; cbv beta iota in H.
    - split; [reflexivity|constructor].
    - set (n := Nat.min 160 (S r)). destruct (read_pos pos n) as [P1 P2]. rewrite LP. destruct (read_frame f false pos n) as [l p]. cbn [fst snd] in P1, P2. subst p.
      assert (LL : length l = Nat.min n (length (in_samples f) - pos)) by (subst l; now rewrite firstn_length, skipn_length).
      destruct (Nat.eqb_spec (length l) 0) as [L0|L0].
      + split; [|constructor]. cbn [concat]. rewrite skipn_all2 by lia. reflexivity.
      + destruct (IH (Some (S r - length l)%nat) (pos + length l)%nat ltac:(cbv beta iota; lia)) as [I1 I2]. cbn [concat]. split.
        * rewrite I1. transitivity (firstn (length l + (S r - length l)) (skipn pos (in_samples f))); [|f_equal; lia].
          rewrite firstn_plus, skipn_skipn, (Nat.add_comm (length l) pos). f_equal. rewrite LL, P1.
          destruct (Nat.le_gt_cases n (length (in_samples f) - pos)) as [C|C]; [now rewrite Nat.min_l by exact C|].
          rewrite Nat.min_r by lia. rewrite !firstn_all2; try reflexivity; rewrite skipn_length; lia.
        * destruct (Nat.eq_dec (length l) 160) as [F|F]; [now constructor|].
          assert (N : slices fuel (Some (S r - length l)%nat) (pos + length l) = []).
          { destruct fuel as [|fuel']; [reflexivity|]. cbn [slices]. destruct (Nat.eq_dec (S r - length l) 0) as [Z0|Z0]; [now rewrite Z0|].
            destruct (S r - length l)%nat as [|r'] eqn:RR; [lia|]. destruct (read_pos (pos + length l) (Nat.min 160 (S r'))) as [P3 _]. rewrite LP.
            destruct (read_frame f false (pos + length l) (Nat.min 160 (S r'))) as [l2 p2]. cbn [fst] in P3. subst l2. rewrite firstn_length, skipn_length.
            replace (length (in_samples f) - (pos + length l))%nat with 0%nat by lia. rewrite Nat.min_0_r. reflexivity. }
          rewrite N. constructor. lia.
    - destruct (read_pos pos 160) as [P1 P2]. rewrite LP. destruct (read_frame f false pos 160) as [l p]. cbn [fst snd] in P1, P2. subst p.
      assert (LL : length l = Nat.min 160 (length (in_samples f) - pos)) by (subst l; now rewrite firstn_length, skipn_length).
      destruct (Nat.eqb_spec (length l) 0) as [L0|L0].
      + split; [|constructor]. cbn [concat]. rewrite skipn_all2 by lia. reflexivity.
      + destruct (IH None (pos + length l)%nat ltac:(cbv beta iota; lia)) as [I1 I2]. cbn [concat]. split.
        * rewrite I1. rewrite <- (firstn_skipn 160 (skipn pos (in_samples f))), <- P1. f_equal. rewrite skipn_skipn.
          destruct (Nat.le_gt_cases 160 (length (in_samples f) - pos)); [f_equal; lia|]. rewrite !skipn_all2 by lia. reflexivity.
        * destruct (Nat.eq_dec (length l) 160) as [F|F]; [now constructor|].
          assert (N : slices fuel None (pos + length l) = []).
          { destruct fuel as [|fuel']; [reflexivity|]. cbn [slices]. destruct (read_pos (pos + length l) 160) as [P3 _]. rewrite LP.
            destruct (read_frame f false (pos + length l) 160) as [l2 p2]. cbn [fst] in P3. subst l2. rewrite firstn_length, skipn_length.
            replace (length (in_samples f) - (pos + length l))%nat with 0%nat by lia. reflexivity. }
          rewrite N. constructor. lia.
  Qed.

  (** the slices with -L *)
  Lemma read_loop pos n : in_bad f = false -> in_samples f <> [] -> (pos <= length (in_samples f))%nat -> (0 < n)%nat ->
    let '(l, p) := read_frame f true pos n in
    (0 < length l)%nat /\ l = cycp (in_samples f) (length l) pos /\ (p <= length (in_samples f))%nat /\ (exists k, (pos + length l = p + k * length (in_samples f))%nat)
    /\ ((n <= length (in_samples f))%nat -> length l = n).
  Proof.
    intros NB NE P N. unfold read_frame, fread. rewrite NB. cbn [negb]. rewrite !andb_true_r, skipn_O. set (src := in_samples f) in *.
    assert (LS : (0 < length src)%nat) by (destruct src; [congruence|cbn; lia]).
    assert (LA : length (firstn n (skipn pos src)) = Nat.min n (length src - pos)) by now rewrite firstn_length, skipn_length.
    destruct (Nat.ltb_spec (length (firstn n (skipn pos src))) n) as [S1|S1].
    - assert (A : firstn n (skipn pos src) = cycp src (length src - pos) pos).
      { rewrite cycp_in by lia. rewrite !firstn_all2; try reflexivity; rewrite skipn_length; lia. }
      assert (A2 : length (firstn n (skipn pos src)) = (length src - pos)%nat) by lia.
      assert (Bq : firstn (n - length (firstn n (skipn pos src))) src = cycp src (Nat.min (n - (length src - pos)) (length src)) (pos + (length src - pos))).
      { replace (pos + (length src - pos))%nat with (0 + 1 * length src)%nat by lia. rewrite cycp_wrap by assumption. rewrite cycp_in by lia. rewrite skipn_O, A2.
        destruct (Nat.le_gt_cases (n - (length src - pos)) (length src)); [now rewrite Nat.min_l by assumption|]. rewrite Nat.min_r by lia. rewrite !firstn_all2; try reflexivity; lia. }
      rewrite Bq, A, <- cycp_app, !cycp_length. split; [lia|]. split; [reflexivity|]. split; [lia|]. split; [exists 1%nat; lia|]. intros; lia.
    - split; [lia|]. split; [|split; [lia|]]; [|split; [exists 0%nat; lia | lia]]. rewrite LA, cycp_in by lia. f_equal. lia.
  Qed.
  Lemma slices_loop fuel : forall r pos, loop = true -> in_bad f = false -> in_samples f <> [] -> (pos <= length (in_samples f))%nat -> (r < fuel)%nat ->
    concat (slices fuel (Some r) pos) = cycp (in_samples f) r pos /\ ((160 <= length (in_samples f))%nat -> fb (slices fuel (Some r) pos)).
  Proof.
    intros r0 pos0 LP NB NE. revert r0 pos0. induction fuel as [|fuel IH]; intros r pos P H; [lia|]. cbn [slices].
    destruct r as [|r]; [split; [reflexivity|constructor]|]. set (n := Nat.min 160 (S r)).
    pose proof (read_loop pos n NB NE P ltac:(lia)) as X. rewrite LP. pose proof (read_le pos n) as LE. rewrite LP in LE. destruct (read_frame f true pos n) as [l p]. destruct X as (X1 & X2 & X3 & (k & X4) & X5). cbn [fst] in LE.
    destruct (Nat.eqb_spec (length l) 0) as [L0|L0]; [lia|]. destruct (IH (S r - length l)%nat p X3 ltac:(lia)) as [I1 I2]. cbn [concat]. split.
    - rewrite I1. replace (S r) with (length l + (S r - length l))%nat at 2 by lia. rewrite cycp_app, <- X2. f_equal. rewrite X4. now rewrite cycp_wrap.
    - intros L. specialize (X5 ltac:(lia)). destruct (Nat.eq_dec (length l) 160) as [F|F]; [constructor; auto|].
      replace (S r - length l)%nat with 0%nat by lia. assert (N : slices fuel (Some 0%nat) p = []) by (destruct fuel; reflexivity). rewrite N. constructor. lia.
  Qed.
End Read.

Section Enc.
  Context {G T D : Type}.
  Context (gsm : G -> list Z -> G * list Z) (g729 : T -> list Z -> T * list Z) (g722 : D -> list Z -> D * list Z).
  Context (cf : mcfg) (f : input) (loop : bool) (wok : nat -> Z -> bool).
  Notation mst := (@mst G T D).

  Fixpoint final {X} (enc : X -> list Z -> X * list Z) (st : X) (fs : list (list Z)) : X :=
    match fs with [] => st | x :: fs => final enc (fst (enc st x)) fs end.
  Lemma encoded_app {X} (enc : X -> list Z -> X * list Z) a : forall st b, encoded enc st (a ++ b) = encoded enc st a ++ encoded enc (final enc st a) b.
  Proof. induction a as [|x a IH]; intros st b; cbn [encoded final app]; [reflexivity|]. now rewrite IH, app_assoc. Qed.

  (** G.711 needs nothing of the other encoders but that they keep to lawbuf *)
  Context (Sg : size gsm 33) (St : forall st x, (length (snd (g729 st x)) <= 10)%nat) (Sd : size g722 80).

  Lemma encode_ok (m : mst) l : (0 < length l <= 160)%nat -> length (ms_law m) = 160%nat ->
    match encode gsm g729 g722 cf wok m l with
    | None => exists p, wok (ms_n m) p = false
    | Some m1 =>
        ms_pos m1 = ms_pos m /\ ms_n m1 = ms_n m /\ length (ms_law m1) = 160%nat
        /\ ms_f0 m1 = ms_f0 m ++ map ulaw l /\ ms_f8 m1 = ms_f8 m ++ map alaw l
        /\ (if m_gsm cf then ms_gsm m1 = final gsm (ms_gsm m) [slbuf l] /\ ms_f3 m1 = ms_f3 m ++ encoded gsm (ms_gsm m) [slbuf l] else ms_f3 m1 = ms_f3 m)
        /\ (if m_722 cf then ms_722 m1 = final g722 (ms_722 m) (halves [slbuf l]) /\ ms_f9 m1 = ms_f9 m ++ encoded g722 (ms_722 m) (halves [slbuf l]) else ms_f9 m1 = ms_f9 m)
        /\ (if m_729 cf then ms_729 m1 = final g729 (ms_729 m) (halves [slbuf l])
              /\ (size g729 10 -> ms_f18 m1 = ms_f18 m ++ encoded g729 (ms_729 m) (halves [slbuf l])) else ms_f18 m1 = ms_f18 m)
    end.
  Proof.
    intros L B. unfold encode.
    (* PCMU *)
    unfold enc_pcmu. destruct (wok (ms_n m) 0) eqn:W0; [|exists 0; exact W0]. cbn [obind].
    set (law0 := store (ms_law m) 0 (map ulaw l)).
    assert (O0 : firstn (length l) law0 = map ulaw l) by (unfold law0; rewrite <- (map_length ulaw l); apply store0_out).
    assert (B0 : length law0 = 160%nat) by (unfold law0; rewrite store_length; [exact B | rewrite map_length; lia]). rewrite O0. clearbody law0. clear O0.
    (* GSM *)
    unfold enc_gsm. cbn [ms_gsm ms_law ms_n ms_pos ms_729 ms_722 ms_f0 ms_f3 ms_f18 ms_f8 ms_f9].
    match goal with |- match obind ?o _ with _ => _ end => assert (X : match o with None => exists p, wok (ms_n m) p = false | Some m1 => exists g b law1, length law1 = 160%nat
        /\ m1 = MSt (ms_pos m) (ms_n m) g (ms_729 m) (ms_722 m) law1 (ms_f0 m ++ map ulaw l) (ms_f3 m ++ b) (ms_f18 m) (ms_f8 m) (ms_f9 m)
        /\ if m_gsm cf then g = final gsm (ms_gsm m) [slbuf l] /\ b = encoded gsm (ms_gsm m) [slbuf l] else g = ms_gsm m /\ b = [] end) end.
    { destruct (m_gsm cf); cbn [negb].
      - cbn [final encoded]. pose proof (Sg (ms_gsm m) (slbuf l)) as Q. destruct (gsm (ms_gsm m) (slbuf l)) as [g b]. cbn [fst snd] in *.
        destruct (wok (ms_n m) 3) eqn:W; [|exists 3; exact W]. exists g, b, (store law0 0 b). split; [rewrite store_length; lia|]. split; [|now rewrite app_nil_r].
        rewrite <- Q at 1. now rewrite store0_out.
      - exists (ms_gsm m), [], law0. rewrite app_nil_r. auto. }
    match goal with |- match obind ?o _ with _ => _ end => destruct o as [m1|]; cbn [obind]; [|exact X] end.
    destruct X as (g & b3 & law1 & B1 & -> & X3). clear B0 law0 B.
    (* G.729 *)
    unfold enc_729. cbn [ms_gsm ms_law ms_n ms_pos ms_729 ms_722 ms_f0 ms_f3 ms_f18 ms_f8 ms_f9].
    match goal with |- match obind ?o _ with _ => _ end => assert (X : match o with None => exists p, wok (ms_n m) p = false | Some m1 => exists t b law2, length law2 = 160%nat
        /\ m1 = MSt (ms_pos m) (ms_n m) g t (ms_722 m) law2 (ms_f0 m ++ map ulaw l) (ms_f3 m ++ b3) (ms_f18 m ++ b) (ms_f8 m) (ms_f9 m)
        /\ if m_729 cf then t = final g729 (ms_729 m) (halves [slbuf l]) /\ (size g729 10 -> b = encoded g729 (ms_729 m) (halves [slbuf l])) else b = [] end) end.
    { destruct (m_729 cf); cbn [negb].
      - cbn [halves flat_map app final encoded]. pose proof (St (ms_729 m) (firstn 80 (slbuf l))) as Q. assert (Z0 : size g729 10 -> length (snd (g729 (ms_729 m) (firstn 80 (slbuf l)))) = 10%nat) by (intros SZ; apply SZ).
        destruct (g729 (ms_729 m) (firstn 80 (slbuf l))) as [t0 b0]. cbn [fst snd] in *.
        pose proof (St t0 (skipn 80 (slbuf l))) as Q1. destruct (g729 t0 (skipn 80 (slbuf l))) as [t1 b1]. cbn [fst snd] in *.
        destruct (wok (ms_n m) 18) eqn:W; [|exists 18; exact W]. eexists t1, _, _. split; [|split; [reflexivity|]]; [|split; [reflexivity|]].
        + rewrite store_length; rewrite store_length; lia.
        + intros SZ. specialize (Z0 SZ). rewrite app_nil_r. rewrite <- Z0 at 1. apply store_two. lia.
      - exists (ms_729 m), [], law1. rewrite app_nil_r. auto. }
    match goal with |- match obind ?o _ with _ => _ end => destruct o as [m1|]; cbn [obind]; [|exact X] end.
    destruct X as (t & b18 & law2 & B2 & -> & X18). clear B1 law1.
    (* PCMA *)
    unfold enc_pcma. cbn [ms_gsm ms_law ms_n ms_pos ms_729 ms_722 ms_f0 ms_f3 ms_f18 ms_f8 ms_f9]. destruct (wok (ms_n m) 8) eqn:W8; [|exists 8; exact W8]. cbn [obind].
    set (law3 := store law2 0 (map alaw l)).
    assert (O0 : firstn (length l) law3 = map alaw l) by (unfold law3; rewrite <- (map_length alaw l); apply store0_out).
    assert (B3 : length law3 = 160%nat) by (unfold law3; rewrite store_length; [exact B2 | rewrite map_length; lia]). rewrite O0. clearbody law3. clear O0 B2.
    (* G.722 *)
    unfold enc_722. cbn [ms_gsm ms_law ms_n ms_pos ms_729 ms_722 ms_f0 ms_f3 ms_f18 ms_f8 ms_f9]. destruct (m_722 cf); cbn [negb].
    - cbn [halves flat_map app final encoded]. pose proof (Sd (ms_722 m) (firstn 80 (slbuf l))) as Q. destruct (g722 (ms_722 m) (firstn 80 (slbuf l))) as [d0 b0]. cbn [fst snd] in *.
      pose proof (Sd d0 (skipn 80 (slbuf l))) as Q1. destruct (g722 d0 (skipn 80 (slbuf l))) as [d1 b1]. cbn [fst snd] in *.
      destruct (wok (ms_n m) 9) eqn:W; [|exists 9; exact W]. cbn [ms_gsm ms_law ms_n ms_pos ms_729 ms_722 ms_f0 ms_f3 ms_f18 ms_f8 ms_f9].
      repeat (split; [reflexivity|]). split; [rewrite store_length; rewrite store_length; lia|]. split; [reflexivity|]. split; [reflexivity|]. split; [|split].
      + destruct (m_gsm cf); destruct X3 as [-> ->]; [split; reflexivity | apply app_nil_r].
      + split; [reflexivity|]. rewrite app_nil_r. f_equal. replace 160%nat with (length b0 + length b1)%nat by lia. rewrite <- Q at 1. apply store_two. lia.
      + destruct (m_729 cf); [|subst; apply app_nil_r]. destruct X18 as [-> X18]. split; [reflexivity|]. intros SZ. now rewrite (X18 SZ).
    - cbn [ms_gsm ms_law ms_n ms_pos ms_729 ms_722 ms_f0 ms_f3 ms_f18 ms_f8 ms_f9].
      repeat (split; [reflexivity|]). split; [exact B3|]. split; [reflexivity|]. split; [reflexivity|]. split; [|split; [reflexivity|]].
      + destruct (m_gsm cf); destruct X3 as [-> ->]; [split; reflexivity | apply app_nil_r].
      + destruct (m_729 cf); [|subst; apply app_nil_r]. destruct X18 as [-> X18]. split; [reflexivity|]. intros SZ. now rewrite (X18 SZ).
  Qed.

  (* what the files are given the slices *)
  Definition files_are (m : mst) (sl : list (list Z)) (m1 : mst) : Prop :=
    ms_f0 m1 = ms_f0 m ++ map ulaw (concat sl) /\ ms_f8 m1 = ms_f8 m ++ map alaw (concat sl)
    /\ ms_f3 m1 = ms_f3 m ++ (if m_gsm cf then encoded gsm (ms_gsm m) (map slbuf sl) else [])
    /\ ms_f9 m1 = ms_f9 m ++ (if m_722 cf then encoded g722 (ms_722 m) (halves (map slbuf sl)) else [])
    /\ (size g729 10 -> ms_f18 m1 = ms_f18 m ++ (if m_729 cf then encoded g729 (ms_729 m) (halves (map slbuf sl)) else [])).

  Lemma mloop_files fuel : forall rl (m m1 : mst), length (ms_law m) = 160%nat ->
    mloop gsm g729 g722 cf f loop wok fuel rl m = MExit0 m1 -> files_are m (slices f loop fuel rl (ms_pos m)) m1.
  Proof.
    induction fuel as [|fuel IH]; intros rl m m1 B H; cbn [mloop slices] in *; [discriminate|].
    assert (NIL : files_are m [] m).
    { unfold files_are. cbn [concat map halves flat_map encoded]. rewrite !app_nil_r. destruct (m_gsm cf), (m_722 cf), (m_729 cf); rewrite !app_nil_r; auto. }
    destruct (match rl with Some O => true | _ => false end) eqn:R0; [injection H as <-; exact NIL|].
    pose proof (read_le f loop (ms_pos m) (rsz rl)) as LE. unfold rsz in LE.
    destruct (read_frame f loop (ms_pos m) _) as [l pos] eqn:RF. cbn [fst] in LE.
    destruct (Nat.eqb_spec (length l) 0) as [L0|L0]; [injection H as <-; exact NIL|].
    assert (L : (0 < length l <= 160)%nat) by (destruct rl; lia).
    pose proof (encode_ok m l L B) as E. destruct (encode gsm g729 g722 cf wok m l) as [m2|]; [|discriminate].
    destruct E as (E1 & E2 & E3 & E4 & E5 & E6 & E7 & E8).
    apply IH in H; [|exact E3]. destruct H as (H1 & H2 & H3 & H4 & H5).
    cbn [ms_gsm ms_law ms_n ms_pos ms_729 ms_722 ms_f0 ms_f3 ms_f18 ms_f8 ms_f9] in *.
    set (sl := slices f loop fuel _ pos) in *. unfold files_are. cbn [concat map]. rewrite !map_app, H1, H2, H3, H4, E4, E5, !app_assoc.
    change (halves (slbuf l :: map slbuf sl)) with (halves [slbuf l] ++ halves (map slbuf sl)).
    change (slbuf l :: map slbuf sl) with ([slbuf l] ++ map slbuf sl). rewrite !encoded_app.
    split; [reflexivity|]. split; [reflexivity|]. split; [|split].
    - destruct (m_gsm cf); [|now rewrite E6]. destruct E6 as [-> ->]. now rewrite <- app_assoc.
    - destruct (m_722 cf); [|now rewrite E7]. destruct E7 as [-> ->]. now rewrite <- app_assoc.
    - intros SZ. rewrite (H5 SZ). destruct (m_729 cf); [|now rewrite E8]. destruct E8 as [-> E8]. rewrite (E8 SZ). now rewrite <- app_assoc.
  Qed.

  (** it ends *)
  Lemma mloop_ends fuel : forall rl (m : mst), length (ms_law m) = 160%nat ->
    (match rl with Some r => r < fuel | None => loop = false /\ length (in_samples f) - ms_pos m < fuel end)%nat ->
    match mloop gsm g729 g722 cf f loop wok fuel rl m with MFuel => False | MExit0 _ => True | MExit1 => exists n p, wok n p = false end.
  Proof.
    induction fuel as [|fuel IH]; intros rl m B H; [destruct rl; lia|]. cbn [mloop].
    destruct (match rl with Some O => true | _ => false end) eqn:R0; [exact Logic.I|].
    pose proof (read_le f loop (ms_pos m) (rsz rl)) as LE. unfold rsz in LE.
    destruct (read_frame f loop (ms_pos m) _) as [l pos] eqn:RF. cbn [fst] in LE.
    destruct (Nat.eqb_spec (length l) 0) as [L0|L0]; [exact Logic.I|].
    assert (L : (0 < length l <= 160)%nat) by (destruct rl; lia).
    pose proof (encode_ok m l L B) as E. destruct (encode gsm g729 g722 cf wok m l) as [m2|]; [|destruct E as [p E]; eauto].
    destruct E as (E1 & E2 & E3 & _). apply IH; [exact E3|]. cbn [ms_pos]. destruct rl as [r|]; [lia|]. destruct H as [-> H]. split; [reflexivity|].
    destruct (read_pos f (ms_pos m) 160) as [P1 P2]. rewrite RF in P1, P2. cbn [fst snd] in *. subst l pos. rewrite firstn_length, skipn_length in *. lia.
  Qed.

End Enc.
