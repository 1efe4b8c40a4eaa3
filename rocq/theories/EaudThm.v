(** Theorems about the audio file extractaudio makes (C63). The codecs of the libraries are any functions of a state; only
    how many samples they give is asked ([codecs_ok]). *)
From Coq Require Import Permutation Sorted.
From Verif Require Import Base EaudModel EaudSpec EaudProof EaudProof2.

(** For the examples: codecs whose state counts frames. *)
Definition ex_729 (x : Z) (_ : list Z) : Z * list Z := (x + 1, repeat x 80).
Definition ex_722 (x : Z) (b : list Z) : Z * list Z := (x + 1, b).
Definition ex_gsm (x : Z) (_ : list Z) : Z * list Z := (x + 1, repeat x 160).
Definition ex_cfg : cfg := mkCfg Bcg729 true true.
Lemma ex_ok : codecs_ok ex_729 ex_722 ex_gsm.
Proof. split; [|split]; intros; cbn -[repeat]; rewrite ?repeat_length; reflexivity. Qed.
(** Three packets of PCMU, PCMA and PCMU, two samples each; one sample is missing between the first two, and nothing is
    between the others. The second stream begins 625 microseconds, five samples, later. *)
Definition ex_a : list pkt := [mkP 1000000 160 0 [0; 254]; mkP 1000375 163 8 [213; 85]; mkP 1000600 165 0 [126; 128]].
Definition ex_b : list pkt := [mkP 1000625 9000 0 [128; 0; 3]].
Definition ex_sound_a : list Z := [-32124; 8; 0; 8; -8; -8; 32124].
Definition ex_sound_b : list Z := [32124; -32124; -29052].

(** mu-law and A-law are expanded as G.711 says, but for the two zeros of mu-law. *)
Theorem eaud_g711_expanded : forall b, 0 <= b < 256 -> law u2sl b = mulaw' b /\ law A2sl b = alaw b.
Proof. intros b H. split; [apply ulaw_byte, H|apply alaw_byte, H]. Qed.
Print Assumptions eaud_g711_expanded.
Example eaud_g711_ex : mulaw 0 = -32124 /\ mulaw 128 = 32124 /\ alaw 213 = 8 /\ alaw 42 = -32256 /\ mulaw' 3 = mulaw 3.
Proof. repeat split. Qed.
(** Expected: silence of mu-law is silence. *)
Theorem eaud_mulaw_silence_refuted : ~ forall b, 0 <= b < 256 -> law u2sl b = mulaw b.
Proof. intros H. specialize (H 255 ltac:(lia)). vm_compute in H. discriminate H. Qed.
Print Assumptions eaud_mulaw_silence_refuted.

(** Every stream comes to its end after some samples, or the program fails; and it fails only on a packet of incomplete
    frames, or with a time or timestamp that goes back before the first, or with the other G.729 library. *)
Theorem eaud_stream_ends : forall X (d729 d722 dgsm : X -> list Z -> X * list Z) c x pp,
  codecs_ok d729 d722 dgsm -> Forall (fun p => 0 <= p_ts p < 2 ^ 32) pp ->
  (exists s, plays d729 d722 dgsm c (decoder_new x false pp) s) \/
  (fails d729 d722 dgsm c (decoder_new x false pp) /\
   (f_729 c = Other729 \/ exists p, In p pp /\ ~ sane (first_time (false, pp)) p)).
Proof.
  intros X d729 d722 dgsm c x pp OK Ts.
  assert (Pn : d_pp (decoder_new x false pp) = pp) by (destruct pp; reflexivity). assert (Sn : d_stime (decoder_new x false pp) = first_time (false, pp)) by (destruct pp; reflexivity).
  assert (Nn : d_nosync (decoder_new x false pp) = false) by (destruct pp; reflexivity).
  assert (Dn : dok c (decoder_new x false pp)) by (apply dok_new; assumption). assert (Tn : Forall (fun p => 0 <= p_ts p < 2 ^ 32) (d_pp (decoder_new x false pp))) by (rewrite Pn; exact Ts).
  destruct (stream_ends d729 d722 dgsm c OK _ _ (decoder_new x false pp) (le_n _) (le_n _) Tn Dn Nn) as [H|(H & [O|O])]; [left; exact H|right; split; [exact H|left; exact O]|].
  right. split; [exact H|]. right. rewrite Pn, Sn in O. apply not_all_sane, O.
Qed.
Print Assumptions eaud_stream_ends.
(** So, with BCG729 or no G.729, a stream of sane packets is decoded to its end. *)
Theorem eaud_sane_stream_played : forall X (d729 d722 dgsm : X -> list Z -> X * list Z) c x pp,
  codecs_ok d729 d722 dgsm -> f_729 c <> Other729 -> Forall (sane (first_time (false, pp))) pp ->
  exists s, plays d729 d722 dgsm c (decoder_new x false pp) s.
Proof.
  intros X d729 d722 dgsm c x pp OK Nf S. destruct (eaud_stream_ends X d729 d722 dgsm c x pp OK) as [H|(_ & [H|(p & H1 & H2)])].
  - eapply Forall_impl; [|exact S]. intros p Hp. exact (proj1 Hp).
  - exact H.
  - contradiction.
  - rewrite Forall_forall in S. exfalso. exact (H2 (S p H1)).
Qed.
Print Assumptions eaud_sane_stream_played.
Example eaud_sane_ex : Forall (sane (first_time (false, ex_a))) ex_a /\ sane 0 (mkP 40000 480 3 (repeat 1 66)) /\ ~ sane 0 (mkP 40000 480 3 (repeat 1 65)).
Proof.
  split; [|split]; [|unfold sane; cbn [p_ts p_time p_pt p_load]; rewrite repeat_length; lia|unfold sane; cbn [p_ts p_time p_pt p_load]; rewrite repeat_length; lia].
  unfold ex_a, first_time. cbn [snd p_time]. repeat apply Forall_cons; try apply Forall_nil; unfold sane; cbn [p_ts p_time p_pt p_load length]; lia.
Qed.

(** Packets that came in time lie at their timestamps: the samples of each behind those before it, with as much silence
    between as timestamps are missing, and nothing else. *)
Theorem eaud_stream_laid_out : forall X (d729 d722 dgsm : X -> list Z -> X * list Z) c x p pp s,
  codecs_ok d729 d722 dgsm -> f_729 c <> Other729 -> 0 <= p_ts p < 2 ^ 32 -> laid d729 d722 dgsm c (p_ts p) (p_time p) x (p_ts p) (p :: pp) s ->
  plays d729 d722 dgsm c (decoder_new x false (p :: pp)) s.
Proof.
  intros X d729 d722 dgsm c x p pp s OK Nf Ht L.
  assert (Ts : forall b t0 y at_ l s, laid d729 d722 dgsm c b t0 y at_ l s -> 0 <= at_ -> Forall (fun p => 0 <= p_ts p < 2 ^ 32) l).
  { clear. induction 1 as [|x at_ p y o l s H1 H2 By H3 H4 Sp Ld IH]; intros H; constructor; [lia|apply IH; lia]. }
  apply (laid_plays d729 d722 dgsm c OK Nf (p_ts p) (p_time p) x (p_ts p) (p :: pp) s L); try reflexivity; try lia; [|cbn [decoder_new d_dticks]; lia]. apply dok_new; try assumption. exact (Ts _ _ _ _ _ _ L (proj1 Ht)).
Qed.
Print Assumptions eaud_stream_laid_out.
Lemma ex_laid_a : laid ex_729 ex_722 ex_gsm ex_cfg 160 1000000 0 160 ex_a ex_sound_a.
Proof.
  unfold ex_a, ex_sound_a.
  apply (laid_cons ex_729 ex_722 ex_gsm ex_cfg 160 1000000 0 160 (mkP 1000000 160 0 [0; 254]) 0 [-32124; 8] _ [0; 8; -8; -8; 32124]); try (cbn; lia); [repeat constructor; lia|apply says_ulaw; cbn; lia|].
  apply (laid_cons ex_729 ex_722 ex_gsm ex_cfg 160 1000000 0 162 (mkP 1000375 163 8 [213; 85]) 0 [8; -8] _ [-8; 32124]); try (cbn; lia); [repeat constructor; lia|apply says_alaw; cbn; lia|].
  apply (laid_cons ex_729 ex_722 ex_gsm ex_cfg 160 1000000 0 165 (mkP 1000600 165 0 [126; 128]) 0 [-8; 32124] _ []); try (cbn; lia); [repeat constructor; lia|apply says_ulaw; cbn; lia|]. apply laid_nil.
Qed.
Lemma ex_laid_b : laid ex_729 ex_722 ex_gsm ex_cfg 9000 1000625 0 9000 ex_b ex_sound_b.
Proof.
  unfold ex_b, ex_sound_b. apply (laid_cons ex_729 ex_722 ex_gsm ex_cfg 9000 1000625 0 9000 (mkP 1000625 9000 0 [128; 0; 3]) 0 [32124; -32124; -29052] _ []); try (cbn; lia); [repeat constructor; lia|apply says_ulaw; cbn; lia|]. apply laid_nil.
Qed.
Example eaud_laid_out_ex : plays ex_729 ex_722 ex_gsm ex_cfg (decoder_new 0 false ex_a) ex_sound_a.
Proof. apply eaud_stream_laid_out; [apply ex_ok|discriminate|cbn; lia|exact ex_laid_a]. Qed.

(** The file: if each stream plays its sound, the program comes to the end, and frame k of the file is made of sample
    k - (beginning) of each stream that sounds then: those of one side one after the other from the stream that began first,
    and the sides as two channels or as the mean. The counts it reports are the samples of the sides, and half of the shorts written. *)
Theorem eaud_streams_mixed : forall X (d729 d722 dgsm : X -> list Z -> X * list Z) c x stereo l vs,
  Forall2 (fun s v => snd s <> [] /\ first_time s - basetime l < 125 * 2 ^ 32 /\
                      exists snds, v = voice_of (basetime l) s snds /\ plays d729 d722 dgsm c (decoder_new x false (snd s)) snds) l vs ->
  exists n0, forall n, (n0 <= n)%nat -> exists s, extract d729 d722 dgsm c n x false stereo l = Ok (Some s) /\
    mixdown stereo vs (s_out s) /\ s_nw s = Z.of_nat (length (s_out s)) / 2 /\ s_na s = total true vs /\ s_nb s = total false vs.
Proof. intros X d729 d722 dgsm c x stereo l vs. apply extract_ok. Qed.
Print Assumptions eaud_streams_mixed.
(** The time everything is counted from is that of the first packet of all. *)
Theorem eaud_base_is_first : forall l s, In s l -> basetime l <= first_time s /\ exists s0, In s0 l /\ basetime l = first_time s0.
Proof.
  intros l s H. pose proof (basetime_le l) as F. rewrite Forall_forall in F. split; [exact (F s H)|]. destruct l as [|a l]; [destruct H|]. clear. unfold basetime.
  assert (G : forall l b, (exists s0, In s0 l /\ fold_left (fun b s => if first_time s <? b then first_time s else b) l b = first_time s0) \/
                          fold_left (fun b s => if first_time s <? b then first_time s else b) l b = b).
  { clear. induction l as [|s l IH]; intros b; [right; reflexivity|]. cbn [fold_left]. destruct (IH (if first_time s <? b then first_time s else b)) as [(s0 & I & E)|E].
    - left. exists s0. split; [right; exact I|exact E].
    - destruct (first_time s <? b); [left; exists s; split; [left; reflexivity|exact E]|right; exact E]. }
  destruct (G l (first_time a)) as [(s0 & I & E)|E]; [exists s0; split; [right; exact I|exact E]|exists a; split; [left; reflexivity|exact E]].
Qed.
Print Assumptions eaud_base_is_first.
(** The two together. *)
Theorem eaud_recording_extracted : forall X (d729 d722 dgsm : X -> list Z -> X * list Z) c x stereo l vs,
  codecs_ok d729 d722 dgsm -> f_729 c <> Other729 ->
  Forall2 (fun s v => exists p pp snds, snd s = p :: pp /\ 0 <= p_ts p < 2 ^ 32 /\ p_time p - basetime l < 125 * 2 ^ 32 /\
                      laid d729 d722 dgsm c (p_ts p) (p_time p) x (p_ts p) (p :: pp) snds /\ v = mkV ((p_time p - basetime l) / 125) (fst s) (p_time p) snds) l vs ->
  exists n0, forall n, (n0 <= n)%nat -> exists s, extract d729 d722 dgsm c n x false stereo l = Ok (Some s) /\ mixdown stereo vs (s_out s).
Proof.
  intros X d729 d722 dgsm c x stereo l vs OK Nf F. destruct (eaud_streams_mixed X d729 d722 dgsm c x stereo l vs) as (n0 & H).
  - revert F. generalize (basetime l). intros t F. induction F as [|[a ps] v l vs (p & pp & snds & E1 & E2 & E3 & E4 & E5) F IH]; constructor; [|exact IH]. cbn [snd fst] in *. subst ps v. split; [discriminate|]. split; [exact E3|].
    exists snds. split; [reflexivity|]. apply eaud_stream_laid_out; assumption.
  - exists n0. intros n Hn. destruct (H n Hn) as (s & E & M & _). exists s. auto.
Qed.
Print Assumptions eaud_recording_extracted.
Example eaud_extracted_ex : let l := [(true, ex_b); (false, ex_a)] in let vs := [mkV 5 true 1000625 ex_sound_b; mkV 0 false 1000000 ex_sound_a] in
  Forall2 (fun s v => exists p pp snds, snd s = p :: pp /\ 0 <= p_ts p < 2 ^ 32 /\ p_time p - basetime l < 125 * 2 ^ 32 /\
                      laid ex_729 ex_722 ex_gsm ex_cfg (p_ts p) (p_time p) 0 (p_ts p) (p :: pp) snds /\ v = mkV ((p_time p - basetime l) / 125) (fst s) (p_time p) snds) l vs /\
  mixdown false vs [-16062; 4; 0; 4; -4; 16058; 0; -14526].
Proof.
  cbv zeta. split.
  - constructor; [|constructor; [|constructor]].
    + exists (mkP 1000625 9000 0 [128; 0; 3]), [], ex_sound_b. split; [reflexivity|]. split; [cbn; lia|]. split; [cbn; lia|]. split; [exact ex_laid_b|reflexivity].
    + do 2 eexists. exists ex_sound_a. split; [reflexivity|]. split; [cbn; lia|]. split; [cbn; lia|]. split; [exact ex_laid_a|reflexivity].
  - exists [[-16062]; [4]; [0]; [4]; [-4]; [16058]; [0]; [-14526]]. split; [reflexivity|]. split; [reflexivity|]. intros k Hk. cbn [length] in Hk.
    assert (D : (k < 5)%nat \/ k = 5%nat \/ k = 6%nat \/ k = 7%nat) by lia. destruct D as [D|[->|[->| ->]]].
    + exists [mkV 0 false 1000000 ex_sound_a]. do 5 (destruct k as [|k]; [split; [apply Permutation_refl|]; split; [constructor; constructor|reflexivity]|]). lia.
    + exists [mkV 0 false 1000000 ex_sound_a; mkV 5 true 1000625 ex_sound_b]. split; [apply perm_swap|]. split; [constructor; [constructor; constructor|]; constructor; [cbn; lia|constructor]|reflexivity].
    + exists [mkV 0 false 1000000 ex_sound_a; mkV 5 true 1000625 ex_sound_b]. split; [apply perm_swap|]. split; [constructor; [constructor; constructor|]; constructor; [cbn; lia|constructor]|reflexivity].
    + exists [mkV 5 true 1000625 ex_sound_b]. split; [apply Permutation_refl|]. split; [constructor; constructor|reflexivity].
Qed.
Example eaud_mixed_ex : blend [100] = 100 /\ blend [100; 50] = 75 /\ blend [100; 50; -75] = 0 /\ blend [-3; 0] = -1.
Proof. repeat split. Qed.

(** Expected: what one is told is written are the samples of the file. False of the mono file: half of them. *)
Theorem eaud_written_count_refuted : ~ forall n l s, extract ex_729 ex_722 ex_gsm ex_cfg n 0 false false l = Ok (Some s) -> s_nw s = Z.of_nat (length (s_out s)).
Proof.
  intros H. destruct (eaud_streams_mixed Z ex_729 ex_722 ex_gsm ex_cfg 0 false [(false, ex_a)] [voice_of 1000000 (false, ex_a) ex_sound_a]) as (n0 & G).
  { constructor; [|constructor]. split; [discriminate|]. split; [cbn; lia|]. exists ex_sound_a. split; [reflexivity|exact eaud_laid_out_ex]. }
  destruct (G n0 (le_n _)) as (s & E & (fs & Eo & L & M) & Nw & _). specialize (H _ _ _ E). cbn in L.
  assert (Q : forall k, (k < length fs)%nat -> length (nth k fs []) = 1%nat) by (intros k Hk; destruct (M k Hk) as (l & _ & _ & ->); reflexivity).
  assert (Le : length (s_out s) = length fs).
  { rewrite Eo. clear - Q. induction fs as [|f fs IH]; [reflexivity|]. cbn [concat]. rewrite app_length. cbn [length]. rewrite (Q 0%nat ltac:(cbn; lia) : length f = 1%nat).
    rewrite IH; [lia|]. intros k Hk. exact (Q (S k) ltac:(cbn; lia)). }
  rewrite Le in *. rewrite H in Nw. lia.
Qed.
Print Assumptions eaud_written_count_refuted.

(** Expected: with -n the streams are put together without regard to times. False: there is no recording with which the
    program comes to the end; at the end of a stream it reads the list node it has freed. *)
Theorem eaud_no_sync_extracts_refuted : ~ exists X (d729 d722 dgsm : X -> list Z -> X * list Z) c n x stereo l s,
  l <> [] /\ extract d729 d722 dgsm c n x true stereo l = Ok (Some s).
Proof. intros (X & d729 & d722 & dgsm & c & n & x & stereo & l & s & H & E). exact (extract_nosync d729 d722 dgsm c n x stereo l s H E). Qed.
Print Assumptions eaud_no_sync_extracts_refuted.
Example eaud_no_sync_ex : extract ex_729 ex_722 ex_gsm ex_cfg 5 0 true false [(true, ex_b)] = Freed.
Proof. vm_compute. reflexivity. Qed.

(** Expected: any payload is decoded as far as it can be. False of GSM payloads that are not whole frames, *)
Theorem eaud_gsm_payload_refuted : forall X (d729 d722 dgsm : X -> list Z -> X * list Z) c x, f_gsm c = true ->
  decoder_get d729 d722 dgsm c (decoder_new x false [mkP 0 0 3 (repeat 1 34)]) = Oob.
Proof.
  intros X d729 d722 dgsm c x G. unfold decoder_get, decoder_new. cbn -[repeat Z.to_nat OBUF gsm_frames]. unfold decode_frame. cbn -[repeat Z.to_nat OBUF gsm_frames].
  rewrite G. cbn -[Z.to_nat OBUF]. destruct (dgsm x _). reflexivity.
Qed.
Print Assumptions eaud_gsm_payload_refuted.
(** of G.729 payloads of 15 bytes with BCG729, *)
Theorem eaud_g729_payload_refuted : forall X (d729 d722 dgsm : X -> list Z -> X * list Z) c x, f_729 c = Bcg729 ->
  decoder_get d729 d722 dgsm c (decoder_new x false [mkP 0 0 18 (repeat 1 15)]) = Abort.
Proof.
  intros X d729 d722 dgsm c x G. unfold decoder_get, decoder_new. cbn -[repeat Z.to_nat OBUF g729_frames]. unfold decode_frame. cbn -[repeat Z.to_nat OBUF g729_frames].
  rewrite G. cbn -[Z.to_nat OBUF]. rewrite G. reflexivity.
Qed.
Print Assumptions eaud_g729_payload_refuted.
(** and of payloads of more than 4096 bytes, of which the rest is lost. *)
Theorem eaud_long_payload_refuted : forall X (d729 d722 dgsm : X -> list Z -> X * list Z) c x l,
  codecs_ok d729 d722 dgsm -> f_729 c <> Other729 -> byte_string l -> 4096 < Z.of_nat (length l) ->
  plays d729 d722 dgsm c (decoder_new x false [mkP 0 0 0 l]) (map mulaw' (firstn (Z.to_nat 4096) l)).
Proof.
  intros X d729 d722 dgsm c x l OK Nf By L. set (l' := firstn (Z.to_nat 4096) l).
  assert (Ll : Z.of_nat (length l') = 4096) by (unfold l'; rewrite firstn_length; lia).
  apply (plays_get d729 d722 dgsm c _ (decoder_new x false [mkP 0 0 0 l'])).
  - unfold decoder_get, decoder_new. cbn [d_oblen Z.eqb d_pp fill p_ts p_time d_stime d_sticks d_nticks d_dticks]. unfold decode_frame. cbn [p_pt p_load Z.eqb].
    rewrite Ll. replace (OBUF * 2 <? Z.of_nat (length l) * 2) with true by (unfold OBUF; lia). replace (OBUF * 2 <? 4096 * 2) with false by (unfold OBUF; lia).
    change (OBUF * 2 / 2) with 4096. fold l'. replace (firstn (Z.to_nat 4096) l') with l' by (unfold l'; rewrite firstn_firstn, Nat.min_id; reflexivity).
    change (0 - 0 + 1000000 <? u32 (0 - 0) / 8000 * 1000000) with false. cbn [bind d_nticks d_dticks d_obuf d_x]. change (0 <? 0) with false. change (200000 <? 0 - 0 - 125 * 0) with false. cbv iota.
    destruct (write _ 0 (map (law u2sl) l')) as [b| | | |]; cbn [bind]; [|reflexivity|reflexivity|reflexivity|reflexivity].
    destruct (_ <=? 0), (0 <? _); reflexivity.
  - replace (map mulaw' l') with (repeat 0 (Z.to_nat (0 - 0)) ++ map mulaw' l' ++ []) by (cbn; apply app_nil_r).
    apply (eaud_stream_laid_out X d729 d722 dgsm c x (mkP 0 0 0 l') [] _ OK Nf ltac:(cbn; lia)).
    apply (laid_cons d729 d722 dgsm c 0 0 x 0 (mkP 0 0 0 l') x (map mulaw' l') [] []); cbn [p_ts p_time p_load]; try lia.
    + rewrite map_length. lia.
    + unfold byte_string, l'. clear - By. revert By. generalize (Z.to_nat 4096). intros n By. revert n. induction By as [|b l H By IH]; intros [|n]; cbn; constructor; [exact H|apply IH].
    + apply says_ulaw; cbn [p_pt p_load]; lia.
    + apply laid_nil.
Qed.
Print Assumptions eaud_long_payload_refuted.

(** Expected: a sender that starts its timestamps anew is followed. False: the new start is computed as an unsigned value
    and is negative. *)
Theorem eaud_timestamp_restart_refuted : forall X (d729 d722 dgsm : X -> list Z -> X * list Z) c x,
  decoder_get d729 d722 dgsm c (decoder_new x false [mkP 0 1000 101 []; mkP 20000000 160 0 [255]]) = BadConv.
Proof. intros X d729 d722 dgsm c x. reflexivity. Qed.
Print Assumptions eaud_timestamp_restart_refuted.

(** Expected: sane packets are decoded with any G.729 library. False: with the other one the silence for 4000 missing samples
    is put into the buffer with gaps, and goes over its end. *)
Fixpoint asks (c : cfg) (n : nat) (d : @dec Z) : bool :=
  match n with
  | O => false
  | S n => match decoder_get ex_729 ex_722 ex_gsm c d with Ok (d', Sample _) => asks c n d' | Ok _ => false | _ => true end
  end.
Lemma asks_fails c n : forall d, asks c n d = true -> fails ex_729 ex_722 ex_gsm c d.
Proof.
  induction n as [|n IH]; intros d; cbn [asks]; [discriminate|]. destruct (decoder_get ex_729 ex_722 ex_gsm c d) as [[d' [v| | |]]| | | |] eqn:E; try discriminate.
  - intros H. exact (fails_later _ _ _ _ d d' v E (IH d' H)).
  - intros _. apply fails_now. intros a Q. congruence.
  - intros _. apply fails_now. intros a Q. congruence.
  - intros _. apply fails_now. intros a Q. congruence.
  - intros _. apply fails_now. intros a Q. congruence.
Qed.
Theorem eaud_other_g729_refuted : ~ forall pp, Forall (sane (first_time (false, pp))) pp ->
  exists s, plays ex_729 ex_722 ex_gsm (mkCfg Other729 true true) (decoder_new 0 false pp) s.
Proof.
  intros H. destruct (H [mkP 0 0 18 (repeat 1 10); mkP 500000 4080 18 (repeat 1 10)]) as (s & P).
  { unfold first_time. cbn [snd p_time]. repeat apply Forall_cons; try apply Forall_nil; unfold sane; cbn [p_ts p_time p_pt p_load]; rewrite repeat_length; lia. }
  assert (F : asks (mkCfg Other729 true true) 81 (decoder_new 0 false [mkP 0 0 18 (repeat 1 10); mkP 500000 4080 18 (repeat 1 10)]) = true) by (vm_compute; reflexivity).
  apply asks_fails in F. revert s P. clear H. induction F as [d B|d d' v E F IH]; intros s P; inversion P as [d0 d1 E1|d0 d1 w l E1 P1]; subst.
  - exact (B _ E1).
  - exact (B _ E1).
  - congruence.
  - rewrite E in E1. injection E1 as <- <-. exact (IH l P1).
Qed.
Print Assumptions eaud_other_g729_refuted.

(** Files: a program that fails has changed nothing; one that works has read something, and there is the file under all its
    names unless there was nothing to put into it; without -d nothing is removed. *)
Theorem eaud_files : forall errfail delete a b empty opens out links code e, finish errfail delete a b empty opens out links = Exit code e ->
  (code <> 0 -> e = []) /\
  (code = 0 -> (exists f, a = Some (f, true) \/ b = Some (f, true)) /\ (empty = false -> In (Output out) e)) /\
  (forall f, In (Output f) e -> f = out) /\
  (forall f g, In (Link f g) e <-> f = out /\ In g links /\ code = 0 /\ empty = false) /\
  (forall f, In (Unlink f) e <-> delete = true /\ code = 0 /\ exists t, a = Some (f, t) \/ b = Some (f, t)) /\
  (errfail = true -> code = 0 -> forall f, a <> Some (f, false) /\ b <> Some (f, false)).
Proof.
  intros errfail delete a b empty opens out links code e. unfold finish.
  assert (Un : forall x f, In (Unlink f) (match x with Some (f, _) => [Unlink f] | None => [] end) <-> exists t : bool, x = Some (f, t)).
  { intros [[g t]|] f; cbn; [split; [intros [E|[]]; injection E as ->; exists t; reflexivity|intros (t' & E); injection E as -> ->; left; reflexivity]|split; [intros []|intros (t & E); discriminate]]. }
  assert (Uo : forall (x : option (list Z * bool)) f, ~ In (Output f) (match x with Some (f, _) => [Unlink f] | None => [] end)) by (intros [[g t]|] f; cbn; [intros [E|[]]; discriminate|tauto]).
  assert (Ul : forall (x : option (list Z * bool)) f g, ~ In (Link f g) (match x with Some (f, _) => [Unlink f] | None => [] end)) by (intros [[h t]|] f g; cbn; [intros [E|[]]; discriminate|tauto]).
  assert (Fa : forall x : option (list Z * bool), match x with Some (_, false) => true | _ => false end = false -> forall f, x <> Some (f, false)) by (intros [[g [|]]|] H f; congruence).
  assert (Lo : forall x : option (list Z * bool), match x with Some (_, true) => 1 | _ => 0 end = 0 \/ exists f, x = Some (f, true)) by (intros [[g [|]]|]; eauto).
  assert (Bad : forall n, n <> 0 -> Exit n [] = Exit code e -> code <> 0 /\ e = []) by (intros n Hn E; injection E as <- <-; auto).
  assert (Fin : code <> 0 /\ e = [] -> (code <> 0 -> e = []) /\
    (code = 0 -> (exists f, a = Some (f, true) \/ b = Some (f, true)) /\ (empty = false -> In (Output out) e)) /\ (forall f, In (Output f) e -> f = out) /\
    (forall f g, In (Link f g) e <-> f = out /\ In g links /\ code = 0 /\ empty = false) /\
    (forall f, In (Unlink f) e <-> delete = true /\ code = 0 /\ exists t, a = Some (f, t) \/ b = Some (f, t)) /\
    (errfail = true -> code = 0 -> forall f, a <> Some (f, false) /\ b <> Some (f, false))).
  { intros (H & ->). split; [reflexivity|]. split; [contradiction|]. split; [intros f []|]. split; [intros f g; split; [intros []|tauto]|]. split; [intros f; split; [intros []|tauto]|]. contradiction. }
  destruct (errfail && _) eqn:Ef; [intros E; apply Fin, (Bad 1 ltac:(lia) E)|].
  assert (Nf : errfail = true -> forall f, a <> Some (f, false) /\ b <> Some (f, false)).
  { intros ->. cbn [andb] in Ef. apply orb_false_elim in Ef as (E1 & E2). intros f. split; [exact (Fa a E1 f)|exact (Fa b E2 f)]. }
  destruct (_ =? 0) eqn:El; [intros E; apply Fin, (Bad 1 ltac:(lia) E)|].
  assert (Ld : exists f, a = Some (f, true) \/ b = Some (f, true)).
  { destruct (Lo a) as [Ea|(f & Ea)]; [|eauto]. destruct (Lo b) as [Eb|(f & Eb)]; [|eauto]. rewrite Ea, Eb in El. discriminate. }
  set (dels := if delete then _ else []).
  assert (Du : forall f, In (Unlink f) dels <-> delete = true /\ exists t, a = Some (f, t) \/ b = Some (f, t)).
  { intros f. unfold dels. destruct delete; [|split; [intros []|intros (Q & _); discriminate]]. rewrite in_app_iff, !Un. split; [intros [(t & E)|(t & E)]; eauto|intros (_ & t & [E|E]); eauto]. }
  assert (Dn : (forall f, ~ In (Output f) dels) /\ (forall f g, ~ In (Link f g) dels)).
  { unfold dels. destruct delete; [|split; intros; intros []]. split; intros; rewrite in_app_iff; intros [Q|Q]; [exact (Uo _ _ Q)|exact (Uo _ _ Q)|exact (Ul _ _ _ Q)|exact (Ul _ _ _ Q)]. }
  clearbody dels. destruct Dn as (Do & Dl).
  destruct empty; [|destruct opens; cbn [negb]; [|intros E; apply Fin, (Bad 2 ltac:(lia) E)]]; intros E; injection E as <- <-.
  - split; [congruence|]. split; [intros _; split; [exact Ld|discriminate]|]. split; [intros f Q; exfalso; exact (Do f Q)|]. split; [intros f g; split; [intros Q; exfalso; exact (Dl f g Q)|intros (_ & _ & _ & Q); discriminate]|].
    split; [intros f; rewrite Du; tauto|]. intros Q _. exact (Nf Q).
  - split; [congruence|]. split; [intros _; split; [exact Ld|intros _; left; reflexivity]|].
    split. { intros f [Q|Q]; [injection Q as <-; reflexivity|]. apply in_app_iff in Q as [Q|Q]; [apply in_map_iff in Q as (? & Q & _); discriminate|exfalso; exact (Do f Q)]. }
    split. { intros f g. cbn [In]. rewrite in_app_iff, in_map_iff. split.
      - intros [Q|[(h & Q & R)|Q]]; [discriminate|injection Q as <- <-; apply in_rev in R; auto|exfalso; exact (Dl f g Q)].
      - intros (-> & R & _). right. left. exists g. split; [reflexivity|apply in_rev; rewrite rev_involutive; exact R]. }
    split. { intros f. cbn [In]. rewrite in_app_iff, in_map_iff, Du. split; [intros [Q|[(h & Q & _)|Q]]; [discriminate|discriminate|tauto]|tauto]. }
    intros Q _. exact (Nf Q).
Qed.
Print Assumptions eaud_files.
Example eaud_files_ex : finish false true (Some ([1], true)) (Some ([2], true)) false true [3] [[4]; [5]] = Exit 0 [Output [3]; Link [3] [5]; Link [3] [4]; Unlink [1]; Unlink [2]].
Proof. reflexivity. Qed.
(** Expected: -d removes what was extracted. False: also a recording that could not be read, and recordings of which nothing
    was written. *)
Theorem eaud_only_extracted_removed_refuted :
  ~ (forall delete a b empty opens out links code e f, finish false delete a b empty opens out links = Exit code e -> In (Unlink f) e -> a = Some (f, true) \/ b = Some (f, true)) /\
  ~ (forall errfail delete a b empty opens out links code e f, finish errfail delete a b empty opens out links = Exit code e -> In (Unlink f) e -> In (Output out) e).
Proof.
  split; intros H.
  - destruct (H true (Some ([1], true)) (Some ([2], false)) false true [3] [] 0 [Output [3]; Unlink [1]; Unlink [2]] [2] eq_refl) as [E|E]; [cbn; auto|discriminate|discriminate].
  - specialize (H true true (Some ([1], true)) None true true [3] [] 0 [Unlink [1]] [1] eq_refl (or_introl eq_refl)). destruct H as [E|[]]. discriminate E.
Qed.
Print Assumptions eaud_only_extracted_removed_refuted.
