From Verif Require Import Base RtpModel RtpSpec RszModel RszSpec RszProof RszProof2.

Lemma round_out_is out m R : 0 < out -> 0 < m -> R mod m = 0 -> out <= R < out + m -> round_out out m = R.
Proof.
  intros O M D B. apply Z.mod_divide in D; [|lia]. destruct D as (k & ->). unfold round_out.
  pose proof (Z.div_mod out m ltac:(lia)) as E. pose proof (Z.mod_pos_bound out m M) as P.
  destruct (Z.ltb_spec out m) as [L|L].
  - assert (0 < k) by nia. assert (k < 2) by nia. assert (k = 1) by lia. subst k. lia.
  - destruct (Z.eqb_spec (out mod m) 0) as [F|F].
    + assert (out / m <= k) by nia. assert (k < out / m + 1) by nia. assert (k = out / m) by lia. subst k. lia.
    + assert (out / m < k) by nia. assert (k < out / m + 2) by nia. assert (k = out / m + 1) by lia. subst k. lia.
Qed.

Lemma get_cuts s now p q s' z R : s_q s = p :: q -> z_pt p = 0 \/ z_pt p = 8 -> 0 < s_out s -> R mod 80 = 0 -> s_out s <= R < s_out s + 80 ->
  R < z_ns p -> get s now true = Some (s', Some z) ->
  z_ns z = R /\ z_dsize z = R /\ z_size z = z_off p + R /\ z_ts z = z_ts p /\ z_pt z = z_pt p
  /\ exists p', s_q s' = p' :: q /\ z_ns p' = z_ns p - R /\ z_dsize p' = z_dsize p - R /\ z_ts p' = u32 (z_ts p + R).
Proof.
  intros Q PT O D B L G. unfold get in G. rewrite Q in G. destruct (_ && _); [discriminate|].
  assert (M : min_nsamples (z_pt p) = 80) by (destruct PT as [-> | ->]; reflexivity). rewrite M, (round_out_is _ 80 R O ltac:(lia) D B) in G.
  cbn [aggregate] in G. replace (R <? z_ns p) with true in G by lia.
  assert (CF : chunk_find p R = Some (Some (R, R))).
  { unfold chunk_find. replace (z_ns p <=? R) with false by lia. destruct PT as [-> | ->]; reflexivity. }
  rewrite CF in G. unfold move_chunk in G. destruct (copy _ _ _ _ _) as [b|]; [|discriminate]. unfold cut_head in G.
  destruct (copy _ _ _ _ _) as [b'|]; [|discriminate]. injection G as <- <-.
  repeat split; try (eexists; repeat split; reflexivity). unfold z_off, dup_hdr, set_len. cbn. lia.
Qed.
