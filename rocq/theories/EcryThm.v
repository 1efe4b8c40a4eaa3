(** C66: the keys of extractaudio. *)
From Verif Require Import Base Str EcryModel EcrySpec EcryProof.

(** The option is accepted when, and only when, it is a known suite, a colon and the base64 text of 30 bytes, and
    those are the bytes of the key *)
Theorem ecry_option s tag key :
  getopt_parse s = Some (tag, key) <->
  exists name, s = name ++ 58 :: b64 key /\ known name tag /\ length key = 30%nat /\ Forall byte key.
Proof.
  unfold getopt_parse. split.
  - pose proof (split_colon_spec s) as X. destruct (split_colon s) as [[name skey]|]; [|discriminate]. destruct X as [-> _].
    pose proof (lookup_known name) as Y. destruct (suite_lookup suites name) as [u|]; [|discriminate]. destruct Y as [Y1 ->].
    change (30 * 4 / 3) with 40. destruct (Z.eqb_spec (Z.of_nat (length skey)) 40) as [L|L]; cbn [negb]; [|discriminate].
    destruct (unb64 skey) as [[k p] m] eqn:U. destruct (Z.eqb_spec p 0) as [->|]; cbn [negb]; [|discriminate].
    destruct (m <? 40); [discriminate|]. intros [= <- <-].
    destruct (unb64_inv 10 skey k m ltac:(lia) U) as (-> & L2 & F & _). exists name. auto.
  - intros (name & -> & K & L & F). rewrite split_colon_app by (eapply known_colon; eauto).
    pose proof (lookup_known name) as Y. destruct (suite_lookup suites name) as [u|]; [|exfalso; eapply Y; eauto]. destruct Y as [Y1 ->].
    rewrite (known_tag _ _ _ K Y1). pose proof (unb64_b64 10 key L F) as U. rewrite U.
    assert (L4 : forall n k, length k = (3 * n)%nat -> length (b64 k) = (4 * n)%nat).
    { induction n as [|n IH]; intros k Lk; [destruct k; [reflexivity|cbn in Lk; lia]|]. destruct k as [|x [|y [|z k]]]; try (cbn in Lk; lia).
      cbn [b64 length]. rewrite (IH k) by (cbn in Lk; lia). lia. }
    rewrite (L4 10%nat key L). reflexivity.
Qed.
Print Assumptions ecry_option.

(** so one option is one key *)
Theorem ecry_key_unique a b : length a = 30%nat -> length b = 30%nat -> Forall byte a -> Forall byte b -> b64 a = b64 b -> a = b.
Proof. intros La Lb Fa Fb E. pose proof (unb64_b64 10 a La Fa) as X. rewrite E, (unb64_b64 10 b Lb Fb) in X. congruence. Qed.
Print Assumptions ecry_key_unique.

(** the key fits in the array it is put in *)
Theorem ecry_key_fits s tag key : getopt_parse s = Some (tag, key) -> Z.of_nat (length key) <= max_key_len.
Proof. intros H. apply ecry_option in H. destruct H as (name & _ & _ & L & _). rewrite L. discriminate. Qed.
Print Assumptions ecry_key_fits.

Example ecry_option_ex :
  getopt_parse (B "aes_cm_128_hmac_sha1_80:" ++ B "WVNfX19zZW1jdGwgKCkgewkyMjA7fQp9CnVubGVz") =
  Some (10, B "YS___semctl () {" ++ [9] ++ B "220;}" ++ [10] ++ B "}" ++ [10] ++ B "unles")
  /\ getopt_parse (B "AES_CM_128_HMAC_SHA1_80:" ++ B "WVNfX19zZW1jdGwgKCkgewkyMjA7fQp9CnVubGV=") = None.
Proof. split; reflexivity. Qed.

(** Decryption: with a key, what is loaded of a capture is the stream of the first packet's SSRC, decrypted;
    without one, every packet as it is *)
Theorem ecry_first_ssrc unp p l :
  load_pcap unp true None (p :: l) = plain unp [] (filter (fun q => cp_ssrc q =? cp_ssrc p) (p :: l))
  /\ load_pcap unp false None (p :: l) = p :: l.
Proof.
  split; [|apply load_pcap_clear]. cbn [load_pcap filter]. unfold decrypt. rewrite Z.eqb_refl. cbn [plain].
  destruct (unp [] p) as [[|x d]|]; rewrite load_pcap_ctx; reflexivity.
Qed.
Print Assumptions ecry_first_ssrc.
Example ecry_first_ssrc_ex :
  load_pcap (fun seen p => if (length seen =? 1)%nat then None else Some (map (Z.lxor 255) (cp_data p))) true None
    [CPkt 1 [7]; CPkt 2 [8]; CPkt 1 [9]; CPkt 1 [10]] = [CPkt 1 [248]; CPkt 1 [245]].
Proof. reflexivity. Qed.

(** "Every packet the library would decrypt is loaded" is false: a stream that changes its SSRC is lost from
    there on; so is a capture whose first packet is not of the stream *)
Theorem ecry_every_ssrc_refuted :
  ~ (forall unp l q d, In q l -> (forall seen, unp seen q = Some d) -> d <> [] -> In (CPkt (cp_ssrc q) d) (load_pcap unp true None l)).
Proof.
  intros H. specialize (H (fun _ p => Some (cp_data p)) [CPkt 1 [7]; CPkt 2 [8]] (CPkt 2 [8]) [8]).
  assert (E : load_pcap (fun _ p => Some (cp_data p)) true None [CPkt 1 [7]; CPkt 2 [8]] = [CPkt 1 [7]]) by reflexivity.
  rewrite E in H. destruct H as [H|[]]; try discriminate; try reflexivity; [now right; left].
Qed.
Print Assumptions ecry_every_ssrc_refuted.

(** "A key is used whatever the format of the recording" is false: for the proxy's own format it is ignored *)
Theorem ecry_adhoc_key_refuted :
  ~ (forall unp l, load_adhoc true l = load_pcap unp true None l).
Proof. intros H. specialize (H (fun _ _ => None) [CPkt 1 [7]]). discriminate. Qed.
Print Assumptions ecry_adhoc_key_refuted.
