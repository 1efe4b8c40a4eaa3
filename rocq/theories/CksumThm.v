(** C35: the checksum routines alone, for every block of bytes (the recorded frames are in RecThm.v). *)
From Verif Require Import Base CksumModel CksumSpec CksumProof.

(** Storing what rtpp_in_cksum returns for a block whose checksum field is zero makes the block verify, wherever the
    field is, whatever the address of the block, for even and odd lengths; the sum does not overflow. *)
Theorem in_cksum_makes_valid : forall odd_addr hd tl,
  bytes (hd ++ tl) -> Nat.even (length hd) = true -> Exists (fun b => b <> 0) (hd ++ tl) ->
  Z.of_nat (length (hd ++ tl)) <= 65533 ->
  exists c, in_cksum odd_addr (hd ++ [0; 0] ++ tl) = Some c /\ 0 <= c < 65536 /\ verifies (hd ++ st16 c ++ tl).
Proof.
  intros odd hd tl B E X L. apply bytes_app in B. destruct B as [Bh Bt].
  assert (B : bytes (hd ++ [0; 0] ++ tl)).
  { rewrite !bytes_app. split; [assumption|]. split; [unfold bytes; repeat constructor; lia|assumption]. }
  rewrite app_length in L. destruct (in_cksum_defined odd (hd ++ [0; 0] ++ tl)) as [c Hc].
  { assumption. } { rewrite !app_length. cbn [length]. lia. }
  exists c. split; [assumption|]. apply (in_cksum_verifies odd); try assumption.
  - apply le_pos; [assumption|]. rewrite Exists_exists in X. destruct X as (x & Hi & Hx).
    rewrite Exists_exists. exists x. split; [|assumption]. rewrite !in_app_iff in *. tauto.
  - rewrite !app_length. cbn [length]. lia.
Qed.
Print Assumptions in_cksum_makes_valid.

(** The same for the incremental routine used for UDP: blocks of even length (addresses, pads, ports, lengths) first,
    then the payload, even or odd, as a receiver would sum them. *)
Theorem chksum_makes_valid : forall pre hd data,
  bytes (pre ++ hd ++ data) -> Nat.even (length pre) = true -> Nat.even (length hd) = true ->
  Exists (fun b => b <> 0) pre -> Z.of_nat (length (pre ++ hd ++ data)) <= 131000 ->
  let c := ck_fin (ck_update data (ck_update hd (ck_update pre 0))) in
  0 <= c < 65536 /\ verifies (pre ++ hd ++ st16 c ++ data).
Proof.
  intros pre hd data B Ep Eh X L. rewrite !bytes_app in B. destruct B as (Bp & Bh & Bd).
  apply ck_verifies; try assumption; [apply le_pos; assumption|]. rewrite !app_length in L. lia.
Qed.
Print Assumptions chksum_makes_valid.

Example cksum_ex :
  let hd := [69; 0; 0; 115; 0; 0; 64; 0; 64; 17] in let tl := [192; 168; 0; 1; 192; 168; 0; 199] in
  in_cksum true (hd ++ [0; 0] ++ tl) = Some 25016 /\ st16 25016 = [184; 97] /\ oc_sum (hd ++ [184; 97] ++ tl) = 65535 /\
  oc_sum (hd ++ [184; 98] ++ tl) <> 65535.
Proof. vm_compute. split; [reflexivity|]. split; [reflexivity|]. split; [reflexivity|discriminate]. Qed.

Example chksum_ex :
  let c := ck_fin (ck_update [1; 2; 3] (ck_update [31; 64; 31; 65] (ck_update [10; 0; 0; 1; 10; 0; 0; 2; 0; 17; 0; 11] 0))) in
  oc_sum ([10; 0; 0; 1; 10; 0; 0; 2; 0; 17; 0; 11] ++ [31; 64; 31; 65] ++ st16 c ++ [1; 2; 3]) = 65535 /\ c <> 0.
Proof. vm_compute. split; [reflexivity|discriminate]. Qed.
