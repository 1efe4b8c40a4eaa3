(** Model of the keys of extractaudio: the argument of --alice-crypto and --bob-crypto, and which packets are
    decrypted with it.  Code: extractaudio/eaud_crypto.c, extractaudio/srtp_util.c, extractaudio/rtpp_loader.c. *)
From Verif Require Import Base Str.

(** struct srtp_crypto_suite: can_name, tag_size, ckey_len (eaud_crypto.c:61-96).  Simplification: key_size
    (128) and sec_serv (sec_serv_conf_and_auth) are the same for all *)
Record suite := Suite { su_name : list Z; su_tag : Z; su_klen : Z }.
Definition suites : list suite :=
  [Suite (B "AES_CM_128_HMAC_SHA1_32") 4 30; Suite (B "AES_CM_128_HMAC_SHA1_32") 4 30;
   Suite (B "AES_CM_128_HMAC_SHA1_80") 10 30].

(** tolower() in the C locale, which extractaudio does not leave *)
Definition tolow (c : Z) : Z := if (65 <=? c) && (c <=? 90) then c + 32 else c.

(** srtp_crypto_suite_lookup (eaud_crypto.c:98-113): strlen() and strncasecmp() *)
Fixpoint suite_lookup (l : list suite) (name : list Z) : option suite :=
  match l with
  | [] => None
  | s :: l =>
      if negb (length (su_name s) =? length name)%nat then suite_lookup l name
      else if beq (map tolow (su_name s)) (map tolow name) then Some s
      else suite_lookup l name
  end.

(** b64chars (srtp_util.c:49-50) *)
Definition b64chars : list Z := B "ABCDEFGHIJKLMNOPQRSTUVWXYZabcdefghijklmnopqrstuvwxyz0123456789+/".

(** strchr(b64chars, c) - b64chars, for c other than NUL *)
Fixpoint index (l : list Z) (c i : Z) : option Z :=
  match l with [] => None | x :: l => if x =? c then Some i else index l c (i + 1) end.
Definition sextet (c : Z) : Z := match index b64chars c 0 with Some v => v | None => 0 end.
Definition miss (c : Z) : Z := match index b64chars c 0 with Some _ => 0 | None => 1 end.

(** base64_block_to_octet_triple (srtp_util.c:52-74): the bytes written and the number of characters that are
    not of the alphabet.  Bytes go to char, i.e. mod 256. *)
Definition block (a b c d : Z) : list Z * Z :=
  let j := miss a + miss b + miss c + miss d in
  let o0 := Z.lor (Z.shiftl (sextet a) 2) (Z.shiftr (sextet b) 4) mod 256 in
  let o1 := Z.lor (Z.shiftl (sextet b) 4) (Z.shiftr (sextet c) 2) mod 256 in
  let o2 := Z.lor (Z.shiftl (sextet c) 6) (sextet d) mod 256 in
  (o0 :: (if j <? 2 then [o1] else []) ++ (if j <? 1 then [o2] else []), j).

(** base64_string_to_octet_string (srtp_util.c:76-92), for a length that is a multiple of 4: bytes written, pad,
    characters read *)
Fixpoint unb64 (s : list Z) : list Z * Z * Z :=
  match s with
  | a :: b :: c :: d :: s =>
      let (o, j) := block a b c d in
      if j =? 0 then let '(o2, p, n) := unb64 s in (o ++ o2, p, n + 4) else (o, j, 4)
  | _ => ([], 0, 0)
  end.

(** strchr(optarg, ':') *)
Fixpoint split_colon (s : list Z) : option (list Z * list Z) :=
  match s with
  | [] => None
  | c :: s => if c =? 58 then Some ([], s) else match split_colon s with Some (a, b) => Some (c :: a, b) | None => None end
  end.

(** eaud_crypto_getopt_parse (eaud_crypto.c:115-164): the length of the authentication tag and the bytes put at
    the start of the zeroed key[MAX_KEY_LEN].  Simplification: malloc succeeds. *)
Definition max_key_len : Z := 96.
Definition getopt_parse (optarg : list Z) : option (Z * list Z) :=
  match split_colon optarg with
  | None => None
  | Some (name, skey) =>
      match suite_lookup suites name with
      | None => None
      | Some s =>
          let expected := su_klen s * 4 / 3 in
          if negb (Z.of_nat (length skey) =? expected) then None
          else
            let '(key, pad, len) := unb64 skey in
            if negb (pad =? 0) then None else if len <? expected then None
            else Some (su_tag s, key)
      end
  end.

(** ** Decryption *)

(** A packet as the loader sees it: its SSRC and its bytes *)
Record cpkt := CPkt { cp_ssrc : Z; cp_data : list Z }.

Section Lib.
  (** srtp_unprotect for the stream of one SSRC: given the packets of the stream it has seen, the packet
      decrypted, or none when it does not authenticate or was seen before.  A context made for one SSRC refuses
      packets of every other (srtp_err_status_no_ctx). *)
  Context (unprotect : list cpkt -> cpkt -> option (list Z)).

  (** srtp_ctx: the SSRC it is for and the packets it has seen *)
  Definition cctx := option (Z * list cpkt).

  (** eaud_crypto_decrypt (eaud_crypto.c:168-202).  Simplification: srtp_init and srtp_create succeed. *)
  Definition decrypt (c : cctx) (p : cpkt) : cctx * option (list Z) :=
    let '(s, seen) := match c with None => (cp_ssrc p, []) | Some c => c end in
    if cp_ssrc p =? s then (Some (s, seen ++ [p]), unprotect seen p) else (Some (s, seen), None).

  (** The packets of a file as they reach the RTP parser: load_pcap decrypts when there is a key
      (rtpp_loader.c:293-303), load_adhoc never (161-200) *)
  Fixpoint load_pcap (key : bool) (c : cctx) (l : list cpkt) : list cpkt :=
    match l with
    | [] => []
    | p :: l =>
        if key then
          let (c, r) := decrypt c p in
          match r with Some (x :: d) => CPkt (cp_ssrc p) (x :: d) :: load_pcap key c l | _ => load_pcap key c l end
        else p :: load_pcap key c l
    end.
  Definition load_adhoc (key : bool) (l : list cpkt) : list cpkt := l.
End Lib.
