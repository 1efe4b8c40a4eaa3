(** Model of the STUN messages read and written for ICE: external/libre/src/stun/hdr.c, attr.c,
    addr.c, msg.c and rep.c over the buffers of external/libre/src/mbuf/mbuf.c. *)
From Verif Require Import Base.

Definition zlen {A} (l : list A) : Z := Z.of_nat (length l).

(** errno values returned by the decoder. Allocations are taken to succeed (no ENOMEM). *)
Inductive errno := EBADMSG | EAFNOSUPPORT | EOVERFLOW | EPROTO.

(** Outcome of a reading step. [Past]: the position of the buffer, or the range handed to a digest,
    went past the last byte of the datagram. [Hang]: the loop over the attributes did not end in
    as many rounds as there are bytes, and one more. *)
Inductive res (A : Type) := Ok (a : A) | Err (e : errno) | Past | Hang.
Arguments Ok {A} a. Arguments Err {A} e. Arguments Past {A}. Arguments Hang {A}.

(** ntohs, ntohl, sys_ntohll of the bytes read. *)
Definition be (l : list Z) : Z := fold_left (fun a x => a * 256 + x) l 0.
(** htons, htonl, sys_htonll. *)
Definition be8 (x : Z) : list Z := [x mod 256].
Definition be16 (x : Z) : list Z := [x / 256 mod 256; x mod 256].
Definition be32 (x : Z) : list Z := be16 (x / 65536) ++ be16 x.
Definition be64 (x : Z) : list Z := be32 (x / 4294967296) ++ be32 x.

(** A reading position of a struct mbuf is the list of the bytes from [pos] to [end]:
    mbuf_get_left, external/libre/include/re_mbuf.h:93-96, is its length.
    mbuf_read_mem, external/libre/src/mbuf/mbuf.c:334-350. *)
Definition read_mem (r : list Z) (n : Z) : option (list Z * list Z) :=
  if n >? zlen r then None else Some (firstn (Z.to_nat n) r, skipn (Z.to_nat n) r).
(** mbuf_read_u8, _u16, _u32, _u64, external/libre/src/mbuf/mbuf.c:360-406, with the conversion
    from the network's byte order that follows each call: 0 when too few bytes are left. *)
Definition read_be (n : Z) (r : list Z) : Z * list Z :=
  match read_mem r n with Some (v, r') => (be v, r') | None => (0, r) end.
(** mb->pos += n, not checked by the code. *)
Definition advance (n : Z) (r : list Z) : option (list Z) :=
  if n >? zlen r then None else Some (skipn (Z.to_nat n) r).

(** struct sa: the address families of net addresses. *)
Inductive sa := In4 (a port : Z) | In6 (a : list Z) (port : Z).

(** struct stun_attr, external/libre/include/re_stun.h:103-148; a DATA or PADDING attribute
    refers to bytes of the buffer, here the bytes themselves. *)
Inductive aval :=
| VSa (s : sa) | VChange (ip port : bool) | VStr (s : list Z) | VMi (h : list Z)
| VErr (code : Z) (reason : list Z) | VUnk (l : list Z) | VU16 (n : Z) | VU32 (n : Z) | VData (d : list Z)
| VU8 (n : Z) | VEven (r : bool) | VFlag | VU64 (n : Z) | VOther.
Record attr := mkAttr { a_type : Z; a_val : aval }.

(** enum stun_attrib, external/libre/include/re_stun.h:49-85. *)
Definition MAPPED_ADDR := 0x0001. Definition CHANGE_REQ := 0x0003. Definition USERNAME := 0x0006.
Definition MSG_INTEGRITY := 0x0008. Definition ERR_CODE := 0x0009. Definition UNKNOWN_ATTR := 0x000a.
Definition CHANNEL_NUMBER := 0x000c. Definition LIFETIME := 0x000d. Definition XOR_PEER_ADDR := 0x0012.
Definition DATA := 0x0013. Definition REALM := 0x0014. Definition NONCE := 0x0015.
Definition XOR_RELAY_ADDR := 0x0016. Definition REQ_ADDR_FAMILY := 0x0017. Definition EVEN_PORT := 0x0018.
Definition REQ_TRANSPORT := 0x0019. Definition DONT_FRAGMENT := 0x001a. Definition XOR_MAPPED_ADDR := 0x0020.
Definition RSV_TOKEN := 0x0022. Definition PRIORITY := 0x0024. Definition USE_CAND := 0x0025.
Definition PADDING := 0x0026. Definition RESP_PORT := 0x0027. Definition SOFTWARE := 0x8022.
Definition ALT_SERVER := 0x8023. Definition FINGERPRINT := 0x8028. Definition CONTROLLED := 0x8029.
Definition CONTROLLING := 0x802a. Definition RESP_ORIGIN := 0x802b. Definition OTHER_ADDR := 0x802c.

(** The case labels shared by the switches of stun_attr_encode and stun_attr_decode,
    external/libre/src/stun/attr.c:73-161 and 205-331. *)
Inductive kind := KAddr (xored : bool) | KChange | KStr | KMi | KErr | KUnk | KU16 | KU32 | KData | KU8 | KEven | KFlag | KU64 | KOther.
Definition one_of (t : Z) (l : list Z) : bool := existsb (Z.eqb t) l.
Definition kind_of (t : Z) : kind :=
  if one_of t [MAPPED_ADDR; ALT_SERVER; RESP_ORIGIN; OTHER_ADDR] then KAddr false
  else if one_of t [XOR_PEER_ADDR; XOR_RELAY_ADDR; XOR_MAPPED_ADDR] then KAddr true
  else if t =? CHANGE_REQ then KChange
  else if one_of t [USERNAME; REALM; NONCE; SOFTWARE] then KStr
  else if t =? MSG_INTEGRITY then KMi
  else if t =? ERR_CODE then KErr
  else if t =? UNKNOWN_ATTR then KUnk
  else if one_of t [CHANNEL_NUMBER; RESP_PORT] then KU16
  else if one_of t [LIFETIME; PRIORITY; FINGERPRINT] then KU32
  else if one_of t [DATA; PADDING] then KData
  else if one_of t [REQ_ADDR_FAMILY; REQ_TRANSPORT] then KU8
  else if t =? EVEN_PORT then KEven
  else if one_of t [DONT_FRAGMENT; USE_CAND] then KFlag
  else if one_of t [RSV_TOKEN; CONTROLLING; CONTROLLED] then KU64
  else KOther.

(** STUN_MAGIC_COOKIE, external/libre/src/stun/stun.h:10. *)
Definition COOKIE : Z := 0x2112a442.

(** in6_xor_tid, external/libre/src/stun/addr.c:14-26. *)
Fixpoint xor_bytes (a k : list Z) : list Z :=
  match a, k with x :: a', y :: k' => Z.lxor x y :: xor_bytes a' k' | _, _ => a end.
Definition in6_xor (a tid : list Z) : list Z := xor_bytes a ([0x21; 0x12; 0xa4; 0x42] ++ tid).

(** stun_addr_decode, external/libre/src/stun/addr.c:76-124: the length of the attribute is not
    known to it, only what is left of the datagram. *)
Definition addr_decode (xored : bool) (tid r : list Z) : res (sa * list Z) :=
  if zlen r <? 4 then Err EBADMSG else
  let (_, r) := read_be 1 r in
  let (family, r) := read_be 1 r in
  let (port0, r) := read_be 2 r in
  let port := if xored then Z.lxor port0 (COOKIE / 65536) else port0 in
  if family =? 1 then
    if zlen r <? 4 then Err EBADMSG else
    let (a, r) := read_be 4 r in
    Ok (In4 (if xored then Z.lxor a COOKIE else a) port, r)
  else if family =? 2 then
    if zlen r <? 16 then Err EBADMSG else
    match read_mem r 16 with
    | Some (a, r) => Ok (In6 (if xored then in6_xor a tid else a) port, r)
    | None => Ok (In6 [] port, r)
    end
  else Err EAFNOSUPPORT.

(** str_decode, external/libre/src/stun/attr.c:17-23, and mbuf_strdup,
    external/libre/src/mbuf/mbuf.c:443-470. *)
Definition str_decode (r : list Z) (len : Z) : res (list Z * list Z) :=
  if zlen r <? len then Err EBADMSG else
  match read_mem r len with Some x => Ok x | None => Err EOVERFLOW end.

(** The loop over the types of an UNKNOWN-ATTRIBUTES attribute, attr.c:253-261: all are read, the
    first [room] of them are kept (typev[8]). *)
Fixpoint unk_decode (n : nat) (room : nat) (r : list Z) : list Z * list Z :=
  match n with
  | O => ([], r)
  | S n' => let (t, r1) := read_be 2 r in
            let (l, r2) := unk_decode n' (pred room) r1 in
            ((match room with O => l | S _ => t :: l end), r2)
  end.

(** The switch of stun_attr_decode, attr.c:205-331. [ua]: the types in struct stun_unknown_attr. *)
Definition val_decode (t len : Z) (tid ua r : list Z) : res (aval * list Z * list Z) :=
  match kind_of t with
  | KAddr x => match addr_decode x tid r with
               | Ok (s, r') => Ok (VSa s, ua, r') | Err e => Err e | Past => Past | Hang => Hang end
  | KChange => if negb (len =? 4) then Err EBADMSG else
               let (n, r') := read_be 4 r in Ok (VChange (Z.odd (n / 4)) (Z.odd (n / 2)), ua, r')
  | KStr => match str_decode r len with
            | Ok (s, r') => Ok (VStr s, ua, r') | Err e => Err e | Past => Past | Hang => Hang end
  | KMi => if negb (len =? 20) then Err EBADMSG else
           match read_mem r 20 with Some (h, r') => Ok (VMi h, ua, r') | None => Err EOVERFLOW end
  | KErr => if len <? 4 then Err EBADMSG else
            match advance 2 r with
            | None => Past
            | Some r =>
                let (h, r) := read_be 1 r in
                let (l, r) := read_be 1 r in
                match str_decode r (len - 4) with
                | Ok (s, r') => Ok (VErr (u16 (h mod 8 * 100 + l)) s, ua, r')
                | Err e => Err e | Past => Past | Hang => Hang
                end
            end
  | KUnk => let (l, r') := unk_decode (Z.to_nat (len / 2)) 8 r in Ok (VUnk l, ua, r')
  | KU16 => if len <? 2 then Err EBADMSG else let (n, r') := read_be 2 r in Ok (VU16 n, ua, r')
  | KU32 => if negb (len =? 4) then Err EBADMSG else let (n, r') := read_be 4 r in Ok (VU32 n, ua, r')
  | KData => match advance len r with
             | None => Past
             | Some r' => Ok (VData (firstn (Z.to_nat len) r), ua, r') end
  | KU8 => if len <? 1 then Err EBADMSG else let (n, r') := read_be 1 r in Ok (VU8 n, ua, r')
  | KEven => if len <? 1 then Err EBADMSG else let (n, r') := read_be 1 r in Ok (VEven (128 <=? n), ua, r')
  | KFlag => if len >? 0 then Err EBADMSG else Ok (VFlag, ua, r)
  | KU64 => if negb (len =? 8) then Err EBADMSG else let (n, r') := read_be 8 r in Ok (VU64 n, ua, r')
  | KOther => match advance len r with
              | None => Past
              | Some r' => Ok (VOther, (if t >=? 0x8000 then ua
                                        else if (length ua <? 8)%nat then ua ++ [t] else ua), r') end
  end.

(** The padding loop, attr.c:336-338: bytes are skipped until the count of those read since the
    start of the value, [n], is a multiple of 4, or none is left. *)
Definition pad_skip (n : Z) (r : list Z) : list Z :=
  if n mod 4 =? 0 then r else skipn (Z.to_nat (4 - n mod 4)) r.

(** stun_attr_decode, attr.c:179-350. *)
Definition attr_decode (tid ua r : list Z) : res (attr * list Z * list Z) :=
  if zlen r <? 4 then Err EBADMSG else
  let (t, r) := read_be 2 r in
  let (len, r) := read_be 2 r in
  if zlen r <? len then Err EBADMSG else
  match val_decode t len tid ua r with
  | Ok (v, ua', r') => Ok (mkAttr t v, ua', pad_skip (zlen r - zlen r') r')
  | Err e => Err e | Past => Past | Hang => Hang
  end.

(** The loop of stun_msg_decode, external/libre/src/stun/msg.c:114-123; the difference is of
    type size_t. *)
Fixpoint attrs_decode (fuel : nat) (extra : Z) (tid ua r : list Z) : res (list attr * list Z) :=
  if u64 (zlen r - extra) >=? 4 then
    match fuel with
    | O => Hang
    | S f =>
        match attr_decode tid ua r with
        | Ok (a, ua', r') =>
            match attrs_decode f extra tid ua' r' with
            | Ok (l, u) => Ok (a :: l, u)
            | Err e => Err e | Past => Past | Hang => Hang
            end
        | Err e => Err e | Past => Past | Hang => Hang
        end
    end
  else Ok ([], ua).

(** struct stun_hdr, external/libre/src/stun/stun.h:30-35, and struct stun_msg, msg.c:45-50;
    the message starts at the first byte of the datagram (mb->pos is 0 when the decoder is called
    and is put back to 0 by every function below). *)
Record hdr := mkHdr { h_type : Z; h_len : Z; h_cookie : Z; h_tid : list Z }.
Record msg := mkMsg { m_hdr : hdr; m_attrs : list attr; m_ua : list Z }.

(** stun_hdr_decode, external/libre/src/stun/hdr.c:30-53. *)
Definition hdr_decode (r : list Z) : res (hdr * list Z) :=
  if zlen r <? 20 then Err EBADMSG else
  let (t, r) := read_be 2 r in
  if negb (Z.land t 0xc000 =? 0) then Err EBADMSG else
  let (len, r) := read_be 2 r in
  if negb (Z.land len 3 =? 0) then Err EBADMSG else
  let (cookie, r) := read_be 4 r in
  match read_mem r 12 with
  | Some (tid, r) => if zlen r <? len then Err EBADMSG else Ok (mkHdr t len cookie tid, r)
  | None => if zlen r <? len then Err EBADMSG else Ok (mkHdr t len cookie [], r)
  end.

(** stun_msg_decode, external/libre/src/stun/msg.c:79-133. *)
Definition decode (b : list Z) : res msg :=
  match hdr_decode b with
  | Ok (h, r) =>
      match attrs_decode (S (length r)) (zlen r - h_len h) (h_tid h) [] r with
      | Ok (l, ua) => Ok (mkMsg h l ua)
      | Err e => Err e | Past => Past | Hang => Hang
      end
  | Err e => Err e | Past => Past | Hang => Hang
  end.

(** stun_msg_attr, msg.c:209-223. *)
Definition find_attr (t : Z) (m : msg) : option attr := find (fun a => a_type a =? t) (m_attrs m).

(** STUN_CLASS and STUN_METHOD, external/libre/src/stun/stun.h:22-27. *)
Definition msg_class (t : Z) : Z := Z.land (Z.lor (t / 128) (t / 16)) 3.
Definition msg_method (t : Z) : Z :=
  Z.lor (Z.lor (Z.land t 0x3e00 / 4) (Z.land t 0x00e0 / 2)) (Z.land t 0x000f).
(** STUN_TYPE, stun.h:14-19. *)
Definition msg_type (method class : Z) : Z :=
  Z.lor (Z.lor (Z.lor (Z.lor (Z.land method 0x0f80 * 4) (Z.land method 0x0070 * 2)) (Z.land method 0x000f))
               (Z.land class 2 * 128)) (Z.land class 1 * 16).

(** stun_hdr_encode, external/libre/src/stun/hdr.c:14-27. *)
Definition hdr_encode (h : hdr) : list Z :=
  be16 (Z.land (h_type h) 0x3fff) ++ be16 (h_len h) ++ be32 (h_cookie h) ++ h_tid h.
Definition with_len (h : hdr) (n : Z) : hdr := mkHdr (h_type h) n (h_cookie h) (h_tid h).
(** Writing the header over the first bytes of the buffer. *)
Definition put_hdr (h : hdr) (b : list Z) : list Z := hdr_encode h ++ skipn 20 b.

Section digests.
  (** hmac_sha1 of a key and a range of bytes (20 bytes), and crc32 of a range of bytes. *)
  Context (mac : list Z -> list Z -> list Z) (crc : list Z -> Z).

  (** fingerprint, msg.c:53-56. *)
  Definition fingerprint (b : list Z) : Z := Z.lxor (crc b) 0x5354554e.

  (** stun_msg_chk_fingerprint, msg.c:434-455; the length is an int expression passed as size_t. *)
  Definition chk_fp (b : list Z) (m : msg) : res unit :=
    match find_attr FINGERPRINT m with
    | None => Err EPROTO
    | Some a =>
        let n := u64 (20 + h_len (m_hdr m) - 8) in
        if n >? zlen b then Past else
        match a_val a with
        | VU32 v => if fingerprint (firstn (Z.to_nat n) b) =? v then Ok tt else Err EBADMSG
        | _ => Err EBADMSG
        end
    end.

  (** stun_msg_chk_mi, msg.c:388-424, and the bytes of the buffer afterwards: the header is
      rewritten with a smaller length and put back. *)
  Definition chk_mi (key b : list Z) (m : msg) : res unit * list Z :=
    match find_attr MSG_INTEGRITY m with
    | None => (Err EPROTO, b)
    | Some a =>
        let fp := match find_attr FINGERPRINT m with Some _ => true | None => false end in
        let len1 := if fp then u16 (h_len (m_hdr m) - 8) else h_len (m_hdr m) in
        let b1 := if fp then put_hdr (with_len (m_hdr m) len1) b else b in
        let n := u64 (20 + len1 - 24) in
        let b2 := if fp then put_hdr (with_len (m_hdr m) (u16 (len1 + 8))) b1 else b1 in
        ((if n >? zlen b1 then Past else
          match a_val a with
          | VMi h => if list_eq_dec Z.eq_dec h (mac key (firstn (Z.to_nat n) b1)) then Ok tt else Err EBADMSG
          | _ => Err EBADMSG
          end), b2)
    end.

  (** stun_addr_encode, external/libre/src/stun/addr.c:29-73. *)
  Definition addr_encode (xored : bool) (tid : list Z) (s : sa) : list Z :=
    let px p := if xored then Z.lxor p (COOKIE / 65536) else p in
    match s with
    | In4 a p => be8 0 ++ be8 1 ++ be16 (px p) ++ be32 (if xored then Z.lxor a COOKIE else a)
    | In6 a p => be8 0 ++ be8 2 ++ be16 (px p) ++ (if xored then in6_xor a tid else a)
    end.

  (** The switch of stun_attr_encode, attr.c:73-161. [None]: EINVAL. The value passed by the caller
      is of the type the attribute calls for; another one is not modelled ([None]). A string value
      is written up to its terminating zero. *)
  Definition val_encode (tid : list Z) (a : attr) : option (list Z) :=
    match kind_of (a_type a), a_val a with
    | KAddr x, VSa s => Some (addr_encode x tid s)
    | KChange, VChange ip port => Some (be32 ((if ip then 4 else 0) + (if port then 2 else 0)))
    | KStr, VStr s => Some s
    | KMi, VMi h => Some h
    | KErr, VErr c s => Some (be16 0 ++ be8 (c / 100) ++ be8 (c mod 100) ++ s)
    | KUnk, VUnk l => Some (concat (map be16 l))
    | KU16, VU16 n => Some (be16 n ++ be16 0)
    | KU32, VU32 n => Some (be32 n)
    | KData, VData d => Some d
    | KU8, VU8 n => Some (be8 n ++ be8 0 ++ be16 0)
    | KEven, VEven r => Some (be8 (if r then 128 else 0))
    | KFlag, VFlag => Some []
    | KU64, VU64 n => Some (be64 n)
    | _, _ => None
    end.

  (** stun_attr_encode, attr.c:53-176, with padding byte 0: the bytes written from mb->pos on. The
      code leaves room for the 4 bytes of type and length and writes them after the value. *)
  Definition pad_bytes (n : Z) : list Z := repeat 0 (Z.to_nat ((4 - n mod 4) mod 4)).
  Definition attr_encode (tid : list Z) (a : attr) : option (list Z) :=
    match val_encode tid a with
    | Some v => Some (be16 (a_type a) ++ be16 (zlen v) ++ v ++ pad_bytes (zlen v))
    | None => None
    end.
  Fixpoint attrs_encode (tid : list Z) (l : list attr) : option (list Z) :=
    match l with
    | [] => Some []
    | a :: l' => match attr_encode tid a, attrs_encode tid l' with
                 | Some x, Some y => Some (x ++ y) | _, _ => None end
    end.

  (** stun_msg_vencode, msg.c:271-341, into an empty buffer; the error code attribute, if any, is the
      first of [l]. [None]: some attribute could not be encoded, or (not modelled) the attributes do
      not fit the 16 bits of the length. *)
  Definition encode (method class : Z) (tid : list Z) (key : option (list Z)) (fp : bool) (l : list attr)
    : option (list Z) :=
    match attrs_encode tid l with
    | None => None
    | Some body =>
        if zlen body + 32 >? 65535 then None else
        let h := mkHdr (msg_type method class) (zlen body + (if key then 24 else 0)) COOKIE tid in
        let m1 := hdr_encode h ++ body in
        match (match key with
               | Some k => match attr_encode tid (mkAttr MSG_INTEGRITY (VMi (mac k m1))) with
                           | Some x => Some (m1 ++ x) | None => None end
               | None => Some m1
               end) with
        | None => None
        | Some m2 =>
            if fp then
              let m3 := put_hdr (with_len h (zlen m2 - 20 + 8)) m2 in
              match attr_encode tid (mkAttr FINGERPRINT (VU32 (fingerprint m3))) with
              | Some x => Some (m3 ++ x) | None => None end
            else Some m2
        end
    end.

  (** stun_reply and stun_ereply, external/libre/src/stun/rep.c:32-64 and 84-119, as called with no
      preamble and a key: the buffer has 256 bytes, and mbuf_write_mem asks mem_realloc for more,
      which is abort() in libre/rtpp_re.c:41-46. *)
  Inductive sent := Sent (b : list Z) | NotSent | Abort.
  Definition send_reply (class : Z) (h : hdr) (key : list Z) (l : list attr) : sent :=
    match encode (msg_method (h_type h)) class (h_tid h) (Some key) true l with
    | None => NotSent
    | Some b => if zlen b >? 256 then Abort else Sent b
    end.
End digests.
