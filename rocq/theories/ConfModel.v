(** Model of the configuration of the addresses to listen on: the options -l, -6 and -A (src/main.c:498-524),
    bindarg_parse and init_bindaddrs (src/rtpp_bindargs.c:44-185), with the list of addresses of BindModel, and
    of the address in the answer to an update that creates a session (src/commands/rpcpv1_ul.c:782-784,
    141-146 with src/rtpp_command_reply.c:181-202). Strings are lists of bytes other than 0. Memory is assumed for
    the (at most 16) objects made here: without it the start fails as it does for a host that cannot be resolved. *)
From Verif Require Import Base Str AddrModel BindModel.
From Verif Require OptsModel.

(** Options of the command line, in the order given *)
Inductive copt := OptL (s : list Z) | Opt6 (s : list Z) | OptA (s : list Z).

(** struct bindarg, src/rtpp_bindargs.h:37-41; [g_h]: None is NULL *)
Record larg := mkArg { g_h : option (list Z); g_v6 : bool; g_label : str; g_adv : str }.

(** strchr, and the two strings left when the byte found is overwritten with 0 *)
Fixpoint cut (c : Z) (s : list Z) : option (list Z * list Z) :=
  match s with
  | [] => None
  | x :: t => if x =? c then Some ([], t)
              else match cut c t with Some (a, b) => Some (x :: a, b) | None => None end
  end.

(** bindarg_parse, src/rtpp_bindargs.c:44-61: '@' is 64, '=' is 61 *)
Definition bindarg_parse (s : list Z) (v6 : bool) : larg :=
  let '(lab, s1) := match cut 64 s with Some (l, r) => (Some l, r) | None => (None, s) end in
  let '(h, adv) := match cut 61 s1 with Some (h, a) => (h, Some a) | None => (s1, None) end in
  mkArg (Some h) v6 lab adv.

(** BINDARG_MAX, src/rtpp_bindargs.h:35 *)
Definition BINDARG_MAX : nat := 16.

(** The options, src/main.c:498-524; bargs[0..banum-1] and iebparams[0..1].advaddr; None: IC_ERRX *)
Record cline := mkLine { l_bargs : list larg; l_adv0 : str; l_adv1 : str }.
Definition opt_step (c : cline) (o : copt) : option cline :=
  match o with
  | OptL s => if (length (l_bargs c) =? BINDARG_MAX)%nat then None
              else Some (mkLine (l_bargs c ++ [bindarg_parse s false]) (l_adv0 c) (l_adv1 c))
  | Opt6 s => if (length (l_bargs c) =? BINDARG_MAX)%nat then None
              else Some (mkLine (l_bargs c ++ [bindarg_parse s true]) (l_adv0 c) (l_adv1 c))
  | OptA s => match s with
              | [] => None
              | _ => match cut 47 s with
                     | Some (_, []) => None
                     | Some (p, q) => Some (mkLine (l_bargs c) (Some p) (Some q))
                     | None => Some (mkLine (l_bargs c) (Some s) (l_adv1 c))
                     end
              end
  end.
Fixpoint opt_run (c : cline) (os : list copt) : option cline :=
  match os with
  | [] => Some c
  | o :: t => match opt_step c o with Some c' => opt_run c' t | None => None end
  end.

(** ba_firstidx, src/rtpp_bindargs.c:63-71 *)
Fixpoint ba_firstidx (bs : list larg) (v6 : bool) : option nat :=
  match bs with
  | [] => None
  | b :: t => if Bool.eqb (g_v6 b) v6 then Some 0%nat
              else match ba_firstidx t v6 with Some i => Some (S i) | None => None end
  end.

(** What resolve() answers (src/rtpp_network.c:222-256), for a host (None: NULL), a family, and whether
    AI_NUMERICHOST and AI_ADDRCONFIG are set. Parameter of the model. *)
Definition resolver := option (list Z) -> bool -> bool -> bool -> option sockaddr.

(** is_wildcard, src/rtpp_network.c:377-388 *)
Definition is_wildcard (h : list Z) (v6 : bool) : bool :=
  bytes_eqb h (B "*") || (negb v6 && bytes_eqb h (B "0.0.0.0")) || (v6 && bytes_eqb h (B "::")).
(** is_numhost, src/rtpp_network.c:390-398: all bytes are in the set *)
Definition is_numhost (h : list Z) (v6 : bool) : bool :=
  forallb (fun c => existsb (Z.eqb c) (if v6 then B "0123456789abcdefABCDEF:" else B "0123456789.")) h.

(** The list of addresses, and the advertised address of each object, by its number
    (bl->bindaddr.params.advaddr, set when the object is made: src/rtpp_bindaddrs.c:96-98) *)
Record hst := mkH { h_bs : bstate; h_adv : list str }.
Definition h_empty : hst := mkH b_empty [].

(** host2bindaddr, src/rtpp_bindaddrs.c:130-162, as called by init_bindaddrs *)
Definition host2 (rs : resolver) (nr : bool) (t : hst) (h : list Z) (v6 : bool) (label adv : str) : hst * bres :=
  let resolved := if is_wildcard h v6 then rs None v6 nr false
                  else rs (Some h) v6 (nr || is_numhost h v6) true in
  let '(s', r) := host2bindaddr (h_bs t) resolved (Some label) true in
  (mkH s' (if (b_next s' =? b_next (h_bs t))%nat then h_adv t else h_adv t ++ [adv]), r).

(** cfsp->bindaddr[0..1], cfsp->bmode and the list *)
Record conf := mkConf { c_h : hst; c_b0 : option nat; c_b1 : option nat; c_bmode : bool }.
(** The start fails with a message; the process is aborted; it goes on. *)
Inductive cres := CErr | CAbort | COk (c : conf).

Definition set_h (b : larg) (h : option (list Z)) : larg := mkArg h (g_v6 b) (g_label b) (g_adv b).

(** Lines 88-107, one iteration: bargs and eaddr (None while eaddr.h == NULL); None: return (-1) *)
Definition ext_step (bs : list larg) (e : option larg) (i : option nat) : option (list larg * option larg) :=
  match i with
  | None => Some (bs, e)
  | Some i =>
      match nth_error bs i with
      | Some b =>
          match g_h b with
          | Some h =>
              match cut 47 h with
              | None => Some (bs, e)
              | Some (p, q) =>
                  match e with
                  | Some _ => None
                  | None => Some (upd bs i (set_h b (match p with [] => None | _ => Some p end)), Some (set_h b (Some q)))
                  end
              end
          | None => Some (bs, e)
          end
      | None => Some (bs, e)
      end
  end.
(** Lines 109-122, one iteration: bargs and iaddr *)
Definition int_step (bs : list larg) (e : option larg) (i : option nat) : option (list larg * option larg) :=
  match i with
  | None => Some (bs, e)
  | Some i =>
      match nth_error bs i with
      | Some b =>
          match g_h b with
          | None => Some (bs, e)
          | Some _ => match e with Some _ => None | None => Some (upd bs i (set_h b None), Some b) end
          end
      | None => Some (bs, e)
      end
  end.

(** Lines 133-153, one iteration: the address of the internal (external) interface *)
Definition bridge_addr (rs : resolver) (nr : bool) (t : hst) (b : larg) (adv : str) : option (hst * bres) :=
  match g_label b, g_adv b, g_h b with
  | None, None, Some h => Some (host2 rs nr t h (g_v6 b) None adv)
  | _, _, _ => None
  end.

(** Lines 157-181; [b0] is cfsp->bindaddr[0] *)
Fixpoint listen_rest (rs : resolver) (nr : bool) (t : hst) (b0 : option nat) (bs : list larg) : cres :=
  match bs with
  | [] => COk (mkConf t b0 None false)
  | b :: rest =>
      match g_h b with
      | None => listen_rest rs nr t b0 rest
      | Some h =>
          match b0, g_label b with
          | Some _, None => CErr
          | _, _ =>
              match cut 47 h with
              | Some _ => CErr
              | None =>
                  match host2 rs nr t h (g_v6 b) (g_label b) (g_adv b) with
                  | (t', BObj p) => listen_rest rs nr t' (match b0 with Some x => Some x | None => Some p end) rest
                  | (_, BNull) => CErr
                  | (_, BAbort) => CAbort
                  end
              end
          end
      end
  end.
(** with the other members of the configuration, and the assertion of line 183 *)
Definition listen_all (rs : resolver) (nr : bool) (t : hst) (b0 b1 : option nat) (bmode : bool) (bs : list larg) : cres :=
  match listen_rest rs nr t b0 bs with
  | COk c => match c_b0 c with Some _ => COk (mkConf (c_h c) (c_b0 c) b1 bmode) | None => CAbort end
  | r => r
  end.

(** init_bindaddrs, src/rtpp_bindargs.c:73-185 *)
Definition init_bindaddrs (rs : resolver) (nr : bool) (bs : list larg) (adv0 adv1 : str) : cres :=
  match bs with
  | [] => listen_all rs nr h_empty None None false [mkArg (Some (B "*")) false None None]
  | _ =>
      let i4 := ba_firstidx bs false in
      let i6 := ba_firstidx bs true in
      match ext_step bs None i4 with
      | None => CErr
      | Some (bs1, e1) =>
          match ext_step bs1 e1 i6 with
          | None => CErr
          | Some (bs2, None) => listen_all rs nr h_empty None None false bs2
          | Some (bs2, Some ea) =>
              match int_step bs2 None i4 with
              | None => CErr
              | Some (bs3, a3) =>
                  match int_step bs3 a3 i6 with
                  | None => CErr
                  | Some (_, None) => CErr
                  | Some (bs4, Some ia) =>
                      if match adv0, adv1 with Some _, None => true | _, _ => false end then CErr
                      else
                        match bridge_addr rs nr h_empty ia adv0 with
                        | Some (t1, BObj p0) =>
                            match bridge_addr rs nr t1 ea adv1 with
                            | Some (t2, BObj p1) => listen_all rs nr t2 (Some p0) (Some p1) true bs4
                            | Some (_, BAbort) => CAbort
                            | _ => CErr
                            end
                        | Some (_, BAbort) => CAbort
                        | _ => CErr
                        end
                  end
              end
          end
      end
  end.

(** The start of the daemon, as far as these options go; [nr]: cfsp->no_resolve *)
Definition configure (rs : resolver) (nr : bool) (os : list copt) : cres :=
  match opt_run (mkLine [] None None) os with
  | None => CErr
  | Some c => init_bindaddrs rs nr (l_bargs c) (l_adv0 c) (l_adv1 c)
  end.

(** ** The answer to an update that creates a session *)

(** What the parser of the modifiers asks (OptsModel.env), answered by a configuration. [more]: l<addr> and r<addr>, which can add
    objects, and the remote address are left as they are. *)
Definition obj_of (r : bres) : option nat := match r with BObj p => Some p | _ => None end.
Definition fam_at (c : conf) (p : nat) : OptsModel.family :=
  match find (fun b => (b_id b =? p)%nat) (b_list (h_bs (c_h c))) with
  | Some b => if family (b_addr b) =? AF_INET then OptsModel.INET else OptsModel.INET6
  | None => OptsModel.INET
  end.
Definition af_of (f : OptsModel.family) : Z := match f with OptsModel.INET => AF_INET | OptsModel.INET6 => AF_INET6 end.
Definition env_of (c : conf) (p0 : nat) (more : OptsModel.env) : OptsModel.env :=
  OptsModel.mkEnv (OptsModel.aforce more) p0 (c_b1 c) (fam_at c)
    (fun l => obj_of (label2bindaddr (b_list (h_bs (c_h c))) l)) (OptsModel.host2 more) (OptsModel.local4remote more)
    (fun f => obj_of (bindaddr4af (b_list (h_bs (c_h c))) (af_of f)))
    (OptsModel.resolve more) (OptsModel.mem1 more) (OptsModel.mem2 more) (OptsModel.mem3 more).

(** lia[0] of a new session, src/commands/rpcpv1_ul.c:782-784 *)
Definition reply_obj (o : OptsModel.opts) : nat :=
  match OptsModel.local_addr o with Some a => a | None => OptsModel.lia0 o end.

(** ishostnull, src/rtpp_network.c:76-97, for IPv4 and IPv6 *)
Definition host_null (a : sockaddr) : bool :=
  match a with SaIn h _ => h =? 0 | SaIn6 h _ => forallb (Z.eqb 0) h | SaOther _ => false end.

(** The port and the address in the answer, src/commands/rpcpv1_ul.c:141-146 and src/rtpp_command_reply.c:181-202.
    [ntop]: inet_ntop (src/rtpp_network.c:175-194). None: there is no such object. *)
Definition answer_text (ntop : sockaddr -> list Z) (c : conf) (p : nat) (port : Z) : option (list Z) :=
  match find (fun b => (b_id b =? p)%nat) (b_list (h_bs (c_h c))) with
  | None => None
  | Some b =>
      Some (if host_null (b_addr b) then fmt_d port
            else fmt_d port ++ [32] ++ match nth p (h_adv (c_h c)) None with Some a => a | None => ntop (b_addr b) end
                 ++ (if family (b_addr b) =? AF_INET then [] else B " 6"))
  end.

(** An update with the modifiers [mods] that creates a session, a listener on [port] being there: the answer *)
Definition update_new (ntop : sockaddr -> list Z) (c : conf) (more : OptsModel.env) (mods : list Z) (remote : option (list Z * list Z)) (port : Z)
  : option (list Z) :=
  match c_b0 c with
  | None => None
  | Some p0 =>
      match OptsModel.parse (env_of c p0 more) (mods ++ [0]) remote with
      | OptsModel.OOk o => answer_text ntop c (reply_obj o) port
      | _ => None
      end
  end.
