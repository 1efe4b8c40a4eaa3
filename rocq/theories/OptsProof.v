From Verif Require Import Base NumModel NumSpec NumProof OptsModel OptsSpec.

Lemma munch (P : Z -> Prop) l r l' r' : Forall P l -> not_next P r -> Forall P l' -> not_next P r' -> l ++ r = l' ++ r' -> l = l' /\ r = r'.
Proof.
  intros F N F' N' E. revert l' F' E. induction F as [|c l Hc F IH]; intros [|c' l'] F' E; cbn in *; auto.
  - subst. inversion F'; subst. exfalso. eapply N; eauto.
  - subst. exfalso. eapply N'; eauto.
  - injection E as <- E. inversion F'; subst. destruct (IH _ H2 E) as [-> ->]. auto.
Qed.

Lemma not_next_cons (P : Z -> Prop) c t : ~ P c -> not_next P (c :: t).
Proof. intros H d u [= <- <-]. exact H. Qed.

Lemma numeral_det s v rest v' rest' : numeral s v rest -> numeral s v' rest' -> v = v' /\ rest = rest'.
Proof.
  intros (ws & sg & k & ds & -> & Fw & Hs & Hn & Fd & Hr & ->) (ws' & sg' & k' & ds' & E & Fw' & Hs' & Hn' & Fd' & Hr' & ->).
  assert (N : forall sg k ds rest, sign sg k -> ds <> [] -> Forall digit ds -> not_next blank (sg ++ ds ++ rest)).
  { clear. intros sg k ds rest Hs Hn Fd. destruct ds as [|d ds]; [congruence|]. inversion Fd; subst. unfold blank, digit in *.
    destruct Hs; cbn; apply not_next_cons; unfold blank; lia. }
  destruct (munch blank _ _ _ _ Fw (N _ _ _ rest Hs Hn Fd) Fw' (N _ _ _ rest' Hs' Hn' Fd') E) as [-> E2].
  assert (sg = sg' /\ k = k' /\ ds ++ rest = ds' ++ rest') as (-> & -> & E3).
  { destruct ds as [|d ds]; [congruence|]. destruct ds' as [|d' ds']; [congruence|]. inversion Fd; inversion Fd'; subst. unfold digit in *.
    destruct Hs, Hs'; cbn in E2; injection E2; intros; subst; repeat split; auto; try lia; cbn; congruence. }
  destruct (munch digit _ _ _ _ Fd Hr Fd' Hr' E3) as [-> ->]. auto.
Qed.

Lemma address_det s f a rest f' a' rest' : address s f a rest -> address s f' a' rest' -> f = f' /\ a = a' /\ rest = rest'.
Proof.
  assert (X : forall a r, Forall addr4 a -> a <> [] -> forall t, a ++ r = 91 :: t -> False).
  { intros a0 r F N t E. destruct a0; [congruence|]. injection E as -> _. inversion F; subst. unfold addr4, digit in *. lia. }
  intros H H'. destruct H as [a rest N F M|a rest N F]; inversion H' as [a2 r2 N2 F2 M2 E2|a2 r2 N2 F2 E2]; subst.
  - destruct (munch addr4 _ _ _ _ F2 M2 F M E2) as [-> ->]. auto.
  - exfalso. eapply X; eauto.
  - exfalso. eapply X; eauto.
  - assert (N93 : forall r, not_next addr6 (93 :: r)) by (intros r; apply not_next_cons; unfold addr6, digit; lia).
    destruct (munch addr6 _ _ _ _ F2 (N93 _) F (N93 _) E2) as [-> [= ->]]. auto.
Qed.

Lemma address_no_label s f a rest : address (123 :: s) f a rest -> False.
Proof.
  intros H. inversion H as [a2 r2 N2 F2 M2 E2|a2 r2 N2 F2 E2]; subst.
  destruct a as [|c a]; [congruence|]. injection E2 as -> _. inversion F2; subst. unfold addr4, digit in *. lia.
Qed.

Lemma one_det s m rest m' rest' : one s m rest -> one s m' rest' -> m = m' /\ rest = rest'.
Proof.
  intros H H'. unfold either in *.
  inversion H as [c0 s0 A|c0 s0 A|c0 s0 A|c0 s0 A|s0|c0 s0 A|c0 s0 A|c0 s0 v r A B|c0 l r A B C D|c0 s0 f a r A B|c0 l r A B C|c0 s0 f a r A B]; subst;
  inversion H' as [c1 s1 A'|c1 s1 A'|c1 s1 A'|c1 s1 A'|s1|c1 s1 A'|c1 s1 A'|c1 s1 v' r' A' B'|c1 l' r' A' B' C' D' E'|c1 s1 f' a' r' A' B'|c1 l' r' A' B' C' E'|c1 s1 f' a' r' A' B']; subst;
  unfold either in *; try lia; auto.
  - destruct (numeral_det _ _ _ _ _ B B') as [-> ->]. auto.
  - destruct (munch codec_char _ _ _ _ C' D' C D) as [-> ->]; auto.
  - destruct (address_det _ _ _ _ _ _ _ B B') as (-> & -> & ->). auto.
  - exfalso. eapply address_no_label; eauto.
  - exfalso. eapply address_no_label; eauto.
  - destruct (munch (fun c => c <> 125) l (125 :: rest) l' (125 :: rest')) as [-> [= ->]]; auto.
    + apply Forall_forall. intros x Hx ->. auto.
    + apply not_next_cons. lia.
    + apply Forall_forall. intros x Hx ->. auto.
    + apply not_next_cons. lia.
  - destruct (address_det _ _ _ _ _ _ _ B B') as (-> & -> & ->). auto.
Qed.

(** ** Reading *)
Lemma rd_at pre x k : rd (pre ++ x) (length pre + k) = rd x k.
Proof. unfold rd. rewrite nth_error_app2 by lia. replace (length pre + k - length pre)%nat with k by lia. reflexivity. Qed.
Lemma skip_at (pre x : list Z) k : skipn (length pre + k) (pre ++ x) = skipn k x.
Proof. rewrite skipn_app, skipn_all2 by lia. replace (length pre + k - length pre)%nat with k by lia. reflexivity. Qed.
Lemma copy_at pre l x k n : length pre = k -> length l = n -> copy (pre ++ l ++ x) k n = Got l.
Proof.
  intros <- <-. unfold copy. replace (length pre + length l <=? length (pre ++ l ++ x))%nat with true by (symmetry; apply Nat.leb_le; rewrite !app_length; lia).
  replace (length pre) with (length pre + 0)%nat by lia. rewrite skip_at. cbn. rewrite firstn_app, firstn_all, Nat.sub_diag. cbn. rewrite app_nil_r. reflexivity.
Qed.

Lemma span_spec cls s junk : cstring s -> exists l rest, s = l ++ rest /\ span_from cls (s ++ 0 :: junk) = Got (length l) /\
  Forall (fun c => cls c = true) l /\ not_next (fun c => cls c = true) rest.
Proof.
  intros F. induction F as [|c s Hc F IH]; cbn [app span_from].
  - exists [], []. repeat split; auto. discriminate.
  - destruct (Z.eqb_spec c 0); [lia|]. destruct (cls c) eqn:E.
    + destruct IH as (l & rest & -> & -> & A & B). exists (c :: l), rest. repeat split; auto.
    + exists [], (c :: s). repeat split; auto. apply not_next_cons. congruence.
Qed.

Lemma not_next_iff (P Q : Z -> Prop) s : (forall c, Q c -> P c) -> not_next P s -> not_next Q s.
Proof. intros H N c t E K. eapply N; eauto. Qed.

Lemma cstring_app a b : cstring (a ++ b) -> cstring a /\ cstring b.
Proof. apply Forall_app. Qed.

Lemma extractaddr_spec pre s junk : cstring s ->
  (exists f a rest used, address s f a rest /\ s = used ++ rest /\ used <> [] /\ exists t,
     extractaddr (pre ++ s ++ 0 :: junk) (length pre) = Got (Some (t, length a, (length pre + length used)%nat, f)) /\
     copy (pre ++ s ++ 0 :: junk) t (length a) = Got a) \/
  ((forall f a rest, ~ address s f a rest) /\ extractaddr (pre ++ s ++ 0 :: junk) (length pre) = Got None).
Proof.
  intros F. unfold extractaddr. replace (rd (pre ++ s ++ 0 :: junk) (length pre)) with (rd (s ++ 0 :: junk) 0)
    by (rewrite <- (rd_at pre _ 0); f_equal; lia).
  assert (Hc : rd (s ++ 0 :: junk) 0 = Got (head0 s)) by (destruct s; reflexivity). rewrite Hc.
  destruct (Z.eqb_spec (head0 s) 91) as [E|E]; cbn [negb].
  - destruct s as [|c s]; [discriminate|]. cbn in E. subst c. inversion F as [|? ? _ F2]; subst.
    unfold span. rewrite skip_at. cbn [app skipn].
    destruct (span_spec (fun x => is_xdigit x || (x =? 58)) s junk F2) as (l & rest & -> & -> & A & B).
    rewrite <- Nat.add_assoc, rd_at. cbn [app].
    assert (Hr : rd (91 :: (l ++ rest) ++ 0 :: junk) (1 + length l) = Got (head0 rest)).
    { unfold rd. cbn [nth_error Nat.add]. rewrite <- app_assoc, nth_error_app2, Nat.sub_diag by lia. destruct rest; reflexivity. }
    rewrite Hr. assert (A6 : Forall addr6 l) by (eapply Forall_impl; [|exact A]; cbn; unfold is_xdigit, is_digit, addr6, digit; intros; lia).
    destruct (Z.eqb_spec (head0 rest) 93) as [E|E]; cbn [negb].
    + destruct rest as [|d rest]; [discriminate|]. cbn in E. subst d. destruct l as [|c l].
      * right. cbn. split; [|reflexivity]. intros f a r H. inversion H as [a2 r2 N2 G2 M2 E2|a2 r2 N2 G2 E2]; subst.
        { destruct a as [|x a]; [congruence|]. injection E2 as -> _. inversion G2; subst. unfold addr4, digit in *. lia. }
        { destruct a as [|x a]; [congruence|]. injection E2 as -> _. inversion G2; subst. unfold addr6, digit in *. lia. }
      * left. exists INET6, (c :: l), rest, (91 :: (c :: l) ++ [93]). split; [constructor; auto; discriminate|].
        split; [cbn; rewrite <- app_assoc; reflexivity|]. split; [discriminate|].
        exists (length pre + 1)%nat. split.
        { cbn [Nat.eqb length]. do 4 f_equal. rewrite app_length. cbn. lia. }
        change (91 :: ((c :: l) ++ 93 :: rest) ++ 0 :: junk) with ([91] ++ ((c :: l) ++ 93 :: rest) ++ 0 :: junk).
        rewrite (app_assoc pre), <- (app_assoc (c :: l)). apply copy_at; [rewrite app_length; reflexivity|reflexivity].
    + right. split; [|reflexivity]. intros f a r H. inversion H as [a2 r2 N2 G2 M2 E2|a2 r2 N2 G2 E2]; subst.
      { destruct a as [|x a]; [congruence|]. injection E2 as -> _. inversion G2; subst. unfold addr4, digit in *. lia. }
      destruct (munch addr6 a (93 :: r) l rest) as [-> <-]; auto.
      { apply not_next_cons. unfold addr6, digit. lia. }
      { eapply not_next_iff; [|exact B]. cbn. unfold addr6, digit, is_xdigit, is_digit. intros. lia. }
  - unfold span. replace (skipn (length pre) (pre ++ s ++ 0 :: junk)) with (skipn 0 (s ++ 0 :: junk)) by (rewrite <- (skip_at pre); f_equal; lia).
    cbn [skipn]. destruct (span_spec (fun x => is_digit x || (x =? 46)) s junk F) as (l & rest & -> & -> & A & B).
    assert (A4 : Forall addr4 l) by (eapply Forall_impl; [|exact A]; cbn; unfold is_digit, addr4, digit; intros; lia).
    assert (B4 : not_next addr4 rest) by (eapply not_next_iff; [|exact B]; cbn; unfold addr4, digit, is_digit; intros; lia).
    destruct l as [|c l].
    + right. split; [|reflexivity]. cbn [app] in *. intros f a r H. inversion H as [a2 r2 N2 G2 M2 E2|a2 r2 N2 G2 E2]; subst.
      { destruct a as [|x a]; [congruence|]. inversion G2; subst. eapply B4; [reflexivity|auto]. }
      { cbn in E. lia. }
    + left. exists INET, (c :: l), rest, (c :: l). split; [constructor; auto; discriminate|]. split; [reflexivity|]. split; [discriminate|].
      exists (length pre). split; [reflexivity|]. rewrite <- app_assoc. apply copy_at; reflexivity.
Qed.

Lemma strchr_spec d s junk : cstring s -> d <> 0 ->
  (exists l rest, s = l ++ d :: rest /\ ~ In d l /\ strchr_from d (s ++ 0 :: junk) = Got (Some (length l))) \/
  (~ In d s /\ strchr_from d (s ++ 0 :: junk) = Got None).
Proof.
  intros F D. induction F as [|c s Hc F IH]; cbn [app strchr_from].
  - right. destruct (Z.eqb_spec 0 d); [lia|]. auto.
  - destruct (Z.eqb_spec c d) as [->|N]; [left; exists [], s; auto|]. destruct (Z.eqb_spec c 0); [lia|].
    destruct IH as [(l & rest & -> & A & ->)|(A & ->)].
    + left. exists (c :: l), rest. repeat split; auto. intros [K|K]; auto.
    + right. split; auto. intros [K|K]; auto.
Qed.

Lemma extractlabel_spec pre s junk : cstring s ->
  (exists l rest, s = l ++ 125 :: rest /\ l <> [] /\ ~ In 125 l /\
     extractlabel (pre ++ (123 :: s) ++ 0 :: junk) (length pre) = Got (Some ((length pre + 1)%nat, length l, (length pre + 1 + length l)%nat))) \/
  ((forall l rest, l <> [] -> ~ In 125 l -> s <> l ++ 125 :: rest) /\ extractlabel (pre ++ (123 :: s) ++ 0 :: junk) (length pre) = Got None).
Proof.
  intros F. unfold extractlabel. replace (rd (pre ++ (123 :: s) ++ 0 :: junk) (length pre)) with (rd ((123 :: s) ++ 0 :: junk) 0)
    by (rewrite <- (rd_at pre _ 0); f_equal; lia).
  cbn [app rd nth_error Z.eqb Pos.eqb negb]. change (pre ++ 123 :: s ++ 0 :: junk) with (pre ++ (123 :: s ++ 0 :: junk)). rewrite skip_at. cbn [skipn].
  destruct (strchr_spec 125 s junk F) as [(l & rest & -> & A & ->)|(A & ->)]; [lia| |].
  - destruct l as [|c l].
    + right. split; [|reflexivity]. intros l r N I E. destruct l as [|x l]; [congruence|]. injection E as <- _. apply I. left. reflexivity.
    + left. exists (c :: l), rest. repeat split; auto. discriminate.
  - right. split; [|reflexivity]. intros l r N I ->. apply A. apply in_or_app. right. left. reflexivity.
Qed.

Lemma cstr_spec s junk : cstring s -> cstr_from (s ++ 0 :: junk) = Got s.
Proof. intros F. induction F as [|c s Hc F IH]; cbn [app cstr_from]; [reflexivity|]. destruct (Z.eqb_spec c 0); [lia|]. rewrite IH. reflexivity. Qed.

(** ** An iteration *)
Lemma last_of_snoc {A} (f : mod_ -> option A) ms m d : last_of f (ms ++ [m]) d = match f m with Some x => x | None => last_of f ms d end.
Proof. revert d. induction ms as [|x t IH]; intros d; cbn; auto. Qed.
Lemma has_snoc p ms m : has p (ms ++ [m]) = has p ms || p m.
Proof. unfold has. rewrite existsb_app. cbn. rewrite orb_false_r. reflexivity. Qed.
Lemma dirs_snoc e ms m : dirs e (ms ++ [m]) = dirs e ms ++ dirs e [m].
Proof. unfold dirs. rewrite flat_map_app. reflexivity. Qed.

Definition R (e : env) (ms : list mod_) (o : opts) : Prop :=
  meaning e ms o /\ local_addr o = asked e ms /\ ia o = None /\ onhold o = false /\ length (dirs e ms) = length (filter is_dir ms).

Lemma R_init e : R e [] (opts_init e).
Proof. repeat split. Qed.

Definition step_ok (e : env) (ms : list mod_) (pre s : list Z) (r : iter_res) : Prop :=
  (exists m rest used o', one s m rest /\ s = used ++ rest /\ used <> [] /\ good_after e ms m /\ R e (ms ++ [m]) o' /\
     r = INext o' (length pre + length used - 1)) \/
  (exists x, offends e ms s x /\ r = IErr x).

Ltac unR H := destruct H as ((R1 & R2 & R3 & R4 & R5 & R6 & R7 & R8 & R9) & RA & RB & RC & RD).
Ltac mkR := unfold R, meaning, asked in *; rewrite !last_of_snoc, !has_snoc, !dirs_snoc, !filter_app;
  cbn [asym_of ptime_of codecs_of local_of chosen dirs flat_map is_dir filter app asymmetric weak requested_ptime codecs ia lia0 lia1 lidx local_addr pf new_port onhold
       set_asym set_weak set_ptime set_codecs set_lia set_local set_pf6 set_new];
  rewrite ?orb_false_r, ?orb_true_r, ?app_nil_r.

Lemma iter_flag e ms o pre c s m o' : R e ms o -> one (c :: s) m s -> good_after e ms m -> R e (ms ++ [m]) o' ->
  step_ok e ms pre (c :: s) (INext o' (length pre)).
Proof. intros H O G H'. left. exists m, s, [c], o'. repeat split; auto; try apply H'; try discriminate. f_equal. cbn. lia. Qed.

Lemma iter_dir_spec e ms o pre c s (ext : bool) x : R e ms o -> one (c :: s) (if ext then External else Internal) s ->
  (~ good_after e ms (if ext then External else Internal) -> offends e ms (c :: s) x) ->
  step_ok e ms pre (c :: s) (iter_dir e o (length pre) ext x).
Proof.
  intros H O X. unfold iter_dir. pose proof H as H0. unR H. destruct (bind1 e) as [a1|] eqn:B.
  2:{ right. exists x. split; [|reflexivity]. apply X. destruct ext; cbn; intros [K _]; congruence. }
  destruct (Z.ltb_spec (lidx o) 0) as [L|L].
  { right. exists x. split; [|reflexivity]. apply X. destruct ext; cbn; lia. }
  assert (Ln : (length (filter is_dir ms) < 2)%nat) by lia.
  eapply iter_flag; eauto.
  - destruct ext; cbn; rewrite B; split; auto; discriminate.
  - destruct ext.
    + mkR. rewrite B. rewrite !app_length. cbn [length app].
      destruct (dirs e ms) as [|d [|d2 t]] eqn:Dd; cbn [length] in *; [| |lia].
      * replace (lidx o) with 1 in * by lia. cbn. repeat split; auto; try lia.
      * replace (lidx o) with 0 in * by lia. cbn. repeat split; auto; try lia.
    + mkR. rewrite !app_length. cbn [length app].
      destruct (dirs e ms) as [|d [|d2 t]] eqn:Dd; cbn [length] in *; [| |lia].
      * replace (lidx o) with 1 in * by lia. cbn. repeat split; auto; try lia.
      * replace (lidx o) with 0 in * by lia. cbn. repeat split; auto; try lia.
Qed.

Lemma int_stored v : int_of v = stored v.
Proof. reflexivity. Qed.

Lemma iter_ptime_spec e ms o pre c s junk : R e ms o -> either c 90 -> cstring s ->
  step_ok e ms pre (c :: s) (iter_ptime o (pre ++ (c :: s) ++ 0 :: junk) (length pre)).
Proof.
  intros H Hc F. unfold iter_ptime. rewrite skip_at. cbn [app skipn]. rewrite (cstr_spec s junk F).
  destruct (strtol_cases s) as [(v & rest & N & E)|[N (v & er & E)]]; rewrite E.
  - destruct (clamp v rest) as [[a b] d] eqn:Ec. destruct (clamp_val v rest) as [C1 C2]. rewrite Ec in C1, C2. cbn in C1, C2. subst a b.
    fold (int_of v). rewrite int_stored.
    destruct ((stored v <=? 0) || (stored v >=? 1000)) eqn:Rg.
    + right. exists 13. split; [|reflexivity]. apply off_z; [exact Hc|]. intros v' rest' N' K. destruct (numeral_det _ _ _ _ _ N N') as [<- <-]. lia.
    + left. destruct N as (ws & sg & k & ds & Es & N). exists (Ptime v), rest, (c :: ws ++ sg ++ ds), (set_ptime o (stored v)).
      split; [constructor; auto; exists ws, sg, k, ds; split; auto|].
      split; [cbn; rewrite Es, !app_assoc; reflexivity|]. split; [discriminate|]. split; [cbn; lia|]. split.
      * unR H. mkR. repeat split; auto.
      * f_equal. cbn [length]. rewrite Es, !app_length. lia.
  - right. exists 13. split.
    + apply off_z; [exact Hc|]. intros v' rest' N' K. eapply N; eauto.
    + assert (v = 0) as ->; [|reflexivity]. clear - E. unfold strtol in E. destruct (digits _ _ _) as [[v1 n] r] eqn:Ed.
      destruct (n =? 0)%nat; [congruence|]. destruct (_ >? _); [discriminate|]. destruct (_ <? _); discriminate.
Qed.

Lemma iter_codecs_spec e ms o pre c s junk : R e ms o -> either c 67 -> cstring s ->
  step_ok e ms pre (c :: s) (iter_codecs e o (pre ++ (c :: s) ++ 0 :: junk) (length pre)).
Proof.
  intros H Hc F. unfold iter_codecs, span. rewrite skip_at. cbn [app skipn].
  destruct (span_spec (fun x => is_digit x || (x =? 44)) s junk F) as (l & rest & -> & -> & A & B).
  assert (A4 : Forall codec_char l) by (eapply Forall_impl; [|exact A]; cbn; unfold is_digit, codec_char, digit; intros; lia).
  assert (B4 : not_next codec_char rest) by (eapply not_next_iff; [|exact B]; cbn; unfold codec_char, digit, is_digit; intros; lia).
  assert (Cd : forall ms, (last_of codecs_of ms None <> None <-> filter is_codecs ms <> []) /\ (filter is_codecs ms = [] -> last_of codecs_of ms None = None)).
  { clear. intros ms. induction ms as [|m ms IH] using rev_ind; [split; [split|]; auto; intros K; destruct K; reflexivity|].
    rewrite last_of_snoc, filter_app. destruct m; cbn [codecs_of is_codecs filter]; rewrite ?app_nil_r; auto.
    split; [split; [|discriminate]|]; [|intros K]; destruct (filter is_codecs ms); discriminate. }
  pose proof H as H0. unR H.
  destruct l as [|d l].
  { right. exists 14. split; [|reflexivity]. apply off_c; auto. }
  destruct (codecs o) as [x|] eqn:Eo.
  { right. exists 14. split; [|rewrite orb_true_r; reflexivity]. apply off_c; auto. right. apply Cd. congruence. }
  assert (Nc : filter is_codecs ms = []).
  { destruct (filter is_codecs ms) eqn:Ef; [reflexivity|]. exfalso. destruct (Cd ms) as [[_ K] _]. apply K; congruence. }
  assert (O : one (c :: (d :: l) ++ rest) (Codecs (d :: l)) rest) by (constructor; auto; discriminate).
  rewrite orb_false_r. cbn [length Nat.eqb]. destruct (mem2 e) eqn:M; cbn [negb].
  2:{ right. exists 82. split; [|reflexivity]. eapply off_cm; eauto. }
  change (pre ++ c :: ((d :: l) ++ rest) ++ 0 :: junk) with (pre ++ [c] ++ ((d :: l) ++ rest) ++ 0 :: junk).
  rewrite (app_assoc pre), <- (app_assoc (d :: l)), copy_at; [|rewrite app_length; reflexivity|reflexivity].
  left. exists (Codecs (d :: l)), rest, (c :: d :: l), (set_codecs o (d :: l)). split; [exact O|]. split; [reflexivity|]. split; [discriminate|].
  split; [cbn; auto|]. split; [mkR; repeat split; auto|]. f_equal. cbn. lia.
Qed.

Lemma chosen_R e ms o m a : R e ms o -> chosen e m = Some a -> R e (ms ++ [m]) (set_local o a).
Proof. intros H C. unR H. destruct m; cbn [chosen] in C; try discriminate; mkR. all: unfold local_of at 1; cbn [chosen]; rewrite C; repeat split; auto. Qed.

Lemma iter_remote_spec e ms o pre c s junk : R e ms o -> either c 82 -> cstring s ->
  step_ok e ms pre (c :: s) (iter_remote e o (pre ++ (c :: s) ++ 0 :: junk) (length pre)).
Proof.
  intros H Hc F. unfold iter_remote.
  replace (pre ++ (c :: s) ++ 0 :: junk) with ((pre ++ [c]) ++ s ++ 0 :: junk) by (rewrite <- app_assoc; reflexivity).
  replace (length pre + 1)%nat with (length (pre ++ [c])) by (rewrite app_length; reflexivity).
  destruct (extractaddr_spec (pre ++ [c]) s junk F) as [(f & a & rest & used & A & Es & U & t & -> & ->)|[N ->]].
  - assert (O : one (c :: s) (Remote f a) rest) by (apply one_r; auto). destruct (local4remote e a f) as [x|] eqn:L.
    + left. exists (Remote f a), rest, (c :: used), (set_local o x). split; [exact O|]. split; [cbn; congruence|]. split; [discriminate|].
      split; [cbn; congruence|]. split; [apply chosen_R; auto|]. f_equal. rewrite app_length. cbn. lia.
    + right. exists 32. split; [|reflexivity]. eapply off_rr; eauto.
  - right. exists 16. split; [|reflexivity]. apply off_r; auto. intros m rest O. inversion O; subst; unfold either in *; try lia. eapply N; eauto.
Qed.

Lemma iter_local_spec e ms o pre c s junk : R e ms o -> either c 76 -> cstring s ->
  step_ok e ms pre (c :: s) (iter_local e o (pre ++ (c :: s) ++ 0 :: junk) (length pre)).
Proof.
  intros H Hc F. unfold iter_local.
  rewrite rd_at. assert (Hr : rd ((c :: s) ++ 0 :: junk) 1 = Got (head0 s)) by (destruct s; reflexivity). rewrite Hr.
  replace (pre ++ (c :: s) ++ 0 :: junk) with ((pre ++ [c]) ++ s ++ 0 :: junk) by (rewrite <- app_assoc; reflexivity).
  replace (length pre + 1)%nat with (length (pre ++ [c])) by (rewrite app_length; reflexivity).
  destruct (Z.eqb_spec (head0 s) 123) as [E|E].
  - destruct s as [|d s]; [discriminate|]. cbn in E. subst d. inversion F as [|? ? _ F2]; subst.
    destruct (extractlabel_spec (pre ++ [c]) s junk F2) as [(l & rest & Es & U & I & ->)|[N ->]].
    + subst s. replace ((pre ++ [c]) ++ (123 :: l ++ 125 :: rest) ++ 0 :: junk) with ((pre ++ [c; 123]) ++ l ++ 125 :: rest ++ 0 :: junk)
        by (rewrite <- !app_assoc; cbn; rewrite <- app_assoc; reflexivity).
      rewrite copy_at; [|rewrite !app_length; cbn; lia|reflexivity].
      assert (O : one (c :: 123 :: l ++ 125 :: rest) (Label l) rest) by (apply one_ll; auto). destruct (label2 e l) as [x|] eqn:L.
      * left. exists (Label l), rest, (c :: 123 :: l ++ [125]), (set_local o x). split; [exact O|].
        split; [cbn; rewrite <- app_assoc; reflexivity|]. split; [discriminate|]. split; [cbn; congruence|]. split; [apply chosen_R; auto|].
        f_equal. cbn [length]. rewrite !app_length. cbn. lia.
      * right. exists 31. split; [|reflexivity]. eapply off_ll; eauto.
    + right. exists 15. split; [|reflexivity]. apply off_l; auto. intros m rest O. inversion O; subst; unfold either in *; try lia.
      * eapply address_no_label; eauto.
      * eapply N; eauto.
  - destruct (extractaddr_spec (pre ++ [c]) s junk F) as [(f & a & rest & used & A & Es & U & t & -> & ->)|[N ->]].
    + assert (O : one (c :: s) (Local f a) rest) by (apply one_l; auto). destruct (host2 e a f) as [x|] eqn:L.
      * left. exists (Local f a), rest, (c :: used), (set_local o x). split; [exact O|]. split; [cbn; congruence|]. split; [discriminate|].
        split; [cbn; congruence|]. split; [apply chosen_R; auto|]. f_equal. rewrite app_length. cbn. lia.
      * right. exists 31. split; [|reflexivity]. eapply off_ll; eauto.
    + right. exists 15. split; [|reflexivity]. apply off_l; auto. intros m rest O. inversion O; subst; unfold either in *; try lia.
      * eapply N; eauto.
      * cbn in E. lia.
Qed.

Lemma iter_spec e ms o pre c s junk : R e ms o -> cstring (c :: s) ->
  step_ok e ms pre (c :: s) (iter e o (pre ++ (c :: s) ++ 0 :: junk) (length pre) c).
Proof.
  intros H F. inversion F as [|? ? Hc F2]; subst. unfold iter, letter.
  assert (E : forall up, (c =? up) || (c =? up + 32) = true -> either c up) by (intros up K; unfold either; lia).
  assert (G : forall m o', one (c :: s) m s -> good_after e ms m -> R e (ms ++ [m]) o' -> step_ok e ms pre (c :: s) (INext o' (length pre)))
    by (intros; eapply iter_flag; eauto).
  destruct ((c =? 65) || _) eqn:?. { apply (G Asym); [constructor; auto|exact Logic.I|unR H; mkR; repeat split; auto]. }
  destruct ((c =? 69) || _) eqn:?. { apply iter_dir_spec with (ms := ms); auto; [constructor; auto|]. intros K. apply off_e; auto. }
  destruct ((c =? 73) || _) eqn:?. { apply iter_dir_spec with (ms := ms); auto; [constructor; auto|]. intros K. apply off_i; auto. }
  destruct (Z.eqb_spec c 54) as [->|]. { apply (G Six); [constructor; auto|exact Logic.I|unR H; mkR; repeat split; auto]. }
  destruct ((c =? 83) || _) eqn:?. { apply (G Sym); [constructor; auto|exact Logic.I|unR H; mkR; repeat split; auto]. }
  destruct ((c =? 87) || _) eqn:?. { apply (G Weak); [constructor; auto|exact Logic.I|unR H; mkR; repeat split; auto]. }
  destruct ((c =? 90) || _) eqn:?. { apply iter_ptime_spec; auto. }
  destruct ((c =? 67) || _) eqn:?. { apply iter_codecs_spec; auto. }
  destruct ((c =? 76) || _) eqn:?. { apply iter_local_spec; auto. }
  destruct ((c =? 82) || _) eqn:?. { apply iter_remote_spec; auto. }
  destruct ((c =? 78) || _) eqn:?. { apply (G NewPort); [constructor; auto|exact Logic.I|unR H; mkR; repeat split; auto]. }
  right. exists 35. split; [|reflexivity]. apply off_u; auto. repeat constructor; unfold either; lia.
Qed.

Lemma loop_spec e junk : forall fuel ms o pre s, R e ms o -> cstring s -> (length s <= fuel)%nat ->
  (exists ms' o', many s ms' [] /\ all_good e ms ms' /\ R e (ms ++ ms') o' /\ loop fuel e o (pre ++ s ++ 0 :: junk) (length pre) = OOk o') \/
  (exists ms' rest x, many s ms' rest /\ all_good e ms ms' /\ offends e (ms ++ ms') rest x /\ loop fuel e o (pre ++ s ++ 0 :: junk) (length pre) = OErr x).
Proof.
  assert (Rd : forall pre s, rd (pre ++ s ++ 0 :: junk) (length pre) = Got (head0 s)).
  { intros pre s. replace (length pre) with (length pre + 0)%nat by lia. rewrite rd_at. destruct s; reflexivity. }
  induction fuel as [|f IH]; intros ms o pre s H F L.
  - destruct s as [|c s]; [|cbn in L; lia]. left. exists [], o. rewrite app_nil_r. repeat split; try apply H; [constructor|].
    cbn [loop]. rewrite Rd. reflexivity.
  - cbn [loop]. rewrite Rd. destruct s as [|c s].
    { left. exists [], o. rewrite app_nil_r. repeat split; try apply H; constructor. }
    cbn [head0]. assert (Hc : 0 < c < 256) by (inversion F; auto). destruct (Z.eqb_spec c 0); [lia|].
    destruct (iter_spec e ms o pre c s junk H F) as [(m & rest & used & o' & O & Es & U & G & H' & ->)|(x & Of & ->)].
    + assert (Lu : (0 < length used)%nat) by (destruct used; [congruence|cbn; lia]).
      assert (Fr : cstring rest) by (rewrite Es in F; apply Forall_app in F; tauto).
      assert (Lr : (length rest <= f)%nat) by (apply (f_equal (@length Z)) in Es; rewrite app_length in Es; cbn in *; lia).
      replace (length pre + length used - 1 + 1)%nat with (length (pre ++ used)) by (rewrite app_length; lia).
      rewrite Es, <- app_assoc, app_assoc.
      destruct (IH (ms ++ [m]) o' (pre ++ used) rest H' Fr Lr) as [(ms' & o2 & A & B & C & D)|(ms' & r2 & x & A & B & C & D)]; rewrite D.
      * left. exists (m :: ms'), o2. rewrite <- app_assoc in C. rewrite <- Es. repeat split; try apply C; auto. econstructor; eauto.
      * right. exists (m :: ms'), r2, x. rewrite <- app_assoc in C. rewrite <- Es. repeat split; auto. econstructor; eauto.
    + right. exists [], (c :: s), x. rewrite app_nil_r. repeat split; auto. constructor.
Qed.

Lemma plausible_iff f a : ipstr_valid a f = true <-> plausible f a.
Proof. unfold ipstr_valid, plausible. destruct f; lia. Qed.

Lemma fam_eqb_iff x y : fam_eqb x y = true <-> x = y.
Proof. destruct x, y; cbn; split; auto; discriminate. Qed.

Lemma dirs_nil e ms : length (dirs e ms) = length (filter is_dir ms) -> (1 - Z.of_nat (length (dirs e ms)) = 1 <-> filter is_dir ms = []).
Proof. intros ->. destruct (filter is_dir ms); cbn [length]; split; intros; try discriminate; auto; lia. Qed.

Lemma finish_spec e ms o addr : R e ms o ->
  (exists o', accepted e ms addr o' /\ match finish_local e o with OOk o1 => finish_remote e o1 addr | x => x end = OOk o') \/
  (exists x, match finish_local e o with OOk o1 => finish_remote e o1 addr | x => x end = OErr x /\
     ((x = 36 /\ needs_family e ms o /\ foraf e (pf o) = None) \/
      (exists a p, addr = Some (a, p) /\ plausible (pf o) a /\
         ((x = 37 /\ resolve e (pf o) a p = None) \/
          (x = 83 /\ mem3 e = false /\ exists h q, resolve e (pf o) a p = Some (h, q) /\ h <> 0))))).
Proof.
  intros H. pose proof H as (Mn & RA & RB & RC & RD). pose proof Mn as (R1 & R2 & R3 & R4 & R5 & R6 & R7 & R8 & R9).
  assert (L : (needs_family e ms o /\ foraf e (pf o) = None /\ finish_local e o = OErr 36) \/
              (exists o1, finish_local e o = OOk o1 /\ meaning e ms o1 /\ pf o1 = pf o /\ ia o1 = None /\ onhold o1 = false /\
                 (needs_family e ms o -> exists a, foraf e (pf o) = Some a /\ local_addr o1 = Some a) /\
                 (~ needs_family e ms o -> local_addr o1 = asked e ms))).
  { unfold finish_local. pose proof (dirs_nil e ms RD) as Dn. rewrite <- R9 in Dn.
    assert (L0 : filter is_dir ms = [] -> lia0 o = bind0 e) by (intros K; rewrite R8; rewrite K in RD; cbn in RD; destruct (dirs e ms); [reflexivity|discriminate]).
    destruct (local_addr o) as [a|] eqn:El.
    - right. exists o. repeat split; auto; try congruence. intros (K & _). congruence.
    - destruct ((lidx o =? 1) && negb (fam_eqb (pf o) (fam_of e (lia0 o)))) eqn:C.
      + assert (Nf : needs_family e ms o).
        { apply andb_true_iff in C as [C1 C2]. apply Z.eqb_eq in C1. apply Dn in C1. repeat split; auto.
          intros K. rewrite (L0 C1) in C2. apply fam_eqb_iff in K. rewrite K in C2. discriminate. }
        destruct (foraf e (pf o)) as [a|] eqn:Ef; [right|left; auto].
        exists (set_local o a). repeat split; auto; try tauto. intros _. exists a. auto.
      + right. exists o. repeat split; auto; try congruence. intros (K1 & K2 & K3). exfalso. apply andb_false_iff in C as [C|C].
        * apply Z.eqb_neq in C. apply C, Dn, K2.
        * apply negb_false_iff in C. apply fam_eqb_iff in C. rewrite (L0 K2) in C. congruence. }
  destruct L as [(Nf & Ef & ->)|(o1 & -> & M1 & P1 & I1 & H1 & Nf1 & Nf2)].
  { right. exists 36. split; [reflexivity|]. left. auto. }
  assert (NE : forall o2, pf o2 = pf o1 -> needs_family e ms o2 <-> needs_family e ms o) by (intros o2 K; unfold needs_family; rewrite K, P1; tauto).
  unfold finish_remote. destruct addr as [[a p]|].
  2:{ left. exists o1. split; [|reflexivity]. split; [exact M1|]. rewrite (NE o1 eq_refl), P1. auto. }
  destruct (ipstr_valid a (pf o1)) eqn:V; cbn [negb].
  2:{ left. exists o1. split; [|reflexivity]. split; [exact M1|]. rewrite (NE o1 eq_refl). split; [rewrite P1; exact Nf1|]. split; [exact Nf2|].
      split; [|auto]. intros K. apply plausible_iff in K. congruence. }
  apply plausible_iff in V. destruct (resolve e (pf o1) a p) as [[h q]|] eqn:Er.
  2:{ right. exists 37. split; [reflexivity|]. right. exists a, p. rewrite <- P1. auto. }
  destruct (Z.eqb_spec h 0) as [->|Hh].
  { left. exists (set_hold o1). split; [|reflexivity]. split; [exact M1|]. rewrite (NE (set_hold o1) eq_refl). cbn. split; [rewrite P1; exact Nf1|]. split; [exact Nf2|].
    split; [|tauto]. intros _. exists 0, q. repeat split; auto; lia. }
  destruct (mem3 e) eqn:M3; cbn [negb].
  { left. eexists. split; [|reflexivity]. split; [exact M1|]. match goal with |- context [needs_family e ms ?x] => rewrite (NE x eq_refl) end.
    cbn. split; [rewrite P1; exact Nf1|]. split; [exact Nf2|]. split; [|tauto]. intros _. exists h, q. repeat split; auto; try lia. }
  right. exists 83. split; [reflexivity|]. right. exists a, p. rewrite <- P1. repeat split; auto. right. repeat split; auto. exists h, q. auto.
Qed.

Lemma needs_dec e ms o : needs_family e ms o \/ ~ needs_family e ms o.
Proof.
  unfold needs_family. destruct (asked e ms); [right; intros (K & _); discriminate|].
  destruct (filter is_dir ms); [|right; intros (_ & K & _); discriminate].
  destruct (pf o), (fam_of e (bind0 e)); try (right; tauto); left; repeat split; discriminate.
Qed.

Lemma accepted_unique e ms addr o o' : accepted e ms addr o -> accepted e ms addr o' -> o = o'.
Proof.
  intros ((A1 & A2 & A3 & A4 & A5 & A6 & A7 & A8 & A9) & L1 & L2 & Ad) ((A1' & A2' & A3' & A4' & A5' & A6' & A7' & A8' & A9') & L1' & L2' & Ad').
  assert (P : pf o = pf o') by congruence.
  assert (L : local_addr o = local_addr o').
  { assert (Q : needs_family e ms o <-> needs_family e ms o') by (unfold needs_family; rewrite P; tauto).
    destruct (needs_dec e ms o) as [N|N].
    - destruct (L1 N) as (a & E1 & ->). apply Q in N. destruct (L1' N) as (a' & E2 & ->). rewrite P in E1. congruence.
    - rewrite (L2 N). rewrite L2'; [reflexivity|]. tauto. }
  assert (I : ia o = ia o' /\ onhold o = onhold o').
  { destruct addr as [[a p]|]; [|destruct Ad, Ad'; split; congruence]. rewrite P in Ad. destruct Ad as [B1 B2], Ad' as [B1' B2'].
    destruct (ipstr_valid a (pf o')) eqn:V.
    - apply plausible_iff in V. destruct (B1 V) as (h & q & E1 & C1 & C2), (B1' V) as (h' & q' & E2 & C1' & C2').
      rewrite E1 in E2. injection E2 as <- <-. destruct (Z.eq_dec h 0) as [Hz|Hz].
      + destruct (C1 Hz), (C1' Hz); split; congruence.
      + destruct (C2 Hz) as (_ & ? & ?), (C2' Hz) as (_ & ? & ?); split; congruence.
    - assert (N : ~ plausible (pf o') a) by (rewrite <- plausible_iff; congruence). destruct (B2 N), (B2' N); split; congruence. }
  destruct o, o'. cbn in *. destruct I. f_equal; congruence.
Qed.

Lemma offends_excl e ms s x m rest : offends e ms s x -> one s m rest -> good_after e ms m -> False.
Proof.
  intros O H G. inversion O as [c t E N|c t E N|c t E N|c t E N|c t l r E N B M|c t E N|c t m2 r2 E N C|c t E N|c t m2 r2 E N C|c t E N]; subst.
  - inversion H; subst; unfold either in *; try lia. auto.
  - inversion H; subst; unfold either in *; try lia. auto.
  - inversion H; subst; unfold either in *; try lia. eapply N; eauto.
  - inversion H; subst; unfold either in *; try lia. cbn in G. destruct G as [G _]. destruct N as [N|N]; [|congruence].
    destruct l as [|d l]; [congruence|]. match goal with K : Forall codec_char _ |- _ => inversion K; subst end. eapply N; [reflexivity|auto].
  - destruct (one_det _ _ _ _ _ N H) as [<- <-]. cbn in G. destruct G. congruence.
  - eapply N; eauto.
  - destruct (one_det _ _ _ _ _ N H) as [<- <-]. inversion N; subst; unfold either in *; try lia; cbn in *; auto.
  - eapply N; eauto.
  - destruct (one_det _ _ _ _ _ N H) as [<- <-]. inversion N; subst; unfold either in *; try lia; cbn in *; auto.
  - repeat match goal with K : Forall _ (_ :: _) |- _ => inversion K; clear K; subst end. inversion H; subst; auto.
Qed.

Lemma many_excl e s ms : many s ms [] -> forall before, all_good e before ms -> forall ms' rest x, many s ms' rest -> offends e (before ++ ms') rest x -> False.
Proof.
  intros H. remember [] as r eqn:Er. induction H as [s|s m s1 ms s2 O H IH]; intros before G ms' rest x H' Of.
  - subst. inversion H'; subst; [inversion Of|]. match goal with K : one [] _ _ |- _ => inversion K end.
  - destruct G as [G1 G2]. inversion H' as [|? m' s1' ms2 ? O' H2]; subst.
    + rewrite app_nil_r in Of. eapply offends_excl; eauto.
    + destruct (one_det _ _ _ _ _ O O') as [<- <-]. eapply (IH eq_refl (before ++ [m]) G2 ms2 rest x H2). rewrite <- app_assoc. exact Of.
Qed.

Lemma many_det s ms : many s ms [] -> forall ms', many s ms' [] -> ms = ms'.
Proof.
  intros H. remember [] as r eqn:Er. induction H as [s|s m s1 ms s2 O H IH]; intros ms' H'; subst.
  - inversion H'; subst; auto. match goal with K : one [] _ _ |- _ => inversion K end.
  - inversion H' as [|? m' s1' ms2 ? O' H2]; subst; [inversion O|]. destruct (one_det _ _ _ _ _ O O') as [<- <-]. f_equal. apply IH; auto.
Qed.

Lemma parse_cases e s junk addr : cstring s ->
  (exists ms o, mem1 e = true /\ many s ms [] /\ all_good e [] ms /\ accepted e ms addr o /\ parse e (s ++ 0 :: junk) addr = OOk o) \/
  (exists x, unacceptable e s addr x /\ parse e (s ++ 0 :: junk) addr = OErr x /\
     forall ms o, mem1 e = true -> many s ms [] -> all_good e [] ms -> accepted e ms addr o -> False).
Proof.
  intros F. unfold parse. destruct (mem1 e) eqn:M; cbn [negb].
  2:{ right. exists 81. split; [left; auto|]. split; [reflexivity|]. intros; congruence. }
  destruct (loop_spec e junk (length (s ++ 0 :: junk)) [] (opts_init e) [] s (R_init e) F) as [(ms & o & A & B & C & D)|(ms & rest & x & A & B & C & D)].
  { rewrite app_length. cbn. lia. }
  - cbn [app length] in D. change (0%nat) with (length (@nil Z)) at 2. cbn [length]. rewrite D. cbn [app] in C. destruct (finish_spec e ms o addr C) as [(o' & X & Y)|(x & Y & X)].
    + left. exists ms, o'. auto.
    + right. exists x. split; [|split; [exact Y|]].
      * right. right. exists ms, o. destruct C as [C _]. auto.
      * intros ms' o2 _ A' B' ((_ & _ & _ & P & _) & L1 & L2 & Ad). assert (ms = ms') as <- by (eapply many_det; eauto).
        assert (Pf : pf o2 = pf o) by (destruct C as ((_ & _ & _ & P' & _) & _); congruence).
        assert (Q : needs_family e ms o2 <-> needs_family e ms o) by (unfold needs_family; rewrite Pf; tauto).
        destruct X as [(-> & N & Fo)|(a & p & -> & Pl & X)].
        { apply Q in N. destruct (L1 N) as (a & E & _). congruence. }
        rewrite Pf in Ad. destruct Ad as [Ad _]. destruct (Ad Pl) as (h & q & E & Z1 & Z2).
        destruct X as [(-> & X)|(-> & M3 & h' & q' & X & Hn)]; [congruence|]. rewrite X in E. injection E as <- <-. destruct (Z2 Hn). congruence.
  - cbn [app length] in D. rewrite D. cbn [app] in C. right. exists x. split; [|split; [reflexivity|]].
    + right. left. exists ms, rest. auto.
    + intros ms' o2 _ A' B' _. eapply (many_excl e s ms' A' [] B' ms rest x A C).
Qed.

Lemma parse_ok_iff e s junk addr o : cstring s ->
  (parse e (s ++ 0 :: junk) addr = OOk o <-> mem1 e = true /\ exists ms, many s ms [] /\ all_good e [] ms /\ accepted e ms addr o).
Proof.
  intros F. destruct (parse_cases e s junk addr F) as [(ms & o' & M & A & B & C & ->)|(x & U & -> & N)].
  - split.
    + intros [= <-]. eauto.
    + intros (_ & ms' & A' & B' & C'). assert (ms = ms') as <- by (eapply many_det; eauto). f_equal. eapply accepted_unique; eauto.
  - split; [discriminate|]. intros (M & ms & A & B & C). exfalso. eauto.
Qed.
