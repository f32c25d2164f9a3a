(** What the XML parser (Etree.v) can deliver: the tree of a document that gives no
    tab or carriage return by number can be written and read back. *)
From Coq Require Import String NArith ZArith Bool Lia List Permutation.
From Coq.Floats Require Import SpecFloat.
From Verif Require Import Base PyVal PyText FloatRepr Xml FS Ufo UfoProofs PropUfoFiles Plist PlistProofs PropPlist Etree EtreeProofs.
Import ListNotations.
Local Open Scope string_scope.
Local Open Scope list_scope.

(** a tab or a carriage return, given by its number *)
Definition whiteRef (r : str) : Prop := exists zeros, Forall (fun c => c = 48%N) zeros /\
  exists x d, In (x, d) [(u "", u "9"); (u "", u "13"); (u "x", u "9"); (u "x", u "d"); (u "x", u "D")] /\ r = u "&#" ++ x ++ zeros ++ d ++ u ";".
(** there are none *)
Definition noWhiteRefs (s : str) : Prop := forall p r q, whiteRef r -> s <> p ++ r ++ q.
Lemma noRefs_app p s q : noWhiteRefs (p ++ s ++ q) -> noWhiteRefs s.
Proof. intros H a r b W ->. apply (H (p ++ a) r (b ++ q) W). rewrite <- !app_assoc. reflexivity. Qed.
Lemma noRefs_l s q : noWhiteRefs (s ++ q) -> noWhiteRefs s.
Proof. apply (noRefs_app []). Qed.
Lemma noRefs_r p s : noWhiteRefs (p ++ s) -> noWhiteRefs s.
Proof. intro H. apply (noRefs_app p s []). rewrite app_nil_r. exact H. Qed.
Lemma noRefs_cons c s : noWhiteRefs (c :: s) -> noWhiteRefs s.
Proof. apply (noRefs_r [c]). Qed.
(** references are made of ASCII characters that are no line ends *)
Lemma white_plain r : whiteRef r -> Forall (fun c => c < 128 /\ c <> 10 /\ c <> 13)%N r.
Proof.
  intros (z & Z & x & d & J & ->). assert (Fz : Forall (fun c => c < 128 /\ c <> 10 /\ c <> 13)%N z) by (eapply Forall_impl; [|exact Z]; intros c ->; repeat split; discriminate).
  destruct J as [J|[J|[J|[J|[J|[]]]]]]; injection J as <- <-; repeat (apply Forall_app; split); try exact Fz; repeat constructor; discriminate.
Qed.
Lemma white_starts r : whiteRef r -> exists t, r = 38%N :: 35%N :: t.
Proof. intros (z & _ & x & d & _ & ->). eexists. reflexivity. Qed.
(** a text without "&#" *)
Lemma noRefs_simple s : (forall p q, s <> p ++ 38%N :: 35%N :: q) -> noWhiteRefs s.
Proof. intros H p r q W E. destruct (white_starts r W) as (t & ->). apply (H p (t ++ q)). exact E. Qed.

(** a test for concrete documents *)
Fixpoint skipZeros (s : str) : str := match s with c :: r => if (c =? 48)%N then skipZeros r else s | [] => [] end.
Definition whiteAt (s : str) : bool :=
  existsb (fun xd => startswith (u "&#" ++ fst xd) s && startswith (snd xd ++ u ";") (skipZeros (skipn (length (u "&#" ++ fst xd)) s)))
    [(u "", u "9"); (u "", u "13"); (u "x", u "9"); (u "x", u "d"); (u "x", u "D")].
Fixpoint whiteless (s : str) : bool := negb (whiteAt s) && match s with _ :: r => whiteless r | [] => true end.
Lemma zeros_skipped z s : Forall (fun c => c = 48%N) z -> (forall r, s <> 48%N :: r) -> skipZeros (z ++ s) = s.
Proof.
  intros F N. induction F as [|c z -> F IH]; cbn [app skipZeros]; [|exact IH]. destruct s as [|c r]; [reflexivity|]. cbn [skipZeros]. destruct (N.eqb_spec c 48) as [->|]; [destruct (N r eq_refl)|reflexivity].
Qed.
Lemma startswith_app (p q : str) : startswith p (p ++ q) = true.
Proof. destruct (startswith_spec p (p ++ q)) as [_|N]; [reflexivity|]. destruct N. exists q. reflexivity. Qed.
Lemma whiteless_ok s : whiteless s = true -> noWhiteRefs s.
Proof.
  intros H p r q (z & Z & x & d & J & ->) E. subst s. induction p as [|c p IH].
  - assert (W : whiteAt ((u "&#" ++ x ++ z ++ d ++ u ";") ++ q) = true).
    { unfold whiteAt. apply existsb_exists. exists (x, d). split; [exact J|]. cbn [fst snd]. apply andb_true_intro.
      replace ((u "&#" ++ x ++ z ++ d ++ u ";") ++ q) with ((u "&#" ++ x) ++ z ++ (d ++ u ";") ++ q) by (rewrite <- !app_assoc; reflexivity). split; [apply startswith_app|].
      rewrite skipn_app, skipn_all, Nat.sub_diag. cbn [app skipn]. rewrite zeros_skipped; [apply startswith_app|exact Z|]. intros r E. destruct J as [J|[J|[J|[J|[J|[]]]]]]; injection J as <- <-; discriminate E. }
    cbn [app] in H. match type of H with whiteless ?t = true => change t with ((u "&#" ++ x ++ z ++ d ++ u ";") ++ q) in H; assert (K : whiteless t = negb (whiteAt t) && match t with _ :: r => whiteless r | [] => true end) by (destruct t; reflexivity) end.
    rewrite W in K. cbn [negb andb] in K. congruence.
  - apply IH. cbn [app whiteless] in H. apply andb_prop in H. apply H.
Qed.

(** characters after the line ends have been normalised *)
Definition textChar (c : N) : Prop := xmlChar c = true /\ c <> 13%N.
Lemma textChar_compat c : textChar c -> xmlCompat c.
Proof. intros [H _]. unfold xmlChar in H. apply andb_true_iff in H as [A B]. apply negb_true_iff in A. apply N.leb_le in B. apply valid_compat; assumption. Qed.
Lemma textChars_ok s : Forall textChar s -> textOk s.
Proof.
  intro F. split; [eapply Forall_impl; [|exact F]; exact textChar_compat|]. intro I. rewrite Forall_forall in F. destruct (F _ I) as [_ N]. apply N. reflexivity.
Qed.
Lemma normEol_other c s : c <> 13%N -> normEol (c :: s) = c :: normEol s.
Proof. intro H. cbn [normEol]. destruct c as [|p]; [reflexivity|]. do 4 (destruct p as [p|p|]; try reflexivity). congruence. Qed.
Lemma normEol_13 s : normEol (13%N :: s) = normEol s /\ (exists r, s = 10%N :: r) \/ normEol (13%N :: s) = 10%N :: normEol s.
Proof.
  destruct s as [|d r]; [right; reflexivity|]. destruct (N.eqb_spec d 10) as [->|M]; [left; split; [reflexivity|eauto]|right].
  cbn [normEol]. destruct d as [|p]; [reflexivity|]. do 4 (destruct p as [p|p|]; try reflexivity). congruence.
Qed.
Lemma normEol_chars s : forallb xmlChar s = true -> Forall textChar (normEol s).
Proof.
  induction s as [|c s IH]; intro H; [constructor|]. cbn [forallb] in H. apply andb_true_iff in H as [Hc Hs]. specialize (IH Hs).
  destruct (N.eqb_spec c 13) as [->|N].
  - destruct (normEol_13 s) as [[-> _]| ->]; [exact IH|]. constructor; [split; [reflexivity|discriminate]|exact IH].
  - rewrite normEol_other by exact N. constructor; [split; assumption|exact IH].
Qed.
Lemma normEol_part r : Forall (fun c => c < 128 /\ c <> 10 /\ c <> 13)%N r -> forall s p q, normEol s = p ++ r ++ q -> exists p' q', s = p' ++ r ++ q'.
Proof.
  intro F. assert (Hd : forall s x q, normEol s = x :: q -> x <> 10%N -> exists r, s = x :: r /\ q = normEol r).
  { intros s0. destruct s0 as [|c r0]; intros x q E Nx; [discriminate|]. destruct (N.eqb_spec c 13) as [->|N].
    - destruct (normEol_13 r0) as [[E1 (r' & ->)]|E1]; rewrite E1 in E.
      + rewrite normEol_other in E by discriminate. injection E as <- _. congruence.
      + injection E as <- _. congruence.
    - rewrite normEol_other in E by exact N. injection E as -> <-. eauto. }
  assert (Pre : forall s q, normEol s = r ++ q -> exists q', s = r ++ q').
  { induction F as [|c r (_ & N10 & _) F IH]; intros s q E; [exists s; reflexivity|]. apply Hd in E as (s' & -> & E); [|exact N10]. symmetry in E. destruct (IH _ _ E) as (q' & ->). exists q'. reflexivity. }
  induction s as [|c s IH]; intros p q E.
  - cbn in E. destruct p; [|discriminate]. destruct r; [|discriminate]. exists [], []. reflexivity.
  - destruct p as [|x p]; [destruct (Pre _ _ E) as (q' & E'); exists [], q'; exact E'|].
    destruct (N.eqb_spec c 13) as [->|N].
    + destruct (normEol_13 s) as [[E1 _]|E1]; rewrite E1 in E; [destruct (IH (x :: p) q E) as (p' & q' & ->)|injection E as _ E; destruct (IH p q E) as (p' & q' & ->)]; exists (13%N :: p'), q'; reflexivity.
    + rewrite normEol_other in E by exact N. injection E as _ E. destruct (IH p q E) as (p' & q' & ->). exists (c :: p'), q'. reflexivity.
Qed.
Lemma normEol_refs s : noWhiteRefs s -> noWhiteRefs (normEol s).
Proof. intros H p r q W E. destruct (normEol_part r (white_plain r W) s p q E) as (p' & q' & E'). exact (H p' r q' W E'). Qed.

(** references by number *)
Lemma base_snoc val b s c : forall acc, readBase val b (s ++ [c]) acc = match readBase val b s acc with Some n => match val c with Some d => Some (n * b + d)%N | None => None end | None => None end.
Proof. induction s as [|x s IH]; intro acc; cbn [app readBase]; [destruct (val c); reflexivity|]. destruct (val x); [apply IH|reflexivity]. Qed.
Lemma base_zero val b s : (0 < b)%N -> (forall c, val c = Some 0%N -> c = 48%N) -> readBase val b s 0 = Some 0%N -> Forall (fun c => c = 48%N) s.
Proof.
  intros Hb H0. induction s as [|c s IH] using rev_ind; intro E; [constructor|]. rewrite base_snoc in E. destruct (readBase val b s 0) as [n|]; [|discriminate]. destruct (val c) as [d|] eqn:V; [|discriminate]. injection E as E.
  assert (n = 0 /\ d = 0)%N as [-> ->] by nia. apply Forall_app. split; [apply IH; reflexivity|]. constructor; [apply H0; exact V|constructor].
Qed.
(** a number below the base: zeros and one digit *)
Lemma base_digit val b s n : (0 < n < b)%N -> (forall c, val c = Some 0%N -> c = 48%N) -> readBase val b s 0 = Some n -> exists z c, s = z ++ [c] /\ Forall (fun c => c = 48%N) z /\ val c = Some n.
Proof.
  intros Hn H0 E. destruct s as [|c s] using rev_ind; [injection E as E; lia|clear IHs]. rewrite base_snoc in E. destruct (readBase val b s 0) as [m|] eqn:R; [|discriminate]. destruct (val c) as [d|] eqn:V; [|discriminate]. injection E as E.
  assert (m = 0)%N as -> by nia. exists s, c. split; [reflexivity|]. split; [apply (base_zero val b); [lia|exact H0|exact R]|]. rewrite V. f_equal. lia.
Qed.
Lemma digit_is c d : asciiDigit c = Some d -> c = (48 + d)%N /\ (d < 10)%N.
Proof. unfold asciiDigit. destruct (N.leb_spec 48 c), (N.leb_spec c 57); cbn [andb]; intro E; inversion E; lia. Qed.
Lemma hex_is c d : hexVal c = Some d -> (d < 10 /\ c = 48 + d \/ 10 <= d < 16 /\ (c = 55 + d \/ c = 87 + d))%N.
Proof.
  unfold hexVal. destruct (N.leb_spec 48 c), (N.leb_spec c 57); cbn [andb]; try (intro E; inversion E; lia); destruct (N.leb_spec 65 c), (N.leb_spec c 70); cbn [andb]; try (intro E; inversion E; lia);
    destruct (N.leb_spec 97 c), (N.leb_spec c 102); cbn [andb]; intro E; inversion E; lia.
Qed.
Lemma charRef_is s c : charRef s = Some c -> xmlChar c = true /\ (c = 9%N \/ c = 13%N -> whiteRef (38%N :: 35%N :: s ++ [59%N])).
Proof.
  intro E. set (n := match s with [] => None | 120%N :: [] => None | 120%N :: r => readBase hexVal 16 r 0 | _ => readBase asciiDigit 10 s 0 end).
  assert (E' : n = Some c /\ xmlChar c = true). { unfold charRef in E. fold n in E. destruct n as [x|]; [|discriminate]. destruct (xmlChar x) eqn:X; [|discriminate]. injection E as <-. auto. }
  destruct E' as [En Xc]. split; [exact Xc|]. intro W.
  assert (Hz : forall x, hexVal x = Some 0%N -> x = 48%N) by (intros x V; apply hex_is in V; lia). assert (Dz : forall x, asciiDigit x = Some 0%N -> x = 48%N) by (intros x V; apply digit_is in V; lia).
  assert (K : (exists r, s = 120%N :: r /\ readBase hexVal 16 r 0 = Some c) \/ readBase asciiDigit 10 s 0 = Some c).
  { unfold n in En. destruct s as [|x r]; [discriminate|]. destruct (N.eqb_spec x 120) as [->|N]; [left; exists r; split; [reflexivity|]; destruct r; [discriminate|exact En]|]. right. destruct x as [|q]; [exact En|]. do 7 (destruct q as [q|q|]; try exact En). congruence. }
  destruct K as [(r & -> & K)|K].
  - assert (Cb : (0 < c < 16)%N) by (destruct W; lia). destruct (base_digit hexVal 16 r c Cb Hz K) as (z & d & -> & Z & V). exists z. split; [exact Z|]. apply hex_is in V.
    destruct W as [-> | ->]; [exists (u "x"), (u "9")|destruct V as [V|[_ [V|V]]]; [lia|exists (u "x"), (u "D")|exists (u "x"), (u "d")]]; (split; [cbn [In]; tauto|]); (assert (Ed : d = 57%N \/ d = 68%N \/ d = 100%N) by lia); [assert (d = 57%N) as -> by lia|assert (d = 68%N) as -> by lia|assert (d = 100%N) as -> by lia]; cbn; rewrite <- app_assoc; reflexivity.
  - destruct W as [-> | ->].
    + assert (Cb : (0 < 9 < 10)%N) by lia. destruct (base_digit asciiDigit 10 s 9 Cb Dz K) as (z & d & -> & Z & V). exists z. split; [exact Z|]. apply digit_is in V as [-> _]. exists [], (u "9"). split; [cbn [In]; tauto|]. cbn. rewrite <- app_assoc. reflexivity.
    + destruct s as [|d s] using rev_ind; [discriminate|clear IHs]. rewrite base_snoc in K. destruct (readBase asciiDigit 10 s 0) as [m|] eqn:R; [|discriminate]. destruct (asciiDigit d) as [v|] eqn:V; [|discriminate]. injection K as K. apply digit_is in V as [-> V]. assert (m = 1 /\ v = 3)%N as [-> ->] by lia.
      assert (Cb : (0 < 1 < 10)%N) by lia. destruct (base_digit asciiDigit 10 s 1 Cb Dz R) as (z & d & -> & Z & V'). apply digit_is in V' as [-> _]. exists z. split; [exact Z|]. exists [], (u "13"). split; [cbn [In]; tauto|]. cbn. rewrite <- !app_assoc. reflexivity.
Qed.
Lemma entity_is s c : entity s = Some c -> In c [38; 60; 62; 34; 39]%N \/ xmlChar c = true /\ (c = 9%N \/ c = 13%N -> whiteRef (38%N :: s ++ [59%N])).
Proof.
  unfold entity. intros E.
  destruct (eqb s (u "amp")); [injection E as <-; cbn; auto|]. destruct (eqb s (u "lt")); [injection E as <-; cbn; auto|].
  destruct (eqb s (u "gt")); [injection E as <-; cbn; auto|]. destruct (eqb s (u "quot")); [injection E as <-; cbn; auto 6|].
  destruct (eqb s (u "apos")); [injection E as <-; cbn; auto 7|].
  right. destruct s as [|x r]; [discriminate|]. assert (K : x = 35%N /\ charRef r = Some c). { destruct (N.eqb_spec x 35) as [->|M]; [auto|]. exfalso. destruct x as [|p]; [discriminate|]. do 6 (destruct p as [p|p|]; try discriminate). congruence. }
  destruct K as [-> K]. apply charRef_is in K as [A B]. split; [exact A|]. exact B.
Qed.
Lemma unescape_chars (norm : N -> N) (P : N -> Prop) s : (forall c, textChar c -> P (norm c)) -> (forall c, xmlChar c = true -> c <> 9%N -> c <> 13%N -> P c) -> forall pend v,
  noWhiteRefs (match pend with None => [] | Some e => 38%N :: rev e end ++ s) -> Forall textChar s ->
  unescape norm s pend = Some v -> Forall P v.
Proof.
  intros Hn Hp. induction s as [|c s IH]; intros pend v Nr F E; cbn [unescape] in E.
  - destruct pend; [discriminate|]. injection E as <-. constructor.
  - inversion F as [|? ? Fc F']; subst. destruct pend as [e|].
    + destruct (N.eqb_spec c 59) as [->|N59].
      * destruct (entity (rev e)) as [x|] eqn:En; [|discriminate]. destruct (unescape norm s None) as [w|] eqn:W; [|discriminate]. injection E as <-.
        constructor; [|apply (IH None w); [|exact F'|exact W]; apply noRefs_r in Nr; apply noRefs_cons in Nr; exact Nr].
        apply entity_is in En as [J|[X B]]; [apply Hp; destruct J as [<-|[<-|[<-|[<-|[<-|[]]]]]]; first [reflexivity|discriminate]|].
        apply Hp; [exact X| |]; intros ->; eapply (Nr [] _ s); [apply B; auto|cbn; rewrite <- app_assoc; reflexivity|apply B; auto|cbn; rewrite <- app_assoc; reflexivity].
      * apply (IH (Some (c :: e)) v); [|exact F'|exact E]. cbn [rev app] in *. rewrite <- app_assoc. exact Nr.
    + destruct (N.eqb_spec c 38) as [->|N38].
      * apply (IH (Some []) v); [exact Nr|exact F'|exact E].
      * destruct (unescape norm s None) as [w|] eqn:W; [|discriminate]. injection E as <-. constructor; [apply Hn; exact Fc|apply (IH None w); [|exact F'|exact W]]. cbn [app] in *. apply noRefs_cons in Nr. exact Nr.
Qed.
Lemma unescape_text s v : noWhiteRefs s -> Forall textChar s -> unescape (fun c => c) s None = Some v -> textOk v.
Proof.
  intros Nr F E. apply textChars_ok. refine (unescape_chars _ textChar s _ _ None v Nr F E); [auto|]. intros c X _ N. split; assumption.
Qed.
Lemma unescape_val s v : noWhiteRefs s -> Forall textChar s -> unescape normAttr s None = Some v -> valOk v.
Proof.
  intros Nr F E. assert (G : Forall (fun c => textChar c /\ c <> 9%N) v).
  { refine (unescape_chars _ (fun c => textChar c /\ c <> 9%N) s _ _ None v Nr F E).
    - intros c Hc. unfold normAttr. destruct (xmlSpace c) eqn:Sp; [repeat split; discriminate|]. split; [exact Hc|]. intros ->. discriminate Sp.
    - intros c X N9 N13. split; [split; assumption|exact N9]. }
  split; [apply textChars_ok; eapply Forall_impl; [|exact G]; intros c [A _]; exact A|]. intro I. rewrite Forall_forall in G. destruct (G _ I) as [_ N]. apply N. reflexivity.
Qed.

(** tokens *)
Definition goodAttrs (l : list (str * str)) : Prop := NoDup (map fst l) /\ Forall (fun kv => attrName (fst kv) /\ valOk (snd kv)) l.
Definition goodTok (t : tok) : Prop :=
  match t with TOpen tag at' => isName tag = true /\ goodAttrs at' | TClose _ => True | TText s | TCdata s => textOk s end.
Definition nameSoFar (acc : str) : Prop := isName (rev acc) = true.
Definition goodMode (m : mode) (s : str) : Prop :=
  match m with
  | MText acc => noWhiteRefs (rev acc ++ s) /\ Forall textChar acc
  | MLt | MClose _ | MCloseEnd _ | MBang _ | MComment _ | MPi _ | MPiBody | MPiEnd _ => noWhiteRefs s
  | MCdata acc => noWhiteRefs s /\ Forall textChar acc
  | MName acc => nameSoFar acc /\ noWhiteRefs s
  | MEnd tag at' | MTag tag at' | MSlash tag at' => isName tag = true /\ goodAttrs at' /\ noWhiteRefs s
  | MAttr tag at' acc => isName tag = true /\ goodAttrs at' /\ nameSoFar acc /\ noWhiteRefs s
  | MEq tag at' name | MQuote tag at' name => isName tag = true /\ goodAttrs at' /\ isName name = true /\ noWhiteRefs s
  | MVal tag at' name q acc => isName tag = true /\ goodAttrs at' /\ isName name = true /\ noWhiteRefs (rev acc ++ s) /\ Forall textChar acc
  end.
Lemma name_more acc c : nameSoFar acc -> nameChar c = true -> nameSoFar (c :: acc).
Proof.
  unfold nameSoFar. cbn [rev]. destruct (rev acc) as [|x l]; [discriminate|]. cbn [app isName]. intros H Hc. apply andb_true_iff in H as [A B].
  rewrite A, forallb_app, B. cbn [forallb andb]. rewrite Hc. reflexivity.
Qed.
Lemma flush_good acc s t : noWhiteRefs (rev acc ++ s) -> Forall textChar acc -> flush acc = Some t -> Forall goodTok t.
Proof.
  intros Nr F E. unfold flush in E. destruct acc as [|c acc]; [injection E as <-; constructor|]. destruct (hasCdEnd _); [discriminate|].
  destruct (unescape (fun c => c) (rev (c :: acc)) None) as [v|] eqn:U; [|discriminate]. injection E as <-. constructor; [|constructor].
  eapply unescape_text; [apply noRefs_l in Nr; exact Nr|apply Forall_rev; exact F|exact U].
Qed.
Lemma emit_good t r l : emit t r = Some l -> Forall goodTok t -> (forall l', r = Some l' -> Forall goodTok l') -> Forall goodTok l.
Proof. intros E Ht Hr. destruct r as [l'|]; [|discriminate]. injection E as <-. apply Forall_app. split; [exact Ht|apply Hr; reflexivity]. Qed.
Lemma attrs_nil : goodAttrs [].
Proof. split; constructor. Qed.
Lemma cdata_end acc : (exists acc', acc = 93%N :: 93%N :: acc') \/ forall A (f : str -> A) (d : A), match acc with 93%N :: 93%N :: acc' => f acc' | _ => d end = d.
Proof.
  destruct acc as [|x acc]; [right; reflexivity|]. destruct (N.eqb_spec x 93) as [->|N].
  - destruct acc as [|y acc]; [right; reflexivity|]. destruct (N.eqb_spec y 93) as [->|M]; [left; eexists; reflexivity|right]. intros A f d. destruct y as [|p]; [reflexivity|]. do 7 (destruct p as [p|p|]; try reflexivity). congruence.
  - right. intros A f d. destruct x as [|p]; [reflexivity|]. do 7 (destruct p as [p|p|]; try reflexivity). congruence.
Qed.
Lemma lex_good s : forall m l, Forall textChar s -> goodMode m s -> lex m s = Some l -> Forall goodTok l.
Proof.
  induction s as [|c s IH]; intros m l F G E.
  - destruct m; try discriminate E. cbn [lex] in E. destruct G as [G1 G2]. eapply flush_good; eassumption.
  - inversion F as [|? ? Fc F']; subst. cbn [lex] in E. specialize (fun m l => IH m l F').
    assert (New : noWhiteRefs s -> goodMode (MText []) s) by (intro H; split; [exact H|constructor]).
    destruct m as [acc| |acc|tag at'|tag at'|tag at' acc|tag at' name|tag at' name|tag at' name q acc|tag at'|acc|tag|acc|k|acc|acc| |only]; cbn [goodMode] in G.
    + destruct G as [G1 G2]. destruct (N.eqb c 60).
      * destruct (flush acc) as [t|] eqn:Fl; [|discriminate]. eapply emit_good; [exact E|eapply flush_good; eassumption|]. intros l'. apply IH. cbn [goodMode]. apply noRefs_r in G1. apply noRefs_cons in G1. exact G1.
      * apply (IH _ _) in E; [exact E|]. split; [cbn [rev]; rewrite <- app_assoc; exact G1|constructor; assumption].
    + apply noRefs_cons in G. destruct (N.eqb c 47); [apply (IH _ _) in E; [exact E|exact G]|]. destruct (nameStart c) eqn:Ns; [apply (IH _ _) in E; [exact E|]; split; [unfold nameSoFar; cbn; rewrite Ns; reflexivity|exact G]|].
      destruct (N.eqb c 33); [apply (IH _ _) in E; [exact E|exact G]|]. destruct (N.eqb c 63); [apply (IH _ _) in E; [exact E|exact G]|discriminate].
    + destruct G as [Gn G]. apply noRefs_cons in G. destruct (nameChar c) eqn:Nc; [apply (IH _ _) in E; [exact E|split; [apply name_more; assumption|exact G]]|].
      destruct (xmlSpace c); [apply (IH _ _) in E; [exact E|]; repeat split; try assumption; constructor|].
      destruct (N.eqb c 62); [eapply emit_good; [exact E| |intros l'; apply IH; apply New; exact G]; constructor; [split; [exact Gn|exact attrs_nil]|constructor]|].
      destruct (N.eqb c 47); [|discriminate]. apply (IH _ _) in E; [exact E|]. repeat split; try assumption; constructor.
    + destruct G as (Gn & Ga & G). apply noRefs_cons in G. destruct (xmlSpace c); [apply (IH _ _) in E; [exact E|exact (conj Gn (conj Ga G))]|].
      destruct (N.eqb c 62); [eapply emit_good; [exact E| |intros l'; apply IH; apply New; exact G]; constructor; [split; assumption|constructor]|].
      destruct (N.eqb c 47); [|discriminate]. apply (IH _ _) in E; [exact E|exact (conj Gn (conj Ga G))].
    + destruct G as (Gn & Ga & G). apply noRefs_cons in G. destruct (xmlSpace c); [apply (IH _ _) in E; [exact E|exact (conj Gn (conj Ga G))]|].
      destruct (N.eqb c 62); [eapply emit_good; [exact E| |intros l'; apply IH; apply New; exact G]; constructor; [split; assumption|constructor]|].
      destruct (N.eqb c 47); [apply (IH _ _) in E; [exact E|exact (conj Gn (conj Ga G))]|]. destruct (nameStart c) eqn:Ns; [|discriminate].
      apply (IH _ _) in E; [exact E|]. split; [exact Gn|]. split; [exact Ga|]. split; [unfold nameSoFar; cbn; rewrite Ns; reflexivity|exact G].
    + destruct G as (Gn & Ga & Gc & G). apply noRefs_cons in G. destruct (nameChar c) eqn:Nc; [apply (IH _ _) in E; [exact E|split; [exact Gn|split; [exact Ga|split; [apply name_more; assumption|exact G]]]]|].
      destruct (N.eqb c 61); [apply (IH _ _) in E; [exact E|split; [exact Gn|split; [exact Ga|split; [exact Gc|exact G]]]]|].
      destruct (xmlSpace c); [|discriminate]. apply (IH _ _) in E; [exact E|split; [exact Gn|split; [exact Ga|split; [exact Gc|exact G]]]].
    + destruct G as (Gn & Ga & Gc & G). apply noRefs_cons in G. destruct (xmlSpace c); [apply (IH _ _) in E; [exact E|split; [exact Gn|split; [exact Ga|split; [exact Gc|exact G]]]]|].
      destruct (N.eqb c 61); [|discriminate]. apply (IH _ _) in E; [exact E|split; [exact Gn|split; [exact Ga|split; [exact Gc|exact G]]]].
    + destruct G as (Gn & Ga & Gc & G). apply noRefs_cons in G. destruct (xmlSpace c); [apply (IH _ _) in E; [exact E|split; [exact Gn|split; [exact Ga|split; [exact Gc|exact G]]]]|].
      destruct (N.eqb c 34 || N.eqb c 39); [|discriminate]. apply (IH _ _) in E; [exact E|]. split; [exact Gn|split; [exact Ga|split; [exact Gc|split; [exact G|constructor]]]].
    + destruct G as (Gn & Ga & Gc & G & Fa). destruct (N.eqb c q).
      * destruct (unescape normAttr (rev acc) None) as [v|] eqn:U; [|discriminate]. destruct (mem name (map fst at')) eqn:M; [discriminate|]. cbn [orb] in E. destruct (eqb_spec name (u "xmlns")) as [Ex|Nx]; [discriminate|].
        apply unescape_val in U; [|apply noRefs_l in G; exact G|apply Forall_rev; exact Fa]. apply (IH _ _) in E; [exact E|]. split; [exact Gn|]. split; [|apply noRefs_r in G; apply noRefs_cons in G; exact G].
        destruct Ga as [A1 A2]. split.
        { rewrite map_app. cbn [map fst]. apply (Permutation_NoDup (Permutation_cons_append _ _)). constructor; [apply mem_nIn; exact M|exact A1]. }
        { apply Forall_app. split; [exact A2|]. constructor; [|constructor]. split; [split; [exact Gc|exact Nx]|exact U]. }
      * destruct (N.eqb c 60); [discriminate|]. apply (IH _ _) in E; [exact E|]. split; [exact Gn|split; [exact Ga|split; [exact Gc|split; [cbn [rev]; rewrite <- app_assoc; exact G|constructor; assumption]]]].
    + destruct G as (Gn & Ga & G). apply noRefs_cons in G. destruct (N.eqb c 62); [|discriminate]. eapply emit_good; [exact E| |intros l'; apply IH; apply New; exact G]. repeat constructor; try assumption; apply Ga.
    + apply noRefs_cons in G. destruct (match acc with [] => nameStart c | _ => nameChar c end); [apply (IH _ _) in E; [exact E|exact G]|]. destruct acc as [|x acc]; [discriminate|].
      destruct (N.eqb c 62); [eapply emit_good; [exact E| |intros l'; apply IH; apply New; exact G]; repeat constructor|]. destruct (xmlSpace c); [|discriminate]. apply (IH _ _) in E; [exact E|exact G].
    + apply noRefs_cons in G. destruct (xmlSpace c); [apply (IH _ _) in E; [exact E|exact G]|]. destruct (N.eqb c 62); [|discriminate]. eapply emit_good; [exact E| |intros l'; apply IH; apply New; exact G]; repeat constructor.
    + apply noRefs_cons in G. cbv zeta in E. destruct (eqb _ (u "--")); [apply (IH _ _) in E; [exact E|exact G]|]. destruct (eqb _ (u "[CDATA[")); [apply (IH _ _) in E; [exact E|split; [exact G|constructor]]|].
      destruct (_ || _); [|discriminate]. apply (IH _ _) in E; [exact E|exact G].
    + apply noRefs_cons in G. destruct k as [|[|k]]; [apply (IH _ _) in E; [exact E|exact G]..|]. destruct (N.eqb c 62); [|discriminate]. apply (IH _ _) in E; [exact E|apply New; exact G].
    + destruct G as [G Ga]. apply noRefs_cons in G. assert (D : (exists acc', acc = 93%N :: 93%N :: acc' /\ emit [TCdata (rev acc')] (lex (MText []) s) = Some l) \/ lex (MCdata (c :: acc)) s = Some l).
      { destruct (cdata_end acc) as [(acc' & ->)|N]; [destruct (N.eqb c 62); eauto|right; rewrite N in E; exact E]. }
      destruct D as [(acc' & -> & D)|D]; [|apply (IH _ _) in D; [exact D|split; [exact G|constructor; assumption]]].
      eapply emit_good; [exact D| |intros l'; apply IH; apply New; exact G]. constructor; [|constructor]. apply textChars_ok, Forall_rev. inversion Ga as [|? ? _ Gb]; subst. inversion Gb; subst. assumption.
    + apply noRefs_cons in G. destruct (nameChar c); [apply (IH _ _) in E; [exact E|exact G]|]. destruct (isTarget _); [|discriminate]. cbn [negb] in E. destruct (xmlSpace c); [apply (IH _ _) in E; [exact E|exact G]|].
      destruct (N.eqb c 63); [|discriminate]. apply (IH _ _) in E; [exact E|exact G].
    + apply noRefs_cons in G. apply (IH _ _) in E; [exact E|]. destruct (N.eqb c 63); exact G.
    + apply noRefs_cons in G. destruct (N.eqb c 62); [apply (IH _ _) in E; [exact E|apply New; exact G]|]. destruct only; [discriminate|]. apply (IH _ _) in E; [exact E|]. destruct (N.eqb c 63); exact G.
Qed.

(** the tree *)
Definition goodOpen (o : open) : Prop :=
  isName (otag o) = true /\ goodAttrs (oattrib o) /\ (match otext o with Some s => textOk s | None => True end) /\ Forall goodTree (orev o).
Lemma moreText_good old s : (match old with Some t => textOk t | None => True end) -> textOk s -> match moreText old s with Some t => textOk t | None => True end.
Proof. destruct old as [t|]; cbn [moreText]; [|auto]. intros [A B] [C D]. split; [apply Forall_app; split; assumption|]. intro I. apply in_app_or in I as [I|I]; contradiction. Qed.
Lemma addText_good s o : textOk s -> goodOpen o -> goodOpen (addText s o).
Proof.
  intros Hs (A & B & C & D). unfold addText. destruct (orev o) as [|e r]; [split; [exact A|split; [exact B|split; [apply moreText_good; assumption|constructor]]]|].
  inversion D as [|? ? De Dr]; subst. split; [exact A|]. split; [exact B|]. split; [exact C|]. cbn [orev]. constructor; [|exact Dr].
  destruct e as [tag at' text ch tail]. inversion De as [? ? ? ? ? N1 N2 N3 N4 N5 N6]; subst. cbn [setTail etail]. constructor; try assumption. apply moreText_good; assumption.
Qed.
Lemma build_good l : forall st done e, Forall goodTok l -> Forall goodOpen st -> (forall x, done = Some x -> goodTree x) -> build l st done = Some e -> goodTree e.
Proof.
  induction l as [|t l IH]; intros st done e G S D E; cbn [build] in E.
  - destruct st; [exact (D e E)|discriminate].
  - inversion G as [|? ? Gt G']; subst. destruct t as [tag at'|tag|s|s].
    + assert (E' : build l (mkOpen tag at' None [] :: st) done = Some e) by (destruct st; [destruct done; [discriminate|exact E]|exact E]).
      apply IH in E'; [exact E'|exact G'| |exact D]. constructor; [|exact S]. destruct Gt as [A B]. repeat split; try assumption; try apply B. constructor.
    + destruct st as [|o st]; [discriminate|]. destruct (eqb tag (otag o)); [|discriminate]. inversion S as [|? ? So S']; subst. destruct So as (A & B & C & K).
      set (x := Elem (otag o) (oattrib o) (option_map XS (otext o)) (rev (orev o)) None) in *.
      assert (Gx : goodTree x). { destruct B. constructor; try assumption; [destruct (otext o); exact C|apply Forall_rev; exact K]. }
      destruct st as [|p st]; [apply IH in E; [exact E|exact G'|constructor|]; intros y Y; injection Y as <-; exact Gx|].
      apply IH in E; [exact E|exact G'| |exact D]. inversion S' as [|? ? (A' & B' & C' & K') S'']; subst. constructor; [|exact S'']. split; [exact A'|split; [exact B'|split; [exact C'|constructor; assumption]]].
    + destruct st as [|o st]; [destruct (forallb xmlSpace s); [apply IH in E; assumption|discriminate]|]. inversion S as [|? ? So S']; subst. apply IH in E; [exact E|exact G'| |exact D]. constructor; [apply addText_good; assumption|exact S'].
    + destruct st as [|o st]; [discriminate|]. inversion S as [|? ? So S']; subst. apply IH in E; [exact E|exact G'| |exact D]. constructor; [|exact S']. destruct s; [exact So|apply addText_good; assumption].
Qed.

(** the prolog *)
Lemma skipSpace_tail s : exists p, s = p ++ skipSpace s.
Proof. induction s as [|c s (p & E)]; [exists []; reflexivity|]. cbn [skipSpace]. destruct (xmlSpace c); [exists (c :: p); cbn [app]; f_equal; exact E|exists []; reflexivity]. Qed.
Lemma skipDoctype_tail s : forall r, skipDoctype s = Some r -> exists p, s = p ++ r.
Proof.
  induction s as [|c s IH]; intros r E; [discriminate|]. cbn [skipDoctype] in E. destruct (N.eqb c 62); [injection E as <-; exists [c]; reflexivity|].
  destruct (N.eqb c 91); [discriminate|]. destruct (IH r E) as (p & ->). exists (c :: p). reflexivity.
Qed.
Lemma after_tail p s : forall r, after p s = Some r -> exists q, s = q ++ r.
Proof.
  induction s as [|c s IH]; intros r E; cbn [after] in E.
  - destruct (startswith p []); [|discriminate]. injection E as <-. exists []. destruct (length p); reflexivity.
  - destruct (startswith p (c :: s)); [injection E as <-; exists (firstn (length p) (c :: s)); symmetry; apply firstn_skipn|].
    destruct (IH r E) as (q & ->). exists (c :: q). reflexivity.
Qed.
Lemma tail_trans {A} (a b c p q : list A) : a = p ++ b -> b = q ++ c -> exists r, a = r ++ c.
Proof. intros -> ->. exists (p ++ q). apply app_assoc. Qed.
Lemma skipMisc_tail f : forall s r, skipMisc f s = Some r -> exists p, s = p ++ r.
Proof.
  induction f as [|f IH]; intros s r E; cbn [skipMisc] in E; cbv zeta in E; destruct (skipSpace_tail s) as (p1 & T1); [injection E as <-; eauto|].
  assert (Sk : forall n, exists p, skipSpace s = p ++ skipn n (skipSpace s)) by (intro n; exists (firstn n (skipSpace s)); symmetry; apply firstn_skipn).
  destruct (startswith (u "<!--") (skipSpace s)).
  - destruct (after (u "--") (skipn 4 (skipSpace s))) as [[|c r1]|] eqn:Af; [discriminate| |discriminate]. apply after_tail in Af as (q & Q). destruct (Sk 4) as (q4 & Q4).
    assert (E' : skipMisc f r1 = Some r). { destruct (N.eqb_spec c 62) as [->|N]; [exact E|]. exfalso. destruct c as [|p]; [discriminate E|]. do 6 (destruct p as [p|p|]; try discriminate E). congruence. }
    destruct (IH _ _ E') as (q5 & Q5). exists (p1 ++ q4 ++ q ++ [c] ++ q5). rewrite T1 at 1. rewrite Q4 at 1. rewrite Q, Q5. rewrite <- !app_assoc. reflexivity.
  - destruct (startswith (u "<?") (skipSpace s)); [|injection E as <-; eauto]. match type of E with (if ?b then _ else _) = _ => destruct b; [|discriminate] end.
    match type of E with match after _ ?x with _ => _ end = _ => destruct (after (u "?>") x) as [r1|] eqn:Af; [|discriminate] end. apply after_tail in Af as (q & Q).
    match type of Q with skipn ?n _ = _ => destruct (Sk n) as (q4 & Q4) end. destruct (IH _ _ E) as (q5 & Q5). exists (p1 ++ q4 ++ q ++ q5). rewrite T1 at 1. rewrite Q4 at 1. rewrite Q, Q5. rewrite <- !app_assoc. reflexivity.
Qed.
Lemma skipProlog_tail s r : skipProlog s = Some r -> exists p, s = p ++ r.
Proof.
  unfold skipProlog. intro E. destruct (if startswith (u "<?xml ") s then after (u "?>") s else Some s) as [s1|] eqn:E1; [|discriminate].
  assert (T1 : exists p, s = p ++ s1). { destruct (startswith (u "<?xml ") s); [apply after_tail in E1; exact E1|injection E1 as <-; exists []; reflexivity]. }
  destruct T1 as (p1 & ->). destruct (skipMisc (length s1) s1) as [s2|] eqn:E2; [|discriminate]. apply skipMisc_tail in E2 as (p2 & ->).
  destruct (startswith (u "<!DOCTYPE ") s2).
  - destruct (skipDoctype s2) as [s3|] eqn:E3; [|discriminate]. apply skipDoctype_tail in E3 as (p3 & ->). injection E as <-.
    destruct (skipSpace_tail s3) as (p4 & T4). exists (p1 ++ p2 ++ p3 ++ p4). rewrite T4 at 1. rewrite <- !app_assoc. reflexivity.
  - injection E as <-. exists (p1 ++ p2). rewrite app_assoc. reflexivity.
Qed.

Theorem parse_good s e : noWhiteRefs s -> parseXml s = Some e -> goodTree e.
Proof.
  intros Nr E. unfold parseXml in E. destruct (forallb xmlChar s) eqn:X; [|discriminate]. apply normEol_chars in X. apply normEol_refs in Nr.
  destruct (skipProlog (normEol s)) as [r|] eqn:P; [|discriminate]. apply skipProlog_tail in P as (p & P). rewrite P in X, Nr. apply Forall_app in X as [_ X]. apply noRefs_r in Nr.
  destruct (lex (MText []) r) as [t|] eqn:L; [|discriminate]. apply lex_good in L; [|exact X|split; [exact Nr|constructor]].
  eapply build_good; [exact L|constructor| |exact E]. discriminate.
Qed.

(** the same for bytes *)
Lemma decode_step b s : utf8Decode b = Ok s -> (b = [] /\ s = []) \/
  exists c h t s', b = c :: h ++ t /\ utf8Decode t = Ok s' /\ ((s = c :: s' /\ h = []) \/ (exists x, s = x :: s' /\ (0x80 <= x)%N)).
Proof.
  destruct b as [|a r]; intro E; cbn [utf8Decode] in E; [injection E as <-; auto|right].
  destruct (N.ltb_spec a 0x80); [apply bind_Ok in E as (s' & E' & E); injection E as <-; exists a, [], r, s'; cbn; auto|].
  destruct (N.ltb_spec a 0xC2); [discriminate|]. destruct (N.ltb_spec a 0xE0).
  { destruct r as [|x r']; [discriminate|]. destruct (cont x); [|discriminate]. apply bind_Ok in E as (s' & E' & E). injection E as <-. exists a, [x], r', s'. split; [reflexivity|]. split; [exact E'|]. right. eexists. split; [reflexivity|]. lia. }
  destruct (N.ltb_spec a 0xF0).
  { destruct r as [|x [|y r']]; [discriminate|discriminate|]. cbv zeta in E. destruct (cont x && cont y); [|discriminate]. cbn [andb] in E. destruct (N.leb_spec 0x800 ((a - 0xE0) * 4096 + (x - 0x80) * 64 + (y - 0x80))); [|discriminate]. cbn [andb] in E.
    match type of E with (if ?q then _ else _) = _ => destruct q; [|discriminate] end. apply bind_Ok in E as (s' & E' & E). injection E as <-. exists a, [x; y], r', s'. split; [reflexivity|]. split; [exact E'|]. right. eexists. split; [reflexivity|]. lia. }
  destruct (N.ltb_spec a 0xF5); [|discriminate]. destruct r as [|x [|y [|z r']]]; [discriminate|discriminate|discriminate|]. cbv zeta in E. destruct (cont x && cont y && cont z); [|discriminate]. cbn [andb] in E.
  destruct (N.leb_spec 0x10000 ((a - 0xF0) * 262144 + (x - 0x80) * 4096 + (y - 0x80) * 64 + (z - 0x80))); [|discriminate]. cbn [andb] in E.
  match type of E with (if ?q then _ else _) = _ => destruct q; [|discriminate] end. apply bind_Ok in E as (s' & E' & E). injection E as <-. exists a, [x; y; z], r', s'. split; [reflexivity|]. split; [exact E'|]. right. eexists. split; [reflexivity|]. lia.
Qed.
Lemma decode_part r : Forall (fun c => c < 128 /\ c <> 10 /\ c <> 13)%N r -> forall p b q, utf8Decode b = Ok (p ++ r ++ q) -> exists p' q', b = p' ++ r ++ q'.
Proof.
  intros F p. induction p as [|y p IH]; intros b q D.
  - assert (Pre : forall b q, utf8Decode b = Ok (r ++ q) -> exists q', b = r ++ q').
    { clear b q D. induction F as [|c r (L & _) F IH]; intros b q D; [exists b; reflexivity|].
      apply decode_step in D as [[_ D]|(c' & h & t & s' & -> & D & [[E ->]|(x & E & L')])]; [discriminate| |injection E as <- _; lia]. injection E as <- <-. destruct (IH _ _ D) as (q' & ->). exists q'. reflexivity. }
    destruct (Pre _ _ D) as (q' & E). exists [], q'. exact E.
  - apply decode_step in D as [[_ D]|(c & h & t & s' & -> & D & [[E ->]|(x & E & L)])]; [discriminate| |]; injection E as _ <-; destruct (IH _ _ D) as (p' & q' & ->); [exists (c :: p'), q'; reflexivity|].
    exists (c :: h ++ p'), q'. cbn [app]. rewrite <- app_assoc. reflexivity.
Qed.
Lemma decode_refs b s : noWhiteRefs b -> utf8Decode b = Ok s -> noWhiteRefs s.
Proof. intros H D p r q W ->. destruct (decode_part r (white_plain r W) p b q D) as (p' & q' & E). exact (H p' r q' W E). Qed.
Theorem parseBytes_good b e : noWhiteRefs b -> parseBytes b = Ok e -> goodTree e.
Proof.
  intros Nr E. unfold parseBytes in E. destruct (utf8Decode b) as [s|] eqn:D; [|discriminate]. destruct (parseXml s) as [e'|] eqn:P; [|discriminate]. injection E as <-.
  eapply parse_good; [eapply decode_refs; eassumption|exact P].
Qed.
