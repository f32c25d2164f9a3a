(** repr(float): what is assumed of it, and an instance. *)
From Coq Require Import String NArith ZArith Bool Lia ZifyN List.
From Coq.Floats Require Import SpecFloat.
From Verif Require Import Base PyVal PyText.
Import ListNotations.
Local Open Scope string_scope.
Local Open Scope list_scope.
Ltac Zify.zify_post_hook ::= Z.div_mod_to_equations.

(** * Numbers *)
Lemma lstrip_head sp c r : sp c = false -> lstrip sp (c :: r) = c :: r.
Proof. intro H. cbn. rewrite H. reflexivity. Qed.
Lemma strip_none sp s : (forall c, In c s -> sp c = false) -> strip sp s = s.
Proof.
  intro H. unfold strip.
  assert (E : forall s, (forall c, In c s -> sp c = false) -> lstrip sp s = s).
  { intros [|c r] K; [reflexivity|]. apply lstrip_head. apply K. left. reflexivity. }
  rewrite (E s H), E, rev_involutive; [reflexivity|]. intros c I. apply H. apply in_rev. exact I.
Qed.
Lemma digit_space T c : pytext_laws T -> is_digit c = true -> isSpace T c = false /\ digitVal T c = Some (c - 48)%N /\ c <> 95%N.
Proof.
  intros L D. unfold is_digit in D. apply andb_prop in D as [D1 D2]. apply N.leb_le in D1, D2.
  rewrite (space_ascii T L), (digit_ascii T L) by lia. split; [|split; [|lia]].
  - unfold asciiSpace. apply mem_nIn. cbn. lia.
  - unfold asciiDigit. destruct (N.leb_spec 48 c), (N.leb_spec c 57); try lia. reflexivity.
Qed.
Lemma intDigits_dec T s acc : pytext_laws T -> forallb is_digit s = true -> s <> [] \/ acc = acc ->
  forall b, (s <> [] \/ b = true) -> intDigits T s (Z.of_N acc) b = Some (Z.of_N (fold_left dec_step s acc)).
Proof.
  intros L. revert acc. induction s as [|c s IH]; intros acc D _ b H; cbn [intDigits fold_left].
  - destruct H as [H| ->]; [congruence|reflexivity].
  - cbn [forallb] in D. apply andb_prop in D as [D1 D2]. destruct (digit_space T c L D1) as (_ & E & N).
    destruct (N.eqb_spec c 95); [contradiction|]. rewrite E.
    replace (Z.of_N acc * 10 + Z.of_N (c - 48))%Z with (Z.of_N (dec_step acc c)).
    + apply IH; auto.
    + unfold dec_step. unfold is_digit in D1. lia.
Qed.
Lemma parseInt_str_of_Z T z : pytext_laws T -> parseInt T (str_of_Z z) = Some z.
Proof.
  intro L. unfold parseInt.
  assert (D : forall n, intDigits T (str_of_N n) 0 false = Some (Z.of_N n)).
  { intro n. change 0%Z with (Z.of_N 0). rewrite (intDigits_dec T (str_of_N n) 0 L (str_of_N_digit n) (or_intror eq_refl) false (or_introl (str_of_N_nonempty n))).
    f_equal. f_equal. apply dec_val_str_of_N. }
  assert (S : forall n c, In c (str_of_N n) -> isSpace T c = false /\ is_digit c = true).
  { intros n c I. pose proof (str_of_N_digit n) as Dg. rewrite forallb_forall in Dg. split; [eapply digit_space; eauto|auto]. }
  rewrite strip_none.
  - unfold str_of_Z. destruct (Z.ltb_spec z 0).
    + rewrite D. f_equal. lia.
    + assert (H2 : exists c r, str_of_N (Z.to_N z) = c :: r /\ c <> 43%N /\ c <> 45%N).
      { pose proof (S (Z.to_N z)) as Sz. destruct (str_of_N (Z.to_N z)) as [|c r] eqn:E; [exfalso; exact (str_of_N_nonempty _ E)|].
        exists c, r. split; [reflexivity|]. destruct (Sz c (or_introl eq_refl)) as [_ Dc]. unfold is_digit in Dc. apply andb_prop in Dc as [D1 D2]. apply N.leb_le in D1, D2. lia. }
      destruct H2 as (c & r & E & N1 & N2). pose proof (D (Z.to_N z)) as Dz. rewrite E in *.
      replace (Some z) with (Some (Z.of_N (Z.to_N z))) by (f_equal; lia). rewrite <- Dz. clear -N1 N2.
      destruct c as [|p]; [reflexivity|]. repeat (try reflexivity; try congruence; destruct p as [p|p|]).
  - intros c I. unfold str_of_Z in I. destruct (z <? 0)%Z.
    + destruct I as [<-|I]; [|eapply S; exact I]. rewrite (space_ascii T L) by lia. reflexivity.
    + eapply S; exact I.
Qed.


(** the values of a python float: IEEE 754 binary64 *)
Definition isDouble (f : spec_float) : Prop := valid_binary 53 1024 f = true.
(** float(repr(f)) is f again; repr(f) is never the text of an integer; it is
    made of digits, signs, points and the letters of "inf", "nan" and "e";
    float(s) is a double *)
Record repr_laws (T : pytext) (R : spec_float -> str) : Prop := {
  repr_parse : forall f, isDouble f -> parseFloat T (R f) = Some f;
  repr_noint : forall f, isDouble f -> parseInt T (R f) = None;
  repr_chars : forall f c, isDouble f -> In c (R f) -> In c (u "0123456789+-.einfa");
  parse_double : forall s f, parseFloat T s = Some f -> isDouble f;
}.

(** an instance with the exponent in base two instead of the decimal point *)
Definition toyRepr (f : spec_float) : str :=
  match f with
  | S754_nan => u "nan"
  | S754_infinity s => if s then u "-inf" else u "inf"
  | S754_zero s => if s then u "-0e" else u "0e"
  | S754_finite s m e => (if s then u "-" else []) ++ str_of_N (Npos m) ++ u "e" ++ str_of_Z e
  end.
Definition toyParseFloat (s : str) : option spec_float :=
  if eqb s (u "nan") then Some S754_nan
  else let '(sg, r) := match s with 45%N :: r => (true, r) | _ => (false, s) end in
  if eqb r (u "inf") then Some (S754_infinity sg)
  else match split1 101 r with
  | [a; b] =>
    match parseInt asciiText a with
    | Some (Zpos m) => option_map (S754_finite sg m) (parseInt asciiText b)
    | Some Z0 => Some (S754_zero sg)
    | _ => None
    end
  | _ => None
  end.
Definition toyText : pytext :=
  mkPytext asciiDigit asciiSpace (fun s => match toyParseFloat s with Some f => if valid_binary 53 1024 f then Some f else None | None => None end).
Lemma toyText_laws : pytext_laws toyText.
Proof. destruct asciiText_laws as [A B C _]. constructor; auto. Qed.

(** a character that neither is a digit nor may stand beside one *)
Lemma lstrip_In sp s c : sp c = false -> In c s -> In c (lstrip sp s).
Proof.
  intros N. induction s as [|x s IH]; intro I; [destruct I|]. cbn. destruct (sp x) eqn:E; [|exact I].
  destruct I as [->|I]; [congruence|auto].
Qed.
Lemma strip_In sp s c : sp c = false -> In c s -> In c (strip sp s).
Proof. intros N I. unfold strip. rewrite <- in_rev. apply lstrip_In; [exact N|]. rewrite <- in_rev. apply lstrip_In; assumption. Qed.
Lemma intDigits_bad T s c acc b : digitVal T c = None -> c <> 95%N -> In c s -> intDigits T s acc b = None.
Proof.
  intros D N. revert acc b. induction s as [|x s IH]; intros acc b I; [destruct I|]. cbn [intDigits].
  destruct I as [->|I].
  - destruct (N.eqb_spec c 95); [contradiction|]. rewrite D. reflexivity.
  - destruct (N.eqb x 95); [destruct b; auto|]. destruct (digitVal T x); auto.
Qed.
Lemma parseInt_bad T s c : digitVal T c = None -> isSpace T c = false -> c <> 95%N -> c <> 43%N -> c <> 45%N -> In c s -> parseInt T s = None.
Proof.
  intros D S N1 N2 N3 I. unfold parseInt. apply (strip_In (isSpace T)) in I; [|exact S].
  destruct (strip (isSpace T) s) as [|x r] eqn:E; [destruct I|].
  assert (G : In c r \/ x = c) by (destruct I; auto).
  assert (A : intDigits T (x :: r) 0 false = None) by (eapply intDigits_bad; eassumption).
  assert (B : x <> c -> intDigits T r 0 false = None) by (intro; eapply intDigits_bad; [exact D|exact N1|tauto]).
  destruct (N.eq_dec x 43) as [->|X1]; [apply B; congruence|]. destruct (N.eq_dec x 45) as [->|X2]; [rewrite B by congruence; reflexivity|].
  clear -A X1 X2. destruct x as [|p]; [exact A|]. repeat (try exact A; try congruence; destruct p as [p|p|]).
Qed.
Lemma split1_app c a b : ~ In c a -> ~ In c b -> split1 c (a ++ c :: b) = [a; b].
Proof.
  intros Ha Hb. induction a as [|x a IH].
  - cbn. rewrite N.eqb_refl. f_equal. clear Ha. induction b as [|y b IH]; [reflexivity|]. cbn.
    destruct (N.eqb_spec y c) as [->|]; [exfalso; apply Hb; left; reflexivity|]. rewrite IH; [reflexivity|]. intro I; apply Hb; right; exact I.
  - cbn [app split1]. destruct (N.eqb_spec x c) as [->|]; [exfalso; apply Ha; left; reflexivity|].
    rewrite IH; [reflexivity|]. intro I; apply Ha; right; exact I.
Qed.
Lemma str_of_N_In n c : In c (str_of_N n) -> (48 <= c <= 57)%N.
Proof.
  intro I. pose proof (str_of_N_digit n) as D. rewrite forallb_forall in D. specialize (D c I). unfold is_digit in D.
  apply andb_prop in D as [D1 D2]. apply N.leb_le in D1, D2. lia.
Qed.
Lemma str_of_Z_In z c : In c (str_of_Z z) -> (48 <= c <= 57)%N \/ c = 45%N.
Proof. unfold str_of_Z. destruct (z <? 0)%Z; [intros [<-|I]; [auto|]|intro I]; left; eapply str_of_N_In; exact I. Qed.
Lemma toyRepr_laws : repr_laws toyText toyRepr.
Proof.
  assert (F : forall s m e, toyParseFloat (toyRepr (S754_finite s m e)) = Some (S754_finite s m e)).
  { intros s m e. unfold toyParseFloat, toyRepr. change (u "e") with [101%N]. change (u "-") with [45%N].
    set (r := str_of_N (Npos m) ++ [101%N] ++ str_of_Z e).
    assert (H : exists c t, r = c :: t /\ (48 <= c <= 57)%N).
    { subst r. pose proof (str_of_N_In (Npos m)) as I. destruct (str_of_N (Npos m)) as [|c t] eqn:E; [exfalso; exact (str_of_N_nonempty _ E)|].
      exists c, (t ++ [101%N] ++ str_of_Z e). split; [reflexivity|]. apply I. left. reflexivity. }
    assert (Ni : eqb r (u "inf") = false).
    { apply eqb_neq. destruct H as (c & t & -> & B). intro K. inversion K. lia. }
    assert (G : match split1 101 r with
      | [a; b] => match parseInt asciiText a with
          | Some (Zpos m) => option_map (S754_finite s m) (parseInt asciiText b)
          | Some Z0 => Some (S754_zero s) | _ => None end
      | _ => None end = Some (S754_finite s m e)).
    { subst r. cbn [app]. rewrite split1_app.
      - change (str_of_N (Npos m)) with (str_of_Z (Zpos m)). rewrite (parseInt_str_of_Z asciiText _ asciiText_laws), (parseInt_str_of_Z asciiText _ asciiText_laws). reflexivity.
      - intro I. apply str_of_N_In in I. lia.
      - intro I. apply str_of_Z_In in I. lia. }
    destruct s; cbn [app].
    - replace (eqb (45%N :: r) (u "nan")) with false by (symmetry; apply eqb_neq; intro K; inversion K). cbv beta iota zeta. rewrite Ni. exact G.
    - replace (eqb r (u "nan")) with false by (symmetry; apply eqb_neq; destruct H as (c & t & -> & B); intro K; inversion K; lia).
      destruct H as (c & t & E & B).
      replace (match r with 45%N :: r0 => (true, r0) | _ => (false, r) end) with (false, r); [rewrite Ni; exact G|].
      rewrite E. clear -B. destruct c as [|p]; [lia|]. repeat (try reflexivity; try lia; destruct p as [p|p|]). }
  constructor.
  - intros f Df. cbn [toyText parseFloat]. destruct f as [[|]|[|]| |s m e]; try (vm_compute; reflexivity). rewrite F, Df. reflexivity.
  - intros f _.
    assert (P : forall c, (c < 128)%N -> asciiDigit c = None -> asciiSpace c = false -> c <> 95%N -> c <> 43%N -> c <> 45%N -> In c (toyRepr f) -> parseInt toyText (toyRepr f) = None).
    { intros c _ D S N1 N2 N3 I. eapply parseInt_bad; eassumption. }
    destruct f as [[|]|[|]| |s m e].
    1,2: apply (P 101%N); [lia|reflexivity|reflexivity|lia|lia|lia|apply mem_In; vm_compute; reflexivity].
    1,2,3: apply (P 110%N); [lia|reflexivity|reflexivity|lia|lia|lia|apply mem_In; vm_compute; reflexivity].
    apply (P 101%N); [lia|reflexivity|reflexivity|lia|lia|lia|]. cbn [toyRepr]. apply in_or_app. right. apply in_or_app. right. left. reflexivity.
  - intros f c _ I.
    assert (Dg : (48 <= c <= 57)%N -> In c (u "0123456789+-.einfa")).
    { intro B. assert (K : In c (map N.of_nat (seq 48 10))) by (apply in_map_iff; exists (N.to_nat c); split; [lia|apply in_seq; lia]).
      vm_compute in K. vm_compute. tauto. }
    assert (K : forall s, In c s -> forallb (fun c => mem c (u "0123456789+-.einfa")) s = true -> In c (u "0123456789+-.einfa")).
    { intros s J E. rewrite forallb_forall in E. apply mem_In. apply E. exact J. }
    destruct f as [[|]|[|]| |s m e]; try (eapply K; [exact I|vm_compute; reflexivity]).
    cbn [toyRepr] in I. apply in_app_or in I as [I|I]; [destruct s; [eapply K; [exact I|vm_compute; reflexivity]|destruct I]|].
    apply in_app_or in I as [I|I]; [apply Dg; eapply str_of_N_In; exact I|].
    apply in_app_or in I as [I|I]; [eapply K; [exact I|vm_compute; reflexivity]|].
    apply str_of_Z_In in I as [I| ->]; [auto|]. vm_compute. tauto.
  - intros s f H. cbn [toyText parseFloat] in H. destruct (toyParseFloat s) as [g|]; [|discriminate H].
    destruct (valid_binary 53 1024 g) eqn:E; inversion H; subst. exact E.
Qed.
