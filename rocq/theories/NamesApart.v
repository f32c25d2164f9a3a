(** Lemmas about glyph names whose own file names differ, ignoring case. *)
From Coq Require Import String NArith ZArith Bool Lia List.
From Verif Require Import Base LowerLaws Filenames FilenamesProofs GlyphSet GlyphSetProofs.
Import ListNotations.
Local Open Scope string_scope.
Local Open Scope list_scope.

(** Two more facts about [str.lower], true of CPython: lower-casing twice is
    lower-casing, and the suffix ".glif" stays. *)
Definition lower_stable (lower : str -> str) : Prop :=
  (forall s, lower (lower s) = lower s) /\ forall b, lower (b ++ u ".glif") <> lower contentsName.
Lemma ascii_stable : lower_stable ascii_lower.
Proof.
  split.
  - intro s. unfold ascii_lower. rewrite map_map. apply map_ext. intro c. unfold lower_char.
    destruct ((65 <=? c) && (c <=? 90))%N eqn:E; [|rewrite E; reflexivity]. apply andb_prop in E as [A B]. apply N.leb_le in A, B.
    replace (c + 32 <=? 90)%N with false by (symmetry; apply N.leb_gt; lia). rewrite andb_false_r. reflexivity.
  - intros b E. unfold ascii_lower in E. rewrite map_app in E. apply (f_equal (@rev N)) in E. rewrite rev_app_distr in E. vm_compute in E. discriminate E.
Qed.

(** the file name of a glyph when there are no other files *)
Definition ownFile (lower : str -> str) (n f : str) : Prop := glyphNameToFileName lower n [] = Ok f.
(** names whose own file names are different, ignoring case *)
Definition apart_names (lower : str -> str) (S : str -> Prop) : Prop :=
  forall n m f g, S n -> S m -> n <> m -> ownFile lower n f -> ownFile lower m g -> lower f <> lower g.

Lemma own_default lower n e f : defaultFileName lower n e = Ok f -> exists g, ownFile lower n g /\ (~ In (lower g) (keys e) -> f = g).
Proof.
  unfold defaultFileName, ownFile, glyphNameToFileName, userNameToFileName. destruct (replaceInitialPeriod [] n) as [n'|e'] eqn:E; [|discriminate]. cbn [bind mem].
  intro H. eexists. split; [reflexivity|]. intro N. cbv zeta in *. match goal with _ : context [if ?b then _ else _] |- _ => destruct b eqn:M end; [apply mem_In in M; contradiction|].
  injection H as <-. reflexivity.
Qed.
Lemma apart_fresh (canon lower : str -> str) S : lower_stable lower -> (forall f g, canon f = canon g -> lower f = lower g) -> apart_names lower S ->
  forall n e f, S n -> (forall g, In g (keys e) -> exists m, m <> n /\ S m /\ ownFile lower m g) -> defaultFileName lower n e = Ok f ->
  (S n /\ ownFile lower n f) /\ ~ In (lower f) (map lower (keys e)) /\ canon f <> canon contentsName.
Proof.
  intros [Li Ls] CL A n e f On He T. destruct (own_default lower n e f T) as (g & Og & Eg).
  assert (f = g) as ->.
  { apply Eg. intro I. destruct (He _ I) as (m & Nm & Sm & Om). apply (A n m g (lower g) On Sm); auto. }
  split; [split; assumption|]. split.
  - intro I. apply in_map_iff in I as (x & Ex & Ix). destruct (He _ Ix) as (m & Nm & Sm & Om). apply (A n m g x On Sm); auto.
  - intro E. apply CL in E. unfold ownFile, glyphNameToFileName in Og. apply legal_result in Og as (b & -> & _). apply (Ls _ E).
Qed.

(** ** Ordinary names *)
(** ASCII names without "_" and the characters that are replaced by "_", which
    have no reserved part and need not be shortened *)
Definition simpleChar (c : N) : bool := is_ascii c && negb (mem c illegalCharacters) && negb (N.eqb c underscore).
Record simpleName (n : str) : Prop := {
  sn_some : n <> [];
  sn_chars : forall c, In c n -> simpleChar c = true;
  sn_parts : forall q, In q (split1 period n) -> ~ In q reservedFileNames;
  sn_short : length n <= 125
}.
Definition isUpper (c : N) : bool := ((65 <=? c) && (c <=? 90))%N.
Definition fc (c : N) : str := if isUpper c then [c; underscore] else [c].
Lemma fc_filter c : (simpleChar c = true \/ c = underscore) -> filterCharacter ascii_lower c = fc c.
Proof.
  intros [H| ->]; [|reflexivity]. unfold simpleChar in H. apply andb_prop in H as [H _]. apply andb_prop in H as [_ H]. apply negb_true_iff in H.
  unfold filterCharacter, fc. rewrite H. cbn [ascii_lower map]. unfold lower_char, isUpper. destruct ((65 <=? c) && (c <=? 90))%N eqn:U.
  - replace (eqb [c] [(c + 32)%N]) with false; [reflexivity|]. symmetry. apply eqb_neq. intro X. injection X. lia.
  - rewrite eqb_refl. reflexivity.
Qed.
Lemma fc_length n : length (concat (map fc n)) <= 2 * length n.
Proof. induction n as [|c n IH]; [cbn; lia|]. cbn [map concat]. rewrite app_length. unfold fc at 1. destruct (isUpper c); cbn [length]; lia. Qed.
Lemma fc_parts n : split1 period (concat (map fc n)) = map (fun q => concat (map fc q)) (split1 period n).
Proof.
  induction n as [|c n IH]; [reflexivity|]. cbn [map concat split1]. pose proof (split1_nonempty period n) as NE. destruct (N.eqb_spec c period) as [->|Np].
  - change (fc period) with [period]. cbn [app split1 map]. change (period =? period)%N with true. cbv iota. rewrite IH. reflexivity.
  - apply N.eqb_neq in Np. destruct (isUpper c) eqn:U.
    + assert (F : fc c = [c; underscore]) by (unfold fc; rewrite U; reflexivity). rewrite F. cbn [app split1].
      rewrite Np. change (underscore =? period)%N with false. cbv iota. rewrite IH. destruct (split1 period n) as [|h t]; [contradiction|]. cbn [map concat]. rewrite F. reflexivity.
    + assert (F : fc c = [c]) by (unfold fc; rewrite U; reflexivity). rewrite F. cbn [app split1].
      rewrite Np. rewrite IH. destruct (split1 period n) as [|h t]; [contradiction|]. cbn [map concat]. rewrite F. reflexivity.
Qed.
Lemma no_upper_fc q : forallb (fun c => negb (isUpper c)) q = true -> concat (map fc q) = q /\ ascii_lower q = q.
Proof.
  induction q as [|c q IH]; intro H; [split; reflexivity|]. cbn [forallb] in H. apply andb_prop in H as [H1 H2]. apply negb_true_iff in H1. destruct (IH H2) as [A B].
  cbn [map concat ascii_lower]. unfold fc at 1. rewrite H1. cbn [app]. split; [rewrite A; reflexivity|]. unfold lower_char. unfold isUpper in H1. rewrite H1. f_equal. exact B.
Qed.
Lemma has_upper_fc q : forallb (fun c => negb (isUpper c)) q = false -> In underscore (concat (map fc q)).
Proof.
  induction q as [|c q IH]; cbn [forallb map concat]; [discriminate|]. unfold fc at 1. destruct (isUpper c) eqn:U; cbn [negb andb]; [intros _; right; left; reflexivity|]. intro H. right. apply IH. exact H.
Qed.
Lemma lower_underscore_In s : In underscore s -> In underscore (ascii_lower s).
Proof. intro I. change underscore with (lower_char underscore). apply in_map. exact I. Qed.
Lemma reserved_no_underscore x : In x reservedFileNames -> ~ In underscore x.
Proof. intros I J. vm_compute in I. repeat (destruct I as [<-|I]; [vm_compute in J; intuition discriminate|]). exact I. Qed.
Lemma escape_id q : ~ In q reservedFileNames \/ In underscore (concat (map fc q)) -> escapePart ascii_lower (concat (map fc q)) = concat (map fc q).
Proof.
  intro H. unfold escapePart. destruct (mem (ascii_lower (concat (map fc q))) reservedFileNames) eqn:M; [|reflexivity]. exfalso. apply mem_In in M.
  assert (NU : ~ In underscore (concat (map fc q))) by (intro J; apply (reserved_no_underscore _ M), lower_underscore_In; exact J).
  destruct H as [H|H]; [|contradiction]. destruct (forallb (fun c => negb (isUpper c)) q) eqn:F; [|apply NU, has_upper_fc; exact F].
  destruct (no_upper_fc q F) as [A B]. rewrite A, B in M. contradiction.
Qed.
(** the first period becomes "_" *)
Definition noPeriod (n : str) : str := match n with c :: r => if N.eqb c period then underscore :: r else n | [] => [] end.
Lemma simple_file n f : simpleName n -> ownFile ascii_lower n f -> f = concat (map fc (noPeriod n)) ++ u ".glif".
Proof.
  intros [S C P L] O. unfold ownFile, glyphNameToFileName, userNameToFileName in O.
  assert (E : replaceInitialPeriod [] n = Ok (noPeriod n)) by (destruct n as [|c r]; [contradiction|]; cbn; destruct (N.eqb c period); reflexivity).
  rewrite E in O. cbn [bind mem app] in O. injection O as <-. f_equal.
  assert (C' : forall c, In c (noPeriod n) -> simpleChar c = true \/ c = underscore).
  { intros c I. destruct n as [|x r]; [contradiction|]. cbn [noPeriod] in I. destruct (N.eqb x period); [destruct I as [<-|I]; [auto|]|]; left; apply C; [right|]; exact I. }
  assert (Fl : map (filterCharacter ascii_lower) (noPeriod n) = map fc (noPeriod n)) by (apply map_ext_in; intros c I; apply fc_filter, C'; exact I).
  unfold cleanName. rewrite Fl.
  assert (Ln : length (noPeriod n) = length n) by (destruct n as [|x r]; [reflexivity|]; cbn [noPeriod]; destruct (N.eqb x period); reflexivity).
  assert (Sl : slice_to (maxFileNameLength - Z.of_nat (@length N []) - Z.of_nat (length (u ".glif"))) (concat (map fc (noPeriod n))) = concat (map fc (noPeriod n))).
  { unfold slice_to. match goal with |- (if ?b then _ else _) = _ => change b with true end. cbv iota. apply firstn_all2. pose proof (fc_length (noPeriod n)) as B. rewrite Ln in B.
    match goal with |- _ <= ?k => replace k with 250 by (vm_compute; reflexivity) end. lia. }
  rewrite Sl. rewrite fc_parts. rewrite map_map.
  assert (Es : map (fun q => escapePart ascii_lower (concat (map fc q))) (split1 period (noPeriod n)) = map (fun q => concat (map fc q)) (split1 period (noPeriod n))).
  { apply map_ext_in. intros q I. apply escape_id. destruct n as [|x r]; [contradiction|]. cbn [noPeriod] in I. destruct (N.eqb_spec x period) as [->|Nx].
    - cbn [split1] in I. change (underscore =? period)%N with false in I. cbv iota in I. cbn [split1] in P. change (period =? period)%N with true in P. cbv iota in P.
      destruct (split1 period r) as [|h t] eqn:Sr; [destruct (split1_nonempty _ _ Sr)|]. destruct I as [<-|I]; [right; left; reflexivity|]. left. apply P. right. right. exact I.
    - left. apply P. exact I. }
  rewrite Es, <- fc_parts. apply join_split1.
Qed.
Lemma fc_lower_inj n m : (forall c, In c n -> simpleChar c = true) -> (forall c, In c m -> simpleChar c = true) ->
  ascii_lower (concat (map fc n)) = ascii_lower (concat (map fc m)) -> n = m.
Proof.
  assert (Hd : forall m x r, (forall c, In c m -> simpleChar c = true) -> ascii_lower (concat (map fc m)) = x :: r -> x <> underscore).
  { intros m0 x r C E. destruct m0 as [|c m0]; [discriminate E|]. cbn [map concat] in E. specialize (C c (or_introl eq_refl)). unfold simpleChar in C. apply andb_prop in C as [_ C]. apply negb_true_iff, N.eqb_neq in C.
    unfold fc at 1 in E. destruct (isUpper c) eqn:U; cbn in E; injection E as <- _; unfold lower_char; unfold isUpper in U; rewrite U; [|exact C].
    apply andb_prop in U as [A B]. apply N.leb_le in A, B. unfold underscore. lia. }
  revert m. induction n as [|c n IH]; intros [|d m] Cn Cm E.
  - reflexivity.
  - exfalso. cbn [map concat] in E. unfold fc at 1 in E. destruct (isUpper d); discriminate E.
  - exfalso. cbn [map concat] in E. unfold fc at 1 in E. destruct (isUpper c); discriminate E.
  - assert (Cn' : forall x, In x n -> simpleChar x = true) by (intros x I; apply Cn; right; exact I). assert (Cm' : forall x, In x m -> simpleChar x = true) by (intros x I; apply Cm; right; exact I).
    cbn [map concat] in E. unfold fc at 1, fc at 2 in E. unfold ascii_lower in E. rewrite !map_app in E. change (map lower_char) with ascii_lower in E.
    destruct (isUpper c) eqn:Uc, (isUpper d) eqn:Ud; cbn [ascii_lower map app] in E.
    + injection E as E1 E2. apply IH in E2; [|assumption..]. subst. f_equal. unfold lower_char in E1. unfold isUpper in Uc, Ud. rewrite Uc, Ud in E1. lia.
    + injection E as E1 E2. exfalso. eapply (Hd m); [exact Cm'|symmetry; exact E2|reflexivity].
    + injection E as E1 E2. exfalso. eapply (Hd n); [exact Cn'|exact E2|reflexivity].
    + injection E as E1 E2. apply IH in E2; [|assumption..]. subst. f_equal. unfold lower_char in E1. unfold isUpper in Uc, Ud. rewrite Uc, Ud in E1. exact E1.
Qed.
Lemma simple_ascii n : simpleName n -> asciis n.
Proof. intro S. apply asciis_In. intros x I. apply (sn_chars _ S) in I. unfold simpleChar in I. apply andb_prop in I as [I _]. apply andb_prop in I as [I _]. exact I. Qed.
Lemma simple_apart lower : lower_laws lower -> apart_names lower simpleName.
Proof.
  intros L n m f g Sn Sm N Of Og E.
  assert (As : forall n f, simpleName n -> ownFile lower n f -> ownFile ascii_lower n f /\ lower f = ascii_lower f).
  { intros n0 f0 S O. assert (O' : ownFile ascii_lower n0 f0) by (unfold ownFile, glyphNameToFileName in *; rewrite <- (userNameToFileName_ascii lower L); [exact O|apply simple_ascii; exact S|reflexivity..]).
    split; [exact O'|]. apply (lower_ascii _ L). apply simple_file in O' as ->; [|exact S].
    change (asciis (concat (map fc (noPeriod n0)) ++ u ".glif")). apply asciis_app. split; [|reflexivity].
    apply asciis_In. intros x I. apply in_concat in I as (l & Il & Ix). apply in_map_iff in Il as (c & <- & Ic).
    assert (Ac : is_ascii c = true).
    { pose proof (simple_ascii _ S) as A. rewrite asciis_In in A. destruct n0 as [|y r]; [contradiction|]. cbn [noPeriod] in Ic. destruct (N.eqb y period); [destruct Ic as [<-|Ic]; [reflexivity|apply A; right; exact Ic]|apply A; exact Ic]. }
    unfold fc in Ix. destruct (isUpper c); cbn in Ix; [destruct Ix as [<-|[<-|[]]]|destruct Ix as [<-|[]]]; try exact Ac; reflexivity. }
  destruct (As _ _ Sn Of) as [Of' Ef]. destruct (As _ _ Sm Og) as [Og' Eg]. rewrite Ef, Eg in E. apply simple_file in Of' as ->; [|exact Sn]. apply simple_file in Og' as ->; [|exact Sm].
  unfold ascii_lower in E. rewrite !map_app in E. apply app_inv_tail in E. change (map lower_char) with ascii_lower in E. apply N.
  destruct Sn as [N1 C1 _ _], Sm as [N2 C2 _ _]. destruct n as [|a n]; [contradiction|]. destruct m as [|b m]; [contradiction|]. cbn [noPeriod] in E.
  destruct (N.eqb_spec a period) as [->|Na], (N.eqb_spec b period) as [->|Nb].
  - cbn in E. injection E as E. f_equal. apply fc_lower_inj; [intros c I; apply C1; right; exact I|intros c I; apply C2; right; exact I|exact E].
  - exfalso. assert (Cb := C2 b (or_introl eq_refl)). unfold simpleChar in Cb. apply andb_prop in Cb as [_ Cb]. apply negb_true_iff, N.eqb_neq in Cb.
    cbn [map concat] in E. unfold fc at 1 3 in E. change (isUpper underscore) with false in E. cbv iota in E. destruct (isUpper b) eqn:U; cbn in E; injection E as E1 _; unfold lower_char in E1; unfold isUpper in U; rewrite U in E1; cbn in E1; [|apply Cb; symmetry; exact E1].
    apply andb_prop in U as [A B]. apply N.leb_le in A, B. unfold underscore in E1. lia.
  - exfalso. assert (Cb := C1 a (or_introl eq_refl)). unfold simpleChar in Cb. apply andb_prop in Cb as [_ Cb]. apply negb_true_iff, N.eqb_neq in Cb.
    cbn [map concat] in E. unfold fc at 1 3 in E. change (isUpper underscore) with false in E. cbv iota in E. destruct (isUpper a) eqn:U; cbn in E; injection E as E1 _; unfold lower_char in E1; unfold isUpper in U; rewrite U in E1; cbn in E1; [|apply Cb; exact E1].
    apply andb_prop in U as [A B]. apply N.leb_le in A, B. unfold underscore in E1. lia.
  - apply fc_lower_inj; assumption.
Qed.
