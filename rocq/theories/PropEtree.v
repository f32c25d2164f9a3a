(** Properties of etree.py without lxml (C65 to C67) and of property lists as
    files (C60).  The XML parser is described in Etree.v ([parseBytes]).
    [goodTree] (EtreeProofs): element and attribute names are ASCII names without
    colon, attribute names differ and are not xmlns, texts and values are made of
    XML characters without carriage return, attribute values without tabulator. *)
From Coq Require Import String NArith ZArith Bool Lia List Permutation.
From Coq.Floats Require Import SpecFloat.
From Verif Require Import Base PyVal PyText FloatRepr Xml FS Ufo UfoProofs PropUfoFiles Plist PlistProofs PropPlist Etree EtreeProofs.
Import ListNotations.
Local Open Scope string_scope.
Local Open Scope list_scope.

(** ** C66 *)
(** The tree an XML parser can give back: no empty texts, texts made of strings,
    no text behind the root element. *)
Inductive readText : option etext -> option etext -> Prop :=
| rt_none : readText None None
| rt_emptyS : readText (Some (XS [])) None
| rt_emptyB : readText (Some (XB [])) None
| rt_S c s : readText (Some (XS (c :: s))) (Some (XS (c :: s)))
| rt_B c s : readText (Some (XB (c :: s))) (Some (XS (c :: s))).
Inductive readTail : option str -> option str -> Prop :=
| rl_none : readTail None None
| rl_empty : readTail (Some []) None
| rl_some c s : readTail (Some (c :: s)) (Some (c :: s)).
Inductive readTree : elem -> elem -> Prop :=
| readTree_intro tag at' text text' ch ch' tail tail' : readText text text' -> readTail tail tail' -> Forall2 readTree ch ch' ->
    readTree (Elem tag at' text ch tail) (Elem tag at' text' ch' tail').
Lemma norm_read e : readTree e (norm e).
Proof.
  induction e as [tag at' text ch tail IH] using elem_ind'. cbn [norm]. constructor.
  - destruct text as [[[|]|[|]]|]; constructor.
  - destruct tail as [[|]|]; constructor.
  - induction IH; constructor; assumption.
Qed.
Lemma prolog_start h : forallb (fun c => xmlChar c && negb (N.eqb c 13)) h = true -> (forall c r, nameStart c = true -> skipProlog (h ++ 60%N :: c :: r) = Some (60%N :: c :: r)) -> prologOk h.
Proof.
  intros F S. split; [|exact S]. apply Forall_forall. intros c I. rewrite forallb_forall in F. specialize (F c I). apply andb_true_iff in F as [A B]. split; [exact A|]. intros ->. discriminate B.
Qed.
Lemma no_doctype c r : nameStart c = true -> startswith (u "<!DOCTYPE ") (60%N :: c :: r) = false /\ startswith (u "<?xml ") (60%N :: c :: r) = false.
Proof.
  intro N. split.
  - destruct (startswith_spec (u "<!DOCTYPE ") (60%N :: c :: r)) as [(t & E)|]; [|reflexivity]. exfalso. inversion E; subst. discriminate N.
  - destruct (startswith_spec (u "<?xml ") (60%N :: c :: r)) as [(t & E)|]; [|reflexivity]. exfalso. inversion E; subst. discriminate N.
Qed.
Lemma no_misc c r f : nameStart c = true -> skipMisc f (60%N :: c :: r) = Some (60%N :: c :: r).
Proof.
  intro N. destruct f as [|f]; [reflexivity|]. cbn [skipMisc]. cbv zeta. change (skipSpace (60%N :: c :: r)) with (60%N :: c :: r).
  destruct (startswith_spec (u "<!--") (60%N :: c :: r)) as [(t & E)|_]; [exfalso; inversion E; subst; discriminate N|].
  destruct (startswith_spec (u "<?") (60%N :: c :: r)) as [(t & E)|_]; [exfalso; inversion E; subst; discriminate N|]. reflexivity.
Qed.
Lemma prolog_nil : prologOk [].
Proof.
  apply prolog_start; [reflexivity|]. intros c r N. cbn [app]. unfold skipProlog. destruct (no_doctype c r N) as [A B]. rewrite B.
  rewrite no_misc by exact N. rewrite A. reflexivity.
Qed.
Lemma prolog_decl (p : bool) : prologOk (xmlDeclaration ++ (if p then [10%N] else [])).
Proof.
  apply prolog_start; [destruct p; reflexivity|]. intros c r N. rewrite <- app_assoc. set (X := (if p then [10%N] else []) ++ 60%N :: c :: r).
  change (skipProlog (xmlDeclaration ++ X)) with
    (match skipMisc (length X) X with Some s => if startswith (u "<!DOCTYPE ") s then match skipDoctype s with Some r => Some (skipSpace r) | None => None end else Some s | None => None end).
  assert (E : skipMisc (length X) X = skipMisc (length X) (60%N :: c :: r)) by (subst X; destruct p; reflexivity). rewrite E, no_misc by exact N. rewrite (proj1 (no_doctype c r N)). reflexivity.
Qed.
Lemma tostring_parse T decl pretty e : goodTree e -> forallb xmlSpace (match etail e with Some t => t | None => [] end) = true ->
  exists b, tostring T decl pretty e = Ok b /\ parseBytes b = Ok (setTail None (norm (if pretty then indent T 0 e else e))).
Proof.
  intros G B. set (f := if pretty then indent T 0 e else e).
  assert (Gf : goodTree f) by (subst f; destruct pretty; [apply indent_good|]; exact G).
  assert (Bf : forallb xmlSpace (match etail f with Some t => t | None => [] end) = true).
  { subst f. destruct pretty; [|exact B]. rewrite etail_indent. destruct (_ && _); [reflexivity|exact B]. }
  destruct (serialize_total f Gf) as (s & Es). unfold tostring. fold f. rewrite Es. cbn [bind].
  set (h := if decl then xmlDeclaration ++ (if pretty then [10%N] else []) else []).
  assert (P : prologOk h) by (subst h; destruct decl; [apply prolog_decl|apply prolog_nil]).
  destruct (goodTree_encode f s h Gf Es) as (b & Eb).
  { destruct P as [P _]. eapply Forall_impl; [|exact P]. intros c [H _]. unfold xmlChar in H. apply andb_true_iff in H as [H1 H2]. apply valid_compat; [destruct (invalidXml c); [discriminate|reflexivity]|apply N.leb_le; exact H2]. }
  exists b. split; [exact Eb|]. eapply parse_serialize; [exact P|apply goodTree_plain; exact Gf|exact Es|exact Bf|exact Eb].
Qed.
(** partial: restricted to [goodTree]s, see C66_refuted and C65_refuted *)
Theorem C66_parse_back_partial : forall T decl e, goodTree e -> etail e = None ->
  exists b f, tostring T decl false e = Ok b /\ parseBytes b = Ok f /\ readTree e f.
Proof.
  intros T decl e G Tl. destruct (tostring_parse T decl false e G) as (b & Eb & Pb); [rewrite Tl; reflexivity|]. exists b, (norm e). split; [exact Eb|]. split; [|apply norm_read].
  rewrite Pb. f_equal. destruct e as [tag at' text ch tail]. cbn [etail] in Tl. subst tail. reflexivity.
Qed.
Print Assumptions C66_parse_back_partial.
(** other names than XML names are written unchecked *)
Theorem C66_refuted : forall T, exists tag b, tostring T false false (Elem tag [] None [] None) = Ok b /\ parseBytes b = Err XMLError.
Proof. intro T. exists (u "a b"), (u "<a b/>"). split; vm_compute; reflexivity. Qed.
Print Assumptions C66_refuted.
Example C66_case : parseBytes (u "<?xml version='1.0'?><a x = 'p&#x41;q'><b/> t&amp;u<c y=""1""></c>
</a >") = Ok (Elem (u "a") [(u "x", u "pAq")] None [Elem (u "b") [] None [] (Some (u " t&u")); Elem (u "c") [(u "y", u "1")] None [] (Some [10%N])] None) /\
  tostring asciiText true false (Elem (u "a") [(u "x", u "1<2")] (Some (XS (u "]]>"))) [Elem (u "b") [] (Some (XS [])) [] (Some [233%N])] None) =
    Ok (u "<?xml version=""1.0"" encoding=""UTF-8""?><a x=""1&lt;2"">]]&gt;<b></b>" ++ [195; 169]%N ++ u "</a>").
Proof. vm_compute. auto. Qed.

(** comments, processing instructions and the limits of CDATA sections leave no trace *)
Example C66_misc_case : parseBytes (u "<?xml version='1.0'?><!-- x --><?p q?> <!DOCTYPE a><a>s<!-- <b> - > -->t<![CDATA[<&]]]><?p?>u<b/>v<?q r?>w</a><!--y-->") =
    Ok (Elem (u "a") [] (Some (XS (u "st<&]u"))) [Elem (u "b") [] None [] (Some (u "vw"))] None) /\
  parseBytes (u "<a><!-- x -- y --></a>") = Err XMLError /\ parseBytes (u "<a>]]></a>") = Err XMLError /\
  parseBytes (u "<a><?XML x?></a>") = Err XMLError /\ parseBytes (u "<a><![CDATA[x]]</a>") = Err XMLError.
Proof. vm_compute. auto. Qed.

(** ** C65 *)
(** partial: every XML text without carriage return, every XML attribute value
    without carriage return and tabulator *)
Theorem C65_escaping_partial : forall T tag name value text, isName tag = true -> isName name = true -> name <> u "xmlns" ->
  Forall xmlCompat text -> ~ In 13%N text -> Forall xmlCompat value -> ~ In 13%N value -> ~ In 9%N value -> text <> [] ->
  exists b, tostring T false false (Elem tag [(name, value)] (Some (XS text)) [] None) = Ok b /\
    parseBytes b = Ok (Elem tag [(name, value)] (Some (XS text)) [] None).
Proof.
  intros T tag name value text N1 N2 N3 C1 C2 C3 C4 C5 NE. destruct (tostring_parse T false false (Elem tag [(name, value)] (Some (XS text)) [] None)) as (b & Eb & Pb); [|reflexivity|].
  - constructor; try assumption; try exact I; try (split; assumption); repeat constructor; cbn [fst snd]; try assumption. intros [].
  - exists b. split; [exact Eb|]. rewrite Pb. destruct text; [congruence|]. reflexivity.
Qed.
Print Assumptions C65_escaping_partial.
(** a carriage return is read as a line feed in texts and as a space in attribute
    values, a tabulator in an attribute value as a space *)
Theorem C65_refuted : forall T, (exists b, tostring T false false (leaf (u "string") (Some (XS [13%N]))) = Ok b /\ parseBytes b = Ok (leaf (u "string") (Some (XS [10%N])))) /\
  (exists b, tostring T false false (Elem (u "a") [(u "name", [9%N])] None [] None) = Ok b /\ parseBytes b = Ok (Elem (u "a") [(u "name", [32%N])] None [] None)) /\
  (exists b, tostring T false false (Elem (u "a") [(u "name", [13%N])] None [] None) = Ok b /\ parseBytes b = Ok (Elem (u "a") [(u "name", [32%N])] None [] None)).
Proof.
  intro T. split; [exists (u "<string>" ++ [13%N] ++ u "</string>")|split; [exists (u "<a name=""" ++ [9%N] ++ u """/>")|exists (u "<a name=""" ++ [13%N] ++ u """/>")]]; split; vm_compute; reflexivity.
Qed.
Print Assumptions C65_refuted.
(** everything else is refused *)
Theorem C65_refused : forall T decl pretty tag at' text, (exists c, In c text /\ (c <= 0x10FFFF)%N /\ ~ xmlCompat c) ->
  tostring T decl pretty (Elem tag at' (Some (XS text)) [] None) = Err ValueError.
Proof.
  intros T decl pretty tag at' text (c & I & L & NC).
  assert (X : existsb invalidXml text = true). { apply existsb_exists. exists c. split; [exact I|]. destruct (invalidXml c) eqn:E; [reflexivity|]. exfalso. apply NC. apply valid_compat; assumption. }
  assert (E : indent T 0 (Elem tag at' (Some (XS text)) [] None) = Elem tag at' (Some (XS text)) [] None) by reflexivity.
  assert (S : serialize (Elem tag at' (Some (XS text)) [] None) = Err ValueError).
  { rewrite serialize_eq. unfold toUnicode at 1. cbn [bind]. destruct (existsb invalidXml tag); [reflexivity|]. cbn [bind].
    assert (SA : forall e, serializeAttribs at' = Err e -> e = ValueError).
    { clear. induction at' as [|[k v] l IH]; intros e E; cbn [serializeAttribs] in E; [discriminate|]. unfold escapeAttrib, toUnicode in E. cbn [bind] in E.
      destruct (existsb invalidXml k); [inversion E; reflexivity|]. cbn [bind] in E. destruct (existsb invalidXml v); [inversion E; reflexivity|]. cbn [bind] in E.
      destruct (serializeAttribs l); [discriminate|]. inversion E; subst. apply IH. reflexivity. }
    destruct (serializeAttribs at') as [a|e] eqn:EA; cbn [bind]; [|rewrite (SA e eq_refl); reflexivity].
    unfold serBody. cbn [orb]. unfold serializeText. destruct text as [|x text]; [destruct I|]. cbn [textTruthy]. unfold escapeCdata, toUnicode. cbn [bind]. rewrite X. reflexivity. }
  unfold tostring. destruct pretty; [rewrite E|]; rewrite S; reflexivity.
Qed.
Print Assumptions C65_refused.
Example C65_case : let e := Elem (u "a") [(u "name", u "<""&amp;'" ++ [10; 128512]%N)] (Some (XS (u " a]]>&lt;" ++ [9; 10]%N))) [] None in
  (do b <- tostring asciiText false false e; parseBytes b) = Ok e.
Proof. vm_compute. reflexivity. Qed.

(** ** C67 *)
(** [respaced T e f] (EtreeProofs): f has the tags, attributes and children of e
    in order, the texts of elements without children are the same, and every
    other text or tail is the same unless both are white space *)
Theorem C67_pretty : forall T level e, respaced T e (indent T level e).
Proof. intros. apply indent_respaced. Qed.
Print Assumptions C67_pretty.
Theorem C67_idempotent : forall T level e, pytext_laws T -> indent T level (indent T level e) = indent T level e.
Proof. intros T level e L. apply indent_idem. exact L. Qed.
Print Assumptions C67_idempotent.
(** also through a file *)
Theorem C67_file : forall T decl e, goodTree e -> etail e = None ->
  exists b e1 f, tostring T decl true e = Ok b /\ parseBytes b = Ok (setTail None f) /\ respaced T e e1 /\ readTree e1 f.
Proof.
  intros T decl e G Tl. destruct (tostring_parse T decl true e G) as (b & Eb & Pb); [rewrite Tl; reflexivity|].
  exists b, (indent T 0 e), (norm (indent T 0 e)). split; [exact Eb|]. split; [exact Pb|]. split; [apply indent_respaced|apply norm_read].
Qed.
Print Assumptions C67_file.
Example C67_case : tostring asciiText false true (Elem (u "a") [] (Some (XS (u " "))) [leaf (u "b") (Some (XS (u "  "))); Elem (u "c") [] (Some (XS (u "x"))) [leaf (u "d") None] (Some (u "y"))] None) =
  Ok (u "<a>
  <b>  </b>
  <c>x<d/>
  </c>y</a>
").
Proof. vm_compute. reflexivity. Qed.
