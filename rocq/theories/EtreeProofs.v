(** Proofs about the serializer and the XML parser description (Etree.v). *)
From Coq Require Import String NArith ZArith Bool Lia List.
From Coq.Floats Require Import SpecFloat.
From Verif Require Import Base PyVal PyText Xml FS Ufo UfoProofs PropUfoFiles Plist Etree.
Import ListNotations.
Local Open Scope string_scope.
Local Open Scope list_scope.

Lemma Ok_inj {A} (a b : A) : Ok a = Ok b -> a = b.
Proof. intro H. injection H as H. exact H. Qed.

(** * Escaping *)
Definition escC (c : N) : str := if N.eqb c 38 then u "&amp;" else if N.eqb c 60 then u "&lt;" else if N.eqb c 62 then u "&gt;" else [c].
Definition escA (c : N) : str :=
  if N.eqb c 38 then u "&amp;" else if N.eqb c 60 then u "&lt;" else if N.eqb c 62 then u "&gt;"
  else if N.eqb c 34 then u "&quot;" else if N.eqb c 10 then u "&#10;" else [c].
Lemma replace_flat c r (f : N -> str) s : replaceChar c r (flat_map f s) = flat_map (fun x => replaceChar c r (f x)) s.
Proof. unfold replaceChar. induction s as [|x s IH]; cbn [flat_map]; [reflexivity|]. rewrite flat_map_app, IH. reflexivity. Qed.
Lemma flat_ext {A B} (f g : A -> list B) s : (forall x, f x = g x) -> flat_map f s = flat_map g s.
Proof. intro H. induction s; cbn; [reflexivity|]. now rewrite H, IHs. Qed.
Lemma flat_self s : flat_map (fun c : N => [c]) s = s.
Proof. induction s; cbn; [reflexivity|]. now rewrite IHs. Qed.
Lemma escapeCdata_eq x s : toUnicode x = Ok s -> escapeCdata x = Ok (flat_map escC s).
Proof.
  intro E. unfold escapeCdata. rewrite E. cbn [bind]. f_equal. rewrite <- (flat_self s) at 1. rewrite !replace_flat. apply flat_ext. intro c.
  unfold escC. unfold replaceChar. cbn [flat_map]. rewrite !app_nil_r.
  destruct (N.eqb_spec c 38) as [->|]; [reflexivity|]. cbn [flat_map]. rewrite !app_nil_r.
  destruct (N.eqb_spec c 60) as [->|]; [reflexivity|]. cbn [flat_map]. rewrite !app_nil_r.
  destruct (N.eqb_spec c 62) as [->|]; reflexivity.
Qed.
Lemma escapeAttrib_eq x s : toUnicode x = Ok s -> escapeAttrib x = Ok (flat_map escA s).
Proof.
  intro E. unfold escapeAttrib. rewrite E. cbn [bind]. f_equal. rewrite <- (flat_self s) at 1. rewrite !replace_flat. apply flat_ext. intro c.
  unfold escA. unfold replaceChar. cbn [flat_map]. rewrite !app_nil_r.
  destruct (N.eqb_spec c 38) as [->|]; [reflexivity|]. cbn [flat_map]. rewrite !app_nil_r.
  destruct (N.eqb_spec c 60) as [->|]; [reflexivity|]. cbn [flat_map]. rewrite !app_nil_r.
  destruct (N.eqb_spec c 62) as [->|]; [reflexivity|]. cbn [flat_map]. rewrite !app_nil_r.
  destruct (N.eqb_spec c 34) as [->|]; [reflexivity|]. cbn [flat_map]. rewrite !app_nil_r.
  destruct (N.eqb_spec c 10) as [->|]; reflexivity.
Qed.
Lemma escC_not c : ~ In 60%N (escC c) /\ ~ In 62%N (escC c).
Proof.
  unfold escC. destruct (N.eqb_spec c 38); [|destruct (N.eqb_spec c 60); [|destruct (N.eqb_spec c 62)]];
    try (split; apply mem_nIn; vm_compute; reflexivity).
  split; intros [->|[]]; contradiction.
Qed.
Lemma escA_not c : ~ In 60%N (escA c) /\ ~ In 34%N (escA c).
Proof.
  unfold escA. destruct (N.eqb_spec c 38); [|destruct (N.eqb_spec c 60); [|destruct (N.eqb_spec c 62); [|destruct (N.eqb_spec c 34); [|destruct (N.eqb_spec c 10)]]]];
    try (split; apply mem_nIn; vm_compute; reflexivity).
  split; intros [->|[]]; contradiction.
Qed.
Lemma flat_not (f : N -> str) (x : N) s : (forall c, ~ In x (f c)) -> ~ In x (flat_map f s).
Proof. intros H I. apply in_flat_map in I as (c & _ & I). exact (H c I). Qed.
Lemma unescape_ent norm e r : ~ In 59%N e -> unescape norm (38%N :: e ++ 59%N :: r) None = match entity e with Some x => option_map (cons x) (unescape norm r None) | None => None end.
Proof.
  intro N. change (unescape norm (38%N :: e ++ 59%N :: r) None) with (unescape norm (e ++ 59%N :: r) (Some [])).
  assert (G : forall l acc, ~ In 59%N l -> unescape norm (l ++ 59%N :: r) (Some acc) =
     match entity (rev acc ++ l) with Some x => option_map (cons x) (unescape norm r None) | None => None end).
  { induction l as [|c l IH]; intros acc Nl; cbn [app].
    - cbn [unescape]. rewrite app_nil_r. reflexivity.
    - cbn [unescape]. destruct (N.eqb_spec c 59) as [->|]; [exfalso; apply Nl; left; reflexivity|].
      rewrite IH by (intro; apply Nl; right; assumption). cbn [rev]. rewrite <- app_assoc. reflexivity. }
  apply (G e []). exact N.
Qed.
Lemma unescape_C norm c r : unescape norm (escC c ++ r) None = option_map (cons (if N.eqb c 60 || N.eqb c 62 || N.eqb c 38 then c else norm c)) (unescape norm r None).
Proof.
  unfold escC. destruct (N.eqb_spec c 38) as [->|N1]; [reflexivity|]. destruct (N.eqb_spec c 60) as [->|N2]; [reflexivity|].
  destruct (N.eqb_spec c 62) as [->|N3]; [reflexivity|]. cbn [app unescape orb]. destruct (N.eqb_spec c 38); [congruence|reflexivity].
Qed.
Lemma unescape_cdata s : unescape (fun c => c) (flat_map escC s) None = Some s.
Proof. induction s as [|c s IH]; [reflexivity|]. cbn [flat_map]. rewrite unescape_C, IH. cbn. destruct (_ || _); reflexivity. Qed.
Lemma unescape_A c r : unescape normAttr (escA c ++ r) None = option_map (cons (if N.eqb c 10 then c else normAttr c)) (unescape normAttr r None).
Proof.
  unfold escA. destruct (N.eqb_spec c 38) as [->|N1]; [reflexivity|]. destruct (N.eqb_spec c 60) as [->|N2]; [reflexivity|].
  destruct (N.eqb_spec c 62) as [->|N3]; [reflexivity|]. destruct (N.eqb_spec c 34) as [->|]; [reflexivity|]. destruct (N.eqb_spec c 10) as [->|]; [reflexivity|].
  cbn [app unescape]. destruct (N.eqb_spec c 38); [congruence|reflexivity].
Qed.
Lemma unescape_attrib s : unescape normAttr (flat_map escA s) None = Some (map (fun c => if N.eqb c 10 then c else normAttr c) s).
Proof. induction s as [|c s IH]; [reflexivity|]. cbn [flat_map map]. rewrite unescape_A, IH. reflexivity. Qed.
Lemma attrib_same s : ~ In 9%N s -> ~ In 13%N s -> map (fun c => if N.eqb c 10 then c else normAttr c) s = s.
Proof.
  intros A B. induction s as [|c s IH]; [reflexivity|]. cbn [map]. rewrite IH by (intro; first [apply A; right; assumption|apply B; right; assumption]). f_equal.
  destruct (N.eqb_spec c 10); [reflexivity|]. unfold normAttr, xmlSpace. destruct (mem_spec c [9; 10; 13; 32]%N) as [I|]; [|reflexivity].
  destruct I as [<-|[<-|[<-|[<-|[]]]]]; [exfalso; apply A; left; reflexivity|congruence|exfalso; apply B; left; reflexivity|reflexivity].
Qed.
Lemma cdEnd_none s : ~ In 62%N s -> hasCdEnd s = false.
Proof.
  induction s as [|c s IH]; intro N; [reflexivity|]. cbn [hasCdEnd]. rewrite IH by (intro; apply N; right; assumption). rewrite orb_false_r.
  destruct (startswith_spec (u "]]>") (c :: s)) as [(t & E)|]; [|reflexivity]. exfalso. apply N. rewrite E. apply in_or_app. left. apply mem_In. reflexivity.
Qed.

(** * The lexer on the output of the serializer *)
Definition textToks (x : option etext) : list tok :=
  match x with None | Some (XS []) | Some (XB []) => [] | Some (XS s) | Some (XB s) => [TText s] end.
Fixpoint toks (e : elem) : list tok :=
  let 'Elem tag at' text ch _ := e in
  TOpen tag at' :: textToks text ++ (fix go l := match l with [] => [] | k :: r => toks k ++ textToks (option_map XS (etail k)) ++ go r end) ch ++ [TClose tag].
Fixpoint kidToks (l : list elem) : list tok := match l with [] => [] | k :: r => toks k ++ textToks (option_map XS (etail k)) ++ kidToks r end.
Lemma toks_eq tag at' text ch tail : toks (Elem tag at' text ch tail) = TOpen tag at' :: textToks text ++ kidToks ch ++ [TClose tag].
Proof. cbn [toks]. do 3 f_equal. Qed.

Lemma lex_text s acc rest : ~ In 60%N s -> lex (MText acc) (s ++ rest) = lex (MText (rev s ++ acc)) rest.
Proof.
  revert acc. induction s as [|c s IH]; intros acc N; [reflexivity|]. cbn [app lex]. destruct (N.eqb_spec c 60) as [->|]; [exfalso; apply N; left; reflexivity|].
  rewrite IH by (intro; apply N; right; assumption). cbn [rev]. rewrite <- app_assoc. reflexivity.
Qed.
Lemma lex_name acc s rest : forallb nameChar s = true -> lex (MName acc) (s ++ rest) = lex (MName (rev s ++ acc)) rest.
Proof.
  revert acc. induction s as [|c s IH]; intros acc N; [reflexivity|]. cbn [forallb] in N. apply andb_true_iff in N as [N1 N2]. cbn [app lex]. rewrite N1.
  rewrite IH by exact N2. cbn [rev]. rewrite <- app_assoc. reflexivity.
Qed.
Lemma lex_attr tag at' acc s rest : forallb nameChar s = true -> lex (MAttr tag at' acc) (s ++ rest) = lex (MAttr tag at' (rev s ++ acc)) rest.
Proof.
  revert acc. induction s as [|c s IH]; intros acc N; [reflexivity|]. cbn [forallb] in N. apply andb_true_iff in N as [N1 N2]. cbn [app lex]. rewrite N1.
  rewrite IH by exact N2. cbn [rev]. rewrite <- app_assoc. reflexivity.
Qed.
Lemma lex_close a acc s rest : forallb nameChar s = true -> lex (MClose (a :: acc)) (s ++ rest) = lex (MClose (rev s ++ a :: acc)) rest.
Proof.
  revert a acc. induction s as [|c s IH]; intros a acc N; [reflexivity|]. cbn [forallb] in N. apply andb_true_iff in N as [N1 N2]. cbn [app lex]. rewrite N1.
  rewrite IH by exact N2. cbn [rev]. rewrite <- app_assoc. reflexivity.
Qed.
Lemma lex_val tag at' name acc s rest : ~ In 60%N s -> ~ In 34%N s ->
  lex (MVal tag at' name 34 acc) (s ++ rest) = lex (MVal tag at' name 34 (rev s ++ acc)) rest.
Proof.
  revert acc. induction s as [|c s IH]; intros acc N M; [reflexivity|]. cbn [app lex].
  destruct (N.eqb_spec c 34) as [->|]; [exfalso; apply M; left; reflexivity|]. destruct (N.eqb_spec c 60) as [->|]; [exfalso; apply N; left; reflexivity|].
  rewrite IH by (intro; first [apply N; right; assumption|apply M; right; assumption]). cbn [rev]. rewrite <- app_assoc. reflexivity.
Qed.
Lemma emit_app a b r : emit (a ++ b) r = emit a (emit b r).
Proof. destruct r; [|reflexivity]. cbn. now rewrite <- app_assoc. Qed.
Lemma emit_nil r : emit [] r = r.
Proof. destruct r; reflexivity. Qed.

(** names of elements and attributes; attribute names differ *)
Definition attrName (s : str) : Prop := isName s = true /\ s <> u "xmlns".
Definition attrsNamed (l : list (str * str)) : Prop := NoDup (map fst l) /\ Forall (fun kv => attrName (fst kv)) l.
(** values that an XML parser does not change *)
Definition plainVal (s : str) : Prop := ~ In 9%N s /\ ~ In 13%N s.

Lemma isName_cons s : isName s = true -> exists c r, s = c :: r /\ nameStart c = true /\ forallb nameChar r = true.
Proof. destruct s as [|c r]; [discriminate|]. cbn [isName]. intro H. apply andb_true_iff in H as [A B]. eauto. Qed.
Lemma lex_attrs tag l : forall at' s rest, NoDup (map fst (at' ++ l)) -> Forall (fun kv => attrName (fst kv)) l -> Forall (fun kv => plainVal (snd kv)) l ->
  serializeAttribs l = Ok s ->
  forall m, (m = MEnd tag at' \/ exists acc, m = MName acc /\ rev acc = tag /\ at' = []) ->
  lex m (s ++ rest) = match l with [] => lex m rest | _ => lex (MEnd tag (at' ++ l)) rest end.
Proof.
  induction l as [|[k v] l IH]; intros at' s rest ND FN FP E m Hm.
  - cbn in E. apply Ok_inj in E; subst. reflexivity.
  - cbn [serializeAttribs] in E. apply bind_Ok in E as (k' & Ek & E). apply bind_Ok in E as (v' & Ev & E). apply bind_Ok in E as (t & Et & E). apply Ok_inj in E; subst s.
    assert (k' = k). { unfold toUnicode in Ek. cbn [bind] in Ek. destruct (existsb _ k); inversion Ek; reflexivity. } subst k'.
    inversion FN as [|? ? [N1 N2] FN']; subst. inversion FP as [|? ? [P1 P2] FP']; subst. cbn [fst snd] in *.
    assert (EV : v' = flat_map escA v).
    { unfold escapeAttrib in Ev. apply bind_Ok in Ev as (w & Ew & Ev). assert (w = v). { unfold toUnicode in Ew. cbn [bind] in Ew. destruct (existsb _ v); inversion Ew; reflexivity. } subst w.
      pose proof (escapeAttrib_eq (XS v) v Ew) as X. unfold escapeAttrib in X. rewrite Ew in X. cbn [bind] in X. inversion Ev; inversion X; congruence. }
    subst v'. destruct (isName_cons k N1) as (c & r & -> & C & Rn).
    assert (S1 : forall X, lex m (u " " ++ X) = lex (MTag tag at') X).
    { intro X. change (u " " ++ X) with (32%N :: X). destruct Hm as [->|(acc & -> & <- & ->)]; reflexivity. }
    rewrite <- !app_assoc. rewrite S1. cbn [app].
    assert (S2 : forall X, lex (MTag tag at') (c :: X) = lex (MAttr tag at' [c]) X).
    { intro X. cbn [lex]. assert (Q : xmlSpace c = false /\ N.eqb c 62 = false /\ N.eqb c 47 = false).
      { unfold xmlSpace. destruct (mem_spec c [9; 10; 13; 32]%N) as [I|].
        - destruct I as [<-|[<-|[<-|[<-|[]]]]]; discriminate C.
        - split; [reflexivity|]. destruct (N.eqb_spec c 62) as [->|]; [discriminate C|]. destruct (N.eqb_spec c 47) as [->|]; [discriminate C|]. split; reflexivity. }
      destruct Q as (-> & -> & ->). rewrite C. reflexivity. }
    rewrite S2, lex_attr by exact Rn.
    change (u "=""" ++ flat_map escA v ++ u """" ++ t ++ rest) with (61%N :: 34%N :: flat_map escA v ++ 34%N :: t ++ rest).
    assert (S3 : forall acc X, lex (MAttr tag at' acc) (61%N :: 34%N :: X) = lex (MVal tag at' (rev acc) 34 []) X) by reflexivity.
    rewrite S3, lex_val by (apply flat_not; intro; apply escA_not). rewrite rev_app_distr, rev_involutive. cbn [rev app].
    change (lex (MVal tag at' (c :: r) 34 ?acc) (34%N :: ?X)) with
      (match unescape normAttr (rev acc) None with
       | Some v => if mem (c :: r) (map fst at') || eqb (c :: r) (u "xmlns") then None else lex (MEnd tag (at' ++ [(c :: r, v)])) X | None => None end).
    rewrite app_nil_r, rev_involutive, unescape_attrib, attrib_same by assumption.
    assert (Nm : mem (c :: r) (map fst at') = false).
    { apply mem_nIn. intro I. rewrite map_app in ND. cbn [map fst] in ND. apply NoDup_remove_2 in ND. apply ND. apply in_or_app. left. exact I. }
    rewrite Nm. destruct (eqb_spec (c :: r) (u "xmlns")) as [e|_]; [contradiction|]. cbn [orb].
    rewrite (IH (at' ++ [(c :: r, v)]) t rest); [|rewrite <- app_assoc; exact ND|exact FN'|exact FP'|exact Et|left; reflexivity].
    rewrite <- app_assoc. cbn [app]. destruct l; reflexivity.
Qed.

(** trees whose names are XML names and whose texts and attribute values contain
    no carriage return, no tabulator in attribute values *)
Definition noCR (x : option etext) : Prop := match x with Some (XS s) | Some (XB s) => ~ In 13%N s | None => True end.
Inductive plainTree : elem -> Prop :=
| plainTree_intro tag at' text ch tail : isName tag = true -> attrsNamed at' -> Forall (fun kv => plainVal (snd kv)) at' ->
    noCR text -> noCR (option_map XS tail) -> Forall plainTree ch -> plainTree (Elem tag at' text ch tail).

Fixpoint serKids (l : list elem) : res str := match l with [] => Ok [] | k :: r => do s <- serialize k; do t <- serKids r; Ok (s ++ t) end.
Definition serBody (tag : str) (text : option etext) (ch : list elem) : res str :=
  if match text with Some _ => true | None => false end || negb (Nat.eqb (length ch) 0) then
    do x <- serializeText text; do c <- serKids ch; Ok (u ">" ++ x ++ c ++ u "</" ++ tag ++ u ">")
  else Ok (u "/>").
Lemma serialize_eq tag at' text ch tail : serialize (Elem tag at' text ch tail) =
  (do t <- toUnicode (XS tag); do a <- serializeAttribs at'; do body <- serBody t text ch; do tl <- serializeText (option_map XS tail); Ok (u "<" ++ t ++ a ++ body ++ tl)).
Proof.
  cbn [serialize]. unfold serBody. destruct (toUnicode (XS tag)) as [t|]; [|reflexivity]. cbn [bind]. destruct (serializeAttribs at') as [a|]; [|reflexivity]. cbn [bind].
  replace ((fix go l := match l with [] => Ok [] | k :: r => do s <- serialize k; do t0 <- go r; Ok (s ++ t0) end) ch) with (serKids ch); [reflexivity|].
  clear. induction ch as [|k r IH]; [reflexivity|]. cbn [serKids]. rewrite IH. reflexivity.
Qed.
Definition serHead (e : elem) : res str := serialize (setTail None e).
Lemma toUnicode_S s t : toUnicode (XS s) = Ok t -> t = s.
Proof. unfold toUnicode. cbn [bind]. destruct (existsb _ s); intro H; inversion H; reflexivity. Qed.
Lemma serialize_split e s : serialize e = Ok s -> exists a b, s = a ++ b /\ serHead e = Ok a /\ serializeText (option_map XS (etail e)) = Ok b /\ exists a', a = 60%N :: etag e ++ a'.
Proof.
  destruct e as [tag at' text ch tail]. unfold serHead. cbn [setTail]. rewrite !serialize_eq. intro E.
  apply bind_Ok in E as (t & Et & E). apply bind_Ok in E as (a & Ea & E). apply bind_Ok in E as (b & Eb & E). apply bind_Ok in E as (tl & Etl & E). apply Ok_inj in E; subst.
  exists (u "<" ++ t ++ a ++ b), tl. rewrite Et. cbn [bind]. rewrite Ea. cbn [bind]. rewrite Eb. cbn [bind option_map serializeText textTruthy etail]. rewrite app_nil_r. split; [rewrite <- !app_assoc; reflexivity|]. split; [reflexivity|]. split; [exact Etl|]. apply toUnicode_S in Et. subst t. eexists. reflexivity.
Qed.
Lemma serializeText_eq x s : serializeText x = Ok s ->
  exists y, s = flat_map escC y /\ textToks x = match y with [] => [] | _ => [TText y] end /\ (textTruthy x = true -> exists x0, x = Some x0 /\ toUnicode x0 = Ok y).
Proof.
  unfold serializeText. destruct x as [[s0|s0]|]; cbn [textTruthy].
  - destruct s0 as [|c s0]; [intro E; inversion E; exists []; repeat split; discriminate|]. intro E. unfold escapeCdata in E. apply bind_Ok in E as (w & Ew & E).
    pose proof (escapeCdata_eq _ _ Ew) as X. unfold escapeCdata in X. rewrite Ew in X. cbn [bind] in X. pose proof (toUnicode_S _ _ Ew). subst w.
    exists (c :: s0). split; [inversion E; inversion X; congruence|]. split; [reflexivity|]. eauto.
  - destruct s0 as [|c s0]; [intro E; inversion E; exists []; repeat split; discriminate|]. intro E. unfold escapeCdata in E. apply bind_Ok in E as (w & Ew & E).
    pose proof (escapeCdata_eq _ _ Ew) as X. unfold escapeCdata in X. rewrite Ew in X. cbn [bind] in X.
    assert (w = c :: s0). { unfold toUnicode in Ew. destruct (forallb _ _) in Ew; [|discriminate]. cbn [bind] in Ew. destruct (existsb _ _) in Ew; inversion Ew; reflexivity. } subst w.
    exists (c :: s0). split; [inversion E; inversion X; congruence|]. split; [reflexivity|]. eauto.
  - intro E; inversion E; exists []; repeat split; discriminate.
Qed.
Lemma lex_textToks x s rest : serializeText x = Ok s -> (rest = [] \/ exists r, rest = 60%N :: r) ->
  lex (MText []) (s ++ rest) = emit (textToks x) (lex (MText []) rest).
Proof.
  intros E R. destruct (serializeText_eq x s E) as (y & -> & -> & _). rewrite lex_text by (apply flat_not; intro; apply escC_not). rewrite app_nil_r.
  assert (F : flush (rev (flat_map escC y)) = Some (match y with [] => [] | _ => [TText y] end)).
  { unfold flush. rewrite rev_involutive. destruct y as [|c y]; [reflexivity|]. rewrite cdEnd_none by (apply flat_not; intro; apply escC_not). rewrite unescape_cdata.
    destruct (rev (flat_map escC (c :: y))) eqn:Er; [|reflexivity]. exfalso. apply (f_equal (@rev N)) in Er. rewrite rev_involutive in Er. cbn [flat_map rev] in Er.
    unfold escC in Er at 1. destruct (N.eqb c 38), (N.eqb c 60), (N.eqb c 62); discriminate Er. }
  destruct R as [->|(r & ->)]; cbn [lex].
  - rewrite F. cbn [flush emit option_map]. rewrite app_nil_r. reflexivity.
  - change (N.eqb 60 60) with true. cbv iota. rewrite F. cbn [flush]. rewrite emit_nil. reflexivity.
Qed.
Lemma startOk_kids l s rest : serKids l = Ok s -> (exists r, rest = 60%N :: r) -> exists r, s ++ rest = 60%N :: r.
Proof.
  destruct l as [|k l]; cbn [serKids]; intros E R.
  - apply Ok_inj in E; subst. exact R.
  - apply bind_Ok in E as (a & Ea & E). apply bind_Ok in E as (b & Eb & E). apply Ok_inj in E; subst. destruct (serialize_split k a Ea) as (x & y & -> & _ & _ & (x' & ->)). eexists. reflexivity.
Qed.
Lemma lex_elem e : plainTree e -> forall s rest, serHead e = Ok s -> lex (MText []) (s ++ rest) = emit (toks e) (lex (MText []) rest).
Proof.
  induction e as [tag at' text ch tail IH] using elem_ind'. intros P s rest E. inversion P as [? ? ? ? ? N [ND AN] PV C1 C2 PK]; subst. clear C1 C2.
  unfold serHead in E. cbn [setTail] in E. rewrite serialize_eq in E. apply bind_Ok in E as (t & Et & E). pose proof (toUnicode_S _ _ Et). subst t.
  apply bind_Ok in E as (a & Ea & E). apply bind_Ok in E as (body & Eb & E). cbn [option_map serializeText textTruthy bind] in E. rewrite app_nil_r in E. apply Ok_inj in E; subst s.
  destruct (isName_cons tag N) as (c & r & Et' & Nc & Nr).
  assert (K : forall l, Forall (fun e => plainTree e -> forall s rest, serHead e = Ok s -> lex (MText []) (s ++ rest) = emit (toks e) (lex (MText []) rest)) l -> Forall plainTree l ->
    forall s rest, serKids l = Ok s -> (exists r, rest = 60%N :: r) -> lex (MText []) (s ++ rest) = emit (kidToks l) (lex (MText []) rest)).
  { clear. induction l as [|k l IHl]; intros H PK s rest E R; cbn [serKids kidToks] in *.
    - apply Ok_inj in E; subst. rewrite emit_nil. reflexivity.
    - inversion H as [|? ? Hk Hl]; subst. inversion PK as [|? ? Pk Pl]; subst. apply bind_Ok in E as (x & Ex & E). apply bind_Ok in E as (y & Ey & E). apply Ok_inj in E; subst.
      destruct (serialize_split k x Ex) as (x1 & x2 & -> & E1 & E2 & _). rewrite <- !app_assoc. rewrite (Hk Pk x1 _ E1).
      rewrite (lex_textToks _ x2 (y ++ rest) E2) by (right; eapply startOk_kids; eassumption). rewrite (IHl Hl Pl y rest Ey R). rewrite <- !emit_app. f_equal. rewrite <- app_assoc. reflexivity. }
  assert (S0 : forall X, lex (MText []) (u "<" ++ tag ++ X) = lex (MName (rev tag)) X).
  { intro X. rewrite Et'. change (u "<" ++ (c :: r) ++ X) with (60%N :: c :: r ++ X).
    change (lex (MText []) (60%N :: c :: r ++ X)) with (emit [] (if N.eqb c 47 then lex (MClose []) (r ++ X) else if nameStart c then lex (MName [c]) (r ++ X) else if N.eqb c 33 then lex (MBang []) (r ++ X) else if N.eqb c 63 then lex (MPi []) (r ++ X) else None)).
    destruct (N.eqb_spec c 47) as [->|]; [discriminate Nc|]. rewrite Nc, emit_nil, lex_name by exact Nr. cbn [rev]. reflexivity. }
  assert (S1 : forall X, (exists d Y, X = d :: Y /\ (d = 62%N \/ d = 47%N)) -> lex (MName (rev tag)) (a ++ X) = lex (MEnd tag at') X).
  { intros X (d & Y & -> & Hd). rewrite (lex_attrs tag at' [] a (d :: Y) ND AN PV Ea (MName (rev tag))) by (right; exists (rev tag); rewrite rev_involutive; auto).
    destruct at' as [|kv at']; [|reflexivity]. cbn [lex]. rewrite rev_involutive. destruct Hd as [->| ->]; reflexivity. }
  rewrite <- !app_assoc, S0. rewrite toks_eq. unfold serBody in Eb. destruct (_ || _) eqn:Hb.
  - apply bind_Ok in Eb as (x & Ex & Eb). apply bind_Ok in Eb as (y & Ey & Eb). apply Ok_inj in Eb; subst body. rewrite S1 by (eexists; eexists; split; [reflexivity|left; reflexivity]).
    rewrite <- !app_assoc. change (u ">" ++ ?X) with (62%N :: X). change (lex (MEnd tag at') (62%N :: ?X)) with (emit [TOpen tag at'] (lex (MText []) X)).
    rewrite (emit_app [TOpen tag at'] (textToks text ++ kidToks ch ++ [TClose tag])), !emit_app. f_equal.
    rewrite (lex_textToks text x); [|exact Ex|right; eapply startOk_kids; [exact Ey|eexists; reflexivity]]. f_equal.
    rewrite (K ch IH PK y _ Ey) by (eexists; reflexivity). f_equal. rewrite Et'.
    change (u "</" ++ (c :: r) ++ u ">" ++ rest) with (60%N :: 47%N :: c :: r ++ 62%N :: rest).
    change (lex (MText []) (60%N :: 47%N :: c :: r ++ 62%N :: rest)) with (emit [] (if nameStart c then lex (MClose [c]) (r ++ 62%N :: rest) else None)).
    rewrite Nc, emit_nil, lex_close by exact Nr.
    assert (Q : forall acc, acc <> [] -> lex (MClose acc) (62%N :: rest) = emit [TClose (rev acc)] (lex (MText []) rest)) by (intros [|? ?] Hne; [congruence|reflexivity]).
    rewrite Q by (destruct (rev r); discriminate). rewrite rev_app_distr, rev_involutive. reflexivity.
  - apply Ok_inj in Eb; subst body. apply orb_false_iff in Hb as [Hx Hc]. destruct text; [discriminate|]. destruct ch; [|discriminate]. rewrite S1 by (eexists; eexists; split; [reflexivity|right; reflexivity]). reflexivity.
Qed.

(** * The tree builder *)
Definition normText (x : option etext) : option etext :=
  match x with None | Some (XS []) | Some (XB []) => None | Some (XS s) | Some (XB s) => Some (XS s) end.
Definition normTail (x : option str) : option str := match x with Some (c :: s) => Some (c :: s) | _ => None end.
(** what is not written can not be read: empty texts and the difference between
    texts of strings and of bytes *)
Fixpoint norm (e : elem) : elem := let 'Elem tag at' text ch tail := e in Elem tag at' (normText text) (map norm ch) (normTail tail).
Definition textOpt (x : option etext) : option str := match normText x with Some (XS s) => Some s | _ => None end.
Lemma textOpt_eq x : option_map XS (textOpt x) = normText x.
Proof. unfold textOpt. destruct x as [[[|]|[|]]|]; reflexivity. Qed.
Lemma build_elem e : forall rest p st done, build (toks e ++ rest) (p :: st) done = build rest (mkOpen (otag p) (oattrib p) (otext p) (setTail None (norm e) :: orev p) :: st) done.
Proof.
  induction e as [tag at' text ch tail IH] using elem_ind'. intros rest p st done. rewrite toks_eq. cbn [app].
  change (build (TOpen tag at' :: ?l) (p :: st) done) with (build l (mkOpen tag at' None [] :: p :: st) done). rewrite <- !app_assoc.
  assert (A : forall X, build (textToks text ++ X) (mkOpen tag at' None [] :: p :: st) done = build X (mkOpen tag at' (textOpt text) [] :: p :: st) done).
  { intro X. destruct text as [[[|]|[|]]|]; reflexivity. }
  rewrite A.
  assert (K : forall l acc, Forall (fun e => forall rest p st done, build (toks e ++ rest) (p :: st) done = build rest (mkOpen (otag p) (oattrib p) (otext p) (setTail None (norm e) :: orev p) :: st) done) l ->
    forall X, build (kidToks l ++ X) (mkOpen tag at' (textOpt text) acc :: p :: st) done = build X (mkOpen tag at' (textOpt text) (rev (map norm l) ++ acc) :: p :: st) done).
  { clear. induction l as [|k l IHl]; intros acc H X; [reflexivity|]. inversion H as [|? ? Hk Hl]; subst. cbn [kidToks]. rewrite <- !app_assoc, Hk. cbn [otag oattrib otext orev].
    assert (B : forall Y, build (textToks (option_map XS (etail k)) ++ Y) (mkOpen tag at' (textOpt text) (setTail None (norm k) :: acc) :: p :: st) done =
                          build Y (mkOpen tag at' (textOpt text) (norm k :: acc) :: p :: st) done).
    { intro Y. destruct k as [? ? ? ? [[|]|]]; reflexivity. }
    rewrite B, (IHl _ Hl). cbn [map rev]. rewrite <- app_assoc. reflexivity. }
  rewrite (K ch [] IH). rewrite app_nil_r. cbn [app]. 
  change (build (TClose tag :: rest) (mkOpen tag at' (textOpt text) (rev (map norm ch)) :: p :: st) done) with
    (if eqb tag tag then build rest (mkOpen (otag p) (oattrib p) (otext p) (Elem tag at' (option_map XS (textOpt text)) (rev (rev (map norm ch))) None :: orev p) :: st) done else None).
  rewrite eqb_refl, textOpt_eq, rev_involutive. reflexivity.
Qed.
Lemma build_root e rest : build (toks e ++ rest) [] None = build rest [] (Some (setTail None (norm e))).
Proof.
  destruct e as [tag at' text ch tail]. rewrite toks_eq. cbn [app].
  change (build (TOpen tag at' :: ?l) [] None) with (build l [mkOpen tag at' None []] None). rewrite <- !app_assoc.
  assert (A : forall X, build (textToks text ++ X) [mkOpen tag at' None []] None = build X [mkOpen tag at' (textOpt text) []] None).
  { intro X. destruct text as [[[|]|[|]]|]; reflexivity. }
  rewrite A.
  assert (K : forall l acc X, build (kidToks l ++ X) [mkOpen tag at' (textOpt text) acc] None = build X [mkOpen tag at' (textOpt text) (rev (map norm l) ++ acc)] None).
  { clear. induction l as [|k l IHl]; intros acc X; [reflexivity|]. cbn [kidToks]. rewrite <- !app_assoc, build_elem. cbn [otag oattrib otext orev].
    assert (B : forall Y, build (textToks (option_map XS (etail k)) ++ Y) [mkOpen tag at' (textOpt text) (setTail None (norm k) :: acc)] None =
                          build Y [mkOpen tag at' (textOpt text) (norm k :: acc)] None).
    { intro Y. destruct k as [? ? ? ? [[|]|]]; reflexivity. }
    rewrite B, IHl. cbn [map rev]. rewrite <- app_assoc. reflexivity. }
  rewrite K, app_nil_r. cbn [app].
  change (build (TClose tag :: rest) [mkOpen tag at' (textOpt text) (rev (map norm ch))] None) with
    (if eqb tag tag then build rest [] (Some (Elem tag at' (option_map XS (textOpt text)) (rev (rev (map norm ch))) None)) else None).
  rewrite eqb_refl, textOpt_eq, rev_involutive. reflexivity.
Qed.

(** * Whole documents *)
Definition markup : str := u "<>&;#=/"" ampltgquo10".
Inductive allChars (Q : N -> Prop) : elem -> Prop :=
| allChars_intro tag at' text ch tail : Forall Q tag -> Forall (fun kv => Forall Q (fst kv) /\ Forall Q (snd kv)) at' ->
    (match text with Some (XS s) | Some (XB s) => Forall Q s | None => True end) -> (match tail with Some s => Forall Q s | None => True end) ->
    Forall (allChars Q) ch -> allChars Q (Elem tag at' text ch tail).
Lemma flat_Forall (Q : N -> Prop) (f : N -> str) s : (forall c, Q c -> Forall Q (f c)) -> Forall Q s -> Forall Q (flat_map f s).
Proof. intros H F. induction F as [|c s Hc F IH]; cbn [flat_map]; [constructor|]. apply Forall_app. split; [apply H; exact Hc|exact IH]. Qed.
Lemma markup_Q (Q : N -> Prop) s : Forall Q markup -> forallb (fun c => mem c markup) s = true -> Forall Q s.
Proof.
  intros F H. rewrite Forall_forall in F. rewrite Forall_forall. rewrite forallb_forall in H. intros c I. apply F. apply mem_In. apply H. exact I.
Qed.
Lemma escC_Q (Q : N -> Prop) c : Forall Q markup -> Q c -> Forall Q (escC c).
Proof. intros F H. unfold escC. destruct (N.eqb c 38), (N.eqb c 60), (N.eqb c 62); try (apply (markup_Q Q _ F); reflexivity). constructor; [exact H|constructor]. Qed.
Lemma escA_Q (Q : N -> Prop) c : Forall Q markup -> Q c -> Forall Q (escA c).
Proof. intros F H. unfold escA. destruct (N.eqb c 38), (N.eqb c 60), (N.eqb c 62), (N.eqb c 34), (N.eqb c 10); try (apply (markup_Q Q _ F); reflexivity). constructor; [exact H|constructor]. Qed.
Lemma attribs_Q (Q : N -> Prop) l s : Forall Q markup -> Forall (fun kv => Forall Q (fst kv) /\ Forall Q (snd kv)) l -> serializeAttribs l = Ok s -> Forall Q s.
Proof.
  intros F H. revert s. induction H as [|[k v] l [Hk Hv] H IH]; intros s E; cbn [serializeAttribs fst snd] in *; [inversion E; constructor|].
  apply bind_Ok in E as (k' & Ek & E). apply bind_Ok in E as (v' & Ev & E). apply bind_Ok in E as (t & Et & E). apply Ok_inj in E; subst. apply toUnicode_S in Ek. subst k'.
  unfold escapeAttrib in Ev. apply bind_Ok in Ev as (w & Ew & Ev). pose proof (escapeAttrib_eq _ _ Ew) as X. unfold escapeAttrib in X. rewrite Ew in X. cbn [bind] in X.
  apply toUnicode_S in Ew. subst w. assert (v' = flat_map escA v) by (inversion Ev; inversion X; congruence). subst v'.
  repeat (apply Forall_app; split); try (apply (markup_Q Q _ F); reflexivity); [exact Hk| |apply IH; exact Et]. apply flat_Forall; [intros; apply escA_Q; assumption|exact Hv].
Qed.
Lemma serializeText_Q (Q : N -> Prop) x s : Forall Q markup -> (match x with Some (XS s) | Some (XB s) => Forall Q s | None => True end) -> serializeText x = Ok s -> Forall Q s.
Proof.
  intros F H E. destruct (serializeText_eq x s E) as (y & -> & Ht & _). apply flat_Forall; [intros; apply escC_Q; assumption|].
  destruct x as [[s0|s0]|]; cbn in Ht; destruct y as [|c y]; try constructor; try (destruct s0; inversion Ht; subst; inversion H; assumption); discriminate.
Qed.
Lemma serialize_Q (Q : N -> Prop) : Forall Q markup -> forall e, allChars Q e -> forall s, serialize e = Ok s -> Forall Q s.
Proof.
  intros F. induction e as [tag at' text ch tail IH] using elem_ind'. intros A s E. inversion A as [? ? ? ? ? A1 A2 A3 A4 A5]; subst. rewrite serialize_eq in E.
  apply bind_Ok in E as (t & Et & E). apply toUnicode_S in Et. subst t. apply bind_Ok in E as (a & Ea & E). apply bind_Ok in E as (body & Eb & E). apply bind_Ok in E as (tl & Etl & E). apply Ok_inj in E; subst s.
  apply Forall_app. split; [apply (markup_Q Q _ F); reflexivity|]. apply Forall_app. split; [exact A1|]. apply Forall_app. split; [eapply attribs_Q; eassumption|]. apply Forall_app. split.
  - unfold serBody in Eb. destruct (_ || _); [|inversion Eb; subst; apply (markup_Q Q _ F); reflexivity].
    apply bind_Ok in Eb as (x & Ex & Eb). apply bind_Ok in Eb as (y & Ey & Eb). apply Ok_inj in Eb; subst.
    apply Forall_app. split; [apply (markup_Q Q _ F); reflexivity|]. apply Forall_app. split; [eapply serializeText_Q; eassumption|]. apply Forall_app. split.
    + clear - IH A5 Ey. revert y Ey. induction ch as [|k ch IHc]; intros y Ey; cbn [serKids] in Ey; [inversion Ey; constructor|].
      apply bind_Ok in Ey as (p & Ep & Ey). apply bind_Ok in Ey as (q & Eq & Ey). inversion Ey; subst. inversion IH; inversion A5; subst. apply Forall_app. split; auto.
    + apply Forall_app. split; [apply (markup_Q Q _ F); reflexivity|]. apply Forall_app. split; [exact A1|apply (markup_Q Q _ F); reflexivity].
  - eapply serializeText_Q; [exact F| |exact Etl]. destruct tail; [exact A4|exact I].
Qed.
Lemma toUnicode_valid x s : toUnicode x = Ok s -> Forall (fun c => invalidXml c = false) s.
Proof.
  unfold toUnicode. intro E. apply bind_Ok in E as (w & _ & E). destruct (existsb _ w) eqn:X; inversion E; subst. rewrite Forall_forall. intros c I.
  destruct (invalidXml c) eqn:Y; [|reflexivity]. rewrite <- X. symmetry. apply existsb_exists. eauto.
Qed.
Lemma serialize_valid e s : serialize e = Ok s -> allChars (fun c => invalidXml c = false) e.
Proof.
  revert s. induction e as [tag at' text ch tail IH] using elem_ind'. intros s E. rewrite serialize_eq in E.
  apply bind_Ok in E as (t & Et & E). pose proof (toUnicode_valid _ _ Et) as V. apply toUnicode_S in Et. subst t. apply bind_Ok in E as (a & Ea & E). apply bind_Ok in E as (body & Eb & E). apply bind_Ok in E as (tl & Etl & E). apply Ok_inj in E; subst s.
  assert (G : forall x s, serializeText x = Ok s -> match x with Some (XS s) | Some (XB s) => Forall (fun c => invalidXml c = false) s | None => True end).
  { clear. intros x s E. destruct (serializeText_eq x s E) as (y & _ & Ht & Hu). destruct x as [[[|c x]|[|c x]]|]; try constructor; try exact I;
    destruct (Hu eq_refl) as (x0 & Ex & Ex'); inversion Ex; subst; pose proof (toUnicode_valid _ _ Ex') as V; destruct y; inversion Ht; subst; inversion V; assumption. }
  constructor; [exact V| | | |].
  - clear - Ea. revert a Ea. induction at' as [|[k v] l IH]; intros a Ea; cbn [serializeAttribs] in Ea; [constructor|].
    apply bind_Ok in Ea as (k' & Ek & Ea). apply bind_Ok in Ea as (v' & Ev & Ea). apply bind_Ok in Ea as (t & Et & Ea). constructor; [|eapply IH; exact Et]. cbn [fst snd]. split.
    + pose proof (toUnicode_valid _ _ Ek). apply toUnicode_S in Ek. subst. assumption.
    + unfold escapeAttrib in Ev. apply bind_Ok in Ev as (w & Ew & _). pose proof (toUnicode_valid _ _ Ew). apply toUnicode_S in Ew. subst. assumption.
  - unfold serBody in Eb. destruct (_ || _) eqn:Hb; [|destruct text; [discriminate|exact I]]. apply bind_Ok in Eb as (x & Ex & Eb). eapply G; exact Ex.
  - pose proof (G _ _ Etl) as Q. destruct tail; exact Q.
  - unfold serBody in Eb. destruct (_ || _) eqn:Hb; [|destruct text; [discriminate|]; destruct ch; [constructor|discriminate]].
    apply bind_Ok in Eb as (x & Ex & Eb). apply bind_Ok in Eb as (y & Ey & Eb). clear - IH Ey. revert y Ey. induction ch as [|k ch IHc]; intros y Ey; cbn [serKids] in Ey; [constructor|].
    apply bind_Ok in Ey as (p & Ep & Ey). apply bind_Ok in Ey as (q & Eq & Ey). inversion IH; subst. constructor; eauto.
Qed.
Lemma plainTree_noCR e : plainTree e -> allChars (fun c => c <> 13%N) e.
Proof.
  assert (G : forall s : str, ~ In 13%N s -> Forall (fun c => c <> 13%N) s). { intros s H. apply Forall_forall. intros c I ->. contradiction. }
  assert (G2 : forall s : str, forallb nameChar s = true -> Forall (fun c => c <> 13%N) s). { intros s H. apply G. intro I. rewrite forallb_forall in H. discriminate (H _ I). }
  assert (G3 : forall s, isName s = true -> Forall (fun c => c <> 13%N) s). { intros s H. destruct (isName_cons s H) as (c & r & -> & A & B). constructor; [intros ->; discriminate A|apply G2; exact B]. }
  induction e as [tag at' text ch tail IH] using elem_ind'. intro P. inversion P as [? ? ? ? ? N [ND AN] PV C1 C2 PK]; subst. constructor.
  - apply G3. exact N.
  - rewrite Forall_forall in *. intros kv I. split; [apply G3; apply AN; exact I|apply G; apply PV; exact I].
  - destruct text as [[s|s]|]; [apply G; exact C1|apply G; exact C1|exact I].
  - destruct tail as [s|]; [apply G; exact C2|exact I].
  - clear - IH PK. induction ch; [constructor|]. inversion IH; inversion PK; subst. constructor; auto.
Qed.
Lemma normEol_id s : Forall (fun c => c <> 13%N) s -> normEol s = s.
Proof.
  induction 1 as [|c s H F IH]; [reflexivity|]. assert (E : normEol (c :: s) = c :: normEol s); [|rewrite E, IH; reflexivity].
  destruct c as [|p]; [reflexivity|]. destruct p as [[[[?|?|]|[?|?|]|]|[[?|?|]|[?|?|]|]|]|[[[?|?|]|[?|?|]|]|[[?|?|]|[?|?|]|]|]|]; reflexivity || contradiction.
Qed.
(** what comes before the root element *)
Definition prologOk (h : str) : Prop := Forall (fun c => xmlChar c = true /\ c <> 13%N) h /\ forall c r, nameStart c = true -> skipProlog (h ++ 60%N :: c :: r) = Some (60%N :: c :: r).
Lemma utf8_scalar s b : utf8Encode s = Ok b -> Forall scalar s.
Proof. intro E. apply utf8_total. eauto. Qed.
Theorem parse_serialize h e s b : prologOk h -> plainTree e -> serialize e = Ok s -> forallb xmlSpace (match etail e with Some t => t | None => [] end) = true ->
  utf8Encode (h ++ s) = Ok b -> parseBytes b = Ok (setTail None (norm e)).
Proof.
  intros [Ho Hs] P E B U. unfold parseBytes. rewrite (utf8_round _ _ U). apply utf8_scalar in U. apply Forall_app in U as [_ U].
  assert (V : Forall (fun c => invalidXml c = false) s).
  { eapply serialize_Q; [|eapply serialize_valid; exact E|exact E]. apply Forall_forall. intros c I. revert c I. apply Forall_forall. repeat (constructor; [reflexivity|]). constructor. }
  assert (X : forallb xmlChar (h ++ s) = true).
  { apply forallb_forall. intros c I. apply in_app_or in I as [I|I]; [rewrite Forall_forall in Ho; apply (Ho c I)|]. rewrite Forall_forall in V, U. specialize (V c I). specialize (U c I).
    unfold xmlChar. rewrite V. cbn [negb andb]. unfold scalar in U. apply N.leb_le. lia. }
  assert (C : Forall (fun c => c <> 13%N) s).
  { eapply serialize_Q; [|apply plainTree_noCR; exact P|exact E]. apply Forall_forall. intros c I ->. revert I. apply mem_nIn. reflexivity. }
  destruct (serialize_split e s E) as (a & t & -> & Ea & Et & (a' & Ha)).
  unfold parseXml. rewrite X, normEol_id by (apply Forall_app; split; [eapply Forall_impl; [|exact Ho]; intros c [_ Hc]; exact Hc|exact C]).
  assert (Sk : skipProlog (h ++ a ++ t) = Some (a ++ t)).
  { rewrite Ha. inversion P as [tag ? ? ? ? N]; subst. cbn [etag]. destruct (isName_cons tag N) as (c & r & -> & C1 & _). cbn [app]. apply Hs. exact C1. }
  rewrite Sk, (lex_elem e P a t Ea).
  rewrite <- (app_nil_r t), (lex_textToks _ t [] Et) by (left; reflexivity). cbn [lex flush emit option_map]. rewrite app_nil_r.
  rewrite build_root. destruct (etail e) as [[|c tl]|]; [reflexivity| |reflexivity]. cbn [option_map textToks build]. rewrite B. reflexivity.
Qed.

(** * Trees that can be written and read back *)
(** the characters of XML 1.0 *)
Definition xmlCompat (c : N) : Prop := (c = 9 \/ c = 10 \/ c = 13 \/ 32 <= c <= 0xD7FF \/ 0xE000 <= c <= 0xFFFD \/ 0x10000 <= c <= 0x10FFFF)%N.
Definition textOk (s : str) : Prop := Forall xmlCompat s /\ ~ In 13%N s.
Definition valOk (s : str) : Prop := textOk s /\ ~ In 9%N s.
Inductive goodTree : elem -> Prop :=
| goodTree_intro tag at' text ch tail : isName tag = true -> NoDup (map fst at') -> Forall (fun kv => attrName (fst kv) /\ valOk (snd kv)) at' ->
    (match text with Some (XS s) => textOk s | Some (XB s) => textOk s /\ Forall (fun c => (c < 128)%N) s | None => True end) ->
    (match tail with Some s => textOk s | None => True end) -> Forall goodTree ch -> goodTree (Elem tag at' text ch tail).
Lemma compat_valid c : xmlCompat c -> invalidXml c = false.
Proof.
  unfold xmlCompat, invalidXml. intro H.
  destruct (N.leb_spec c 8), (N.leb_spec 11 c), (N.leb_spec c 12), (N.leb_spec 14 c), (N.leb_spec c 31), (N.leb_spec 0xD800 c), (N.leb_spec c 0xDFFF), (N.leb_spec 0xFFFE c), (N.leb_spec c 0xFFFF); try reflexivity; lia.
Qed.
Lemma valid_compat c : invalidXml c = false -> (c <= 0x10FFFF)%N -> xmlCompat c.
Proof.
  unfold xmlCompat, invalidXml. intro H.
  destruct (N.leb_spec c 8), (N.leb_spec 11 c), (N.leb_spec c 12), (N.leb_spec 14 c), (N.leb_spec c 31), (N.leb_spec 0xD800 c), (N.leb_spec c 0xDFFF), (N.leb_spec 0xFFFE c), (N.leb_spec c 0xFFFF); cbn in H; try discriminate; lia.
Qed.
Lemma compat_exists s : Forall xmlCompat s -> existsb invalidXml s = false.
Proof. intro F. destruct (existsb invalidXml s) eqn:E; [|reflexivity]. apply existsb_exists in E as (c & I & E). rewrite Forall_forall in F. rewrite (compat_valid c (F c I)) in E. discriminate. Qed.
Lemma toUnicode_ok s : Forall xmlCompat s -> toUnicode (XS s) = Ok s.
Proof. intro F. unfold toUnicode. cbn [bind]. rewrite compat_exists by exact F. reflexivity. Qed.
Lemma toUnicode_okB s : Forall xmlCompat s -> Forall (fun c => (c < 128)%N) s -> toUnicode (XB s) = Ok s.
Proof.
  intros F G. unfold toUnicode. assert (E : forallb (fun c => (c <? 128)%N) s = true). { apply forallb_forall. intros c I. apply N.ltb_lt. rewrite Forall_forall in G. apply G. exact I. }
  rewrite E. cbn [bind]. rewrite compat_exists by exact F. reflexivity.
Qed.
Lemma nameStart_compat c : nameStart c = true -> xmlCompat c.
Proof. unfold nameStart, xmlCompat. intro H. destruct (N.leb_spec 65 c), (N.leb_spec c 90), (N.leb_spec 97 c), (N.leb_spec c 122), (N.eqb_spec c 95); cbn in H; try discriminate; lia. Qed.
Lemma nameChar_compat c : nameChar c = true -> xmlCompat c.
Proof.
  unfold nameChar. intro H. destruct (nameStart c) eqn:S; [apply nameStart_compat; exact S|]. unfold xmlCompat.
  destruct (N.leb_spec 48 c), (N.leb_spec c 57), (N.eqb_spec c 45), (N.eqb_spec c 46); cbn in H; try discriminate; lia.
Qed.
Lemma isName_compat s : isName s = true -> Forall xmlCompat s.
Proof.
  intro H. destruct (isName_cons s H) as (c & r & -> & A & B). constructor; [apply nameStart_compat; exact A|]. rewrite forallb_forall in B. apply Forall_forall. intros x I. apply nameChar_compat. apply B. exact I.
Qed.
Lemma goodTree_plain e : goodTree e -> plainTree e.
Proof.
  induction e as [tag at' text ch tail IH] using elem_ind'. intro G. inversion G as [? ? ? ? ? N ND A X Tl K]; subst. constructor.
  - exact N.
  - split; [exact ND|]. eapply Forall_impl; [|exact A]. intros kv H. apply H.
  - eapply Forall_impl; [|exact A]. intros kv [_ [[_ H1] H2]]. split; assumption.
  - destruct text as [[s|s]|]; [apply X|apply X|exact I].
  - destruct tail as [s|]; [apply Tl|exact I].
  - clear - IH K. induction ch; [constructor|]. inversion IH; inversion K; subst. constructor; auto.
Qed.
Lemma goodTree_compat e : goodTree e -> allChars xmlCompat e.
Proof.
  induction e as [tag at' text ch tail IH] using elem_ind'. intro G. inversion G as [? ? ? ? ? N ND A X Tl K]; subst. constructor.
  - apply isName_compat. exact N.
  - eapply Forall_impl; [|exact A]. intros kv [[H0 _] [[H1 _] H2]]. split; [apply isName_compat|]; assumption.
  - destruct text as [[s|s]|]; [apply X|apply X|exact I].
  - destruct tail as [s|]; [apply Tl|exact I].
  - clear - IH K. induction ch; [constructor|]. inversion IH; inversion K; subst. constructor; auto.
Qed.
Lemma goodTree_text text : (match text with Some (XS s) => textOk s | Some (XB s) => textOk s /\ Forall (fun c => (c < 128)%N) s | None => True end) -> exists s, serializeText text = Ok s.
Proof.
  unfold serializeText. destruct text as [[s|s]|]; cbn [textTruthy]; intro H.
  - destruct s; [eauto|]. erewrite escapeCdata_eq; [eauto|]. apply toUnicode_ok. apply H.
  - destruct s; [eauto|]. erewrite escapeCdata_eq; [eauto|]. apply toUnicode_okB; apply H.
  - eauto.
Qed.
Lemma serialize_total e : goodTree e -> exists s, serialize e = Ok s.
Proof.
  induction e as [tag at' text ch tail IH] using elem_ind'. intro G. inversion G as [? ? ? ? ? N ND A X Tl K]; subst. rewrite serialize_eq.
  rewrite toUnicode_ok by (apply isName_compat; exact N). cbn [bind].
  assert (EA : exists a, serializeAttribs at' = Ok a).
  { clear - A. induction A as [|[k v] l [[N _] [[C _] _]] A (a & IH)]; [exists []; reflexivity|]. cbn [serializeAttribs fst snd] in *.
    rewrite toUnicode_ok by (apply isName_compat; exact N). cbn [bind]. rewrite (escapeAttrib_eq (XS v) v) by (apply toUnicode_ok; exact C). cbn [bind]. rewrite IH. cbn [bind]. eauto. }
  destruct EA as (a & ->). cbn [bind]. destruct (goodTree_text text X) as (x & Ex).
  assert (EK : exists y, serKids ch = Ok y).
  { clear - IH K. induction ch as [|k ch IHc]; [exists []; reflexivity|]. inversion IH as [|? ? H1 H2]; inversion K as [|? ? K1 K2]; subst. destruct (H1 K1) as (s & Es). destruct (IHc H2 K2) as (t & Et). cbn [serKids]. rewrite Es. cbn [bind]. rewrite Et. cbn [bind]. eauto. }
  destruct EK as (y & Ey). assert (EB : exists b, serBody tag text ch = Ok b). { unfold serBody. destruct (_ || _); [|eauto]. rewrite Ex. cbn [bind]. rewrite Ey. cbn [bind]. eauto. }
  destruct EB as (b & ->). cbn [bind]. destruct (goodTree_text (option_map XS tail)) as (tl & ->); [destruct tail; exact Tl|]. cbn [bind]. eauto.
Qed.
Lemma compat_scalar s : Forall xmlCompat s -> Forall scalar s.
Proof. apply Forall_impl. intros c. unfold xmlCompat, scalar. lia. Qed.
Lemma goodTree_encode e s h : goodTree e -> serialize e = Ok s -> Forall xmlCompat h -> exists b, utf8Encode (h ++ s) = Ok b.
Proof.
  intros G E H. apply utf8_total. apply compat_scalar. apply Forall_app. split; [exact H|]. eapply serialize_Q; [|apply goodTree_compat; exact G|exact E].
  apply Forall_forall. intros c I. assert (J : forallb (fun c => (32 <=? c) && (c <? 128))%N markup = true) by reflexivity. rewrite forallb_forall in J. specialize (J c I). apply andb_true_iff in J as [A B].
  apply N.leb_le in A. apply N.ltb_lt in B. unfold xmlCompat. lia.
Qed.

(** * Pretty printing *)
Section Indent.
Variable T : pytext.
Lemma indentStr_chars n : Forall (fun c => c = 10%N \/ c = 32%N) (indentStr n).
Proof. unfold indentStr. constructor; [left; reflexivity|]. induction n; cbn [repeat concat]; [constructor|]. apply Forall_app. split; [repeat constructor; right; reflexivity|exact IHn]. Qed.
Lemma indent2_chars n : Forall (fun c => c = 10%N \/ c = 32%N) (indentStr n ++ u "  ").
Proof. apply Forall_app. split; [apply indentStr_chars|repeat constructor; right; reflexivity]. Qed.
Lemma white_ok s : Forall (fun c => c = 10%N \/ c = 32%N) s -> textOk s.
Proof.
  intro F. split; [eapply Forall_impl; [|exact F]; intros c [->| ->]; unfold xmlCompat; lia|]. intro I. rewrite Forall_forall in F. destruct (F _ I); discriminate.
Qed.
Lemma setTail_good e t : goodTree e -> (match t with Some s => textOk s | None => True end) -> goodTree (setTail t e).
Proof. intros G H. inversion G; subst. constructor; assumption. Qed.
Lemma fixLast_good l i : Forall goodTree l -> textOk i -> Forall goodTree (fixLast T i l).
Proof.
  intros F H. induction F as [|e l G F IH]; [constructor|]. cbn [fixLast]. destruct l as [|k l]; [|constructor; assumption].
  constructor; [|constructor]. destruct (blankStr T (etail e)); [apply setTail_good; assumption|exact G].
Qed.
Lemma indent_good e : goodTree e -> forall n, goodTree (indent T n e).
Proof.
  induction e as [tag at' text ch tail IH] using elem_ind'. intros G n. inversion G as [? ? ? ? ? N ND A X Tl K]; subst. cbn [indent]. destruct ch as [|k ch].
  - constructor; try assumption. destruct (_ && _); [apply white_ok; apply indentStr_chars|exact Tl].
  - constructor; try assumption.
    + destruct (blankText T text); [apply white_ok; apply indent2_chars|exact X].
    + destruct (blankStr T tail); [apply white_ok; apply indentStr_chars|exact Tl].
    + apply fixLast_good; [|apply white_ok; apply indentStr_chars]. clear - IH K. induction (k :: ch) as [|e l IHl]; [constructor|]. inversion IH; inversion K; subst. cbn [map]. constructor; auto.
Qed.
(** [f] is [e] with other white space between the elements *)
Definition sameText (x y : option etext) : Prop := y = x \/ (blankText T x = true /\ exists s, y = Some (XS s) /\ Forall (fun c => c = 10%N \/ c = 32%N) s).
Definition sameTail (x y : option str) : Prop := y = x \/ (blankStr T x = true /\ exists s, y = Some s /\ Forall (fun c => c = 10%N \/ c = 32%N) s).
Inductive respaced : elem -> elem -> Prop :=
| respaced_leaf tag at' text tail tail' : sameTail tail tail' -> respaced (Elem tag at' text [] tail) (Elem tag at' text [] tail')
| respaced_node tag at' text text' ch ch' tail tail' : ch <> [] -> sameText text text' -> sameTail tail tail' -> Forall2 respaced ch ch' ->
    respaced (Elem tag at' text ch tail) (Elem tag at' text' ch' tail').
Lemma sameTail_fix e f i : respaced e f -> Forall (fun c => c = 10%N \/ c = 32%N) i -> blankStr T (etail f) = true -> respaced e (setTail (Some i) f).
Proof.
  intros H F B. inversion H as [tag at' text tail tail' Tl|? ? ? ? ? ? tail tail' NE Tx Tl K]; subst; cbn [etail setTail] in *.
  - constructor. destruct Tl as [->|[B' _]]; right; (split; [assumption|eauto]).
  - constructor; try assumption. destruct Tl as [->|[B' _]]; right; (split; [assumption|eauto]).
Qed.
Lemma fixLast_respaced l l' i : Forall2 respaced l l' -> Forall (fun c => c = 10%N \/ c = 32%N) i -> Forall2 respaced l (fixLast T i l').
Proof.
  intros F Hi. induction F as [|e f l l' H F IH]; [constructor|]. cbn [fixLast]. destruct l' as [|k l'].
  - inversion F; subst. constructor; [|constructor]. destruct (blankStr T (etail f)) eqn:B; [apply sameTail_fix; assumption|exact H].
  - constructor; [exact H|exact IH].
Qed.
Lemma indent_respaced e : forall n, respaced e (indent T n e).
Proof.
  induction e as [tag at' text ch tail IH] using elem_ind'. intro n. cbn [indent]. destruct ch as [|k ch].
  - constructor. destruct (negb (n =? 0)%nat && blankStr T tail) eqn:B; [|left; reflexivity]. right. apply andb_true_iff in B as [_ B]. split; [exact B|]. eexists. split; [reflexivity|apply indentStr_chars].
  - constructor; [discriminate| | |].
    + unfold sameText. destruct (blankText T text) eqn:B; [|left; reflexivity]. right. split; [reflexivity|]. eexists. split; [reflexivity|apply indent2_chars].
    + unfold sameTail. destruct (blankStr T tail) eqn:B; [|left; reflexivity]. right. split; [reflexivity|]. eexists. split; [reflexivity|apply indentStr_chars].
    + apply fixLast_respaced; [|apply indentStr_chars]. clear - IH. induction (k :: ch) as [|e l IHl]; [constructor|]. inversion IH; subst. cbn [map]. constructor; auto.
Qed.
(** twice is the same as once *)
Lemma etail_indent e n : etail (indent T n e) = if blankStr T (etail e) && negb (Nat.eqb n 0 && Nat.eqb (length (echildren e)) 0) then Some (indentStr n) else etail e.
Proof. destruct e as [tag at' text [|k ch] tail]; cbn [indent etail echildren length]; [destruct n; cbn; destruct (blankStr T tail); reflexivity|]. rewrite andb_false_r. cbn. destruct (blankStr T tail); reflexivity. Qed.
Hypothesis LT : pytext_laws T.
Lemma white_blank s : Forall (fun c => c = 10%N \/ c = 32%N) s -> forallb (isSpace T) s = true.
Proof. intro F. apply forallb_forall. intros c I. rewrite Forall_forall in F. rewrite (space_ascii T LT) by (destruct (F c I) as [->| ->]; lia). destruct (F c I) as [->| ->]; reflexivity. Qed.
Lemma indent_setTail n e t : blankStr T t = true -> blankStr T (etail e) = true -> negb (Nat.eqb n 0) = true -> indent T n (setTail t e) = indent T n e.
Proof.
  intros B B' Hn. destruct e as [tag at' text [|k ch] tail]; cbn [indent setTail etail] in *; rewrite B, B'; [rewrite Hn|]; reflexivity.
Qed.
Lemma fixLast_idem i n l : Forall (fun c => c = 10%N \/ c = 32%N) i -> Forall (fun e => indent T (S n) (indent T (S n) e) = indent T (S n) e) l ->
  fixLast T i (map (indent T (S n)) (fixLast T i (map (indent T (S n)) l))) = fixLast T i (map (indent T (S n)) l).
Proof.
  intros Hi F. induction F as [|e l H F IH]; [reflexivity|]. cbn [map]. destruct l as [|k l].
  - cbn [map fixLast]. destruct (blankStr T (etail (indent T (S n) e))) eqn:B.
    + rewrite indent_setTail by (reflexivity || exact B || (cbn [blankStr]; apply white_blank; exact Hi)). rewrite H. cbn [fixLast]. rewrite B. reflexivity.
    + rewrite H. rewrite B. reflexivity.
  - cbn [map] in IH. cbn [fixLast map] in *. rewrite H.
    destruct (match map (indent T (S n)) l with [] => _ | _ => _ end) eqn:Q; [exfalso; destruct (map (indent T (S n)) l); discriminate Q|].
    cbn [map] in IH |- *. f_equal. exact IH.
Qed.
Lemma indent_idem e : forall n, indent T n (indent T n e) = indent T n e.
Proof.
  induction e as [tag at' text ch tail IH] using elem_ind'. intro n. cbn [indent]. destruct ch as [|k ch].
  - cbn [indent]. f_equal. destruct (negb (n =? 0)%nat) eqn:Hn; cbn [andb]; [|reflexivity]. destruct (blankStr T tail) eqn:B; [|rewrite B; reflexivity]. cbn [blankStr]. rewrite white_blank by apply indentStr_chars. reflexivity.
  - assert (NE : exists x y, fixLast T (indentStr n) (map (indent T (S n)) (k :: ch)) = x :: y). { cbn [map fixLast]. destruct (map (indent T (S n)) ch); eauto. }
    destruct NE as (x & y & NE). cbn [indent]. rewrite NE. rewrite <- NE. rewrite fixLast_idem; [|apply indentStr_chars|eapply Forall_impl; [|exact IH]; intros e He; apply He].
    f_equal.
    + destruct (blankText T text) eqn:B; [|rewrite B; reflexivity]. cbn [blankText]. rewrite white_blank by apply indent2_chars. reflexivity.
    + destruct (blankStr T tail) eqn:B; [|rewrite B; reflexivity]. cbn [blankStr]. rewrite white_blank by apply indentStr_chars. reflexivity.
Qed.
End Indent.
