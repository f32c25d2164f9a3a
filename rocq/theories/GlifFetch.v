(** The rapid fetchers see what the full reader sees. *)
From Coq Require Import String NArith ZArith Bool Lia List Permutation.
From Coq.Floats Require Import SpecFloat.
From Verif Require Import Base PyVal PyText FloatRepr Xml FS Ufo UfoProofs PropUfoFiles Plist PlistProofs PropPlist Etree EtreeProofs PropEtree PlistFiles Validators PointPen PropPointPen Glif GlifProofs GlifOutline GlifElements GlifRead GlifFiles GlifNotes GlifAccepted GlifFormat1.
Import ListNotations.
Local Open Scope string_scope.
Local Open Scope list_scope.

Local Notation isNum := GlifProofs.isNum.
Local Notation walk := Plist.walk.
Local Notation draws := Glif.draws.

(** ** Events of a tree *)
(** the tags in a tree, its own first *)
Fixpoint tags (e : elem) : list str :=
  let 'Elem tag _ _ ch _ := e in tag :: (fix go l := match l with [] => [] | k :: r => tags k ++ go r end) ch.
Lemma tags_eq e : tags e = etag e :: flat_map tags (echildren e).
Proof. destruct e. reflexivity. Qed.
Lemma xevents_eq e : xevents e = XStart (etag e) (eattrib e) :: flat_map xevents (echildren e) ++ [XEnd (etag e)].
Proof. destruct e. reflexivity. Qed.

Section Fetch.
Variable A : Type.
Variable parent child : str.
Variable act : list (str * str) -> A -> A * bool.
Variable stop : str -> bool.
Hypothesis stop_parent : forall t, stop t = true -> t = parent.
Let start (stack : list str) (name : str) (attrs : list (str * str)) (a : A) : A * bool :=
  if eqb name child && under parent stack then act attrs a else (a, false).
(** a tree without the parent's tag, not itself under the parent *)
Lemma fetch_quiet e : ~ In parent (tags e) -> forall stack a rest, eqb (etag e) child && under parent stack = false ->
  fetch A start stop (xevents e ++ rest) stack a = fetch A start stop rest stack a.
Proof.
  induction e as [tag at' tx ch tl IH] using elem_ind'; intros N stack a rest Q. rewrite tags_eq in N. rewrite xevents_eq. cbn [etag eattrib echildren] in *.
  cbn [app fetch]. unfold start at 1. rewrite Q. rewrite <- app_assoc.
  assert (U : under parent (tag :: stack) = false) by (cbn; apply eqb_neq; intros ->; apply N; left; reflexivity).
  assert (K : forall rest, fetch A start stop (flat_map xevents ch ++ rest) (tag :: stack) a = fetch A start stop rest (tag :: stack) a).
  { assert (N' : ~ In parent (flat_map tags ch)) by (intro I; apply N; right; exact I). clear N Q. induction IH as [|c ch Hc _ IHch]; intro r; [reflexivity|]. cbn [flat_map] in *. rewrite in_app_iff in N'. rewrite <- app_assoc, Hc; [apply IHch; tauto|tauto|]. rewrite U. apply andb_false_r. }
  rewrite K. cbn [app fetch]. destruct (stop tag) eqn:S; [|reflexivity]. apply stop_parent in S. exfalso. apply N. left. exact S.
Qed.
Lemma fetch_quiets l : ~ In parent (flat_map tags l) -> forall stack a rest, under parent stack = false ->
  fetch A start stop (flat_map xevents l ++ rest) stack a = fetch A start stop rest stack a.
Proof.
  induction l as [|e l IH]; intros N stack a rest U; [reflexivity|]. cbn [flat_map] in *. rewrite in_app_iff in N. rewrite <- app_assoc, fetch_quiet; [apply IH; tauto|tauto|]. rewrite U. apply andb_false_r.
Qed.
(** a child of the parent *)
Lemma fetch_child e : ~ In parent (tags e) -> etag e = child -> forall stack a rest, under parent stack = true -> 
  fetch A start stop (xevents e ++ rest) stack a = (let '(a', done) := act (eattrib e) a in if done then a' else fetch A start stop rest stack a').
Proof.
  intros N E stack a rest U. rewrite xevents_eq. cbn [app fetch]. unfold start at 1. rewrite E, eqb_refl, U. cbn [andb]. destruct (act (eattrib e) a) as [a' done]. destruct done; [reflexivity|]. rewrite tags_eq in N.
  rewrite <- app_assoc. rewrite fetch_quiets; [|intro I; apply N; right; exact I|cbn; rewrite <- E; apply eqb_neq; intros X; apply N; left; exact X].
  cbn [app fetch]. destruct (stop child) eqn:S; [|reflexivity]. apply stop_parent in S. exfalso. apply N. left. congruence.
Qed.
End Fetch.

(** ** The glyph's children *)
(** no element deeper than the glyph's children is a glyph or an outline *)
Definition flatGlyph (root : elem) : Prop :=
  forall c t, In c (echildren root) -> In t (flat_map tags (echildren c)) -> t <> u "glyph" /\ t <> u "outline".
Section Glyph.
Variable T : pytext.
Definition addCode (a : list Z) (e : elem) : list Z :=
  if eqb (etag e) (u "unicode") then
    match eget (u "hex") e with
    | Some s => match parseHex T s with Some v => if mem v a then a else a ++ [v] | None => a end
    | None => a
    end
  else a.
Definition isTag (t : string) (e : elem) : bool := eqb (etag e) (u t).
Definition basesIn (outline : elem) : list str :=
  flat_map (fun k => if isTag "component" k then match eget (u "base") k with Some b => [b] | None => [] end else []) (echildren outline).
Definition firstImage (l : list elem) : option str := match List.find (isTag "image") l with Some e => eget (u "fileName") e | None => None end.
Definition firstOutline (l : list elem) : list str := match List.find (isTag "outline") l with Some e => basesIn e | None => [] end.

Lemma not_glyph root c : flatGlyph root -> In c (echildren root) -> etag c <> u "glyph" -> ~ In (u "glyph") (tags c).
Proof. intros F I N J. rewrite tags_eq in J. destruct J as [J|J]; [contradiction|]. apply (F c _ I) in J. destruct J as [J _]. apply J. reflexivity. Qed.
Lemma not_outline root c : flatGlyph root -> In c (echildren root) -> etag c <> u "outline" -> ~ In (u "outline") (tags c).
Proof. intros F I N J. rewrite tags_eq in J. destruct J as [J|J]; [contradiction|]. apply (F c _ I) in J. destruct J as [_ J]. apply J. reflexivity. Qed.
Lemma fetchUnicodes_children root : flatGlyph root -> etag root = u "glyph" -> Forall (fun c => etag c <> u "glyph") (echildren root) ->
  fetchUnicodes T root = fold_left addCode (echildren root) [].
Proof.
  intros F E N. unfold fetchUnicodes. rewrite xevents_eq, E. cbn [fetch]. unfold unicodesStart at 1. change (eqb (u "glyph") (u "unicode")) with false. cbn [andb].
  set (act := fun (attrs : list (str * str)) (a : list Z) => match get (u "hex") attrs with
    | Some s => match parseHex T s with Some v => (if mem v a then a else a ++ [v], false) | None => (a, false) end | None => (a, false) end).
  assert (K : forall l a rest, (forall c, In c l -> In c (echildren root)) ->
    fetch (list Z) (unicodesStart T) (fun _ => false) (flat_map xevents l ++ rest) [u "glyph"] a = fetch (list Z) (unicodesStart T) (fun _ => false) rest [u "glyph"] (fold_left addCode l a)).
  { induction l as [|c l IH]; intros a rest S; [reflexivity|]. cbn [flat_map fold_left]. rewrite <- app_assoc.
    assert (Ic := S c (or_introl eq_refl)). assert (Nc : ~ In (u "glyph") (tags c)) by (eapply not_glyph; [exact F|exact Ic|]; rewrite Forall_forall in N; auto).
    unfold addCode at 2. destruct (eqb_spec (etag c) (u "unicode")) as [Ec|Ec].
    - etransitivity; [apply (fetch_child (list Z) (u "glyph") (u "unicode") act (fun _ => false)); [discriminate|exact Nc|exact Ec|reflexivity]|].
      unfold act, eget. destruct (get (u "hex") (eattrib c)) as [s|]; [destruct (parseHex T s) as [v|]|]; apply IH; intros x I; apply S; right; exact I.
    - etransitivity; [apply (fetch_quiet (list Z) (u "glyph") (u "unicode") act (fun _ => false)); [discriminate|exact Nc|]|apply IH; intros x I; apply S; right; exact I].
      rewrite (proj2 (eqb_neq _ _) Ec). reflexivity. }
  rewrite K by auto. reflexivity.
Qed.
Lemma fetchImage_children root : flatGlyph root -> etag root = u "glyph" -> Forall (fun c => etag c <> u "glyph") (echildren root) ->
  fetchImage root = firstImage (echildren root).
Proof.
  intros F E N. unfold fetchImage. rewrite xevents_eq, E. cbn [fetch]. unfold imageStart at 1. change (eqb (u "glyph") (u "image")) with false. cbn [andb].
  set (act := fun (attrs : list (str * str)) (a : option str) => (get (u "fileName") attrs, true)).
  assert (K : forall l, (forall c, In c l -> In c (echildren root)) ->
    fetch (option str) imageStart (fun _ => false) (flat_map xevents l ++ [XEnd (u "glyph")]) [u "glyph"] None = firstImage l).
  { induction l as [|c l IH]; intros S; [reflexivity|]. cbn [flat_map]. rewrite <- app_assoc. unfold firstImage. cbn [List.find]. unfold isTag at 1.
    assert (Ic := S c (or_introl eq_refl)). assert (Nc : ~ In (u "glyph") (tags c)) by (eapply not_glyph; [exact F|exact Ic|]; rewrite Forall_forall in N; auto).
    destruct (eqb_spec (etag c) (u "image")) as [Ec|Ec].
    - etransitivity; [apply (fetch_child (option str) (u "glyph") (u "image") act (fun _ => false)); [discriminate|exact Nc|exact Ec|reflexivity]|]. reflexivity.
    - etransitivity; [apply (fetch_quiet (option str) (u "glyph") (u "image") act (fun _ => false)); [discriminate|exact Nc|]|apply IH; intros x I; apply S; right; exact I].
      rewrite (proj2 (eqb_neq _ _) Ec). reflexivity. }
  apply K. auto.
Qed.
Lemma fetchComponents_children root : flatGlyph root -> etag root = u "glyph" -> fetchComponents root = firstOutline (echildren root).
Proof.
  intros F E. unfold fetchComponents. rewrite xevents_eq, E. cbn [fetch]. unfold componentStart at 1. change (eqb (u "glyph") (u "component")) with false. cbn [andb].
  set (stop := fun n => eqb n (u "outline")).
  set (act := fun (attrs : list (str * str)) (a : list str) => (match get (u "base") attrs with Some b => a ++ [b] | None => a end, false)).
  assert (St : forall t, stop t = true -> t = u "outline") by (intros t H; apply (proj1 (eqb_eq t (u "outline"))); exact H).
  assert (Kid : forall l a rest, ~ In (u "outline") (flat_map tags l) ->
    fetch (list str) componentStart stop (flat_map xevents l ++ rest) [u "outline"; u "glyph"] a = fetch (list str) componentStart stop rest [u "outline"; u "glyph"]
      (a ++ flat_map (fun k => if isTag "component" k then match eget (u "base") k with Some b => [b] | None => [] end else []) l)).
  { induction l as [|c l IH]; intros a rest N; cbn [flat_map]; [rewrite app_nil_r; reflexivity|]. cbn [flat_map] in N. rewrite in_app_iff in N. rewrite <- app_assoc. unfold isTag at 1. destruct (eqb_spec (etag c) (u "component")) as [Ec|Ec].
    - etransitivity; [apply (fetch_child (list str) (u "outline") (u "component") act stop St); [tauto|exact Ec|reflexivity]|]. unfold act, eget. destruct (get (u "base") (eattrib c)); rewrite app_assoc, ?app_nil_r; apply IH; tauto.
    - etransitivity; [apply (fetch_quiet (list str) (u "outline") (u "component") act stop St); [tauto|]|apply IH; tauto]. rewrite (proj2 (eqb_neq _ _) Ec). reflexivity. }
  assert (K : forall l, (forall c, In c l -> In c (echildren root)) ->
    fetch (list str) componentStart stop (flat_map xevents l ++ [XEnd (u "glyph")]) [u "glyph"] [] = firstOutline l).
  { induction l as [|c l IH]; intros S; [reflexivity|]. cbn [flat_map]. rewrite <- app_assoc. unfold firstOutline. cbn [List.find]. unfold isTag at 1. assert (Ic := S c (or_introl eq_refl)).
    destruct (eqb_spec (etag c) (u "outline")) as [Ec|Ec].
    - rewrite xevents_eq, Ec. cbn [app fetch]. unfold componentStart at 1. change (eqb (u "outline") (u "component")) with false. cbn [andb]. rewrite <- app_assoc, Kid; [reflexivity|]. intro J. apply (F c _ Ic) in J. destruct J as [_ J]. apply J. reflexivity.
    - etransitivity; [apply (fetch_quiet (list str) (u "outline") (u "component") act stop St); [eapply not_outline; eassumption|apply andb_false_r]|]. apply IH. intros x I. apply S. right. exact I. }
  apply K. auto.
Qed.

(** ** What the reader does with each child *)
Definition bases (cs : list gcall) : list str := flat_map (fun c => match c with PComponent b _ _ => [b] | _ => [] end) cs.
Record effect (s : gstate) (e : elem) (s' : gstate) : Prop := {
  ef_tag : etag e <> u "glyph";
  ef_codes : sunicodes s' = addCode (sunicodes s) e;
  ef_unicodes : get (u "unicodes") (rattrs (sread s')) = get (u "unicodes") (rattrs (sread s));
  ef_image : if isTag "image" e
    then simage s = false /\ simage s' = true /\ exists d f, get (u "image") (rattrs (sread s')) = Some d /\ vget (u "fileName") d = PStr f /\ eget (u "fileName") e = Some f
    else simage s' = simage s /\ get (u "image") (rattrs (sread s')) = get (u "image") (rattrs (sread s));
  ef_outline : if isTag "outline" e
    then soutline s = false /\ soutline s' = true /\ bases (rcalls (sread s')) = bases (rcalls (sread s)) ++ basesIn e
    else soutline s' = soutline s /\ rcalls (sread s') = rcalls (sread s) }.
Lemma bases_app a b : bases (a ++ b) = bases a ++ bases b.
Proof. apply flat_map_app. Qed.
Lemma bases_none cs : (forall c, In c cs -> match c with PComponent _ _ _ => False | _ => True end) -> bases cs = [].
Proof. induction cs as [|c cs IH]; intro H; [reflexivity|]. cbn [bases flat_map]. unfold bases in IH. rewrite IH by (intros; apply H; right; assumption). specialize (H c (or_introl eq_refl)). destruct c; try reflexivity. destruct H. Qed.
Lemma set_get {V} (k k' : str) (v : V) d : eqb k k' = false -> get k (set k' v d) = get k d.
Proof. intro E. apply get_set_other. apply eqb_neq. exact E. Qed.
Ltac tagis Et := unfold addCode, isTag; rewrite ?Et;
  repeat match goal with |- context [eqb (u ?a) (u ?b)] => let v := eval vm_compute in (eqb (u a) (u b)) in change (eqb (u a) (u b)) with v end; cbv iota.
Lemma common_effect e s r s' : commonElement T true e s = Some r -> r = Ok s' -> effect s e s'.
Proof.
  unfold commonElement. cbn [andb]. destruct (eqb_spec (etag e) (u "advance")) as [Et|_].
  { intros H ->. injection H as H. destruct (negb (sadvance s)); [|discriminate H]. unfold withRead in H. apply bind_Ok in H as (r & Hr & H). apply Ok_inj in H. subst s'. cbn [seenAdvance sread] in Hr. unfold readAdvance in Hr.
    apply bind_Ok in Hr as (w & Hw & Hr). apply bind_Ok in Hr as (h & Hh & Hr). apply Ok_inj in Hr. subst r.
    constructor; tagis Et; cbn [sunicodes simage soutline sread rattrs rcalls setattr seenAdvance]; rewrite ?set_get by reflexivity; try split; try reflexivity; discriminate. }
  destruct (eqb_spec (etag e) (u "unicode")) as [Et|_].
  { intros H ->. injection H as H. apply bind_Ok in H as (us & Hu & H). apply Ok_inj in H. subst s'. unfold readUnicode in Hu.
    constructor; tagis Et; cbn [sunicodes simage soutline sread rattrs rcalls]; try split; try reflexivity; [discriminate|]. destruct (eget (u "hex") e) as [hx|]; [|discriminate Hu]. destruct (parseHex T hx) as [z|]; [|discriminate Hu]. apply Ok_inj in Hu. symmetry. exact Hu. }
  destruct (eqb_spec (etag e) (u "note")) as [Et|_].
  { intros H ->. injection H as H. destruct (negb (snote s)); [|discriminate H]. unfold withRead in H. apply bind_Ok in H as (r & Hr & H). apply Ok_inj in H. subst s'. cbn [seenNote sread] in Hr. unfold readNote in Hr. destruct (etextOf e) as [[t|t]|]; try discriminate Hr. apply Ok_inj in Hr. subst r.
    constructor; tagis Et; cbn [sunicodes simage soutline sread rattrs rcalls setattr seenNote]; rewrite ?set_get by reflexivity; try split; try reflexivity; discriminate. }
  destruct (eqb_spec (etag e) (u "lib")) as [Et|_]; [|discriminate].
  intros H ->. injection H as H. destruct (negb (slib s)); [|discriminate H]. unfold withRead in H. apply bind_Ok in H as (r & Hr & H). apply Ok_inj in H. subst s'. cbn [seenLib sread] in Hr. unfold readLib in Hr. destruct (echildren e) as [|c [|]]; try discriminate Hr.
  apply bind_Ok in Hr as (pl & Hp & Hr). apply bind_Ok in Hr as (v & Hv & Hr). destruct v; [|discriminate Hr]. apply Ok_inj in Hr. subst r.
  constructor; tagis Et; cbn [sunicodes simage soutline sread rattrs rcalls setattr seenLib]; rewrite ?set_get by reflexivity; try split; try reflexivity; discriminate.
Qed.
Lemma bases_contour i pts : bases (gcallsOf (GContour i pts)) = [].
Proof. apply bases_none. intros c I. cbn [callsOf] in I. destruct I as [<-|I]; [exact Logic.I|]. apply in_app_iff in I as [I|[<-|[]]]; [|exact Logic.I]. apply in_map_iff in I as (p & <- & _). exact Logic.I. Qed.
Lemma outlineLoop2_bases l : forall ids cs ids', outlineLoop2 T true l ids = Ok (cs, ids') ->
  bases cs = flat_map (fun k => if isTag "component" k then match eget (u "base") k with Some b => [b] | None => [] end else []) l.
Proof.
  induction l as [|e l IH]; intros ids cs ids' H; cbn [outlineLoop2] in H; [apply Ok_inj in H; injection H as <- <-; reflexivity|]. apply bind_Ok in H as ((c1 & ids1) & H1 & H). apply bind_Ok in H as ((c2 & ids2) & H2 & H). apply Ok_inj in H. injection H as <- <-.
  rewrite bases_app, (IH _ _ _ H2). cbn [flat_map]. f_equal. destruct (eqb_spec (etag e) (u "contour")) as [Et|_].
  - tagis Et. unfold contour2 in H1. destruct (negb true || _); [|discriminate H1]. apply bind_Ok in H1 as (i1 & _ & H1). apply bind_Ok in H1 as (ms & _ & H1). apply bind_Ok in H1 as ((cs & i2) & P & H1). apply Ok_inj in H1. injection H1 as <- _. apply points2_iff in P as [_ ->].
    cbn [bases flat_map app]. rewrite flat_map_app. cbn [flat_map app]. rewrite app_nil_r. clear. induction ms as [|m ms IH]; [reflexivity|exact IH].
  - unfold isTag. destruct (eqb (etag e) (u "component")); [|discriminate H1]. unfold component2 in H1. destruct (negb true || _); [|discriminate H1]. destruct (negb true || _); [|discriminate H1]. destruct (negb true || _); [|discriminate H1]. apply bind_Ok in H1 as (tr & _ & H1). apply bind_Ok in H1 as (i2 & _ & H1). destruct (eget (u "base") e); [|discriminate H1]. apply Ok_inj in H1. injection H1 as <- _. reflexivity.
Qed.
Lemma outlineLoop1_bases l : forall an cs, outlineLoop1 T true true l = Ok (an, cs) ->
  bases cs = flat_map (fun k => if isTag "component" k then match eget (u "base") k with Some b => [b] | None => [] end else []) l.
Proof.
  induction l as [|e l IH]; intros an cs H; cbn [outlineLoop1] in H; [apply Ok_inj in H; injection H as <- <-; reflexivity|]. cbn [flat_map]. destruct (eqb_spec (etag e) (u "contour")) as [Et|_].
  - tagis Et. cbn [app]. apply bind_Ok in H as (a & _ & H). destruct a as [a|].
    + apply bind_Ok in H as ((an' & cs') & H1 & H). apply Ok_inj in H. injection H as <- <-. eapply IH. exact H1.
    + apply bind_Ok in H as (c1 & Hc & H). apply bind_Ok in H as ((an' & cs') & H1 & H). apply Ok_inj in H. injection H as <- <-. rewrite bases_app, (IH _ _ H1). replace (bases c1) with (@nil str); [reflexivity|].
      unfold contour1 in Hc. destruct (negb true || _); [|discriminate Hc]. apply bind_Ok in Hc as (ms & _ & Hc). apply Ok_inj in Hc. subst c1. cbn [bases flat_map app]. rewrite flat_map_app. cbn [flat_map app]. rewrite app_nil_r. clear. induction ms as [|m ms IH]; [reflexivity|exact IH].
  - unfold isTag at 1. destruct (eqb (etag e) (u "component")); [|discriminate H]. apply bind_Ok in H as (c1 & H1 & H). apply bind_Ok in H as ((an' & cs') & H2 & H). apply Ok_inj in H. injection H as <- <-. rewrite bases_app, (IH _ _ H2). f_equal.
    unfold component1 in H1. destruct (negb true || _); [|discriminate H1]. destruct (negb true || _); [|discriminate H1]. destruct (negb true || _); [|discriminate H1]. apply bind_Ok in H1 as (tr & _ & H1). destruct (eget (u "base") e); [|discriminate H1]. apply Ok_inj in H1. subst c1. reflexivity.
Qed.
Lemma element1_effect s e s' : element1 T true true true s e = Ok s' -> effect s e s'.
Proof.
  unfold element1. destruct (eqb_spec (etag e) (u "outline")) as [Et|_].
  - unfold outlineOk. cbn [negb orb]. destruct (soutline s) eqn:So; [discriminate|]. cbn [negb andb]. intro H. destruct (_ && _); [|discriminate H]. unfold withRead, buildOutline1 in H. apply bind_Ok in H as (r & Hr & H). apply Ok_inj in H. subst s'. apply bind_Ok in Hr as ((an & cs) & Hl & Hr). apply outlineLoop1_bases in Hl.
    cbn [seenOutline sread] in Hr. assert (Q : rcalls r = rcalls (sread s) ++ cs /\ get (u "unicodes") (rattrs r) = get (u "unicodes") (rattrs (sread s)) /\ get (u "image") (rattrs r) = get (u "image") (rattrs (sread s))).
    { destruct an; [apply Ok_inj in Hr; subst r; repeat split; reflexivity|]. destruct (negb true || _); [|discriminate Hr]. apply Ok_inj in Hr. subst r. cbn [setattr rattrs rcalls]. rewrite !set_get by reflexivity. repeat split; reflexivity. }
    destruct Q as (Q1 & Q2 & Q3). constructor; tagis Et; cbn [sunicodes simage soutline sread seenOutline]; try (split; [reflexivity|]); try assumption; try reflexivity; [discriminate|]. split; [exact So|]. split; [reflexivity|]. rewrite Q1, bases_app, Hl. reflexivity.
  - cbn [negb]. destruct (commonElement T true e s) as [r|] eqn:C; [|discriminate]. intro H. eapply common_effect; eassumption.
Qed.
Lemma image_file e d : imageNumbers T transformationInfo e (attribDict e) = Ok d -> get (u "fileName") d = option_map PStr (eget (u "fileName") e).
Proof.
  rewrite <- get_attribDict. generalize (attribDict e). assert (F : Forall (fun x => eqb (u "fileName") (fst x) = false) transformationInfo) by (repeat constructor). revert F.
  induction transformationInfo as [|[k dd] info IH]; intros F d0 H; cbn [imageNumbers] in H; [apply Ok_inj in H; subst; reflexivity|]. inversion F; subst. apply bind_Ok in H as (v & _ & H). apply IH in H; [|assumption]. rewrite H. apply set_get. assumption.
Qed.
Lemma element2_effect s e s' : element2 T true true true s e = Ok s' -> effect s e s'.
Proof.
  unfold element2. destruct (eqb_spec (etag e) (u "outline")) as [Et|_].
  - unfold outlineOk. cbn [negb orb]. destruct (soutline s) eqn:So; [discriminate|]. cbn [negb andb]. intro H. destruct (_ && _); [|discriminate H]. apply bind_Ok in H as ((cs & ids) & Hl & H). apply Ok_inj in H. subst s'. apply outlineLoop2_bases in Hl.
    constructor; tagis Et; cbn [sunicodes simage soutline sread seenOutline draws rattrs rcalls]; try (split; [reflexivity|]); try reflexivity; [discriminate|]. split; [exact So|]. split; [reflexivity|]. rewrite bases_app, Hl. reflexivity.
  - cbn [negb]. destruct (commonElement T true e s) as [r|] eqn:C; [intro H; eapply common_effect; eassumption|]. destruct (eqb_spec (etag e) (u "guideline")) as [Et|_].
    { cbn [orb]. intro H. destruct (Nat.eqb _ 0); [|discriminate H]. apply bind_Ok in H as (d & Hd & H). apply Ok_inj in H. subst s'. constructor; tagis Et; try split; try reflexivity; discriminate. }
    destruct (eqb_spec (etag e) (u "anchor")) as [Et|_].
    { cbn [orb]. intro H. destruct (Nat.eqb _ 0); [|discriminate H]. apply bind_Ok in H as (d & Hd & H). apply Ok_inj in H. subst s'. constructor; tagis Et; try split; try reflexivity; discriminate. }
    destruct (eqb_spec (etag e) (u "image")) as [Et|_]; [|discriminate]. cbn [andb orb]. destruct (simage s) eqn:Si; [discriminate|]. cbn [negb]. intro H. destruct (Nat.eqb _ 0); [|discriminate H]. unfold withRead in H. apply bind_Ok in H as (r & Hr & H). apply Ok_inj in H. subst s'.
    cbn [seenImage sread] in Hr. unfold readImage in Hr. apply bind_Ok in Hr as (d & Hd & Hr). cbn [negb orb] in Hr. destruct (imageValidator T (toPDict d)) eqn:V; [|discriminate Hr]. apply Ok_inj in Hr. subst r.
    constructor; tagis Et; cbn [sunicodes simage soutline sread rattrs rcalls setattr seenImage]; rewrite ?set_get by reflexivity; try (split; [first [exact Si|reflexivity]|]); try reflexivity; [discriminate|]. split; [reflexivity|].
    exists (toPDict d). rewrite get_set_same. revert V. unfold imageValidator. destruct (genericDictValidator (toPDict d) imageProto) eqn:G; [|discriminate]. intros _.
    destruct (generic_vget _ _ (u "fileName") TStr true G eq_refl) as [[_ X]|I]; [discriminate X|]. rewrite vget_toPDict, (image_file _ _ Hd) in *. destruct (eget (u "fileName") e) as [f|]; [|discriminate I]. exists f. cbn [option_map]. auto.
Qed.
(** ** All children *)
Section All.
Variable E : gstate -> elem -> res gstate.
Hypothesis EE : forall s e s', E s e = Ok s' -> effect s e s'.
Lemma all_codes l : forall s s', foldM E s l = Ok s' -> sunicodes s' = fold_left addCode l (sunicodes s) /\ get (u "unicodes") (rattrs (sread s')) = get (u "unicodes") (rattrs (sread s)) /\ Forall (fun c => etag c <> u "glyph") l.
Proof.
  induction l as [|e l IH]; intros s s' H; cbn [foldM] in H; [apply Ok_inj in H; subst; repeat split; constructor|]. apply bind_Ok in H as (s1 & H1 & H). destruct (EE _ _ _ H1) as [A B C _ _]. destruct (IH _ _ H) as (D & F & G). cbn [fold_left]. rewrite <- B. split; [exact D|]. split; [congruence|constructor; assumption].
Qed.
Lemma all_image l : forall s s', foldM E s l = Ok s' ->
  if simage s then get (u "image") (rattrs (sread s')) = get (u "image") (rattrs (sread s))
  else match List.find (isTag "image") l with
       | Some e => exists d f, get (u "image") (rattrs (sread s')) = Some d /\ vget (u "fileName") d = PStr f /\ eget (u "fileName") e = Some f
       | None => get (u "image") (rattrs (sread s')) = get (u "image") (rattrs (sread s))
       end.
Proof.
  induction l as [|e l IH]; intros s s' H; cbn [foldM] in H; [apply Ok_inj in H; subst; destruct (simage s'); reflexivity|]. apply bind_Ok in H as (s1 & H1 & H). destruct (EE _ _ _ H1) as [_ _ _ I _]. apply IH in H. cbn [List.find]. destruct (isTag "image" e).
  - destruct I as (I1 & I2 & d & f & I3 & I4 & I5). rewrite I2 in H. rewrite I1. exists d, f. rewrite H. auto.
  - destruct I as (I1 & I2). rewrite I1, I2 in H. exact H.
Qed.
Lemma all_outline l : forall s s', foldM E s l = Ok s' ->
  if soutline s then rcalls (sread s') = rcalls (sread s) else bases (rcalls (sread s')) = bases (rcalls (sread s)) ++ firstOutline l.
Proof.
  induction l as [|e l IH]; intros s s' H; cbn [foldM] in H; [apply Ok_inj in H; subst; destruct (soutline s'); [reflexivity|symmetry; apply app_nil_r]|]. apply bind_Ok in H as (s1 & H1 & H). destruct (EE _ _ _ H1) as [_ _ _ _ I]. apply IH in H. unfold firstOutline. cbn [List.find]. destruct (isTag "outline" e).
  - destruct I as (I1 & I2 & I3). rewrite I2 in H. rewrite I1, H. exact I3.
  - destruct I as (I1 & I2). rewrite I1, I2 in H. exact H.
Qed.
End All.
Definition imageFile (r : greading) : option str :=
  match get (u "image") (rattrs r) with Some d => match vget (u "fileName") d with PStr f => Some f | _ => None end | None => None end.
Theorem fetchers_agree vs root r : etag root = u "glyph" -> flatGlyph root -> readGlyphTree T true true vs true root = Ok r ->
  get (u "unicodes") (rattrs r) = nonEmpty (map PInt (fetchUnicodes T root)) /\
  (match get (u "image") (rattrs r) with Some d => exists f, vget (u "fileName") d = PStr f /\ fetchImage root = Some f | None => fetchImage root = None end) /\
  bases (rcalls r) = fetchComponents root.
Proof.
  intros Er F H. unfold readGlyphTree in H. destruct (eget (u "format") root) as [fs|]; [|discriminate H]. destruct (negb true || _); [|discriminate H].
  assert (X : exists E s r0, (forall s e s', E s e = Ok s' -> effect s e s') /\ readName true true root (mkReading [] []) = Ok r0 /\ foldM E (startState r0) (echildren root) = Ok s /\
    exists o1 o2, r = optSet (u "anchors") o2 (optSet (u "guidelines") o1 (setUnicodes s (sread s)))).
  { destruct (parseInt T fs) as [[|[[]|[]|]|]|]; try discriminate H.
    - unfold readFormat2 in H. apply bind_Ok in H as (r0 & N & H). apply bind_Ok in H as (s & Hs & H). exists (element2 T true true true), s, r0. split; [exact element2_effect|]. split; [exact N|]. split; [exact Hs|].
      apply bind_Ok in H as ((r1 & ids) & H1 & H). assert (X1 : exists o1, r1 = optSet (u "guidelines") o1 (setUnicodes s (sread s))).
      { destruct (sguidelines s) as [|g gl]; [apply Ok_inj in H1; injection H1 as <- _; exists None; reflexivity|]. destruct (guidelinesValidator T (PList (g :: gl)) (sids s)) as [ok ids']. destruct (negb true || ok); [|discriminate H1]. apply Ok_inj in H1. injection H1 as <- _. exists (Some (PList (g :: gl))). reflexivity. }
      destruct X1 as (o1 & ->). exists o1. destruct (sanchors s) as [|a al]; [apply Ok_inj in H; subst; exists None; reflexivity|]. destruct (negb true || _); [|discriminate H]. apply Ok_inj in H. subst r. exists (Some (PList (a :: al))). reflexivity.
    - unfold readFormat1 in H. apply bind_Ok in H as (r0 & N & H). apply bind_Ok in H as (s & Hs & H). apply Ok_inj in H. exists (element1 T true true true), s, r0. split; [exact element1_effect|]. split; [exact N|]. split; [exact Hs|]. exists None, None. symmetry. exact H. }
  destruct X as (E & s & r0 & EE & N & Hs & o1 & o2 & ->).
  assert (N0 : rcalls r0 = [] /\ get (u "unicodes") (rattrs r0) = None /\ get (u "image") (rattrs r0) = None).
  { unfold readName in N. destruct (eget (u "name") root) as [[|c n]|]; try discriminate N. apply Ok_inj in N. subst r0. repeat split; reflexivity. }
  destruct N0 as (N1 & N2 & N3).
  destruct (all_codes E EE _ _ _ Hs) as (A1 & A2 & A3). pose proof (all_image E EE _ _ _ Hs) as A4. pose proof (all_outline E EE _ _ _ Hs) as A5. cbn [startState sunicodes sread simage soutline] in *. rewrite N1 in A5. rewrite N2 in A2. rewrite N3 in A4.
  rewrite setUnicodes_opt, !optSet_calls. rewrite !optSet_other by reflexivity. rewrite optSet_same.
  rewrite fetchUnicodes_children, fetchImage_children, fetchComponents_children by assumption. rewrite A1, A2. split; [destruct (nonEmpty _); reflexivity|]. split; [|exact A5]. rewrite !optSet_other by reflexivity. unfold firstImage.
  destruct (List.find (isTag "image") (echildren root)) as [e|]; [|rewrite A4; reflexivity]. destruct A4 as (d & f & -> & Hf & ->). eauto.
Qed.
End Glyph.

(** ** Written glyphs are flat *)
Section Written.
Variable T : pytext.
Variable R : spec_float -> str.
Variable ro : pyval -> str.
Definition deep (e : elem) : list str := flat_map tags (echildren e).
Lemma shape_tags e : forall f, shape e f -> tags f = tags e.
Proof.
  induction e as [tag at' tx ch tl IH] using elem_ind'. intros f S. inversion S as [? ? ? ? ? ch2 ? ? F]; subst. rewrite !tags_eq. cbn [etag echildren]. f_equal. clear S. induction F as [|c d ch ch2 H F IHF]; [reflexivity|]. inversion IH; subst. cbn [flat_map]. rewrite IHF by assumption. f_equal. auto.
Qed.
Lemma shape_deep e f : shape e f -> deep f = deep e.
Proof. intro S. apply shape_tags in S. rewrite !tags_eq in S. injection S. auto. Qed.
Definition plistTags : list str := map u ["dict"; "array"; "string"; "integer"; "real"; "true"; "false"; "date"; "data"; "key"; "plist"].
Lemma mk_tags v : plistable v -> forall sk pr lv e, makeElement R sk pr lv v = Ok e -> incl (tags e) plistTags.
Proof.
  assert (Lf : forall t x, mem t plistTags = true -> incl (tags (Xml.leaf t x)) plistTags) by (intros t x M y [<-|[]]; apply mem_In; exact M).
  assert (Nd : forall tag ch, mem tag plistTags = true -> Forall (fun e => incl (tags e) plistTags) ch -> incl (tags (node0 tag ch)) plistTags).
  { intros tag ch M F t I. rewrite tags_eq in I. destruct I as [<-|I]; [apply mem_In; exact M|]. apply in_flat_map in I as (c & J & I). rewrite Forall_forall in F. exact (F c J t I). }
  induction v using pyval_ind'; intros P sk pr lv e E; inversion P; subst; try (cbn in E; inversion E; subst; destruct b; apply Lf; reflexivity); try (cbn in E; inversion E; subst; apply Lf; reflexivity).
  - cbn in E. destruct (_ && _); inversion E; subst. apply Lf. reflexivity.
  - rewrite mk_list in E. apply bind_Ok in E as (ch & M & E). inversion E; subst. apply Nd; [reflexivity|]. apply mapM_Forall2 in M.
    clear E P. induction M as [|x y l ch Ey M IH]; [constructor|].
    inversion H as [|? ? Hx Hl]; subst. inversion H1 as [|? ? Px Pl]; subst. constructor; [eapply Hx; [exact Px|exact Ey]|]. apply IH; assumption.
  - rewrite mk_tuple in E. apply bind_Ok in E as (ch & M & E). inversion E; subst. apply Nd; [reflexivity|]. apply mapM_Forall2 in M.
    clear E P. induction M as [|x y l ch Ey M IH]; [constructor|].
    inversion H as [|? ? Hx Hl]; subst. inversion H1 as [|? ? Px Pl]; subst. constructor; [eapply Hx; [exact Px|exact Ey]|]. apply IH; assumption.
  - rewrite mk_dict_str in E. apply bind_Ok in E as (ch & M & E). inversion E; subst. apply Nd; [reflexivity|].
    assert (K : forall it : list (str * pyval), (forall k x, In (k, x) it -> forall e, makeElement R sk pr (S lv) x = Ok e -> incl (tags e) plistTags) ->
      forall ch, dictChildren (map (fun '(k, x) => (PStr k, makeElement R sk pr (S lv) x)) it) = Ok ch -> Forall (fun e => incl (tags e) plistTags) ch).
    { clear - Lf. induction it as [|[k x] it IH]; intros Hi ch M; cbn in M; [inversion M; constructor|]. apply bind_Ok in M as (e & Ee & M). apply bind_Ok in M as (t & Et & M). inversion M; subst.
      constructor; [apply Lf; reflexivity|]. constructor; [eapply Hi; [left; reflexivity|exact Ee]|]. apply IH; [intros; eapply Hi; [right; eassumption|assumption]|exact Et]. }
    apply (K (itemsOf sk m)); [|exact M]. intros k x J. apply (Permutation_in _ (itemsOf_perm sk m)) in J.
    assert (J' : In (PStr k, x) (map (fun '(k, x) => (PStr k, x)) m)) by (apply in_map_iff; exists (k, x); auto).
    rewrite Forall_forall in H. destruct (H _ J') as [_ Hv]. intros e0 Ee. eapply Hv; [|exact Ee]. rewrite Forall_forall in H2. apply (H2 (k, x) J).
Qed.
Definition safe (t : str) : Prop := t <> u "glyph" /\ t <> u "outline".
Definition safeDeep (e : elem) : Prop := Forall safe (deep e).
Lemma safe_list l t : forallb (fun t => negb (eqb t (u "glyph")) && negb (eqb t (u "outline"))) l = true -> In t l -> safe t.
Proof. intros F I. rewrite forallb_forall in F. apply F in I. apply andb_true_iff in I as [A B]. apply negb_true_iff in A, B. apply eqb_neq in A, B. split; assumption. Qed.
Lemma item_tags i : Forall safe (tags (itemElem R ro i)).
Proof.
  apply Forall_forall. intros t I. apply (safe_list (map u ["contour"; "point"; "component"])); [reflexivity|]. rewrite tags_eq in I. destruct i as [ident pts|b tr ident]; cbn [itemElem contourElem componentElem sub etag echildren] in I.
  - destruct I as [<-|I]; [left; reflexivity|]. apply in_flat_map in I as (c & J & I). apply in_map_iff in J as (p & <- & _). destruct I as [<-|[]]. right. left. reflexivity.
  - destruct I as [<-|[]]. right. right. left. reflexivity.
Qed.
Lemma items_safe l tag at' tx tl : safeDeep (Elem tag at' tx (map (itemElem R ro) l) tl).
Proof. unfold safeDeep, deep. cbn [echildren]. apply Forall_forall. intros t I. apply in_flat_map in I as (c & J & I). apply in_map_iff in J as (i & <- & _). pose proof (item_tags i) as F. rewrite Forall_forall in F. auto. Qed.
Lemma leaf_safe tag at' tx tl : safeDeep (Elem tag at' tx [] tl).
Proof. constructor. Qed.
Lemma advance_safe g l : writeAdvance R ro g true = Ok l -> Forall safeDeep l.
Proof. intro W. apply writeAdvance_inv in W. subst l. destruct (_ && _); repeat constructor. Qed.
Lemma note_safe g l : writeNote T g true = Ok l -> Forall safeDeep l.
Proof.
  unfold writeNote. destruct (negb (truthy _)); [intro W; apply Ok_inj in W; subst; constructor|]. destruct (negb true || is_str _); [|discriminate]. destruct (getattr g (u "note")); try discriminate. intro W. apply Ok_inj in W. subst l. repeat constructor.
Qed.
Lemma unicodes_safe g l : writeUnicodes g true = Ok l -> Forall safeDeep l.
Proof. intro W. apply (writeUnicodes_inv ro) in W. subst l. apply Forall_map. apply Forall_forall. intros z _. constructor. Qed.
Lemma image_safe g v l : writeImage T R ro g v true = Ok l -> Forall safeDeep l.
Proof.
  unfold writeImage. intro W. destruct (negb _); [apply Ok_inj in W; subst; constructor|]. destruct (negb true || _); [|discriminate W]. destruct (is_dict _); [|discriminate W]. destruct (vhas _ _); [|discriminate W]. apply bind_Ok in W as (f & _ & W). apply bind_Ok in W as (c & _ & W). apply Ok_inj in W. subst l. repeat constructor.
Qed.
Lemma loop_safe w l : (forall v ids e ids', w v ids = Ok (e, ids') -> safeDeep e) -> forall ids es ids', writeLoop w l ids = Ok (es, ids') -> Forall safeDeep es.
Proof.
  intro H. induction l as [|v l IH]; intros ids es ids' W; cbn [writeLoop] in W; [apply Ok_inj in W; injection W as <- _; constructor|]. apply bind_Ok in W as ((e & i1) & W1 & W). apply bind_Ok in W as ((es' & i2) & W2 & W). apply Ok_inj in W. injection W as <- _. constructor; eauto.
Qed.
Lemma guidelines_safe g v ids l ids' : writeGuidelines T R ro g v true ids = Ok (l, ids') -> Forall safeDeep l.
Proof.
  unfold writeGuidelines. destruct (negb _); [intro W; apply Ok_inj in W; injection W as <- _; constructor|]. destruct (negb true || _); [|discriminate]. intro W. apply bind_Ok in W as (gl & _ & W). eapply loop_safe; [|exact W]. intros w i e i' H. unfold writeGuideline in H. destruct (is_dict w); [|discriminate H].
  repeat (apply bind_Ok in H as (? & _ & H)). match goal with x : (_ * _)%type |- _ => destruct x end. apply Ok_inj in H. injection H as <- _. constructor.
Qed.
Lemma anchors_safe g v ids l ids' : writeAnchors T R ro g v true ids = Ok (l, ids') -> Forall safeDeep l.
Proof.
  unfold writeAnchors. destruct (negb _); [intro W; apply Ok_inj in W; injection W as <- _; constructor|]. destruct (negb true || _); [|discriminate]. intro W. apply bind_Ok in W as (gl & _ & W). eapply loop_safe; [|exact W]. intros w i e i' H. unfold writeAnchor in H. destruct (is_dict w); [|discriminate H].
  destruct (vhas _ _); [|discriminate H]. destruct (vhas _ _); [|discriminate H]. repeat (apply bind_Ok in H as (? & _ & H)). match goal with x : (_ * _)%type |- _ => destruct x end. apply Ok_inj in H. injection H as <- _. constructor.
Qed.
Lemma lib_safe g l : writeLib T R g true = Ok l -> (truthy (getattr g (u "lib")) = true -> plistable (getattr g (u "lib"))) -> Forall safeDeep l.
Proof.
  unfold writeLib. intros W P. destruct (truthy (getattr g (u "lib"))); cbn [negb] in W; [|apply Ok_inj in W; subst; constructor]. apply bind_Ok in W as (ok & _ & W). destruct ok; [|discriminate W]. destruct (is_dict _); [|discriminate W]. apply bind_Ok in W as (e & E & W). apply Ok_inj in W. subst l.
  constructor; [|constructor]. unfold safeDeep, deep. cbn [echildren flat_map]. rewrite app_nil_r. apply Forall_forall. intros t I. apply (mk_tags _ (P eq_refl) _ _ _ _ E) in I. apply (safe_list plistTags); [reflexivity|exact I].
Qed.
Lemma outline_safe g draw ids l : writeOutline T R ro g (option_map gdrawing draw) 2 true ids = Ok l -> Forall safeDeep l.
Proof.
  unfold writeOutline. destruct draw as [items|]; cbn [option_map]; [|intro W; apply Ok_inj in W; subst; constructor]. intro W. apply bind_Ok in W as (s & W1 & W). cbn [Z.eqb Pos.eqb andb bind] in W. apply Ok_inj in W. subst l.
  apply (pen_drawing R ro items) in W1 as (ids1 & _ & _ & ->). cbn [gOutline app]. constructor; [apply items_safe|constructor].
Qed.
Theorem written_flat name g draw root f : writeGlyphTree T R ro (PStr name) g (option_map gdrawing draw) 2 true = Ok root -> (truthy (getattr g (u "lib")) = true -> plistable (getattr g (u "lib"))) -> like T root f -> etag f = u "glyph" /\ flatGlyph f.
Proof.
  intros W P L. unfold writeGlyphTree in W. cbn [is_str negb orb andb py_eq] in W. destruct (eqb_spec name (@nil N)) as [->|Nn]; cbn [negb] in W; [discriminate W|].
  cbn [attrStr bind] in W. apply bind_Ok in W as (adv & Wadv & W). apply bind_Ok in W as (uni & Wuni & W). apply bind_Ok in W as (note & Wnote & W). apply bind_Ok in W as (image & Wimage & W).
  apply bind_Ok in W as ((gl & ids1) & Wgl & W). apply bind_Ok in W as ((al & ids2) & Wal & W). apply bind_Ok in W as (outl & Wout & W). apply bind_Ok in W as (lib & Wlib & W). apply Ok_inj in W. subst root.
  assert (F : Forall safeDeep (adv ++ uni ++ note ++ image ++ gl ++ al ++ outl ++ lib)).
  { rewrite !Forall_app. repeat split; [eapply advance_safe|eapply unicodes_safe|eapply note_safe|eapply image_safe|eapply guidelines_safe|eapply anchors_safe|eapply outline_safe|eapply lib_safe]; eassumption. }
  apply like_shape in L. apply shape_parts in L as (A & _ & C). cbn [etag echildren] in A, C. split; [exact A|]. intros c t I J. clear - F C I J.
  induction C as [|x y l m S C IH]; [destruct I|]. inversion F; subst. destruct I as [->|I]; [|apply IH; assumption]. apply shape_deep in S. unfold deep in S. rewrite S in J. match goal with H : safeDeep x |- _ => unfold safeDeep, deep in H; rewrite Forall_forall in H; exact (H t J) end.
Qed.
Theorem written_flat1 name g draw root f : writeGlyphTree T R ro (PStr name) g (option_map gdrawing draw) 1 true = Ok root -> readable1 g draw -> like T root f -> etag f = u "glyph" /\ flatGlyph f.
Proof.
  intros W Rd L. assert (P := rd1_lib _ _ Rd). unfold writeGlyphTree in W. cbn [is_str negb orb andb py_eq] in W. destruct (eqb_spec name (@nil N)) as [->|Nn]; cbn [negb] in W; [discriminate W|].
  cbn [attrStr bind] in W. apply bind_Ok in W as (adv & Wadv & W). apply bind_Ok in W as (uni & Wuni & W). apply bind_Ok in W as (note & Wnote & W). apply bind_Ok in W as (image & Wimage & W).
  apply bind_Ok in W as ((gl & ids1) & Wgl & W). apply bind_Ok in W as ((al & ids2) & Wal & W). apply bind_Ok in W as (outl & Wout & W). apply bind_Ok in W as (lib & Wlib & W). apply Ok_inj in W. subst root.
  assert (Fo : Forall safeDeep outl).
  { apply Ok_inj in Wgl. injection Wgl as <- <-. apply Ok_inj in Wal. injection Wal as <- <-. destruct draw as [items|]; cbn [option_map] in Wout; [|apply Ok_inj in Wout; subst; constructor]. destruct Rd as [_ _ Na (N & Ri & Id) _]. apply (outline1_written T R ro) in Wout; try assumption. cbv zeta in Wout. destruct Wout as (-> & _). constructor; [apply items_safe|constructor]. }
  assert (F : Forall safeDeep (adv ++ uni ++ note ++ image ++ gl ++ al ++ outl ++ lib)).
  { rewrite !Forall_app. repeat split; [eapply advance_safe|eapply unicodes_safe|eapply note_safe|eapply image_safe|eapply guidelines_safe|eapply anchors_safe|exact Fo|eapply lib_safe]; eassumption. }
  apply like_shape in L. apply shape_parts in L as (A & _ & C). cbn [etag echildren] in A, C. split; [exact A|]. intros c t I J. clear - F C I J.
  induction C as [|x y l m S C IH]; [destruct I|]. inversion F; subst. destruct I as [->|I]; [|apply IH; assumption]. apply shape_deep in S. unfold deep in S. rewrite S in J. match goal with H : safeDeep x |- _ => unfold safeDeep, deep in H; rewrite Forall_forall in H; exact (H t J) end.
Qed.
End Written.
