(** C94: validation only refuses. *)
From Coq Require Import String NArith ZArith Bool Lia List Permutation.
From Coq.Floats Require Import SpecFloat.
From Verif Require Import Base PyVal PyText FloatRepr Xml FS Ufo UfoProofs PropUfoFiles Plist PlistProofs PropPlist Etree EtreeProofs PlistFiles PropPlistLoaded Validators FontInfo FontInfoProofs PropFontInfo Zip PropUfo ZipProofs PropZip PointPen Glif GlifProofs PropGlif.
Import ListNotations.
Local Open Scope string_scope.
Local Open Scope list_scope.

(** With validation a function does what it does without, or it raises [e]. *)
Definition refuses {A} (e : exn) (validated plain : res A) : Prop := validated = plain \/ validated = Err e.
(** What a function does with validation, it also does without. *)
Definition allows {A} (validated plain : res A) : Prop := forall x, validated = Ok x -> plain = Ok x.

Lemma ref_refl {A} e (r : res A) : refuses e r r. Proof. left. reflexivity. Qed.
Lemma ref_err {A} e (r : res A) : refuses e (Err e) r. Proof. right. reflexivity. Qed.
Lemma ref_bind {A B} e (r1 r2 : res A) (f1 f2 : A -> res B) : refuses e r1 r2 -> (forall a, r2 = Ok a -> refuses e (f1 a) (f2 a)) -> refuses e (bind r1 f1) (bind r2 f2).
Proof. intros [->| ->] H; [|right; reflexivity]. destruct r2 as [a|x]; [apply H; reflexivity|left; reflexivity]. Qed.
Lemma ref_foldM {A S} e (f1 f2 : S -> A -> res S) l : (forall s a, refuses e (f1 s a) (f2 s a)) -> forall s, refuses e (foldM f1 s l) (foldM f2 s l).
Proof. intro H. induction l as [|a l IH]; intro s; cbn [foldM]; [apply ref_refl|]. apply ref_bind; auto. Qed.
Create HintDb ref.
#[local] Hint Resolve ref_refl ref_err : ref.
Ltac ref1 := cbn [negb andb orb]; cbv zeta; lazymatch goal with
  | |- refuses _ ?a ?a => apply ref_refl
  | |- refuses _ (if ?b then _ else _) _ => first [destruct b; cbn [negb andb orb] | idtac b]; try solve [auto with ref nocore]
  | |- refuses _ (bind _ _) (bind _ _) => apply ref_bind; [try solve [auto with ref nocore]|intros ? ?]
  | |- refuses _ (match ?x with _ => _ end) _ => destruct x; try solve [auto with ref nocore]
  | |- refuses _ _ _ => solve [auto with ref nocore]
  end.
Ltac ref := repeat ref1.

(** ** GLIF *)
Section Reading.
Variable T : pytext.
Variable R : spec_float -> str.
Hypothesis LR : repr_laws T R.
Notation "a '<~' b" := (refuses GlifLibError a b) (at level 70).
Lemma v_point al i e : massagePoint T true al i e <~ massagePoint T false al i e.
Proof. unfold massagePoint. ref. Qed.
Hint Resolve v_point : ref.
Lemma v_points al l : forall i, massageLoop T true al i l <~ massageLoop T false al i l.
Proof. induction l as [|e l IH]; intro i; cbn [massageLoop]; ref. Qed.
Hint Resolve v_points : ref.
Lemma v_offs l : forall n (m : list mpoint), (do x <- checkOffs l n; Ok m) <~ Ok m.
Proof.
  induction l as [|p l IH]; intros n m; cbn [checkOffs]; [apply ref_refl|]. destruct (mtype p); [|apply IH]. destruct (_ || _); [|right; reflexivity]. destruct (_ || _); [|right; reflexivity]. destruct (negb _); [apply IH|right; reflexivity].
Qed.
Hint Resolve v_offs : ref.
Lemma v_massage al len e : massage T true al len e <~ massage T false al len e.
Proof. unfold massage. ref. Qed.
Hint Resolve v_massage : ref.
Lemma v_contour1 e : contour1 T true e <~ contour1 T false e.
Proof. unfold contour1. ref. Qed.
Lemma v_component1 e : component1 T true e <~ component1 T false e.
Proof. unfold component1. ref. Qed.
Lemma v_anchor1 e : buildAnchor1 T true e <~ buildAnchor1 T false e.
Proof. unfold buildAnchor1. ref. Qed.
Hint Resolve v_contour1 v_component1 v_anchor1 : ref.
Lemma v_outline1 pen l : outlineLoop1 T pen true l <~ outlineLoop1 T pen false l.
Proof.
  induction l as [|e l IH]; cbn [outlineLoop1]; [apply ref_refl|]. destruct (eqb (etag e) (u "contour")).
  - apply ref_bind; [ref|]. intros [a|] _; ref.
  - ref.
Qed.
Hint Resolve v_outline1 : ref.
Lemma v_build1 obj pen e r : buildOutline1 T obj pen true e r <~ buildOutline1 T obj pen false e r.
Proof. unfold buildOutline1. ref. Qed.
Lemma v_identifier i ids : readIdentifier true i ids <~ readIdentifier false i ids.
Proof. unfold readIdentifier. ref. Qed.
Hint Resolve v_build1 v_identifier : ref.
Lemma v_points2 l : forall ids, points2 true l ids <~ points2 false l ids.
Proof. induction l as [|m l IH]; intro ids; cbn [points2]; ref. Qed.
Hint Resolve v_points2 : ref.
Lemma v_contour2 e ids : contour2 T true e ids <~ contour2 T false e ids.
Proof. unfold contour2. ref. Qed.
Lemma v_component2 e ids : component2 T true e ids <~ component2 T false e ids.
Proof. unfold component2. ref. Qed.
Hint Resolve v_contour2 v_component2 : ref.
Lemma v_outline2 l : forall ids, outlineLoop2 T true l ids <~ outlineLoop2 T false l ids.
Proof. induction l as [|e l IH]; intro ids; cbn [outlineLoop2]; ref. Qed.
Hint Resolve v_outline2 : ref.
Lemma glyphLib_total v : (v = PNone \/ plistShape v) -> exists b, glyphLibValidator T v = Ok b.
Proof.
  intros [->|H]; [eexists; reflexivity|]. unfold glyphLibValidator. destruct (is_dict v) eqn:D; cbn [negb]; [|eauto]. destruct v as [| | | | | | | | |d|]; try discriminate D. cbn [items].
  assert (K : Forall (fun kv => exists k, fst kv = PStr k) d).
  { inversion H as [| | | | | | |m ND F E]; subst. apply Forall_forall. intros kv J. apply in_map_iff in J as ([k x] & <- & _). eexists. reflexivity. }
  clear H D. induction K as [|[k v] d [k' E] K IH]; [eexists; reflexivity|]. cbn in E. subst k. cbn [allM]. destruct (eqb k' (u "public.markColor")); cbn; [destruct (colorValidator T v)|]; eauto.
Qed.
Lemma v_lib e r : Glif.readLib T true e r <~ Glif.readLib T false e r.
Proof.
  unfold Glif.readLib. destruct (echildren e) as [|c [|]]; try apply ref_refl. apply ref_bind; [apply ref_refl|]. intros v Ev. destruct (glyphLib_total v) as [b ->]; [eapply C93_tree; eassumption|]. cbn [bind]. destruct b; [apply ref_refl|apply ref_err].
Qed.
Lemma v_image e r : Glif.readImage T true e r <~ Glif.readImage T false e r.
Proof. unfold Glif.readImage. ref. Qed.
Hint Resolve v_lib v_image : ref.
Lemma v_with f g s : (forall r, f r <~ g r) -> withRead f s <~ withRead g s.
Proof. intro H. unfold withRead. ref. Qed.
Hint Resolve v_with : ref.
Lemma v_element1 obj pen s e : element1 T obj pen true s e <~ element1 T obj pen false s e.
Proof.
  unfold element1, outlineOk, commonElement. repeat match goal with |- context[if eqb (etag e) ?k then _ else _] => destruct (eqb (etag e) k) end; ref.
Qed.
Lemma v_element2 obj pen s e : element2 T obj pen true s e <~ element2 T obj pen false s e.
Proof. unfold element2, outlineOk, commonElement. repeat match goal with |- context[if eqb (etag e) ?k then _ else _] => destruct (eqb (etag e) k) end; ref. Qed.
Lemma v_name obj e r : readName obj true e r <~ readName obj false e r.
Proof. unfold readName. ref. Qed.
Hint Resolve v_element1 v_element2 v_name ref_foldM : ref.
Lemma v_format1 obj pen e : readFormat1 T obj pen true e <~ readFormat1 T obj pen false e.
Proof. unfold readFormat1. ref. Qed.
Lemma v_format2 obj pen e : readFormat2 T obj pen true e <~ readFormat2 T obj pen false e.
Proof.
  unfold readFormat2. apply ref_bind; [auto with ref|intros r _]. apply ref_bind; [auto with ref|intros s _]. cbv zeta.
  destruct (sguidelines s) as [|g gs].
  - cbn [bind]. ref.
  - destruct (guidelinesValidator T (PList (g :: gs)) (sids s)) as [ok ids]. cbn [negb orb]. destruct ok; [|right; reflexivity]. cbn [bind]. ref.
Qed.
End Reading.
Theorem C94_glif_reading : forall T R obj pen vs b, repr_laws T R ->
  refuses GlifLibError (readGlyphBytes T obj pen vs true b) (readGlyphBytes T obj pen vs false b).
Proof.
  intros T R obj pen vs b LR. unfold readGlyphBytes. apply ref_bind; [apply ref_refl|]. intros e _. unfold readGlyphTree. destruct (eget (u "format") e) as [s|]; [|apply ref_err]. cbv zeta. cbn [negb orb].
  match goal with |- refuses _ (if ?q then _ else _) _ => destruct q; [|apply ref_err] end. destruct (parseInt T s) as [[|[p|[p|p|]|]|p]|]; try apply ref_refl; [eapply v_format2|eapply v_format1]; eassumption.
Qed.
Print Assumptions C94_glif_reading.

Section Writing.
Variable T : pytext.
Variable R : spec_float -> str.
Variable ro : pyval -> str.
Notation "a '<~' b" := (refuses GlifLibError a b) (at level 70).
Lemma v_advanceNumber v : advanceNumber true v <~ advanceNumber false v.
Proof. unfold advanceNumber. ref. Qed.
Hint Resolve v_advanceNumber : ref.
Lemma v_advance g : writeAdvance R ro g true <~ writeAdvance R ro g false.
Proof. unfold writeAdvance. ref. Qed.
Lemma v_unicodesLoop l : forall seen, unicodesLoop true l seen <~ unicodesLoop false l seen.
Proof. induction l as [|c l IH]; intro seen; cbn [unicodesLoop]; ref. Qed.
Hint Resolve v_unicodesLoop v_advance : ref.
Lemma v_unicodes g : is_int (getattr g (u "unicodes")) = false -> writeUnicodes g true <~ writeUnicodes g false.
Proof. intro H. unfold writeUnicodes. cbv zeta. destruct (negb (truthy (getattr g (u "unicodes")))); [apply ref_refl|]. cbn [andb]. rewrite H. ref. Qed.
Lemma v_note g : writeNote T g true <~ writeNote T g false.
Proof. unfold writeNote. ref. Qed.
Lemma v_imageW g fv : Glif.writeImage T R ro g fv true <~ Glif.writeImage T R ro g fv false.
Proof. unfold Glif.writeImage. ref. Qed.
Lemma v_writeId v ids : writeIdentifier true v ids <~ writeIdentifier false v ids.
Proof. unfold writeIdentifier. ref. Qed.
Hint Resolve v_writeId v_note v_imageW : ref.
Lemma v_guideline v ids : writeGuideline R ro true v ids <~ writeGuideline R ro false v ids.
Proof. unfold writeGuideline. ref. Qed.
Lemma v_anchor v ids : writeAnchor R ro true v ids <~ writeAnchor R ro false v ids.
Proof. unfold writeAnchor. ref. Qed.
Hint Resolve v_guideline v_anchor : ref.
Lemma v_writeLoop f g l : (forall v ids, f v ids <~ g v ids) -> forall ids, writeLoop f l ids <~ writeLoop g l ids.
Proof. intro H. induction l as [|v l IH]; intro ids; cbn [writeLoop]; ref. Qed.
Hint Resolve v_writeLoop : ref.
Lemma v_guidelines g fv ids : writeGuidelines T R ro g fv true ids <~ writeGuidelines T R ro g fv false ids.
Proof. unfold writeGuidelines. ref. Qed.
Lemma v_anchors g fv ids : writeAnchors T R ro g fv true ids <~ writeAnchors T R ro g fv false ids.
Proof. unfold writeAnchors. ref. Qed.
Lemma v_penId i ids : penIdentifier 2 true i ids <~ penIdentifier 2 false i ids.
Proof. unfold penIdentifier. ref. Qed.
Hint Resolve v_guidelines v_anchors v_penId : ref.
Lemma v_componentAttrs info : forall l, componentAttrs R ro true info l <~ componentAttrs R ro false info l.
Proof. induction info as [|[a d] info IH]; intros [|v l]; cbn [componentAttrs]; ref. Qed.
Hint Resolve v_componentAttrs : ref.
Lemma v_penStep s c : penStep R ro 2 true s c <~ penStep R ro 2 false s c.
Proof.
  destruct c; cbn [penStep]; unfold penBegin, penPoint, penEnd, penComponent; [|destruct (psmooth p)| |]; ref.
Qed.
Hint Resolve v_penStep ref_foldM : ref.
Lemma v_anchors1 v : anchorsFormat1 T v true <~ anchorsFormat1 T v false.
Proof. unfold anchorsFormat1. ref. Qed.
Hint Resolve v_anchors1 : ref.
Lemma v_outlineW g d fv ids : writeOutline T R ro g d fv true ids <~ writeOutline T R ro g d fv false ids.
Proof. unfold writeOutline. ref. Qed.
Hint Resolve v_outlineW : ref.
Lemma v_libW g : (forall k v, In (k, v) (items (getattr g (u "lib"))) -> forall l, k <> PTuple l) -> Glif.writeLib T R g true <~ Glif.writeLib T R g false.
Proof.
  intro H. unfold Glif.writeLib. cbv zeta. destruct (negb (truthy _)); [apply ref_refl|]. destruct (getattr g (u "lib")) as [| | | | | | | | |d|]; try (right; reflexivity). cbn [items] in H.
  assert (K : exists b, glyphLibValidator T (PDict d) = Ok b).
  { unfold glyphLibValidator. cbn [is_dict negb items]. induction d as [|[k v] d IH]; [eexists; reflexivity|]. destruct IH as [b IH]; [intros k' v' J; apply (H k' v'); right; exact J|]. cbn [allM].
    destruct k; cbn [bind]; try (eexists; reflexivity); [|exfalso; eapply H; [left; reflexivity|reflexivity]].
    destruct (eqb s (u "public.markColor")); cbn [bind]; [destruct (colorValidator T v)|]; eauto. }
  destruct K as [b ->]. cbn [bind]. destruct b; [apply ref_refl|apply ref_err].
Qed.
Hint Resolve v_libW v_unicodes : ref.
Lemma v_write name g d fv : is_int (getattr g (u "unicodes")) = false -> (forall k v, In (k, v) (items (getattr g (u "lib"))) -> forall l, k <> PTuple l) ->
  writeGlyphTree T R ro name g d fv true <~ writeGlyphTree T R ro name g d fv false.
Proof.
  intros H1 H2. unfold writeGlyphTree. ref.
Qed.
End Writing.
(** Partial: the unicodes are not a single number, and no key of the lib is a
    tuple (which makes the message of the validator raise TypeError). *)
Theorem C94_glif_writing_partial : forall T R ro name g draw fv,
  is_int (getattr g (u "unicodes")) = false -> (forall k v, In (k, v) (items (getattr g (u "lib"))) -> forall l, k <> PTuple l) ->
  refuses GlifLibError (writeGlyphBytes T R ro name g draw fv true) (writeGlyphBytes T R ro name g draw fv false).
Proof. intros. unfold writeGlyphBytes. apply ref_bind; [apply v_write; assumption|]. intros. apply ref_refl. Qed.
Print Assumptions C94_glif_writing_partial.
(** Line 690-691: only with validation a number is made a list. *)
Theorem C94_glif_writing_refuted :
  let w validate := writeGlyphBytes toyText toyRepr roCase (PStr (u "a")) [(u "unicodes", PInt 65)] None 2 validate in
  match w true with Ok _ => True | Err _ => False end /\ w false = Err TypeError.
Proof. vm_compute. split; [exact Logic.I|reflexivity]. Qed.
Print Assumptions C94_glif_writing_refuted.

(** ** Readers of UFOs *)
Lemma al_refl {A} (r : res A) : allows r r. Proof. intros x H. exact H. Qed.
Lemma al_bind {A B} (r1 r2 : res A) (f1 f2 : A -> res B) : allows r1 r2 -> (forall a, r2 = Ok a -> allows (f1 a) (f2 a)) -> allows (bind r1 f1) (bind r2 f2).
Proof. intros H K x E. apply bind_Ok in E as (a & Ea & E). apply H in Ea. apply bind_Ok. exists a. split; [exact Ea|]. exact (K a Ea x E). Qed.
Lemma ref_allows {A} e (r1 r2 : res A) : refuses e r1 r2 -> allows r1 r2.
Proof. intros [->| ->]; [apply al_refl|]. intros x E. discriminate. Qed.
Section Ufos.
Variable C : codec.
Variable T : pytext.
Variable conv : pyval -> pyval -> res (pyval * pyval * pyval).
Lemma al_layers v t : allows (readLayersR C v t true) (readLayersR C v t false).
Proof.
  unfold readLayersR. destruct (v <? 3)%Z; [apply al_refl|]. apply al_bind; [apply al_refl|]. intros raw _ x E. apply bind_Ok in E as (ok & Eo & E). destruct ok; [|discriminate]. exact E.
Qed.
Lemma al_open n : allows (openGlyphSet C n true) (openGlyphSet C n false).
Proof.
  unfold openGlyphSet. apply al_bind; [apply al_refl|]. intros c _ x E. destruct c; try discriminate. apply bind_Ok in E as (ok & Eo & E). destruct ok; [|discriminate]. exact E.
Qed.
Lemma al_default v t : allows (getDefaultLayerName C v t true) (getDefaultLayerName C v t false).
Proof. apply al_bind; [apply al_layers|]. intros. apply al_refl. Qed.
Lemma al_names v t : allows (getLayerNames C v t true) (getLayerNames C v t false).
Proof. apply al_bind; [apply al_layers|]. intros. apply al_refl. Qed.
Lemma al_getGlyphSetR v t n : allows (getGlyphSetR C v t n true) (getGlyphSetR C v t n false).
Proof.
  unfold getGlyphSetR. apply al_bind; [destruct n; [apply al_refl|apply al_default]|]. intros name _. apply al_bind; [apply al_layers|]. intros l _. destruct (get name l) as [d|]; [|apply al_refl].
  apply al_bind; [apply al_refl|]. intros cs _. destruct (find t cs) as [[b|es]|]; try apply al_refl. apply al_bind; [apply al_open|]. intros. apply al_refl.
Qed.
Lemma v_meta t : refuses UFOLibError (readMetaInfo C t true) (readMetaInfo C t false).
Proof. unfold readMetaInfo. apply ref_bind; [apply ref_refl|]. intros d _. cbn [negb andb]. destruct d; try apply ref_err. cbn [is_dict negb]. destruct (dget _ d) as [v|]; [|apply ref_refl]. destruct v; try apply ref_err; cbv zeta; match goal with |- refuses _ (if ?q then _ else _) _ => destruct q; [apply ref_refl|apply ref_err] end. Qed.
Lemma v_libR t : refuses UFOLibError (Ufo.readLib C t true) (Ufo.readLib C t false).
Proof. unfold Ufo.readLib. ref. Qed.
Lemma v_imageR v t f : refuses UFOLibError (Ufo.readImage v t f true) (Ufo.readImage v t f false).
Proof. unfold Ufo.readImage. ref. Qed.
Lemma v_layerInfoR t : refuses GlifLibError (readLayerInfo C T t true) (readLayerInfo C T t false).
Proof. unfold readLayerInfo. ref. Qed.
Lemma al_call v t cache cl c x : doCall C conv v t cache cl true = (c, Ok x) -> doCall C conv v t cache cl false = (c, Ok x).
Proof.
  assert (U : forall c', upConvert C conv t cache true = (c', Ok tt) -> upConvert C conv t cache false = (c', Ok tt)).
  { intro c'. unfold upConvert. destruct cache as [d|]; [auto|]. destruct (readGroupsRaw C t) as [g|]; [|auto]. cbn [andb]. destruct (rawGroupsOk g); cbn [negb]; [auto|discriminate]. }
  assert (G : forall c' y, readGroups C conv v t cache true = (c', Ok y) -> readGroups C conv v t cache false = (c', Ok y)).
  { intros c' y. unfold readGroups. destruct (v <? 3)%Z.
    - destruct (upConvert C conv t cache true) as [c1 [[]|e]] eqn:E1; [|cbn; discriminate]. rewrite (U _ eq_refl). cbn [bind negb andb]. destruct c1 as [d|]; [|cbn; discriminate]. cbn [bind]. destruct (groupsValidator (upGroups d)); cbn [negb]; [auto|discriminate].
    - intro E. injection E as <- E. f_equal. apply bind_Ok in E as (g & -> & E). cbn [bind negb andb] in *. destruct (groupsValidator g); [exact E|discriminate]. }
  destruct cl; cbn [doCall]; [apply G| |].
  - unfold readKerning. destruct (v <? 3)%Z.
    + destruct (upConvert C conv t cache true) as [c1 [[]|e]] eqn:E1; [|cbn; discriminate]. rewrite (U _ eq_refl). cbn [bind negb andb]. destruct c1 as [d|]; [|cbn; discriminate]. cbn [bind]. destruct (kerningValidator (upKerning d)); cbn [negb]; [auto|discriminate].
    + intro E. injection E as <- E. f_equal. apply bind_Ok in E as (g & -> & E). cbn [bind negb andb] in *. destruct (kerningValidator g); [exact E|discriminate].
  - unfold readRenameMaps. destruct (3 <=? v)%Z; [auto|]. destruct (readGroups C conv v t cache true) as [c1 [y|e]] eqn:E1; [|cbn; discriminate]. rewrite (G _ _ eq_refl). auto.
Qed.
(** the same calls of a reader, all without validation *)
Definition unchecked (steps : list (node * PropUfo.call * bool)) : list (node * PropUfo.call * bool) := map (fun '(t, cl, _) => (t, cl, false)) steps.
Lemma al_calls v steps : forall cache, (forall r, In r (calls C conv v cache steps) -> exists x, r = Ok x) -> calls C conv v cache (unchecked steps) = calls C conv v cache steps.
Proof.
  induction steps as [|[[t cl] b] steps IH]; intros cache H; [reflexivity|]. cbn [unchecked map calls] in *. destruct (doCall C conv v t cache cl b) as [c r] eqn:E. destruct (H r (or_introl eq_refl)) as [x ->].
  assert (E2 : doCall C conv v t cache cl false = (c, Ok x)) by (destruct b; [apply al_call|]; exact E). rewrite E2. f_equal. apply IH. intros r I. apply H. right. exact I.
Qed.
End Ufos.

(** ** Font info *)
Section Info.
Variable T : pytext.
Lemma NoDup_dict {A} (d : list (str * A)) : dict_ok d -> NoDup (keys d). Proof. auto. Qed.
Lemma conv3_keys d : forall acc r, dict_ok acc -> convertData2To3 d acc = Ok r -> dict_ok r.
Proof. induction d as [|[a v] d IH]; intros acc r D E; cbn [convertData2To3] in E; [injection E as <-; exact D|]. apply bind_Ok in E as (nv & _ & E). eapply IH; [|exact E]. apply dict_ok_set. exact D. Qed.
Lemma conv2_keys d : dict_ok (convertData3To2 T d).
Proof.
  unfold convertData3To2. match goal with |- dict_ok (fold_left ?f d []) => assert (G : forall acc, dict_ok acc -> dict_ok (fold_left f d acc)) end.
  { induction d as [|kv d IH]; intros acc D; [exact D|]. cbn [fold_left]. apply IH. cbv zeta. destruct (negb _); [exact D|apply dict_ok_set; exact D]. }
  apply G. constructor.
Qed.
Lemma gather_dict info : dict_ok (gather T info).
Proof.
  unfold gather. match goal with |- dict_ok (fold_left ?f _ []) => assert (G : forall l acc, dict_ok acc -> dict_ok (fold_left f l acc)) end.
  { induction l as [|a l IH]; intros acc D; [exact D|]. cbn [fold_left]. apply IH. destruct (get a info) as [v|]; [destruct (is_none v); [exact D|apply dict_ok_set; exact D]|exact D]. }
  apply G. constructor.
Qed.
Lemma al_valid2 d : dict_ok d -> allows (validateInfoVersion2Data T d) (Ok d).
Proof. intros D x E. apply validate_2 in E as [-> _]; [reflexivity|exact D]. Qed.
Lemma al_valid3 d : dict_ok d -> allows (validateInfoVersion3Data T d) (Ok d).
Proof. intros D x E. apply validate_3 in E as [-> _]; [reflexivity|exact D]. Qed.
Lemma al_readInfo perm v data : allows (readInfo T perm v true data) (readInfo T perm v false data).
Proof.
  unfold readInfo. cbn [andb]. destruct (is_dict data); cbn [negb]; [|intros x E; discriminate]. apply al_bind; [apply al_refl|]. intros info E. apply al_valid3.
  destruct (v =? 1)%Z; [apply bind_Ok in E as (d & _ & E); eapply conv3_keys; [|exact E]; constructor|]. destruct (v =? 2)%Z; [eapply conv3_keys; [|exact E]; constructor|]. destruct (v =? 3)%Z; [|discriminate]. apply Ok_inj in E. rewrite <- E. apply collect_keys. constructor.
Qed.
Lemma al_writeInfo v info : allows (writeInfo T v true info) (writeInfo T v false info).
Proof.
  unfold writeInfo. cbv zeta. destruct (v =? 3)%Z; [apply al_valid3; apply gather_dict|]. destruct (v =? 2)%Z; [apply al_valid2; apply conv2_keys|]. destruct (v =? 1)%Z; [|apply al_refl]. apply al_bind; [apply al_valid2; apply conv2_keys|]. intros. apply al_refl.
Qed.
End Info.

(** ** Writers of UFOs *)
(** The same method, constructor and session without validation. *)
Definition plainMethod (m : wmethod) : wmethod :=
  match m with
  | Zip.WGroups v _ => Zip.WGroups v false
  | Zip.WKerning v _ => Zip.WKerning v false
  | Zip.WLib v _ => Zip.WLib v false
  | WFeatures v _ => WFeatures v false
  | WGetGlyphSet n d _ => WGetGlyphSet n d false
  | WLayerContents o _ => WLayerContents o false
  | WImage f d _ => WImage f d false
  | m => m
  end.
Definition plainSession (s : session) : session := mkSession (sversion s) (screator s) false (map plainMethod (smethods s)).
Section Writers.
Variable C : codec.
Variable T : pytext.
Variable lower : str -> str.
Definition alM {A} (m1 m2 : M A) : Prop := forall s s' x, m1 s = (s', Ok x) -> m2 s = (s', Ok x).
Lemma alM_refl {A} (m : M A) : alM m m. Proof. intros s s' x E. exact E. Qed.
Lemma alM_bind {A B} (m1 m2 : M A) (f1 f2 : A -> M B) : alM m1 m2 -> (forall a, alM (f1 a) (f2 a)) -> alM (mbind m1 f1) (mbind m2 f2).
Proof. intros H K s s' x. unfold mbind. destruct (m1 s) as [s1 [a|e]] eqn:E; [|discriminate]. rewrite (H _ _ _ E). apply K. Qed.
Lemma alM_lift {A} (r1 r2 : res A) : allows r1 r2 -> alM (lift r1) (lift r2).
Proof. intros H s s' x E. unfold lift in *. injection E as <- E. rewrite (H _ E). reflexivity. Qed.
Lemma alM_check {A} (b : bool) e (m : M A) : alM (if b then raise e else m) m.
Proof. intros s s' x E. destruct b; [discriminate|exact E]. Qed.
Lemma alM_layersW t : allows (readLayersW C t true) (readLayersW C t false).
Proof.
  unfold readLayersW. apply al_bind; [apply al_refl|]. intros raw _ x E. apply bind_Ok in E as (ok & Eo & E). destruct ok; [|discriminate]. exact E.
Qed.
Lemma alM_openDir p b : alM (openDir C p b) (openDir C p false).
Proof. unfold openDir. apply alM_bind; [apply alM_refl|]. intro t. destruct (find t p); [|apply alM_refl]. destruct b; [apply alM_lift; apply al_open|apply alM_refl]. Qed.
Lemma al_method m c : alM (wcall C lower m c) (wcall C lower (plainMethod m) c).
Proof.
  destruct m; cbn [plainMethod wcall]; try apply alM_refl.
  - destruct validate; [|apply alM_refl]. apply alM_check.
  - destruct validate; [|apply alM_refl]. apply alM_check.
  - destruct validate; [|apply alM_refl]. apply alM_check.
  - unfold writeFeatures. destruct (ver c =? 1)%Z; [apply alM_refl|]. cbn [andb]. apply alM_check.
  - apply alM_bind; [|intro; apply alM_refl]. unfold getGlyphSet. destruct (_ && _); [apply alM_refl|]. apply alM_bind; [apply alM_refl|]. intro l. apply alM_bind; [apply alM_refl|]. intro n.
    destruct (ver c =? 1)%Z; [apply alM_refl|]. destruct (ver c =? 2)%Z.
    + apply alM_bind; [apply alM_refl|]. intros []. apply alM_bind; [apply alM_openDir|]. intro. apply alM_refl.
    + unfold getGlyphSet3. apply alM_bind; [apply alM_refl|]. intro l'. destruct (_ && _); [apply alM_refl|]. apply alM_bind; [apply alM_refl|]. intro d. apply alM_bind; [apply alM_refl|]. intro cs.
      apply alM_bind; [apply alM_refl|]. intros []. apply alM_bind; [apply alM_refl|]. intros []. apply alM_bind; [apply alM_openDir|]. intro. apply alM_refl.
  - unfold writeLayerContents. destruct (_ <? _)%Z; [apply alM_refl|]. apply alM_bind; [apply alM_refl|]. intro l. cbv zeta. cbn [andb]. apply alM_check.
  - unfold Ufo.writeImage. destruct (_ <? _)%Z; [apply alM_refl|]. cbn [andb]. apply alM_check.
Qed.
Lemma al_init c b : alM (initWriter C T c b) (initWriter C T c false).
Proof.
  destruct b; [|apply alM_refl]. unfold initWriter. apply alM_bind; [apply alM_refl|]. intros []. apply alM_bind; [apply alM_refl|]. intro t. apply alM_bind; [apply alM_refl|]. intro v. apply alM_bind; [apply alM_refl|]. intros [].
  apply alM_bind; [|intros []; apply alM_refl]. destruct v as [v|]; [|apply alM_refl]. destruct (3 <=? v)%Z; [|apply alM_refl]. apply alM_bind; [|intro; apply alM_refl]. apply alM_lift. apply alM_layersW.
Qed.
Definition fine {A} (r : res A) : Prop := exists x, r = Ok x.
Lemma al_methods ms : forall p w p' w' xs, runMethods C lower ms p w = (p', w', xs) -> Forall fine xs -> runMethods C lower (map plainMethod ms) p w = (p', w', xs).
Proof.
  induction ms as [|m ms IH]; intros p w p' w' xs E F; cbn [map runMethods] in *; [exact E|]. unfold onOpen in *. destruct (wcall C lower m (wconf w) (ustate w)) as [st r] eqn:Em.
  destruct (runMethods C lower ms _ _) as [[p2 w2] ys] eqn:Er in E. injection E as <- <- <-. inversion F as [|? ? [x ->] F']; subst. rewrite (al_method m _ _ _ _ Em). rewrite (IH _ _ _ _ _ Er F'). reflexivity.
Qed.
Lemma al_openWriter a v cr b p p' w : openWriter C T a v cr b p = (p', Ok w) -> openWriter C T a v cr false p = (p', Ok w).
Proof.
  unfold openWriter. destruct (negb _); [discriminate|]. destruct (structureOf a (destOf p)) as [[zip sa]|]; [|discriminate]. cbv zeta. destruct zip.
  - match goal with |- match ?q with _ => _ end = _ -> _ => destruct q as [t|]; [|discriminate] end. destruct (initWriter C T _ b _) as [st [[]|e]] eqn:E; [|discriminate]. rewrite (al_init _ _ _ _ _ E). auto.
  - destruct (initWriter C T _ b _) as [st [[]|e]] eqn:E; [|discriminate]. rewrite (al_init _ _ _ _ _ E). auto.
Qed.
Lemma al_session path a s p p' xs : runSession C T lower path a s p = (p', xs) -> Forall fine xs -> runSession C T lower path a (plainSession s) p = (p', xs).
Proof.
  unfold runSession. cbn [plainSession sversion screator svalidate smethods]. destruct (openWriter C T a (sversion s) (screator s) (svalidate s) p) as [p1 [w|e]] eqn:E; [|intros H F; injection H as <- <-; inversion F as [|? ? [x X] _]; discriminate].
  rewrite (al_openWriter _ _ _ _ _ _ _ E). destruct (runMethods C lower (smethods s) p1 w) as [[p2 w2] ys] eqn:Em. destruct (closeWriter path p2 w2) as [[q w3] x] eqn:Ec. intros H F. injection H as <- <-. inversion F as [|? ? _ F']; subst. apply Forall_app in F' as [F' _].
  rewrite (al_methods _ _ _ _ _ _ Em F'). rewrite Ec. reflexivity.
Qed.
Lemma al_sessions path a ss : forall p q xss, runSessions C T lower path a ss p = (q, xss) -> Forall (Forall fine) xss -> runSessions C T lower path a (map plainSession ss) p = (q, xss).
Proof.
  induction ss as [|s ss IH]; intros p q xss E F; cbn [map runSessions] in *; [exact E|]. destruct (runSession C T lower path a s p) as [p1 xs] eqn:Es. destruct (runSessions C T lower path a ss p1) as [q' yss] eqn:Er. injection E as <- <-. inversion F; subst.
  erewrite al_session by eassumption. erewrite IH by eassumption. reflexivity.
Qed.
End Writers.

(** Sessions of writers, on packages and archives. *)
Theorem C94_sessions : forall C T lower path a ss p q results,
  runSessions C T lower path a ss p = (q, results) -> (forall rs r, In rs results -> In r rs -> exists x, r = Ok x) ->
  runSessions C T lower path a (map plainSession ss) p = (q, results).
Proof.
  intros C T lower path a ss p q results E F. apply al_sessions; [exact E|]. apply Forall_forall. intros rs I. apply Forall_forall. intros r J. exact (F rs r I J).
Qed.
Print Assumptions C94_sessions.
(** Readers. *)
Theorem C94_readers : forall C T conv perm v t,
  refuses UFOLibError (readMetaInfo C t true) (readMetaInfo C t false) /\
  refuses UFOLibError (Ufo.readLib C t true) (Ufo.readLib C t false) /\
  (forall f, refuses UFOLibError (Ufo.readImage v t f true) (Ufo.readImage v t f false)) /\
  refuses GlifLibError (readLayerInfo C T t true) (readLayerInfo C T t false) /\
  allows (getLayerNames C v t true) (getLayerNames C v t false) /\
  allows (getDefaultLayerName C v t true) (getDefaultLayerName C v t false) /\
  (forall n, allows (getGlyphSetR C v t n true) (getGlyphSetR C v t n false)) /\
  (forall data, allows (readInfo T perm v true data) (readInfo T perm v false data)) /\
  (forall info, allows (writeInfo T v true info) (writeInfo T v false info)) /\
  (forall steps, (forall r, In r (calls C conv v None steps) -> exists x, r = Ok x) -> calls C conv v None (unchecked steps) = calls C conv v None steps).
Proof.
  intros C T conv perm v t. split; [apply v_meta|]. split; [apply v_libR|]. split; [intro; apply v_imageR|]. split; [apply v_layerInfoR|]. split; [apply al_names|]. split; [apply al_default|]. split; [intro; apply al_getGlyphSetR|].
  split; [intro; apply al_readInfo|]. split; [intro; apply al_writeInfo|]. intros steps. apply al_calls.
Qed.
Print Assumptions C94_readers.
(** The listing of the images is the exception: with validation files that are no
    PNG images are left out silently (lines 723-729), while readImage refuses them. *)
Theorem C94_listing_refuted :
  let t := Dir [(nImages, Dir [(u "a.png", File [1%N])])] in
  getImageDirectoryListing 3 t true = Ok [] /\ getImageDirectoryListing 3 t false = Ok [u "a.png"].
Proof. split; reflexivity. Qed.
Theorem C94_listing : forall v t l, getImageDirectoryListing v t true = Ok l -> exists l', getImageDirectoryListing v t false = Ok l' /\ incl l l'.
Proof.
  intros v t l. unfold getImageDirectoryListing. destruct (v <? 3)%Z; [intro E; exists l; split; [exact E|apply incl_refl]|]. destruct (find t [nImages]) as [[b|es]|]; [discriminate| |intro E; exists l; split; [exact E|apply incl_refl]].
  intro E. injection E as <-. eexists. split; [reflexivity|]. intros f I. apply in_map_iff in I as ([k n] & <- & I). apply filter_In in I as [I N]. apply in_map_iff. exists (k, n). split; [reflexivity|]. apply filter_In. split; [exact I|]. destruct n; [reflexivity|discriminate].
Qed.
Print Assumptions C94_listing.

(** Documents and sessions that validation refuses, and that it does not. *)
Definition docTwice (outline : string) : bytes := u "<glyph name=""a"" format=""2""><outline>" ++ u outline ++ u "</outline></glyph>".
Example C94_case :
  (let rd validate s := readGlyphBytes toyText true true [1%Z; 2%Z] validate (docTwice s) in
   rd true "<component base='b'/>" = rd false "<component base='b'/>" /\ fine (rd true "<component base='b'/>") /\
   rd true "<component base='b' other='x'/>" = Err GlifLibError /\ rd false "<component base='b' other='x'/>" = rd false "<component base='b'/>") /\
  (let run v validate := runSessions zipC toyText ascii_lower (u "f.ufo") ANone
                   [mkSession 3 (PStr (u "x")) validate [Zip.WLib v validate; WGetGlyphSet None true validate; WLayerContents None validate];
                    mkSession 3 (PStr (u "x")) validate [WFeatures (PStr (u "f")) validate]] Nothing in
   let good := PDict [(PStr (u "k"), PInt 1)] in
   let bad := PDict [(PStr (u "public.glyphOrder"), PInt 1)] in
   run good true = run good false /\ snd (run good true) = [[Ok tt; Ok tt; Ok tt; Ok tt; Ok tt]; [Ok tt; Ok tt; Ok tt]] /\
   snd (run bad true) = [[Ok tt; Err UFOLibError; Ok tt; Ok tt; Ok tt]; [Ok tt; Ok tt; Ok tt]] /\ snd (run bad false) = snd (run good true)).
Proof. split; vm_compute; repeat split. eexists. reflexivity. Qed.
