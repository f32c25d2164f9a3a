(** Property C110: a glyph read in parts.  readGlyph takes a glyph object and a
    point pen, and either may be left out. *)
From Coq Require Import String NArith ZArith Bool Lia List Permutation.
From Coq.Floats Require Import SpecFloat.
From Verif Require Import Base PyVal PyText Xml Plist Etree EtreeProofs Validators ValidatorsProofs PropValidators PropFontInfoAccepts PointPen Glif GlifProofs GlifOutline GlifElements GlifRead GlifAccepted FloatRepr PropGlif.
Import ListNotations.
Local Open Scope string_scope.
Local Open Scope list_scope.

(** * The statement *)
(** the identifiers of what has been drawn, and those of the guidelines and anchors
    given to the glyph object *)
Definition drawnIds (r : greading) : list str := given (map callId (rcalls r)).
Definition objectIds (r : greading) : list str :=
  given (map itemId (listed (attr (rattrs r) "guidelines")) ++ map itemId (listed (attr (rattrs r) "anchors"))).

(** * Proofs *)
Section Parts.
Variable T : pytext.
(** a state in which everything is read, from one in which the glyph object is read
    and one in which the outline is *)
Definition merge (so sp : gstate) : gstate :=
  mkG (sadvance so) (simage so) (soutline so) (slib so) (snote so) (sunicodes so) (sguidelines so) (sanchors so) (sids sp)
    (mkReading (rattrs (sread so)) (rcalls (sread sp))).
Definition objState (s : gstate) : Prop := sids s = [] /\ rcalls (sread s) = [].
Definition penState (s : gstate) : Prop :=
  sunicodes s = [] /\ sguidelines s = [] /\ sanchors s = [] /\ rattrs (sread s) = [] /\ sids s = rev (given (map callId (rcalls (sread s)))).
Definition states (so sp : gstate) : Prop := objState so /\ penState sp /\ soutline so = soutline sp.

(** functions that only set attributes *)
Definition attrOnly (f : greading -> res greading) : Prop :=
  forall a c, f (mkReading a c) = do r <- f (mkReading a []); Ok (mkReading (rattrs r) c).
Definition noCalls (f : greading -> res greading) : Prop := forall a r, f (mkReading a []) = Ok r -> rcalls r = [].
Lemma advance_attr e : attrOnly (readAdvance T e) /\ noCalls (readAdvance T e).
Proof. split; intros a c; unfold readAdvance; destruct (numberOr T 0 (eget (u "width") e)); cbn [bind]; try reflexivity; try discriminate; destruct (numberOr T 0 (eget (u "height") e)); cbn [bind]; try reflexivity; try discriminate. intro H. injection H as <-. reflexivity. Qed.
Lemma note_attr e : attrOnly (readNote T e) /\ noCalls (readNote T e).
Proof. split; intros a c; unfold readNote; destruct (etextOf e) as [[x|x]|]; try reflexivity; try discriminate. intro H. injection H as <-. reflexivity. Qed.
Lemma lib_attr v e : attrOnly (readLib T v e) /\ noCalls (readLib T v e).
Proof.
  split; intros a c; unfold readLib; destruct (echildren e) as [|x [|]]; try reflexivity; try discriminate; destruct (fromtree T x) as [pl|]; cbn [bind]; try reflexivity; try discriminate; destruct (if v then glyphLibValidator T pl else Ok true) as [[]|]; cbn [bind]; try reflexivity; try discriminate. intro H. injection H as <-. reflexivity.
Qed.
Lemma image_attr v e : attrOnly (readImage T v e) /\ noCalls (readImage T v e).
Proof.
  split; intros a c; unfold readImage; destruct (imageNumbers T transformationInfo e (attribDict e)) as [d|]; cbn [bind]; try reflexivity; try discriminate; destruct (negb v || imageValidator T (toPDict d)); try reflexivity; try discriminate. intro H. injection H as <-. reflexivity.
Qed.
Lemma withRead_merge f so sp : attrOnly f -> noCalls f -> states so sp ->
  withRead f (merge so sp) = (do s <- withRead f so; Ok (merge s sp)) /\
  (forall s, withRead f so = Ok s -> states s sp).
Proof.
  intros A N ((I & C) & P & O). unfold withRead. cbn [merge sread sadvance simage soutline slib snote sunicodes sguidelines sanchors sids].
  destruct (sread so) as [a c] eqn:Es. cbn [rcalls rattrs] in *. subst c. split.
  - rewrite A. destruct (f (mkReading a [])); reflexivity.
  - intros s H. apply bind_Ok in H as (r & H & E). apply Ok_inj in E. subst s. apply N in H. repeat split; cbn; try assumption; apply P.
Qed.
Lemma seen_merge so sp : states so sp ->
  (seenAdvance (merge so sp) = merge (seenAdvance so) sp /\ states (seenAdvance so) sp) /\
  (seenImage (merge so sp) = merge (seenImage so) sp /\ states (seenImage so) sp) /\
  (seenLib (merge so sp) = merge (seenLib so) sp /\ states (seenLib so) sp) /\
  (seenNote (merge so sp) = merge (seenNote so) sp /\ states (seenNote so) sp).
Proof. intros (O & P & E). unfold states. tauto. Qed.

(** an element other than outline *)
Lemma common_merge v e so sp : states so sp ->
  match commonElement T v e (merge so sp), commonElement T v e so with
  | Some r, Some r' => r = (do s <- r'; Ok (merge s sp)) /\ (forall s, r' = Ok s -> states s sp)
  | None, None => True
  | _, _ => False
  end.
Proof.
  intros H. destruct (seen_merge so sp H) as ((Ea & Ha) & _ & (El & Hl) & (En & Hn)). unfold commonElement.
  destruct (eqb (etag e) (u "advance")).
  { cbn [merge sadvance]. fold (merge so sp). destruct (negb (v && sadvance so)); [|split; [reflexivity|discriminate]]. rewrite Ea. apply withRead_merge; [apply advance_attr|apply advance_attr|exact Ha]. }
  destruct (eqb (etag e) (u "unicode")).
  { cbn [merge sunicodes]. destruct (readUnicode T e (sunicodes so)) as [us|]; cbn [bind]; [|split; [reflexivity|discriminate]]. split; [reflexivity|]. intros s E. apply Ok_inj in E. subst s. exact H. }
  destruct (eqb (etag e) (u "note")).
  { cbn [merge snote]. fold (merge so sp). destruct (negb (v && snote so)); [|split; [reflexivity|discriminate]]. rewrite En. apply withRead_merge; [apply note_attr|apply note_attr|exact Hn]. }
  destruct (eqb (etag e) (u "lib")).
  { cbn [merge slib]. fold (merge so sp). destruct (negb (v && slib so)); [|split; [reflexivity|discriminate]]. rewrite El. apply withRead_merge; [apply lib_attr|apply lib_attr|exact Hl]. }
  exact I.
Qed.

(** ** Outlines *)
Lemma outline1_nopen v l an cs : outlineLoop1 T true v l = Ok (an, cs) -> outlineLoop1 T false v l = Ok (an, []).
Proof.
  revert an cs. induction l as [|e l IH]; intros an cs; cbn [outlineLoop1]; [intro H; apply Ok_inj in H; injection H as <- _; reflexivity|].
  destruct (eqb (etag e) (u "contour")).
  - destruct (match echildren e with [p] => if eqb (etag p) (u "point") then buildAnchor1 T v p else Ok None | _ => Ok None end) as [[a|]|]; cbn [bind]; [| |discriminate].
    + intro H. apply bind_Ok in H as ((an' & cs') & H & E). apply Ok_inj in E. injection E as <- <-. rewrite (IH _ _ H). reflexivity.
    + intro H. apply bind_Ok in H as (c1 & _ & H). apply bind_Ok in H as ((an' & cs') & H & E). apply Ok_inj in E. injection E as <- <-. rewrite (IH _ _ H). reflexivity.
  - destruct (eqb (etag e) (u "component")); [|discriminate].
    intro H. apply bind_Ok in H as (c1 & _ & H). apply bind_Ok in H as ((an' & cs') & H & E). apply Ok_inj in E. injection E as <- <-. cbn [bind]. rewrite (IH _ _ H). reflexivity.
Qed.
Lemma outline1_false v l an cs : outlineLoop1 T false v l = Ok (an, cs) -> cs = [].
Proof.
  revert an cs. induction l as [|e l IH]; intros an cs; cbn [outlineLoop1]; [intro H; apply Ok_inj in H; injection H as _ <-; reflexivity|].
  destruct (eqb (etag e) (u "contour")).
  - destruct (match echildren e with [p] => if eqb (etag p) (u "point") then buildAnchor1 T v p else Ok None | _ => Ok None end) as [[a|]|]; cbn [bind]; [| |discriminate];
      intro H; apply bind_Ok in H as ((an' & cs') & H & E); apply Ok_inj in E; injection E as <- <-; exact (IH _ _ H).
  - destruct (eqb (etag e) (u "component")); [|discriminate]. cbn [bind].
    intro H; apply bind_Ok in H as ((an' & cs') & H & E); apply Ok_inj in E; injection E as <- <-; exact (IH _ _ H).
Qed.
Lemma given_map_app cs cs' : given (map callId (cs ++ cs')) = given (map callId cs) ++ given (map callId cs').
Proof. rewrite map_app. unfold given. apply flat_map_app. Qed.
Lemma outline1_ids v l an cs : outlineLoop1 T true v l = Ok (an, cs) -> given (map callId cs) = [].
Proof.
  assert (K : forall e c, contour1 T v e = Ok c -> given (map callId c) = []).
  { intros e c H. unfold contour1 in H. destruct (negb v || Nat.eqb (length (eattrib e)) 0); [|discriminate]. apply bind_Ok in H as (pts & _ & E). apply Ok_inj in E. subst c. cbn [map callId theId given flat_map app]. fold (given (map callId (map pointCall1 pts ++ [PEnd]))). rewrite given_map_app. cbn. rewrite app_nil_r. induction pts as [|p pts IH]; [reflexivity|exact IH]. }
  assert (K' : forall e c, component1 T v e = Ok c -> given (map callId c) = []).
  { intros e c H. unfold component1 in H. repeat match type of H with (if ?b then _ else _) = _ => destruct b; [|discriminate H] end. apply bind_Ok in H as (tr & _ & H). destruct (eget (u "base") e); [|discriminate]. apply Ok_inj in H. subst c. reflexivity. }
  revert an cs. induction l as [|e l IH]; intros an cs; cbn [outlineLoop1]; [intro H; apply Ok_inj in H; injection H as _ <-; reflexivity|].
  destruct (eqb (etag e) (u "contour")).
  - destruct (match echildren e with [p] => if eqb (etag p) (u "point") then buildAnchor1 T v p else Ok None | _ => Ok None end) as [[a|]|]; cbn [bind]; [| |discriminate].
    + intro H. apply bind_Ok in H as ((an' & cs') & H & E). apply Ok_inj in E. injection E as <- <-. exact (IH _ _ H).
    + intro H. apply bind_Ok in H as (c1 & H1 & H). apply bind_Ok in H as ((an' & cs') & H & E). apply Ok_inj in E. injection E as <- <-. rewrite given_map_app, (IH _ _ H), (K _ _ H1). reflexivity.
  - destruct (eqb (etag e) (u "component")); [|discriminate].
    intro H. apply bind_Ok in H as (c1 & H1 & H). apply bind_Ok in H as ((an' & cs') & H & E). apply Ok_inj in E. injection E as <- <-. rewrite given_map_app, (IH _ _ H), (K' _ _ H1). reflexivity.
Qed.
Lemma readIdentifier_ids v i ids ids' : readIdentifier v i ids = Ok ids' -> ids' = rev (given [i]) ++ ids.
Proof. destruct i as [i|]; cbn [readIdentifier]; [|intro H; apply Ok_inj in H; subst; reflexivity]. destruct (negb (v && mem i ids)); [|discriminate]. destruct (negb v || identifierOk i); [|discriminate]. intro H. apply Ok_inj in H. subst. reflexivity. Qed.
Lemma points2_ids v l : forall ids cs ids', points2 v l ids = Ok (cs, ids') -> ids' = rev (given (map callId cs)) ++ ids.
Proof.
  induction l as [|m l IH]; intros ids cs ids'; cbn [points2]; [intro H; apply Ok_inj in H; injection H as <- <-; reflexivity|].
  intro H. apply bind_Ok in H as (i1 & H1 & H). apply bind_Ok in H as ((t & i2) & H2 & E). apply Ok_inj in E. injection E as <- <-. apply readIdentifier_ids in H1. apply IH in H2. subst.
  change (PAdd ?p :: t) with ([PAdd p] ++ t). rewrite given_map_app, rev_app_distr, <- app_assoc. reflexivity.
Qed.
Lemma outline2_ids v l : forall ids cs ids', outlineLoop2 T v l ids = Ok (cs, ids') -> ids' = rev (given (map callId cs)) ++ ids.
Proof.
  induction l as [|e l IH]; intros ids cs ids'; cbn [outlineLoop2]; [intro H; apply Ok_inj in H; injection H as <- <-; reflexivity|].
  intro H. apply bind_Ok in H as ((c1 & i1) & H1 & H). apply bind_Ok in H as ((t & i2) & H2 & E). apply Ok_inj in E. injection E as <- <-. apply IH in H2. subst i2.
  rewrite given_map_app, rev_app_distr, <- app_assoc. f_equal.
  destruct (eqb (etag e) (u "contour")).
  - unfold contour2 in H1. destruct (negb v || forallb (fun a => eqb a (u "identifier")) (map fst (eattrib e))); [|discriminate]. apply bind_Ok in H1 as (j1 & A & H1). apply bind_Ok in H1 as (pts & _ & H1). apply bind_Ok in H1 as ((c2 & j2) & B & E). apply Ok_inj in E. injection E as <- <-.
    apply readIdentifier_ids in A. apply points2_ids in B. subst. change (PBegin ?i :: c2 ++ [PEnd]) with ([PBegin i] ++ c2 ++ [PEnd]). rewrite !given_map_app, !rev_app_distr, <- !app_assoc. reflexivity.
  - destruct (eqb (etag e) (u "component")); [|discriminate]. unfold component2 in H1. repeat match type of H1 with (if ?b then _ else _) = _ => destruct b; [|discriminate H1] end.
    apply bind_Ok in H1 as (tr & _ & H1). apply bind_Ok in H1 as (j1 & A & H1). destruct (eget (u "base") e); [|discriminate]. apply Ok_inj in H1. injection H1 as <- <-. apply readIdentifier_ids in A. exact A.
Qed.

(** ** One element *)
Definition stepOk (f : bool -> bool -> gstate -> elem -> res gstate) : Prop := forall e so sp, states so sp ->
  (forall s, f true true (merge so sp) e = Ok s -> exists so' sp', f true false so e = Ok so' /\ f false true sp e = Ok sp' /\ s = merge so' sp' /\ states so' sp') /\
  (forall so' sp', f true false so e = Ok so' -> f false true sp e = Ok sp' -> f true true (merge so sp) e = Ok (merge so' sp') /\ states so' sp').
Lemma elsewhere (r r' : res gstate) sp : r = (do s <- r'; Ok (merge s sp)) -> (forall s, r' = Ok s -> states s sp) ->
  (forall s, r = Ok s -> exists so' sp', r' = Ok so' /\ Ok sp = Ok sp' /\ s = merge so' sp' /\ states so' sp') /\
  (forall so' sp', r' = Ok so' -> Ok sp = Ok sp' -> r = Ok (merge so' sp') /\ states so' sp').
Proof.
  intros E S'. split.
  - intros s H. rewrite E in H. apply bind_Ok in H as (s' & H & X). apply Ok_inj in X. subst s. exists s', sp. repeat split; try assumption; apply (S' _ H).
  - intros so' sp' H X. apply Ok_inj in X. subst sp'. rewrite E, H. split; [reflexivity|apply S'; exact H].
Qed.
Lemma step1 v : stepOk (fun obj pen => element1 T obj pen v).
Proof.
  intros e so sp H. unfold element1. destruct (eqb (etag e) (u "outline")).
  - destruct H as ((I & C) & (P1 & P2 & P3 & P4 & P5) & O).
    assert (E1 : outlineOk T v e (merge so sp) = outlineOk T v e so) by reflexivity. assert (E2 : outlineOk T v e sp = outlineOk T v e so) by (unfold outlineOk; rewrite O; reflexivity). rewrite E1, E2.
    destruct (outlineOk T v e so); [|split; discriminate]. unfold withRead, buildOutline1. cbn [merge seenOutline sread sadvance simage soutline slib snote sunicodes sguidelines sanchors sids].
    destruct (sread so) as [ao co] eqn:Eo. destruct (sread sp) as [ap cp] eqn:Ep. cbn [rcalls rattrs] in *. subst co ap.
    assert (S' : forall an cs a, outlineLoop1 T true v (echildren e) = Ok (an, cs) ->
      states (mkG (sadvance so) (simage so) true (slib so) (snote so) (sunicodes so) (sguidelines so) (sanchors so) (sids so) (mkReading a []))
        (mkG (sadvance sp) (simage sp) true (slib sp) (snote sp) (sunicodes sp) (sguidelines sp) (sanchors sp) (sids sp) (mkReading [] (cp ++ cs)))).
    { intros an cs a L. repeat split; cbn; try assumption. rewrite given_map_app, (outline1_ids _ _ _ _ L), app_nil_r. exact P5. }
    destruct (outlineLoop1 T true v (echildren e)) as [[an cs]|] eqn:L; cbn [bind].
    + rewrite (outline1_nopen _ _ _ _ L). cbn [bind]. unfold draws, setattr. cbn [rattrs rcalls app].
      destruct an as [|a an].
      * cbn [bind]. split.
        -- intros s X. apply Ok_inj in X. subst s. do 2 eexists. split; [reflexivity|]. split; [reflexivity|]. split; [reflexivity|]. eapply S'. reflexivity.
        -- intros so' sp' X Y. apply Ok_inj in X, Y. subst. split; [reflexivity|]. eapply S'. reflexivity.
      * destruct (negb v || fst (anchorsValidator T (PList (a :: an)) [])); cbn [bind]; [|split; discriminate]. split.
        -- intros s X. apply Ok_inj in X. subst s. do 2 eexists. split; [reflexivity|]. split; [reflexivity|]. split; [reflexivity|]. eapply S'. reflexivity.
        -- intros so' sp' X Y. apply Ok_inj in X, Y. subst. split; [reflexivity|]. eapply S'. reflexivity.
    + split; discriminate.
  - cbn [negb]. pose proof (common_merge v e so sp H) as K. destruct (commonElement T v e (merge so sp)), (commonElement T v e so); try contradiction; [apply elsewhere; apply K|split; discriminate].
Qed.
Lemma step2 v : stepOk (fun obj pen => element2 T obj pen v).
Proof.
  intros e so sp H. unfold element2. destruct (eqb (etag e) (u "outline")).
  - destruct H as ((I & C) & (P1 & P2 & P3 & P4 & P5) & O).
    assert (E1 : outlineOk T v e (merge so sp) = outlineOk T v e so) by reflexivity. assert (E2 : outlineOk T v e sp = outlineOk T v e so) by (unfold outlineOk; rewrite O; reflexivity). rewrite E1, E2.
    destruct (outlineOk T v e so); [|split; discriminate]. cbn [merge seenOutline sread sadvance simage soutline slib snote sunicodes sguidelines sanchors sids].
    destruct (outlineLoop2 T v (echildren e) (sids sp)) as [[cs ids]|] eqn:L; cbn [bind]; [|split; discriminate].
    assert (S' : states (seenOutline so) (mkG (sadvance sp) (simage sp) true (slib sp) (snote sp) (sunicodes sp) (sguidelines sp) (sanchors sp) ids (draws cs (sread sp)))).
    { apply outline2_ids in L. repeat split; cbn; try assumption. rewrite given_map_app, rev_app_distr, <- P5. exact L. }
    split.
    + intros s X. apply Ok_inj in X. subst s. do 2 eexists. split; [reflexivity|]. split; [reflexivity|]. split; [reflexivity|]. exact S'.
    + intros so' sp' X Y. apply Ok_inj in X, Y. subst. split; [reflexivity|]. exact S'.
  - cbn [negb]. pose proof (common_merge v e so sp H) as K. destruct (commonElement T v e (merge so sp)), (commonElement T v e so); try contradiction; [apply elsewhere; apply K|]. clear K.
    destruct (eqb (etag e) (u "guideline")).
    { apply elsewhere; destruct (negb v || Nat.eqb (length (echildren e)) 0); try reflexivity; try discriminate; destruct (attribNumbers T [u "x"; u "y"; u "angle"] e (attribDict e)); try reflexivity; try discriminate. intros s E. apply Ok_inj in E. subst s. exact H. }
    destruct (eqb (etag e) (u "anchor")).
    { apply elsewhere; destruct (negb v || Nat.eqb (length (echildren e)) 0); try reflexivity; try discriminate; destruct (attribNumbers T [u "x"; u "y"] e (attribDict e)); try reflexivity; try discriminate. intros s E. apply Ok_inj in E. subst s. exact H. }
    destruct (eqb (etag e) (u "image")); [|split; discriminate].
    destruct (seen_merge so sp H) as (_ & (Ei & Hi) & _). cbn [merge simage]. fold (merge so sp). rewrite Ei.
    destruct (withRead_merge (readImage T v e) (seenImage so) sp (proj1 (image_attr v e)) (proj2 (image_attr v e)) Hi) as (A & B).
    apply elsewhere; destruct (negb (v && simage so)); try reflexivity; try discriminate; destruct (negb v || Nat.eqb (length (echildren e)) 0); try reflexivity; try discriminate; assumption.
Qed.
Lemma steps f l : stepOk f -> forall so sp, states so sp ->
  (forall s, foldM (f true true) (merge so sp) l = Ok s -> exists so' sp', foldM (f true false) so l = Ok so' /\ foldM (f false true) sp l = Ok sp' /\ s = merge so' sp' /\ states so' sp') /\
  (forall so' sp', foldM (f true false) so l = Ok so' -> foldM (f false true) sp l = Ok sp' -> foldM (f true true) (merge so sp) l = Ok (merge so' sp') /\ states so' sp').
Proof.
  intro F. induction l as [|e l IH]; intros so sp H; cbn [foldM].
  - split; [intros s E; apply Ok_inj in E; subst s; exists so, sp; auto|]. intros so' sp' A B. apply Ok_inj in A, B. subst. auto.
  - destruct (F e so sp H) as (F1 & F2). split.
    + intros s E. apply bind_Ok in E as (s1 & E1 & E). apply F1 in E1 as (so1 & sp1 & A & B & -> & S1). destruct (IH so1 sp1 S1) as (IH1 & _). apply IH1 in E as (so2 & sp2 & C & D & R). exists so2, sp2. rewrite A, B. cbn [bind]. auto.
    + intros so' sp' A B. apply bind_Ok in A as (so1 & A1 & A). apply bind_Ok in B as (sp1 & B1 & B). destruct (F2 _ _ A1 B1) as (E & S1). rewrite E. cbn [bind]. destruct (IH so1 sp1 S1) as (_ & IH2). apply IH2; assumption.
Qed.

(** ** The end of the reading *)
Lemma unique_split V l ids extra ids' : uniqueLoop V l (ids ++ extra) = (true, ids') <->
  exists i1, uniqueLoop V l ids = (true, i1) /\ ids' = i1 ++ extra /\ (forall i, In i (given (map itemId l)) -> ~ In i extra).
Proof.
  rewrite uniqueLoop_iff, fresh_iff. change (somes (map gid l)) with (given (map itemId l)). split.
  - intros (A & -> & N & D). exists (rev (given (map itemId l)) ++ ids). rewrite uniqueLoop_iff, fresh_iff. change (somes (map gid l)) with (given (map itemId l)). repeat split; try assumption.
    + intros i I X. apply (D i I). apply in_or_app. auto.
    + rewrite app_assoc. reflexivity.
    + intros i I X. apply (D i I). apply in_or_app. auto.
  - intros (i1 & U & -> & D). apply uniqueLoop_iff in U as (A & U). apply fresh_iff in U as (-> & N & D'). change (somes (map gid l)) with (given (map itemId l)) in *. rewrite app_assoc. repeat split; try assumption.
    intros i I X. apply in_app_or in X as [X|X]; [exact (D' i I X)|exact (D i I X)].
Qed.
Definition finishFrom (v : bool) (g a : list pyval) (ids : list str) (r : greading) : res greading :=
  do (r, ids) <- match g with
                 | [] => Ok (r, ids)
                 | l =>
                   let '(ok, ids') := guidelinesValidator T (PList l) ids in
                   check (negb v || ok) else GlifLibError;
                   Ok (setattr (u "guidelines") (PList l) r, if v then ids' else ids)
                 end;
  match a with
  | [] => Ok r
  | l =>
    check (negb v || fst (anchorsValidator T (PList l) ids)) else GlifLibError;
    Ok (setattr (u "anchors") (PList l) r)
  end.
Definition withUnicodes (us : list Z) (a : list (str * pyval)) : list (str * pyval) :=
  match us with [] => a | _ => set (u "unicodes") (PList (map PInt us)) a end.
Definition withLast (g an : list pyval) (a : list (str * pyval)) : list (str * pyval) :=
  let a := match g with [] => a | _ => set (u "guidelines") (PList g) a end in
  match an with [] => a | _ => set (u "anchors") (PList an) a end.
Definition finalAttrs (s : gstate) : list (str * pyval) :=
  withLast (sguidelines s) (sanchors s) (withUnicodes (sunicodes s) (rattrs (sread s))).
(** the validators accept the guidelines and anchors when the identifiers [ids] are
    used already *)
Definition lastOk (v : bool) (g a : list pyval) (ids : list str) : Prop :=
  v = true -> exists i1 i2, uniqueLoop (guidelineValidator T) g ids = (true, i1) /\ uniqueLoop (anchorValidator T) a i1 = (true, i2).
Lemma finishFrom_iff v g a ids x r : finishFrom v g a ids x = Ok r <-> lastOk v g a ids /\ r = mkReading (withLast g a (rattrs x)) (rcalls x).
Proof.
  unfold finishFrom, lastOk, withLast, setattr. destruct x as [at0 cl].
  cbn [guidelinesValidator anchorsValidator rattrs rcalls]. destruct v; cbn [negb orb].
  - assert (G : forall R : Prop, (true = true -> R) <-> R) by (intro; split; auto). rewrite G. clear G.
    destruct g as [|g gs]; destruct a as [|a as_].
    + cbn [bind uniqueLoop]. split; [intro H; apply Ok_inj in H; subst; split; [do 2 eexists; split; reflexivity|reflexivity]|intros (_ & ->); reflexivity].
    + cbn [bind rattrs rcalls]. change (uniqueLoop (guidelineValidator T) [] ids) with (true, ids). destruct (uniqueLoop (anchorValidator T) (a :: as_) ids) as [[] i2] eqn:E; cbn [fst].
      * split; [intro H; apply Ok_inj in H; subst; split; [exists ids, i2; auto|reflexivity]|intros (_ & ->); reflexivity].
      * split; [discriminate|]. intros ((i & j & A & B) & _). injection A as <-. congruence.
    + destruct (uniqueLoop (guidelineValidator T) (g :: gs) ids) as [[] i1] eqn:E.
      * cbn [bind uniqueLoop]. split; [intro H; apply Ok_inj in H; subst; split; [exists i1, i1; auto|reflexivity]|intros (_ & ->); reflexivity].
      * split; [discriminate|]. intros ((i & j & A & B) & _). discriminate A.
    + destruct (uniqueLoop (guidelineValidator T) (g :: gs) ids) as [[] i1] eqn:E.
      * cbn [bind rattrs rcalls]. destruct (uniqueLoop (anchorValidator T) (a :: as_) i1) as [[] i2] eqn:E'; cbn [fst].
        -- split; [intro H; apply Ok_inj in H; subst; split; [exists i1, i2; auto|reflexivity]|intros (_ & ->); reflexivity].
        -- split; [discriminate|]. intros ((i & j & A & B) & _). injection A as <-. congruence.
      * split; [discriminate|]. intros ((i & j & A & B) & _). discriminate A.
  - assert (G : forall R Q : Prop, ((false = true -> R) /\ Q) <-> Q) by (intros; split; [tauto|intro; split; [discriminate|assumption]]). rewrite G. clear G.
    destruct g as [|g gs]; destruct a as [|a as_]; cbn [bind rattrs rcalls]; try (destruct (uniqueLoop (guidelineValidator T) (g :: gs) ids); cbn [bind rattrs rcalls]);
      (split; [intro H; apply Ok_inj in H; auto|intros ->; reflexivity]).
Qed.
Lemma format2_iff obj pen v tree r : readFormat2 T obj pen v tree = Ok r <->
  exists n s, readName obj v tree (mkReading [] []) = Ok n /\ foldM (element2 T obj pen v) (startState n) (echildren tree) = Ok s /\
    lastOk v (sguidelines s) (sanchors s) (sids s) /\ r = mkReading (finalAttrs s) (rcalls (sread s)).
Proof.
  assert (K : forall s, finishFrom v (sguidelines s) (sanchors s) (sids s) (setUnicodes s (sread s)) = Ok r <-> lastOk v (sguidelines s) (sanchors s) (sids s) /\ r = mkReading (finalAttrs s) (rcalls (sread s))).
  { intro s. rewrite finishFrom_iff. unfold finalAttrs, setUnicodes, setattr. destruct (sunicodes s); reflexivity. }
  unfold readFormat2. split.
  - intro H. apply bind_Ok in H as (n & N & H). apply bind_Ok in H as (s & F & H). exists n, s. split; [exact N|]. split; [exact F|]. apply K. unfold finishFrom. destruct (sguidelines s); destruct (sanchors s); exact H.
  - intros (n & s & N & F & H). rewrite N. cbn [bind]. rewrite F. cbn [bind]. apply K in H. unfold finishFrom in H. destruct (sguidelines s); destruct (sanchors s); exact H.
Qed.
Lemma format1_iff obj pen v tree r : readFormat1 T obj pen v tree = Ok r <->
  exists n s, readName obj v tree (mkReading [] []) = Ok n /\ foldM (element1 T obj pen v) (startState n) (echildren tree) = Ok s /\
    r = mkReading (withUnicodes (sunicodes s) (rattrs (sread s))) (rcalls (sread s)).
Proof.
  assert (K : forall s, setUnicodes s (sread s) = mkReading (withUnicodes (sunicodes s) (rattrs (sread s))) (rcalls (sread s))) by (intro s; unfold setUnicodes, setattr, withUnicodes; destruct (sunicodes s); [destruct (sread s)|]; reflexivity).
  unfold readFormat1. split.
  - intro H. apply bind_Ok in H as (n & N & H). apply bind_Ok in H as (s & F & H). apply Ok_inj in H. exists n, s. rewrite <- K. auto.
  - intros (n & s & N & F & ->). rewrite N. cbn [bind]. rewrite F. cbn [bind]. rewrite K. reflexivity.
Qed.
Lemma name_parts v tree :
  match readName true v tree (mkReading [] []), readName false v tree (mkReading [] []) with
  | Ok n, Ok m => m = mkReading [] [] /\ states (startState n) (startState m) /\ merge (startState n) (startState m) = startState n
  | Err _, Err _ => True
  | _, _ => False
  end.
Proof.
  unfold readName, setattr. cbn [rattrs rcalls]. destruct (eget (u "name") tree) as [[|c x]|]; try (destruct (negb v)); repeat split.
Qed.

(** ** The attributes and calls of each part *)
Definition keeps (P : greading -> Prop) (f : greading -> res greading) : Prop := forall r r', P r -> f r = Ok r' -> P r'.
Lemma withRead_keeps P f s s' : keeps P f -> P (sread s) -> withRead f s = Ok s' -> P (sread s').
Proof. intros K H E. apply bind_Ok in E as (r & E & X). apply Ok_inj in X. subst s'. exact (K _ _ H E). Qed.
(** [P] holds after the attributes named are set *)
Definition keepsAttr (P : greading -> Prop) (k : string) : Prop := forall v r, P r -> P (setattr (u k) v r).
Lemma common_keeps P v e s s' : (forall k, In k ["width"; "height"; "note"; "lib"; "image"] -> keepsAttr P k) -> P (sread s) -> commonElement T v e s = Some (Ok s') -> P (sread s').
Proof.
  intros K H E. unfold commonElement in E.
  destruct (eqb (etag e) (u "advance")).
  { injection E as E. destruct (negb (v && sadvance s)); [|discriminate E]. refine (withRead_keeps P _ (seenAdvance s) s' _ H E). intros r r' Pr R. unfold readAdvance in R. apply bind_Ok in R as (w & _ & R). apply bind_Ok in R as (h & _ & R). apply Ok_inj in R. subst r'. apply K; [right; left; reflexivity|]. apply K; [left; reflexivity|]. exact Pr. }
  destruct (eqb (etag e) (u "unicode")).
  { injection E as E. apply bind_Ok in E as (us & _ & E). apply Ok_inj in E. subst s'. exact H. }
  destruct (eqb (etag e) (u "note")).
  { injection E as E. destruct (negb (v && snote s)); [|discriminate E]. refine (withRead_keeps P _ (seenNote s) s' _ H E). intros r r' Pr R. unfold readNote in R. destruct (etextOf e) as [[x|x]|]; try discriminate R. apply Ok_inj in R. subst r'. apply K; [do 2 right; left; reflexivity|]. exact Pr. }
  destruct (eqb (etag e) (u "lib")); [|discriminate E].
  injection E as E. destruct (negb (v && slib s)); [|discriminate E]. refine (withRead_keeps P _ (seenLib s) s' _ H E). intros r r' Pr R. unfold readLib in R. destruct (echildren e) as [|x [|]]; try discriminate R. apply bind_Ok in R as (pl & _ & R). apply bind_Ok in R as (ok & _ & R). destruct ok; [|discriminate R]. apply Ok_inj in R. subst r'. apply K; [do 3 right; left; reflexivity|]. exact Pr.
Qed.
Lemma element2_keeps P pen v e s s' : (forall k, In k ["width"; "height"; "note"; "lib"; "image"] -> keepsAttr P k) -> (pen = true -> forall cs r, P r -> P (draws cs r)) ->
  P (sread s) -> element2 T true pen v s e = Ok s' -> P (sread s').
Proof.
  intros K D H E. unfold element2 in E. destruct (eqb (etag e) (u "outline")).
  { destruct (outlineOk T v e s); [|discriminate E]. destruct pen; [|apply Ok_inj in E; subst s'; exact H]. apply bind_Ok in E as ((cs & ids) & _ & E). apply Ok_inj in E. subst s'. apply D; [reflexivity|exact H]. }
  cbn [negb] in E. destruct (commonElement T v e s) as [x|] eqn:C; [subst x; exact (common_keeps P v e s s' K H C)|].
  destruct (eqb (etag e) (u "guideline")); [destruct (negb v || Nat.eqb (length (echildren e)) 0); [|discriminate E]; apply bind_Ok in E as (d & _ & E); apply Ok_inj in E; subst s'; exact H|].
  destruct (eqb (etag e) (u "anchor")); [destruct (negb v || Nat.eqb (length (echildren e)) 0); [|discriminate E]; apply bind_Ok in E as (d & _ & E); apply Ok_inj in E; subst s'; exact H|].
  destruct (eqb (etag e) (u "image")); [|discriminate E]. destruct (negb (v && simage s)); [|discriminate E]. destruct (negb v || Nat.eqb (length (echildren e)) 0); [|discriminate E].
  refine (withRead_keeps P _ (seenImage s) s' _ H E). intros r r' Pr R. unfold readImage in R. apply bind_Ok in R as (d & _ & R). destruct (negb v || imageValidator T (toPDict d)); [|discriminate R]. apply Ok_inj in R. subst r'. apply K; [do 4 right; left; reflexivity|]. exact Pr.
Qed.
Lemma element1_keeps P pen v e s s' : (forall k, In k ["width"; "height"; "note"; "lib"; "image"] -> keepsAttr P k) -> keepsAttr P "anchors" -> (forall cs r, (pen = false -> cs = []) -> P r -> P (draws cs r)) ->
  P (sread s) -> element1 T true pen v s e = Ok s' -> P (sread s').
Proof.
  intros K KA D H E. unfold element1 in E. destruct (eqb (etag e) (u "outline")).
  { destruct (outlineOk T v e s); [|discriminate E]. refine (withRead_keeps P _ (seenOutline s) s' _ H E). intros r r' Pr R. unfold buildOutline1 in R. apply bind_Ok in R as ((an & cs) & L & R).
    assert (Dr : P (draws cs r)) by (apply D; [|exact Pr]; intro X; subst pen; exact (outline1_false _ _ _ _ L)).
    destruct an as [|a an]; [apply Ok_inj in R; subst r'; exact Dr|]. destruct (negb v || fst (anchorsValidator T (PList (a :: an)) [])); [|discriminate R]. apply Ok_inj in R. subst r'. apply KA. exact Dr. }
  cbn [negb] in E. destruct (commonElement T v e s) as [x|] eqn:C; [subst x; exact (common_keeps P v e s s' K H C)|discriminate E].
Qed.
Lemma fold_keeps (Q : gstate -> Prop) (f : gstate -> elem -> res gstate) l : (forall s e s', Q s -> f s e = Ok s' -> Q s') -> forall s s', Q s -> foldM f s l = Ok s' -> Q s'.
Proof. intro F. induction l as [|e l IH]; intros s s' H E; cbn [foldM] in E; [apply Ok_inj in E; subst; exact H|]. apply bind_Ok in E as (s1 & E1 & E). exact (IH _ _ (F _ _ _ H E1) E). Qed.
Lemma name_inv obj v tree n : readName obj v tree (mkReading [] []) = Ok n -> rcalls n = [] /\ (obj = false -> rattrs n = []) /\ get (u "guidelines") (rattrs n) = None /\ get (u "anchors") (rattrs n) = None.
Proof.
  unfold readName, setattr. cbn [rattrs rcalls]. destruct (eget (u "name") tree) as [[|c x]|]; [destruct (negb v); [|discriminate]| |destruct (negb v); [|discriminate]]; intro H; apply Ok_inj in H; subst n; try (repeat split; fail). destruct obj; repeat split; discriminate.
Qed.
(** without a glyph object no attributes, without a pen no calls *)
Lemma no_object pen v tree r : readFormat1 T false pen v tree = Ok r \/ readFormat2 T false pen v tree = Ok r -> rattrs r = [].
Proof.
  set (Q := fun s => rattrs (sread s) = [] /\ sunicodes s = [] /\ sguidelines s = [] /\ sanchors s = []).
  assert (Q0 : forall n, readName false v tree (mkReading [] []) = Ok n -> Q (startState n)) by (intros n N; destruct (name_inv _ _ _ _ N) as (_ & A & _); repeat split; cbn; auto).
  intros [H|H].
  - apply format1_iff in H as (n & s & N & F & ->). assert (K : Q s).
    { refine (fold_keeps Q _ _ _ _ _ (Q0 _ N) F). intros s1 e s2 (A & B & C & D) E. unfold element1 in E. destruct (eqb (etag e) (u "outline")); [|apply Ok_inj in E; subst s2; repeat split; assumption]. destruct (outlineOk T v e s1); [|discriminate E].
      apply bind_Ok in E as (r & R & E). apply Ok_inj in E. subst s2. repeat split; cbn; try assumption. apply bind_Ok in R as ((an & cs) & _ & R). destruct an; apply Ok_inj in R; subst r; exact A. }
    destruct K as (A & B & _). cbn [rattrs]. rewrite A, B. reflexivity.
  - apply format2_iff in H as (n & s & N & F & _ & ->). assert (K : Q s).
    { refine (fold_keeps Q _ _ _ _ _ (Q0 _ N) F). intros s1 e s2 (A & B & C & D) E. unfold element2 in E. destruct (eqb (etag e) (u "outline")); [|apply Ok_inj in E; subst s2; repeat split; assumption]. destruct (outlineOk T v e s1); [|discriminate E].
      destruct pen; [|apply Ok_inj in E; subst s2; repeat split; assumption]. apply bind_Ok in E as ((cs & ids) & R & E). apply Ok_inj in E. subst s2. repeat split; cbn; assumption. }
    destruct K as (A & B & C & D). cbn [rattrs]. unfold finalAttrs. rewrite A, B, C, D. reflexivity.
Qed.
Lemma no_pen obj v tree r : readFormat1 T obj false v tree = Ok r \/ readFormat2 T obj false v tree = Ok r -> rcalls r = [].
Proof.
  set (Q := fun s => rcalls (sread s) = []).
  assert (Q0 : forall n, readName obj v tree (mkReading [] []) = Ok n -> Q (startState n)) by (intros n N; destruct (name_inv _ _ _ _ N) as (A & _); exact A).
  intros [H|H].
  - apply format1_iff in H as (n & s & N & F & ->). refine (fold_keeps Q _ _ _ _ _ (Q0 _ N) F). intros s1 e s2 A E. destruct obj.
    + refine (element1_keeps (fun r => rcalls r = []) false v e s1 s2 _ _ _ A E); [intros k _ w r X; exact X|intros w r X; exact X|]. intros cs r X Y. cbn. rewrite (X eq_refl), Y. reflexivity.
    + unfold element1 in E. destruct (eqb (etag e) (u "outline")); [|apply Ok_inj in E; subst s2; exact A]. destruct (outlineOk T v e s1); [|discriminate E]. apply bind_Ok in E as (r & R & E). apply Ok_inj in E. subst s2. apply bind_Ok in R as ((an & cs) & L & R). apply outline1_false in L. subst cs. unfold Q. destruct an; apply Ok_inj in R; subst r; cbn; rewrite app_nil_r; exact A.
  - apply format2_iff in H as (n & s & N & F & _ & ->). refine (fold_keeps Q _ _ _ _ _ (Q0 _ N) F). intros s1 e s2 A E. destruct obj.
    + refine (element2_keeps (fun r => rcalls r = []) false v e s1 s2 _ _ A E); [intros k _ w r X; exact X|discriminate].
    + unfold element2 in E. destruct (eqb (etag e) (u "outline")); [|apply Ok_inj in E; subst s2; exact A]. destruct (outlineOk T v e s1); [|discriminate E]. apply Ok_inj in E. subst s2. exact A.
Qed.

(** ** A whole glyph *)
Lemma parts1 v tree r : readFormat1 T true true v tree = Ok r <->
  readFormat1 T true false v tree = Ok (mkReading (rattrs r) []) /\ readFormat1 T false true v tree = Ok (mkReading [] (rcalls r)) /\
  (v = true -> forall i, In i (drawnIds r) -> ~ In i (objectIds r)).
Proof.
  pose proof (name_parts v tree) as NP. split.
  - intro H. apply format1_iff in H as (n & s & N & F & ->). rewrite N in NP. destruct (readName false v tree (mkReading [] [])) as [m|] eqn:M; [|contradiction]. destruct NP as (-> & S' & E). rewrite <- E in F.
    destruct (proj1 (steps _ (echildren tree) (step1 v) _ _ S') s F) as (so & sp & A & B & -> & ((O1 & O2) & (P1 & P2 & P3 & P4 & P5) & _)). cbn [merge sunicodes sread rattrs rcalls]. split; [|split].
    + apply format1_iff. exists n, so. split; [exact N|]. split; [exact A|]. rewrite O2. reflexivity.
    + apply format1_iff. exists (mkReading [] []), sp. split; [exact M|]. split; [exact B|]. rewrite P1, P4. reflexivity.
    + intros _ i I. exfalso. unfold drawnIds in I. cbn [rcalls] in I. assert (K : sids sp = []).
      { refine (fold_keeps (fun s => sids s = []) _ _ _ _ _ _ B); [|reflexivity]. intros s1 e s2 X Y. unfold element1 in Y. destruct (eqb (etag e) (u "outline")); [|apply Ok_inj in Y; subst s2; exact X]. destruct (outlineOk T v e s1); [|discriminate Y]. apply bind_Ok in Y as (q & _ & Y). apply Ok_inj in Y. subst s2. exact X. }
      rewrite K in P5. apply in_rev in I. rewrite <- P5 in I. exact I.
  - intros (A & B & _). destruct r as [ra rc]. cbn [rattrs rcalls] in *. apply format1_iff in A as (n & so & N & FA & EA). apply format1_iff in B as (m & sp & M & FB & EB). rewrite N, M in NP. destruct NP as (-> & S' & E).
    destruct (proj2 (steps _ (echildren tree) (step1 v) _ _ S') so sp FA FB) as (F & _). apply format1_iff. exists n, (merge so sp). split; [exact N|]. split; [rewrite <- E; exact F|].
    cbn [merge sunicodes sread rattrs rcalls]. injection EA as EA _. injection EB as _ EB. rewrite <- EA, <- EB. reflexivity.
Qed.
Lemma objectIds_final s c : get (u "guidelines") (rattrs (sread s)) = None -> get (u "anchors") (rattrs (sread s)) = None ->
  objectIds (mkReading (finalAttrs s) c) = given (map itemId (sguidelines s)) ++ given (map itemId (sanchors s)).
Proof.
  intros G A. unfold objectIds. cbn [rattrs]. unfold given at 1. rewrite flat_map_app. fold (given (map itemId (listed (attr (finalAttrs s) "guidelines")))). fold (given (map itemId (listed (attr (finalAttrs s) "anchors")))). unfold finalAttrs, withLast, attr.
  assert (G' : get (u "guidelines") (withUnicodes (sunicodes s) (rattrs (sread s))) = None) by (unfold withUnicodes; destruct (sunicodes s); [exact G|]; rewrite get_set_other; [exact G|discriminate]).
  assert (A' : get (u "anchors") (withUnicodes (sunicodes s) (rattrs (sread s))) = None) by (unfold withUnicodes; destruct (sunicodes s); [exact A|]; rewrite get_set_other; [exact A|discriminate]).
  destruct (sguidelines s) as [|g gs], (sanchors s) as [|a as_].
  - rewrite G', A'. reflexivity.
  - rewrite get_set_same, get_set_other by discriminate. rewrite G'. reflexivity.
  - rewrite get_set_same, get_set_other by discriminate. rewrite A'. reflexivity.
  - rewrite get_set_other by discriminate. rewrite !get_set_same. reflexivity.
Qed.
Lemma lastOk_parts v g a ids : lastOk v g a ids <-> lastOk v g a [] /\ (v = true -> forall i, In i ids -> ~ In i (given (map itemId g) ++ given (map itemId a))).
Proof.
  unfold lastOk. destruct v; [|split; [split; discriminate|discriminate]]. split.
  - intro H. destruct (H eq_refl) as (i1 & i2 & G & A). change ids with ([] ++ ids) in G. apply unique_split in G as (j1 & G & -> & D). apply unique_split in A as (j2 & A & -> & D'). split; [eauto|]. intros _ i I X. apply in_app_or in X as [X|X]; [exact (D i X I)|exact (D' i X I)].
  - intros (H & D) _. destruct (H eq_refl) as (i1 & i2 & G & A). exists (i1 ++ ids), (i2 ++ ids). split.
    + change ids with ([] ++ ids) at 1. apply unique_split. exists i1. repeat split; try assumption. intros i X I. exact (D eq_refl i I (in_or_app _ _ _ (or_introl X))).
    + apply unique_split. exists i2. repeat split; try assumption. intros i X I. exact (D eq_refl i I (in_or_app _ _ _ (or_intror X))).
Qed.
Lemma noLast v n tree so : readName true v tree (mkReading [] []) = Ok n -> foldM (element2 T true false v) (startState n) (echildren tree) = Ok so ->
  get (u "guidelines") (rattrs (sread so)) = None /\ get (u "anchors") (rattrs (sread so)) = None.
Proof.
  intros N F. refine (fold_keeps (fun s => get (u "guidelines") (rattrs (sread s)) = None /\ get (u "anchors") (rattrs (sread s)) = None) _ _ _ _ _ _ F); [|apply (name_inv _ _ _ _ N)].
  intros s e s' H E. refine (element2_keeps (fun r => get (u "guidelines") (rattrs r) = None /\ get (u "anchors") (rattrs r) = None) false v e s s' _ _ H E); [|discriminate].
  intros k I w r (A & B). cbn [setattr rattrs]. assert (u k <> u "guidelines" /\ u k <> u "anchors") as (X & Y) by (cbn [In] in I; repeat destruct I as [<-|I]; try contradiction; split; discriminate). rewrite !get_set_other by congruence. auto.
Qed.
Lemma parts2 v tree r : readFormat2 T true true v tree = Ok r <->
  readFormat2 T true false v tree = Ok (mkReading (rattrs r) []) /\ readFormat2 T false true v tree = Ok (mkReading [] (rcalls r)) /\
  (v = true -> forall i, In i (drawnIds r) -> ~ In i (objectIds r)).
Proof.
  pose proof (name_parts v tree) as NP. split.
  - intro H. apply format2_iff in H as (n & s & N & F & L & ->). rewrite N in NP. destruct (readName false v tree (mkReading [] [])) as [m|] eqn:M; [|contradiction]. destruct NP as (-> & S' & E). rewrite <- E in F.
    destruct (proj1 (steps _ (echildren tree) (step2 v) _ _ S') s F) as (so & sp & A & B & -> & ((O1 & O2) & (P1 & P2 & P3 & P4 & P5) & _)). cbn [merge sids sguidelines sanchors] in L. apply lastOk_parts in L as (L & D).
    change (finalAttrs (merge so sp)) with (finalAttrs so). cbn [merge sread rattrs rcalls]. split; [|split].
    + apply format2_iff. exists n, so. split; [exact N|]. split; [exact A|]. rewrite O1, O2. auto.
    + apply format2_iff. exists (mkReading [] []), sp. split; [exact M|]. split; [exact B|]. unfold finalAttrs. rewrite P1, P2, P3, P4. split; [|reflexivity]. intros _. do 2 eexists. split; reflexivity.
    + intros V i I. destruct (noLast _ _ _ _ N A) as (G1 & G2). rewrite (objectIds_final so _ G1 G2). apply (D V). rewrite P5. apply in_rev in I. exact I.
  - intros (A & B & D). destruct r as [ra rc]. cbn [rattrs rcalls] in *. apply format2_iff in A as (n & so & N & FA & LA & EA). apply format2_iff in B as (m & sp & M & FB & LB & EB). rewrite N, M in NP. destruct NP as (-> & S' & E).
    destruct (proj2 (steps _ (echildren tree) (step2 v) _ _ S') so sp FA FB) as (F & ((O1 & O2) & (P1 & P2 & P3 & P4 & P5) & _)). apply format2_iff. exists n, (merge so sp). split; [exact N|]. split; [rewrite <- E; exact F|].
    change (finalAttrs (merge so sp)) with (finalAttrs so). cbn [merge sids sguidelines sanchors sread rattrs rcalls]. injection EA as EA _. injection EB as _ EB. split; [|rewrite <- EA, <- EB; reflexivity].
    apply lastOk_parts. rewrite O1 in LA. split; [exact LA|]. intros V i I. destruct (noLast _ _ _ _ N FA) as (G1 & G2). specialize (D V i). rewrite EA, (objectIds_final so _ G1 G2) in D. apply D. unfold drawnIds. cbn [rcalls]. rewrite EB. apply in_rev. rewrite <- P5. exact I.
Qed.
End Parts.

(** * C110 *)
(** What readGlyph gives to the glyph object and what it draws do not depend on
    whether the other is asked for; the whole document is accepted exactly if each
    part is and, when validating, no identifier of the outline is that of a
    guideline or anchor. *)
Theorem C110_parts : forall T formats validate b r,
  readGlyphBytes T true true formats validate b = Ok r <->
  readGlyphBytes T true false formats validate b = Ok (mkReading (rattrs r) []) /\
  readGlyphBytes T false true formats validate b = Ok (mkReading [] (rcalls r)) /\
  (validate = true -> forall i, In i (drawnIds r) -> ~ In i (objectIds r)).
Proof.
  intros T formats v b r. unfold readGlyphBytes. destruct (glifTree T b) as [tree|]; cbn [bind]; [|split; [discriminate|intros (H & _); discriminate H]].
  unfold readGlyphTree. destruct (eget (u "format") tree) as [s|]; [|destruct v; (split; [discriminate|intros (H & _); discriminate H])].
  destruct (negb v || match parseInt T s with Some z => mem z formats | None => false end); [|split; [discriminate|intros (H & _); discriminate H]].
  destruct (parseInt T s) as [[|[[]|[]|]|]|]; try (split; [discriminate|intros (H & _); discriminate H]); [apply parts2|apply parts1].
Qed.
Print Assumptions C110_parts.
(** without a glyph object nothing is set, and without a pen nothing is drawn *)
Theorem C110_left_out : forall T obj pen formats validate b r,
  readGlyphBytes T obj pen formats validate b = Ok r ->
  (obj = false -> rattrs r = []) /\ (pen = false -> rcalls r = []).
Proof.
  intros T obj pen formats v b r H. unfold readGlyphBytes in H. apply bind_Ok in H as (tree & _ & H). unfold readGlyphTree in H. destruct (eget (u "format") tree) as [s|]; [|destruct v; discriminate H].
  destruct (negb v || match parseInt T s with Some z => mem z formats | None => false end); [|discriminate H].
  assert (K : readFormat1 T obj pen v tree = Ok r \/ readFormat2 T obj pen v tree = Ok r) by (destruct (parseInt T s) as [[|[[]|[]|]|]|]; try discriminate H; auto).
  split; intros ->; [exact (no_object _ _ _ _ _ K)|exact (no_pen _ _ _ _ _ K)].
Qed.
Print Assumptions C110_left_out.
Definition partsOf (d : str) : list (res (nat * nat)) :=
  map (fun '(o, p) => match readGlyphBytes toyText o p [1%Z; 2%Z] true d with Ok r => Ok (length (rattrs r), length (rcalls r)) | Err e => Err e end) [(true, true); (true, false); (false, true); (false, false)].
(** a point with the identifier of the guideline is only seen when both are read *)
Example C110_case :
  partsOf (docIds "x" "y" "z") = [Ok (2%nat, 3%nat); Ok (2%nat, 0%nat); Ok (0%nat, 3%nat); Ok (0%nat, 0%nat)] /\
  partsOf (docIds "x" "y" "x") = [Err GlifLibError; Ok (2%nat, 0%nat); Ok (0%nat, 3%nat); Ok (0%nat, 0%nat)] /\
  partsOf (docIds "x" "y" "y") = [Err GlifLibError; Ok (2%nat, 0%nat); Err GlifLibError; Ok (0%nat, 0%nat)].
Proof. vm_compute. auto. Qed.
