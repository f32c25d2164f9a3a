(** GLIF files: what the validated GLIF 2 writer has written can be parsed and is
    read back. *)
From Coq Require Import String NArith ZArith Bool Lia List Permutation.
From Coq.Floats Require Import SpecFloat.
From Verif Require Import Base PyVal PyText FloatRepr Xml FS Ufo UfoProofs PropUfoFiles Plist PlistProofs PropPlist Etree EtreeProofs PropEtree PlistFiles Validators PointPen PropPointPen Glif GlifProofs GlifOutline GlifElements GlifRead.
Import ListNotations.
Local Open Scope string_scope.
Local Open Scope list_scope.

Local Notation isNum := GlifProofs.isNum.

Section Files.
Variable T : pytext.
Hypothesis LT : pytext_laws T.
Variable R : spec_float -> str.
Hypothesis LR : repr_laws T R.
Variable ro : pyval -> str.
Notation repr := (reprOf R ro).

(** ** The elements can be serialized *)
Definition fine (e : elem) : Prop := goodTree e /\ leafTexts e.
Lemma ascii_val s : ascii s -> valOk s.
Proof.
  intro A. split; [apply ascii_ok; exact A|]. intro I. unfold ascii in A. rewrite Forall_forall in A. specialize (A _ I). lia.
Qed.
Lemma strZ_ascii z : ascii (str_of_Z z).
Proof. apply Forall_forall. intros c I. apply str_of_Z_In in I. lia. Qed.
Lemma repr_val v : isNum v -> valOk (repr v).
Proof.
  intros [[z ->]|[f [-> D]]]; apply ascii_val; cbn [reprOf].
  - apply strZ_ascii.
  - apply Forall_forall. intros c J. apply (repr_chars T R LR) in J; [|assumption].
    assert (A : ascii (u "0123456789+-.einfa")) by (apply lit_ascii; reflexivity). unfold ascii in A. rewrite Forall_forall in A. apply A. exact J.
Qed.
Definition goodKey (k : str) : bool := isName k && negb (eqb k (u "xmlns")).
Lemma goodKey_name k : goodKey k = true -> attrName k.
Proof. unfold goodKey. intro H. apply andb_true_iff in H as [A B]. split; [exact A|]. intros ->. discriminate B. Qed.
Lemma fine_sub tag l : isName tag = true -> NoDup (map fst l) -> forallb goodKey (map fst l) = true -> (forall k s, In (k, s) l -> valOk s) -> fine (sub tag l).
Proof.
  intros N ND K V. split; [|constructor]. unfold sub. constructor; try assumption; try exact I; [|constructor]. apply Forall_forall. intros [k s] J. cbn [fst snd]. split; [|eapply V; exact J].
  apply goodKey_name. rewrite forallb_forall in K. apply K. apply (in_map fst) in J. exact J.
Qed.
Lemma fine_present tag l : isName tag = true -> nodupb (map fst l) = true -> forallb goodKey (map fst l) = true -> (forall k s, In (k, Some s) l -> valOk s) -> fine (sub tag (present l)).
Proof.
  intros N ND K V. apply fine_sub; [exact N|apply present_nodup; apply litNoDup; exact ND| |].
  - apply forallb_forall. intros k I. apply present_keys in I. rewrite forallb_forall in K. auto.
  - intros k s I. apply (V k). unfold present in I. apply in_flat_map in I as ([k' [s'|]] & I & J); cbn in J; [|destruct J]. destruct J as [J|[]]. inversion J; subst. exact I.
Qed.
Lemma advance_fine g l : writeAdvance R ro g true = Ok l -> numOrNone (getattr g (u "width")) -> numOrNone (getattr g (u "height")) -> Forall fine l.
Proof.
  intros W N1 N2. apply writeAdvance_inv in W. subst l. destruct (_ && _); [constructor|]. constructor; [|constructor]. apply fine_present; try reflexivity. intros k s [H|[H|[]]]; unfold advAttr in H; injection H as _ H.
  - destruct N2 as [E|N]; [rewrite E in H; discriminate H|]. destruct (zeroLike _); [discriminate H|]. injection H as <-. apply repr_val. exact N.
  - destruct N1 as [E|N]; [rewrite E in H; discriminate H|]. destruct (zeroLike _); [discriminate H|]. injection H as <-. apply repr_val. exact N.
Qed.
Lemma hex04_ascii z : ascii (hex04 z).
Proof.
  assert (H : forall c, hexC c -> (c = 10 \/ 32 <= c < 128)%N) by (intros c; unfold hexC; lia). unfold hex04, ascii. destruct (z <? 0)%Z.
  - constructor; [lia|]. destruct (hexStr_spec (Z.to_N (- z))) as (_ & F & N). destruct (zfill_hex 3 _ F N) as (_ & F' & _). eapply Forall_impl; [exact H|exact F'].
  - destruct (hexStr_spec (Z.to_N z)) as (_ & F & N). destruct (zfill_hex 4 _ F N) as (_ & F' & _). eapply Forall_impl; [exact H|exact F'].
Qed.
Lemma unicodes_fine zs : Forall fine (map unicodeElem zs).
Proof.
  apply Forall_forall. intros e I. apply in_map_iff in I as (z & <- & _). apply fine_sub; try reflexivity; [apply litNoDup; reflexivity|]. intros k s [H|[]]. injection H as _ <-. apply ascii_val. apply hex04_ascii.
Qed.
Lemma strip_sub sp s c : In c (strip sp s) -> In c s.
Proof.
  assert (L : forall s, In c (lstrip sp s) -> In c s) by (clear; induction s as [|d s IH]; intro H; [exact H|]; cbn [lstrip] in H; destruct (sp d); [right; apply IH; exact H|exact H]).
  unfold strip. intro H. rewrite <- in_rev in H. apply L in H. rewrite <- in_rev in H. apply L. exact H.
Qed.
Lemma note_fine g l : writeNote T g true = Ok l -> (forall s, getattr g (u "note") = PStr s -> textOk s) -> Forall fine l.
Proof.
  unfold writeNote. intros W H. destruct (truthy (getattr g (u "note"))); cbn [negb orb] in W; [|apply Ok_inj in W; subst; constructor].
  destruct (getattr g (u "note")) as [| | | |s| | | | | |]; try discriminate W. apply Ok_inj in W. subst l. specialize (H s eq_refl). destruct H as [H1 H2].
  constructor; [|constructor]. split; [|constructor]. constructor; try reflexivity; try constructor.
  - constructor; [unfold xmlCompat; lia|]. apply Forall_app. split; [|repeat constructor; unfold xmlCompat; lia]. apply Forall_forall. intros c I. apply strip_sub in I. rewrite Forall_forall in H1. auto.
  - intros [X|X]; [discriminate X|]. apply in_app_or in X as [X|[X|[]]]; [|discriminate X]. apply strip_sub in X. contradiction.
Qed.
Lemma image_fine g l : writeImage T R ro g 2 true = Ok l ->
  (forall k, In k (map fst transformationInfo) -> vhas k (getattr g (u "image")) = true -> isNum (vget k (getattr g (u "image")))) ->
  (forall k s, vget k (getattr g (u "image")) = PStr s -> valOk s) -> Forall fine l.
Proof.
  intros W N V. apply writeImage_inv in W as [[_ ->]|(_ & _ & ->)]; [constructor|]. constructor; [|constructor]. apply fine_present; try reflexivity. intros k s I. unfold imageAttrs in I. destruct I as [I|I].
  - unfold strAttr in I. injection I as _ I. destruct (vget (u "fileName") (getattr g (u "image"))) eqn:E; try discriminate I. injection I as <-. eapply V. exact E.
  - apply in_app_or in I as [I|[I|[]]].
    + apply in_map_iff in I as ([a d] & E & I). unfold imageAttr, imageNumber in E. cbn [fst snd] in E. injection E as <- E. destruct (py_eq _ _); [discriminate E|]. injection E as <-. apply repr_val.
      unfold defaultGet. destruct (vhas a (getattr g (u "image"))) eqn:Vh; [|left; eauto]. apply N; [apply (in_map fst) in I; exact I|exact Vh].
    + unfold strAttr in I. injection I as _ I. destruct (vget (u "color") (getattr g (u "image"))) eqn:E; try discriminate I. injection I as <-. eapply V. exact E.
Qed.
Definition strsOk (g : pyval) : Prop := forall k s, In k itemStrs -> vget k g = PStr s -> valOk s.
Lemma described_fine tag nums g : isName tag = true -> nodupb (nums ++ itemStrs) = true -> forallb goodKey (nums ++ itemStrs) = true -> numsOk nums g -> strsOk g ->
  fine (sub tag (present (map (numAttr R ro g) nums ++ map (strAttr g) itemStrs))).
Proof.
  intros Nt ND K N S. assert (E : map fst (map (numAttr R ro g) nums ++ map (strAttr g) itemStrs) = nums ++ itemStrs) by (rewrite map_app, !map_map; cbn; rewrite map_id; reflexivity).
  apply fine_present; rewrite ?E; try assumption. intros k s I. apply in_app_or in I as [I|I]; apply in_map_iff in I as (k' & H & I).
  - unfold numAttr in H. injection H as <- H. destruct (N k' I) as [X|X]; [rewrite X in H; discriminate H|]. rewrite (isNum_none _ X) in H. injection H as <-. apply repr_val. exact X.
  - unfold strAttr in H. injection H as <- H. destruct (vget k' g) eqn:X; try discriminate H. injection H as <-. eapply S; [exact I|exact X].
Qed.
Lemma guidelines_fine g ids ids' l : writeGuidelines T R ro g 2 true ids = Ok (l, ids') -> Forall (numsOk guideNums) (itemsOf' (getattr g (u "guidelines"))) -> Forall strsOk (itemsOf' (getattr g (u "guidelines"))) -> Forall fine l.
Proof.
  unfold writeGuidelines. cbn [Z.leb Z.compare Pos.compare Pos.compare_cont andb]. intros W N S. destruct (truthy (getattr g (u "guidelines"))) eqn:Tr; cbn [negb orb] in W; [|apply Ok_inj in W; injection W as <- _; constructor].
  destruct (guidelinesValidator T (getattr g (u "guidelines")) []) as [ok x] eqn:V. cbn [fst] in W. destruct ok; [|discriminate W]. apply uniq_fst in V as (gl & E & V). rewrite E in *. cbn [iterate bind itemsOf'] in *.
  clear E Tr V. revert ids l W. induction gl as [|h gl IH]; intros ids l W; cbn [writeLoop] in W; [apply Ok_inj in W; injection W as <- _; constructor|].
  apply bind_Ok in W as ((e & ids1) & W1 & W). apply bind_Ok in W as ((t & ids2) & W2 & W). apply Ok_inj in W. injection W as <- <-. apply writeGuideline_inv in W1 as (-> & _). inversion N; inversion S; subst. constructor; [|eapply IH; eassumption].
  apply described_fine; try reflexivity; assumption.
Qed.
Lemma anchors_fine g ids ids' l : writeAnchors T R ro g 2 true ids = Ok (l, ids') -> Forall (numsOk anchorNums) (itemsOf' (getattr g (u "anchors"))) -> Forall strsOk (itemsOf' (getattr g (u "anchors"))) -> Forall fine l.
Proof.
  unfold writeAnchors. cbn [Z.leb Z.compare Pos.compare Pos.compare_cont andb]. intros W N S. destruct (truthy (getattr g (u "anchors"))) eqn:Tr; cbn [negb orb] in W; [|apply Ok_inj in W; injection W as <- _; constructor].
  destruct (anchorsValidator T (getattr g (u "anchors")) []) as [ok x] eqn:V. cbn [fst] in W. destruct ok; [|discriminate W]. apply uniq_fst in V as (gl & E & V). rewrite E in *. cbn [iterate bind itemsOf'] in *.
  clear E Tr. revert ids l W. induction gl as [|h gl IH]; intros ids l W; cbn [writeLoop] in W; [apply Ok_inj in W; injection W as <- _; constructor|]. inversion V as [|? ? V1 V2]; subst.
  apply bind_Ok in W as ((e & ids1) & W1 & W). apply bind_Ok in W as ((t & ids2) & W2 & W). apply Ok_inj in W. injection W as <- <-. apply (writeAnchor_inv T) in W1 as (-> & _); [|exact V1]. inversion N; inversion S; subst. constructor; [|eapply IH; eassumption].
  apply described_fine; try reflexivity; assumption.
Qed.
(** *** Outlines *)
Definition pointClean (p : gpoint) : Prop := match pname p with Some n => valOk n | None => True end.
Definition itemClean (i : gitem) : Prop := match i with Contour _ _ _ _ pts => Forall pointClean pts | Component _ _ _ b _ _ => valOk b end.
Lemma identifier_val i : identifierOk i = true -> valOk i.
Proof.
  unfold identifierOk. destruct i as [|c s]; [discriminate|]. destruct (Nat.ltb _ _); [discriminate|]. intro H. apply ascii_val. apply Forall_forall. intros x I. rewrite forallb_forall in H. specialize (H x I).
  destruct (N.ltb_spec x 32), (N.ltb_spec 126 x); try discriminate H. lia.
Qed.
Lemma known_val t : known (Some t) -> valOk t.
Proof. intros [H|[H|[H|[H|H]]]]; try discriminate H; injection H as ->; apply ascii_val; apply lit_ascii; reflexivity. Qed.
Lemma point_fine p : numeric p -> (forall t, segType p = Some t -> valOk t) -> pointClean p -> (forall i, pid p = Some i -> identifierOk i = true) -> fine (pointElem R ro p).
Proof.
  intros (x & y & E & Nx & Ny) K C I.
  assert (H : pointElem R ro p = sub (u "point") (present [(u "x", Some (repr x)); (u "y", Some (repr y)); (u "type", segType p); (u "smooth", if psmooth p then Some (u "yes") else None); (u "name", pname p); (u "identifier", pid p)])).
  { unfold pointElem, present, idAttr. rewrite E. cbn [flat_map fst snd app]. destruct (segType p), (psmooth p), (pname p), (pid p); reflexivity. }
  rewrite H. apply fine_present; try reflexivity. intros k s J. unfold pointClean in C.
  destruct J as [J|[J|[J|[J|[J|[J|[]]]]]]]; injection J as _ J.
  - subst s. apply repr_val. exact Nx.
  - subst s. apply repr_val. exact Ny.
  - apply K. exact J.
  - destruct (psmooth p); [|discriminate J]. injection J as <-. apply ascii_val. apply lit_ascii. reflexivity.
  - rewrite J in C. exact C.
  - apply identifier_val. apply I. exact J.
Qed.
Lemma trans_attrs info : forall tr, NoDup (map fst info) -> Forall isNum (firstn (length info) tr) -> NoDup (map fst (transAttrs R ro info tr)) /\ forall k s, In (k, s) (transAttrs R ro info tr) -> valOk s.
Proof.
  induction info as [|[k d] info IH]; intros tr ND N; cbn [transAttrs]; [split; [constructor|intros ? ? []]|]. destruct tr as [|v tr]; [split; [constructor|intros ? ? []]|].
  cbn [map fst] in ND. inversion ND as [|? ? NI ND']; subst. cbn [length firstn] in N. inversion N as [|? ? Nv N']; subst. destruct (IH tr ND' N') as [A B]. destruct (py_eq v (PInt d)); cbn [app map fst]; [auto|]. split.
  - constructor; [|exact A]. intro X. apply transAttrs_keys in X. contradiction.
  - intros k' s [X|X]; [injection X as _ <-; apply repr_val; exact Nv|eapply B; exact X].
Qed.
Lemma nodup_app (l m : list str) : NoDup l -> NoDup m -> (forall x, In x l -> ~ In x m) -> NoDup (l ++ m).
Proof.
  intros A B D. induction A as [|x l Nx A IH]; [exact B|]. cbn [app]. constructor; [|apply IH; intros y I; apply D; right; exact I]. rewrite in_app_iff. intros [X|X]; [contradiction|]. apply (D x); [left; reflexivity|exact X].
Qed.
(** the types of points *)
Definition typesClean (i : gitem) : Prop := match i with Contour _ _ _ _ pts => Forall (fun p => forall t, segType p = Some t -> valOk t) pts | Component _ _ _ _ _ _ => True end.
Lemma rItem_types i : rItem' i -> typesClean i.
Proof. destruct i as [ident pts|b tr ident]; cbn; [|auto]. intros (Rp & _). eapply Forall_impl; [|exact Rp]. intros p (_ & K & _) t E. rewrite E in K. apply known_val. exact K. Qed.
Lemma item_fine0 i : numericItem i -> typesClean i -> itemClean i -> (forall s, In (Some s) (itemIds i) -> identifierOk s = true) -> fine (itemElem R ro i).
Proof.
  destruct i as [ident pts|b tr ident]; cbn [numericItem typesClean itemClean itemIds itemElem].
  - intros N Rp C I.
    assert (F : Forall fine (map (pointElem R ro) pts)).
    { apply Forall_forall. intros e J. apply in_map_iff in J as (p & <- & J). rewrite Forall_forall in N, Rp, C. apply point_fine; [auto|exact (Rp p J)|auto|]. intros s E. apply I. right. rewrite <- E. apply in_map. exact J. }
    split.
    + unfold contourElem. constructor; try reflexivity.
      * destruct ident; repeat constructor. intros [].
      * destruct ident as [s|]; [|constructor]. constructor; [|constructor]. cbn [fst snd]. split; [apply goodKey_name; reflexivity|]. apply identifier_val. apply I. left. reflexivity.
      * destruct pts; [|exact Logic.I]. apply ascii_ok. apply lit_ascii. reflexivity.
      * eapply Forall_impl; [|exact F]. intros e H. apply H.
    + unfold contourElem. destruct pts as [|p pts]; [constructor|]. constructor; [discriminate|]. eapply Forall_impl; [|exact F]. intros e H. apply H.
  - intros N _ C I. unfold componentElem. destruct (trans_attrs transformationInfo tr (litNoDup (map fst transformationInfo) eq_refl) N) as [ND V]. apply fine_sub; [reflexivity| | |].
    + cbn [map fst]. rewrite map_app. constructor.
      * rewrite in_app_iff. intros [X|X]; [apply transAttrs_keys in X; revert X; apply mem_nIn; reflexivity|]. destruct ident; [|destruct X]. destruct X as [X|[]]. vm_compute in X. discriminate X.
      * apply nodup_app; [exact ND|destruct ident; repeat constructor; intros []|]. intros k X Y. apply transAttrs_keys in X. destruct ident; [|destruct Y]. destruct Y as [<-|[]]. revert X. apply mem_nIn. reflexivity.
    + cbn [map fst]. rewrite map_app. cbn [forallb]. apply forallb_forall. intros k X. apply in_app_or in X as [X|X].
      * apply transAttrs_keys in X. revert k X. apply forallb_forall. reflexivity.
      * destruct ident; [|destruct X]. destruct X as [<-|[]]. reflexivity.
    + intros k s [X|X]; [injection X as _ <-; exact C|]. apply in_app_or in X as [X|X]; [eapply V; exact X|]. destruct ident; [|destruct X]. destruct X as [X|[]]. injection X as _ <-. apply identifier_val. apply I. left. reflexivity.
Qed.
Lemma item_fine i : numericItem i -> rItem' i -> itemClean i -> (forall s, In (Some s) (itemIds i) -> identifierOk s = true) -> fine (itemElem R ro i).
Proof. intros N Ri. apply item_fine0; [exact N|apply rItem_types; exact Ri]. Qed.
Lemma outline_fine g draw ids l : writeOutline T R ro g (option_map gdrawing draw) 2 true ids = Ok l ->
  match draw with Some items => Forall numericItem items /\ Forall typesClean items | None => True end ->
  match draw with Some items => Forall itemClean items | None => True end -> Forall fine l.
Proof.
  unfold writeOutline. destruct draw as [items|]; cbn [option_map].
  - intros W [N Ri] C. apply bind_Ok in W as (s & W1 & W). cbn [Z.eqb Pos.eqb andb] in W. cbn [bind] in W. apply Ok_inj in W. subst l.
    apply (pen_drawing R ro items) in W1 as (ids' & Wi & Is & ->). cbn [gOutline app]. apply idsSeq_fresh in Is as [_ Ok'].
    assert (F : Forall fine (map (itemElem R ro) items)).
    { apply Forall_forall. intros e J. apply in_map_iff in J as (i & <- & J). rewrite Forall_forall in N, Ri, C. apply item_fine0; auto. intros s I. apply Ok'. unfold somes. apply in_flat_map. exists (Some s). split; [|left; reflexivity].
      apply in_flat_map. exists i. auto. }
    constructor; [|constructor]. split.
    + constructor; try reflexivity; try constructor; [destruct items; [|exact I]; apply ascii_ok; apply lit_ascii; reflexivity|]. eapply Forall_impl; [|exact F]. intros e H. apply H.
    + destruct items as [|i0 items]; [constructor|]. constructor; [discriminate|]. eapply Forall_impl; [|exact F]. intros e H. apply H.
  - intros W _ _. apply Ok_inj in W. subst l. constructor.
Qed.
(** *** Lib *)
Lemma mk_leafTexts v : plistable v -> forall sk pr lv e, makeElement R sk pr lv v = Ok e -> leafTexts e.
Proof.
  assert (Nd : forall tag ch, Forall leafTexts ch -> leafTexts (node0 tag ch)) by (intros tag ch F; unfold node0; destruct ch; constructor; [discriminate|exact F]).
  induction v using pyval_ind'; intros P sk pr lv e E; inversion P; subst; try (cbn in E; inversion E; subst; destruct b; constructor); try (cbn in E; inversion E; subst; constructor).
  - cbn in E. destruct (_ && _); inversion E; subst. constructor.
  - rewrite mk_list in E. apply bind_Ok in E as (ch & M & E). inversion E; subst. apply Nd. apply mapM_Forall2 in M.
    clear E P. induction M as [|x y l ch Ey M IH]; [constructor|].
    inversion H as [|? ? Hx Hl]; subst. inversion H1 as [|? ? Px Pl]; subst. constructor; [eapply Hx; [exact Px|exact Ey]|]. apply IH; assumption.
  - rewrite mk_tuple in E. apply bind_Ok in E as (ch & M & E). inversion E; subst. apply Nd. apply mapM_Forall2 in M.
    clear E P. induction M as [|x y l ch Ey M IH]; [constructor|].
    inversion H as [|? ? Hx Hl]; subst. inversion H1 as [|? ? Px Pl]; subst. constructor; [eapply Hx; [exact Px|exact Ey]|]. apply IH; assumption.
  - rewrite mk_dict_str in E. apply bind_Ok in E as (ch & M & E). inversion E; subst. apply Nd.
    assert (K : forall it : list (str * pyval), (forall k x, In (k, x) it -> forall e, makeElement R sk pr (S lv) x = Ok e -> leafTexts e) ->
      forall ch, dictChildren (map (fun '(k, x) => (PStr k, makeElement R sk pr (S lv) x)) it) = Ok ch -> Forall leafTexts ch).
    { clear. induction it as [|[k x] it IH]; intros Hi ch M; cbn in M; [inversion M; constructor|]. apply bind_Ok in M as (e & Ee & M). apply bind_Ok in M as (t & Et & M). inversion M; subst.
      constructor; [constructor|]. constructor; [eapply Hi; [left; reflexivity|exact Ee]|]. apply IH; [intros; eapply Hi; [right; eassumption|assumption]|exact Et]. }
    apply (K (itemsOf sk m)); [|exact M]. intros k x J. apply (Permutation_in _ (itemsOf_perm sk m)) in J.
    assert (J' : In (PStr k, x) (map (fun '(k, x) => (PStr k, x)) m)) by (apply in_map_iff; exists (k, x); auto).
    rewrite Forall_forall in H. destruct (H _ J') as [_ Hv]. intros e0 Ee. eapply Hv; [|exact Ee]. rewrite Forall_forall in H2. apply (H2 (k, x) J).
Qed.
Lemma lib_fine g l : writeLib T R g true = Ok l -> (truthy (getattr g (u "lib")) = true -> plistable (getattr g (u "lib"))) -> textsOk (getattr g (u "lib")) -> Forall fine l.
Proof.
  unfold writeLib. intros W P Tx. destruct (truthy (getattr g (u "lib"))) eqn:Tr; cbn [negb] in W; [|apply Ok_inj in W; subst; constructor].
  apply bind_Ok in W as (ok & V & W). destruct ok; [|discriminate W]. destruct (is_dict (getattr g (u "lib"))); [|discriminate W]. apply bind_Ok in W as (e & E & W). apply Ok_inj in W. subst l. specialize (P eq_refl). unfold totree in E.
  constructor; [|constructor]. split.
  - constructor; try reflexivity; try exact I; try constructor; [|constructor]. eapply mk_good; [exact LR|exact P|exact Tx|exact E].
  - constructor; [discriminate|]. constructor; [|constructor]. eapply mk_leafTexts; [exact P|exact E].
Qed.
(** ** The whole file *)
Record cleanGlyph (name : str) (g : list (str * pyval)) (draw : option (list gitem)) : Prop := {
  cl_name : valOk name;
  cl_note : forall s, getattr g (u "note") = PStr s -> textOk s;
  cl_image : forall k s, vget k (getattr g (u "image")) = PStr s -> valOk s;
  cl_guidelines : Forall strsOk (itemsOf' (getattr g (u "guidelines")));
  cl_anchors : Forall strsOk (itemsOf' (getattr g (u "anchors")));
  cl_draw : match draw with Some items => Forall itemClean items | None => True end;
  cl_lib : textsOk (getattr g (u "lib")) }.
Lemma glyph_fine0 name g draw root : writeGlyphTree T R ro (PStr name) g (option_map gdrawing draw) 2 true = Ok root -> readable2 g None ->
  match draw with Some items => Forall numericItem items /\ Forall typesClean items | None => True end -> cleanGlyph name g draw ->
  fine root /\ etag root = u "glyph" /\ etextOf root = None /\ etail root = None.
Proof.
  intros W [Hw Hh Hi Hg Ha _ Hl] Hd [Cn Cno Ci Cg Ca Cd Cl]. unfold writeGlyphTree in W. cbn [is_str negb orb andb py_eq] in W. destruct (eqb_spec name (@nil N)) as [->|Nn]; cbn [negb] in W; [discriminate W|].
  cbn [attrStr bind] in W. apply bind_Ok in W as (adv & Wadv & W). apply bind_Ok in W as (uni & Wuni & W). apply bind_Ok in W as (note & Wnote & W). apply bind_Ok in W as (image & Wimage & W).
  apply bind_Ok in W as ((gl & ids1) & Wgl & W). apply bind_Ok in W as ((al & ids2) & Wal & W). apply bind_Ok in W as (outl & Wout & W). apply bind_Ok in W as (lib & Wlib & W). apply Ok_inj in W. subst root.
  assert (F : Forall fine (adv ++ uni ++ note ++ image ++ gl ++ al ++ outl ++ lib)).
  { rewrite !Forall_app. repeat split; [eapply advance_fine; eassumption|rewrite (writeUnicodes_inv ro _ _ Wuni); apply unicodes_fine|eapply note_fine; eassumption|eapply image_fine; eassumption|eapply guidelines_fine; eassumption|eapply anchors_fine; eassumption|eapply outline_fine; eassumption|eapply lib_fine; eassumption]. }
  split; [|repeat split; reflexivity]. split.
  - constructor; try reflexivity; try exact I; [apply litNoDup; reflexivity| |eapply Forall_impl; [|exact F]; intros e H; apply H].
    constructor; [split; [apply goodKey_name; reflexivity|exact Cn]|]. constructor; [|constructor]. split; [apply goodKey_name; reflexivity|]. apply ascii_val. apply strZ_ascii.
  - destruct (adv ++ uni ++ note ++ image ++ gl ++ al ++ outl ++ lib) as [|e l]; [constructor|]. constructor; [discriminate|]. eapply Forall_impl; [|exact F]. intros e' H. apply H.
Qed.
Theorem tree_bytes root : fine root -> etag root = u "glyph" -> etextOf root = None -> etail root = None ->
  exists b f, tostring T false true root = Ok b /\ like T root f /\ glifTree T (xmlDeclaration ++ [10%N] ++ b) = Ok f.
Proof.
  intros [G Lt] Tg Tx Tl.
  assert (Gf : goodTree (indent T 0 root)) by (apply indent_good; exact G).
  destruct (serialize_total _ Gf) as (s & Es).
  destruct (goodTree_encode _ s [] Gf Es ltac:(constructor)) as (b & Eb). cbn [app] in Eb.
  set (f := setTail None (norm (indent T 0 root))). exists b, f.
  assert (Pb : parseBytes ((xmlDeclaration ++ [10%N]) ++ b) = Ok f).
  { apply (parse_serialize (xmlDeclaration ++ [10%N]) _ s); [exact (prolog_decl true)|apply goodTree_plain; exact Gf|exact Es| |].
    - rewrite etail_indent, Tl. destruct (_ && _); reflexivity.
    - apply utf8_asciiH; [|exact Eb]. apply Forall_forall. intros c I. assert (H : forallb (fun c => (c <? 128)%N) (xmlDeclaration ++ [10%N]) = true) by reflexivity. rewrite forallb_forall in H. specialize (H c I). apply N.ltb_lt in H. exact H. }
  assert (Lk : like T root f) by (apply like_tail, respaced_like; [exact LT|exact Lt|apply indent_respaced]).
  split; [unfold tostring; rewrite Es; cbn [bind app]; rewrite Eb; reflexivity|]. split; [exact Lk|]. rewrite app_assoc. unfold glifTree. rewrite Pb. cbn [bind].
  inversion Lk as [tag at' text t1 t2 E1 E2|tag at' text' ch ch' t1 t2 NE B K E1 E2]; subst root; cbn [etag etextOf] in Tg, Tx; subst; cbn [etag etextOf]; [reflexivity|]. rewrite eqb_refl, B. reflexivity.
Qed.
Lemma glyph_fine name g draw root : writeGlyphTree T R ro (PStr name) g (option_map gdrawing draw) 2 true = Ok root -> readable2 g draw -> cleanGlyph name g draw ->
  fine root /\ etag root = u "glyph" /\ etextOf root = None /\ etail root = None.
Proof.
  intros W [Hw Hh Hi Hg Ha Hd Hl]. apply glyph_fine0; [exact W|constructor; try assumption; exact I|]. destruct draw as [items|]; [|exact I]. destruct Hd as [N Ri]. split; [exact N|]. eapply Forall_impl; [|exact Ri]. apply rItem_types.
Qed.
Theorem file_parsed name g draw root : writeGlyphTree T R ro (PStr name) g (option_map gdrawing draw) 2 true = Ok root -> readable2 g draw -> cleanGlyph name g draw ->
  exists b f, writeGlyphBytes T R ro (PStr name) g (option_map gdrawing draw) 2 true = Ok b /\ like T root f /\ glifTree T b = Ok f.
Proof.
  intros W Rd Cl. destruct (glyph_fine _ _ _ _ W Rd Cl) as (F & Tg & Tx & Tl). destruct (tree_bytes root F Tg Tx Tl) as (b & f & Eb & Lk & Gt).
  exists (xmlDeclaration ++ [10%N] ++ b), f. split; [|auto]. unfold writeGlyphBytes. rewrite W. cbn [bind]. rewrite Eb. reflexivity.
Qed.
Theorem file_round name g draw b : writeGlyphBytes T R ro (PStr name) g (option_map gdrawing draw) 2 true = Ok b -> readable2 g draw -> cleanGlyph name g draw ->
  exists r, readGlyphBytes T true true [1%Z; 2%Z] true b = Ok r /\ readBack T name g draw r.
Proof.
  intros W Rd Cl. assert (W' := W). unfold writeGlyphBytes in W'. apply bind_Ok in W' as (root & Wt & _). destruct (file_parsed _ _ _ _ Wt Rd Cl) as (b' & f & Wb & Lk & Gt). rewrite W in Wb. injection Wb as <-.
  unfold readGlyphBytes. rewrite Gt. cbn [bind]. eapply tree_round; eassumption.
Qed.
End Files.
