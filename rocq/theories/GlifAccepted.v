(** What the validated GLIF reader makes sure of, for both formats. *)
From Coq Require Import String NArith ZArith Bool Lia List Permutation.
From Coq.Floats Require Import SpecFloat.
From Verif Require Import Base PyVal PyText FloatRepr Xml FS Ufo UfoProofs PropUfoFiles Plist PlistProofs PropPlist Etree EtreeProofs PropEtree PlistFiles Validators PointPen PropPointPen Glif GlifProofs GlifOutline GlifElements GlifRead GlifFiles.
Import ListNotations.
Local Open Scope string_scope.
Local Open Scope list_scope.

Local Notation isNum := GlifProofs.isNum.
Local Notation walk := Plist.walk.
Local Notation draws := Glif.draws.

(** a call with the identifier passed explicitly *)
Definition asPassed (c : gcall) : gcall :=
  match c with
  | PBegin i => PBegin (Some (theId i))
  | PAdd p => PAdd (mkPoint (pc p) (ptype p) (psmooth p) (pname p) (Some (theId (pkw p))))
  | PEnd => PEnd
  | PComponent b t i => PComponent b t (Some (theId i))
  end.
Lemma asPassed_fold R ro v cs : forall s, foldM (penStep R ro 2 v) s (map asPassed cs) = foldM (penStep R ro 2 v) s cs.
Proof.
  assert (H : forall s c, penStep R ro 2 v s (asPassed c) = penStep R ro 2 v s c) by (intros s [ | | | ]; reflexivity).
  induction cs as [|c cs IH]; intro s; [reflexivity|]. cbn [map foldM]. rewrite H. destruct (penStep R ro 2 v s c); cbn [bind]; [apply IH|reflexivity].
Qed.
Lemma asPassed_drawing items : Forall isPassed items -> map asPassed (gdrawing items) = gdrawing items.
Proof.
  induction 1 as [|i items P F IH]; [reflexivity|]. unfold drawing in *. cbn [flat_map]. rewrite map_app, IH. f_equal. destruct i as [ident pts|b t ident]; cbn [callsOf map asPassed]; [|reflexivity]. f_equal. rewrite map_app. f_equal.
  rewrite map_map. apply map_ext_in. intros p I. cbn [asPassed]. cbn [isPassed] in P. assert (E : passed p = p) by (clear - P I; induction pts as [|q pts IH]; [destruct I|]; cbn [map] in P; injection P as P1 P2; destruct I as [->|I]; auto).
  rewrite <- E at 6. rewrite <- E. unfold passed. cbn [pc ptype psmooth pname pkw theId]. f_equal. f_equal. unfold segType at 1 2. cbn [ptype]. destruct (eqb_spec (segType p) (Some (u "offcurve"))) as [X|X]; [destruct (segType_not_off _ X)|reflexivity].
Qed.

Section Accepted.
Variable T : pytext.
Hypothesis LT : pytext_laws T.
Variable R : spec_float -> str.
Hypothesis LR : repr_laws T R.

(** a dictionary made of the attributes of an element, some of them as numbers *)
Definition itemLike (nums : list str) (v : pyval) : Prop := (forall k, In k nums -> numOrNone (vget k v)) /\ (forall k, ~ In k nums -> strOrNone (vget k v)).
Lemma attribNumbers_like nums e d : attribNumbers T nums e (attribDict e) = Ok d -> itemLike nums (toPDict d).
Proof.
  intro H. assert (Hk : forall k, eget k e <> None -> In k (keys (attribDict e))).
  { intros k N. rewrite keys_attribDict. unfold eget in N. destruct (get k (eattrib e)) eqn:E; [|contradiction]. apply get_In in E. apply (in_map fst) in E. exact E. }
  assert (Nm : forall names d0 d, attribNumbers T names e d0 = Ok d -> forall k s, In k names -> eget k e = Some s -> exists v, number T (Some s) = Ok v).
  { clear. induction names as [|a names IH]; intros d0 d H k s I E; [destruct I|]. cbn [attribNumbers] in H. destruct I as [->|I].
    - rewrite E in H. apply bind_Ok in H as (v & Hv & _). eauto.
    - destruct (eget a e); [apply bind_Ok in H as (v & _ & H)|]; eapply IH; eassumption. }
  specialize (Nm _ _ _ H). destruct (attribNumbers_spec T e nums _ _ Hk H) as [_ G]. split; intros k I; rewrite vget_toPDict, G, get_attribDict.
  - rewrite (proj2 (mem_In k nums) I). destruct (eget k e) as [s|] eqn:E; cbn [option_map]; [|left; reflexivity]. destruct (Nm k s I E) as (v & Ev). rewrite Ev. right. eapply number_num; eassumption.
  - rewrite (proj2 (mem_nIn k nums) I). destruct (eget k e); cbn [option_map]; [right; eauto|left; reflexivity].
Qed.

(** the image that was read *)
Definition imageOk (v : pyval) : Prop := imageValidator T v = true /\ is_dict v = true /\ forall k, In k (map fst transformationInfo) -> isNum (vget k v).
Lemma imageNumbers_num e info : forall d0 d, imageNumbers T info e d0 = Ok d -> forall k, (In k (map fst info) -> exists v, get k d = Some v /\ isNum v) /\ (~ In k (map fst info) -> get k d = get k d0).
Proof.
  induction info as [|[a dd] info IH]; intros d0 d H k; cbn [imageNumbers] in H; [apply Ok_inj in H; subst; split; [intros []|reflexivity]|]. apply bind_Ok in H as (v & Hv & H). cbn [map fst].
  destruct (IH _ _ H k) as [A B]. destruct (in_dec (fun a b => match eqb_spec a b with ReflectT _ p => left p | ReflectF _ p => right p end) k (map fst info)) as [I|N].
  - split; [intros _; apply A; exact I|intro N; exfalso; apply N; right; exact I].
  - rewrite (B N), get_set. destruct (eqb_spec k a) as [->|Na].
    + split; [intros _; exists v; split; [reflexivity|eapply numberOr_num; eassumption]|intro X; exfalso; apply X; left; reflexivity].
    + split; [intros [X|X]; [congruence|contradiction]|reflexivity].
Qed.

Definition attrOk (k : str) (v : pyval) : Prop :=
  In k [u "name"; u "width"; u "height"; u "note"; u "lib"; u "image"; u "anchors"] /\
  (k = u "name" -> exists c s, v = PStr (c :: s)) /\
  (k = u "width" \/ k = u "height" -> isNum v) /\
  (k = u "note" -> exists s, v = PStr (noteLines T s)) /\
  (k = u "lib" -> glyphLibValidator T v = Ok true) /\
  (k = u "image" -> imageOk v) /\
  (k = u "anchors" -> exists l, v = PList l /\ l <> [] /\ Forall (itemLike anchorNums) l /\ Forall (fun a => anchorValidator T a = true) l /\ somes (map gid l) = []).
Definition attrsOk (r : greading) : Prop := get (u "name") (rattrs r) <> None /\ forall k v, get k (rattrs r) = Some v -> attrOk k v.
Record Inv (s : gstate) (items : list gitem) : Prop := {
  iv_calls : map asPassed (rcalls (sread s)) = gdrawing items;
  iv_items : Forall (rItem) items;
  iv_passed : Forall isPassed items;
  iv_ids : idsSeq (flat_map itemIds items) [] (sids s);
  iv_outline : soutline s = false -> items = [] /\ sids s = [];
  iv_guidelines : Forall (itemLike guideNums) (sguidelines s);
  iv_anchors : Forall (itemLike anchorNums) (sanchors s);
  iv_unicodes : NoDup (sunicodes s);
  iv_attrs : attrsOk (sread s) }.
Lemma attrs_set k v r : attrsOk r -> attrOk k v -> attrsOk (setattr k v r).
Proof.
  intros [A B] H. unfold setattr. split; cbn [rattrs].
  - rewrite get_set. destruct (eqb (u "name") k); [discriminate|exact A].
  - intros k' v' G. rewrite get_set in G. destruct (eqb_spec k' k) as [->|N]; [injection G as <-; exact H|apply B; exact G].
Qed.
Ltac attr := unfold attrOk; repeat match goal with |- _ /\ _ => split end; [vm_compute; tauto|..]; let E := fresh "E" in intro E; try discriminate E; try (destruct E as [E|E]; discriminate E).
Lemma common_inv e s r items : commonElement T true e s = Some r -> Inv s items -> forall s', r = Ok s' -> Inv s' items /\ soutline s' = soutline s.
Proof.
  intros H [Ic Ii Ip Id Io Ig Ia Iu It] s' ->. unfold commonElement in H. cbn [andb] in H.
  destruct (eqb (etag e) (u "advance")).
  { injection H as H. destruct (negb (sadvance s)); [|discriminate H]. unfold withRead in H. apply bind_Ok in H as (r & Hr & H). apply Ok_inj in H. subst s'. cbn [seenAdvance sread] in Hr. unfold readAdvance in Hr.
    apply bind_Ok in Hr as (w & Hw & Hr). apply bind_Ok in Hr as (h & Hh & Hr). apply Ok_inj in Hr. subst r. split; [|reflexivity]. constructor; cbn; try assumption.
    apply attrs_set; [apply attrs_set; [exact It|]|]; attr; (eapply numberOr_num; eassumption). }
  destruct (eqb (etag e) (u "unicode")).
  { injection H as H. apply bind_Ok in H as (us & Hu & H). apply Ok_inj in H. subst s'. split; [|reflexivity]. constructor; cbn; try assumption. unfold readUnicode in Hu. destruct (eget (u "hex") e) as [hx|]; [|discriminate Hu]. destruct (parseHex T hx) as [z|]; [|discriminate Hu]. apply Ok_inj in Hu. subst us.
    destruct (mem_spec z (sunicodes s)) as [M|M]; [assumption|]. apply (Permutation_NoDup (l := z :: sunicodes s)); [apply Permutation_cons_append|constructor; assumption]. }
  destruct (eqb (etag e) (u "note")).
  { injection H as H. destruct (negb (snote s)); [|discriminate H]. unfold withRead in H. apply bind_Ok in H as (r & Hr & H). apply Ok_inj in H. subst s'. cbn [seenNote sread] in Hr. unfold readNote in Hr. destruct (etextOf e) as [[t|t]|]; try discriminate Hr. apply Ok_inj in Hr. subst r.
    split; [|reflexivity]. constructor; cbn; try assumption. apply attrs_set; [exact It|]. attr. eauto. }
  destruct (eqb (etag e) (u "lib")); [|discriminate H].
  injection H as H. destruct (negb (slib s)); [|discriminate H]. unfold withRead in H. apply bind_Ok in H as (r & Hr & H). apply Ok_inj in H. subst s'. cbn [seenLib sread] in Hr. unfold readLib in Hr. destruct (echildren e) as [|c [|]]; try discriminate Hr.
  apply bind_Ok in Hr as (p & Hp & Hr). apply bind_Ok in Hr as (ok & Hv & Hr). destruct ok; [|discriminate Hr]. apply Ok_inj in Hr. subst r.
  split; [|reflexivity]. constructor; cbn; try assumption. apply attrs_set; [exact It|]. attr. exact Hv.
Qed.
Lemma element2_inv s e s' items : element2 T true true true s e = Ok s' -> Inv s items -> exists items', Inv s' items'.
Proof.
  unfold element2. cbn [negb]. intros H I. destruct (eqb (etag e) (u "outline")).
  { unfold outlineOk in H. cbn [negb orb] in H. destruct (soutline s) eqn:So; [discriminate H|]. cbn [negb andb] in H. destruct (_ && _); [|discriminate H]. apply bind_Ok in H as ((cs & ids) & H & K). apply Ok_inj in K. subst s'.
    destruct I as [Ic Ii Ip Id Io Ig Ia Iu It]. destruct (Io So) as [-> Si]. cbn [seenOutline sids] in H. rewrite Si in H. apply (outlineLoop2_inv T R LR) in H as (g & -> & A & B & C & _). exists g. constructor; cbn; try assumption; [|discriminate].
    destruct (rcalls (sread s)); [|discriminate Ic]. cbn [app]. apply asPassed_drawing. exact B. }
  destruct (commonElement T true e s) as [r|] eqn:Ce.
  { exists items. eapply common_inv; eassumption. }
  destruct I as [Ic Ii Ip Id Io Ig Ia Iu It].
  destruct (eqb (etag e) (u "guideline")).
  { cbn [orb] in H. destruct (Nat.eqb _ 0); [|discriminate H]. apply bind_Ok in H as (d & Hd & H). apply Ok_inj in H. subst s'. exists items. constructor; cbn; try assumption. apply Forall_app. split; [assumption|]. constructor; [|constructor]. apply attribNumbers_like in Hd. exact Hd. }
  destruct (eqb (etag e) (u "anchor")).
  { cbn [orb] in H. destruct (Nat.eqb _ 0); [|discriminate H]. apply bind_Ok in H as (d & Hd & H). apply Ok_inj in H. subst s'. exists items. constructor; cbn; try assumption. apply Forall_app. split; [assumption|]. constructor; [|constructor]. apply attribNumbers_like in Hd. exact Hd. }
  destruct (eqb (etag e) (u "image")); [|discriminate H]. cbn [andb orb] in H. destruct (negb (simage s)); [|discriminate H]. destruct (Nat.eqb _ 0); [|discriminate H]. unfold withRead in H. apply bind_Ok in H as (r & Hr & H). apply Ok_inj in H. subst s'.
  cbn [seenImage sread] in Hr. unfold readImage in Hr. apply bind_Ok in Hr as (d & Hd & Hr). cbn [negb orb] in Hr. destruct (imageValidator T (toPDict d)) eqn:V; [|discriminate Hr]. apply Ok_inj in Hr. subst r. exists items. constructor; cbn; try assumption.
  apply attrs_set; [exact It|]. attr. split; [exact V|]. split; [reflexivity|]. intros k J. destruct (proj1 (imageNumbers_num _ _ _ _ Hd k) J) as (v & G & N). rewrite vget_toPDict, G. exact N.
Qed.

(** ** Format 1 *)
Definition noId (p : gpoint) : gpoint := mkPoint (pc p) (ptype p) (psmooth p) (pname p) (Some None).
Lemma movesOk_prefix b l m : movesOk b (l ++ m) -> movesOk b l.
Proof. destruct l as [|t l]; cbn [app movesOk]; [intros; exact I|]. intros [A B]. split; [exact A|]. apply Forall_app in B as [B _]. exact B. Qed.
Lemma noId_passed pts : Forall rPoint pts -> (forall p, In p pts -> segType p = ptype p) -> map passed (map noId pts) = map noId pts.
Proof.
  intros F E. rewrite map_map. apply map_ext_in. intros p I. unfold passed, noId. cbn [pc psmooth pname pkw pid theId]. f_equal. change (segType (mkPoint (pc p) (ptype p) (psmooth p) (pname p) (Some None))) with (segType p). apply E. exact I.
Qed.
Lemma contour1_inv e cs : contour1 T true e = Ok cs -> exists pts, map asPassed cs = gcallsOf (GContour None pts) /\ rContour pts /\ map passed pts = pts /\ somes (map pid pts) = [].
Proof.
  unfold contour1. cbn [negb orb]. destruct (Nat.eqb _ 0); [|discriminate]. intro H. apply bind_Ok in H as (ms & M & H). apply Ok_inj in H. subst cs.
  assert (K : Forall rPoint (map pointOf ms) /\ map segType (map pointOf ms) = map mtype ms /\ movesOk true (map mtype ms) /\ offsOk (endCount 0 (map mtype ms)) (map mtype ms)).
  { destruct (echildren e) as [|c l] eqn:Ec; [apply Ok_inj in M; subst ms; repeat split; constructor|]. apply massage_iff in M as (all & A & -> & O). apply (massageLoop_inv T R LR) in A as (A & B & C & _).
    destruct (leniency_spec all) as [E|(offs & E & _)]; [rewrite E in *; auto|]. rewrite E, !map_app in A, B, C. apply Forall_app in A as [A _]. apply movesOk_prefix in C.
    split; [exact A|]. split; [|split; [exact C|exact O]]. rewrite !map_app in B. apply (f_equal (firstn (length (leniency all)))) in B. rewrite !firstn_app in B. rewrite !map_length, Nat.sub_diag in B. cbn [firstn] in B. rewrite !app_nil_r in B. rewrite !firstn_all2 in B by (rewrite !map_length; lia). exact B. }
  destruct K as (A & B & C & D). exists (map noId (map pointOf ms)).
  assert (Se : forall pts, map segType (map noId pts) = map segType pts) by (intro pts; rewrite map_map; reflexivity).
  split; [|split; [|split]].
  - cbn [callsOf map asPassed]. f_equal. rewrite map_app. f_equal. rewrite !map_map. reflexivity.
  - unfold rContour. rewrite Se, B. split; [|auto]. apply Forall_forall. intros p I. apply in_map_iff in I as (q & <- & I). rewrite Forall_forall in A. exact (A q I).
  - apply noId_passed; [exact A|]. intros p I. apply in_map_iff in I as (m & <- & I). clear - B I. induction ms as [|q ms IH]; [destruct I|]. cbn [map] in B. injection B as B1 B2. destruct I as [->|I]; [exact B1|auto].
  - rewrite map_map. clear. induction (map pointOf ms); [reflexivity|assumption].
Qed.
Lemma component1_inv e cs : component1 T true e = Ok cs -> exists b tr, map asPassed cs = gcallsOf (GComponent b tr None) /\ rItem (GComponent b tr None).
Proof.
  unfold component1. cbn [negb orb]. destruct (Nat.eqb _ 0); [|discriminate]. destruct (forallb _ _); [|discriminate]. destruct (has _ _); [|discriminate].
  intro H. apply bind_Ok in H as (tr & Ht & H). destruct (eget (u "base") e) as [b|]; [|discriminate H]. apply Ok_inj in H. subst cs. exists b, tr. split; [reflexivity|]. eapply readTransformation_num; eassumption.
Qed.
Lemma buildAnchor1_inv p a : buildAnchor1 T true p = Ok (Some a) -> itemLike anchorNums a /\ gid a = None.
Proof.
  unfold buildAnchor1. cbn [negb orb]. destruct (negb _); [discriminate|]. destruct (eget (u "name") p) as [n|]; [|discriminate]. destruct (has (u "x") _); [|discriminate]. destruct (has (u "y") _); [|discriminate].
  intro H. apply bind_Ok in H as (x & Hx & H). apply bind_Ok in H as (y & Hy & H). apply Ok_inj in H. injection H as <-. split; [|reflexivity]. split.
  - intros k [<-|[<-|[]]]; right; cbn; eapply number_num; eassumption.
  - intros k N. change (PDict _) with (toPDict [(u "x", x); (u "y", y); (u "name", PStr n)]). rewrite vget_toPDict. cbn [get]. destruct (eqb_spec k (u "x")) as [->|N1]; [exfalso; apply N; left; reflexivity|]. destruct (eqb_spec k (u "y")) as [->|N2]; [exfalso; apply N; right; left; reflexivity|].
    destruct (eqb k (u "name")); [right; eauto|left; reflexivity].
Qed.
Lemma outlineLoop1_inv l : forall anchors calls, outlineLoop1 T true true l = Ok (anchors, calls) ->
  exists items, map asPassed calls = gdrawing items /\ Forall rItem items /\ Forall isPassed items /\ somes (flat_map itemIds items) = [] /\ Forall (itemLike anchorNums) anchors /\ somes (map gid anchors) = [].
Proof.
  induction l as [|e l IH]; intros anchors calls H; cbn [outlineLoop1] in H.
  { apply Ok_inj in H. injection H as <- <-. exists []. repeat split; constructor. }
  destruct (eqb (etag e) (u "contour")).
  - apply bind_Ok in H as (a & Ha & H). destruct a as [a|].
    + apply bind_Ok in H as ((an & cs) & H1 & H). apply Ok_inj in H. injection H as <- <-. destruct (IH _ _ H1) as (items & A & B & C & D & E & F). exists items.
      assert (K : itemLike anchorNums a /\ gid a = None) by (destruct (echildren e) as [|p [|]]; try discriminate Ha; destruct (eqb (etag p) (u "point")); [|discriminate Ha]; eapply buildAnchor1_inv; exact Ha). destruct K as [K1 K2].
      repeat split; try assumption; [constructor; assumption|]. cbn [map]. rewrite K2. exact F.
    + apply bind_Ok in H as (c1 & Hc & H). apply bind_Ok in H as ((an & cs) & H1 & H). apply Ok_inj in H. injection H as <- <-. destruct (IH _ _ H1) as (items & A & B & C & D & E & F). apply contour1_inv in Hc as (pts & X1 & X2 & X3 & X4).
      exists (GContour None pts :: items). repeat split; try assumption; try (constructor; assumption).
      * rewrite map_app, A, X1. reflexivity.
      * cbn [flat_map itemIds app]. change (somes (None :: ?x)) with (somes x). rewrite somes_app, X4. exact D.
  - destruct (eqb (etag e) (u "component")); [|discriminate H]. apply bind_Ok in H as (c1 & Hc & H). apply bind_Ok in H as ((an & cs) & H1 & H). apply Ok_inj in H. injection H as <- <-. destruct (IH _ _ H1) as (items & A & B & C & D & E & F).
    apply component1_inv in Hc as (b & tr & X1 & X2). exists (GComponent b tr None :: items). repeat split; try assumption; try (constructor; [assumption || exact I|assumption]).
    rewrite map_app, A, X1. reflexivity.
Qed.
Lemma element1_inv s e s' items : element1 T true true true s e = Ok s' -> Inv s items -> exists items', Inv s' items'.
Proof.
  unfold element1. cbn [negb]. intros H I. destruct (eqb (etag e) (u "outline")).
  - unfold outlineOk in H. cbn [negb orb] in H. destruct (soutline s) eqn:So; [discriminate H|]. cbn [negb andb] in H. destruct (_ && _); [|discriminate H].
    unfold withRead in H. apply bind_Ok in H as (r & Hr & H). apply Ok_inj in H. subst s'. destruct I as [Ic Ii Ip Id Io Ig Ia Iu It]. destruct (Io So) as [-> Si]. cbn [seenOutline sread] in Hr.
    unfold buildOutline1 in Hr. apply bind_Ok in Hr as ((an & cs) & Hl & Hr). apply outlineLoop1_inv in Hl as (g & A & B & C & D & E & F). exists g.
    assert (Q : rcalls r = rcalls (sread s) ++ cs /\ attrsOk r).
    { destruct an as [|a an]; [apply Ok_inj in Hr; subst r; split; [reflexivity|exact It]|]. cbn [negb orb] in Hr. destruct (anchorsValidator T (PList (a :: an)) []) as [ok ids'] eqn:V. cbn [fst] in Hr. destruct ok; [|discriminate Hr]. apply Ok_inj in Hr. subst r.
      split; [reflexivity|]. apply attrs_set; [exact It|]. attr. exists (a :: an). split; [reflexivity|]. split; [discriminate|]. split; [exact E|]. split; [|exact F]. apply uniqueLoop_iff in V as [V _]. exact V. }
    destruct Q as [Q1 Q2]. constructor; cbn; try assumption; [|rewrite Si|discriminate].
    + rewrite Q1. destruct (rcalls (sread s)); [|discriminate Ic]. exact A.
    + apply idsSeq_fresh. rewrite D. split; [apply fresh_iff; rewrite D; repeat split; [constructor|intros ? []]|intros ? []].
  - destruct (commonElement T true e s) as [r|] eqn:Ce; [|discriminate H]. exists items. eapply common_inv; eassumption.
Qed.

(** ** The whole glyph *)
Record accepted (r : greading) (items : list gitem) : Prop := {
  ac_calls : map asPassed (rcalls r) = gdrawing items;
  ac_items : Forall rItem items;
  ac_passed : Forall isPassed items;
  ac_name : exists c s, get (u "name") (rattrs r) = Some (PStr (c :: s));
  ac_width : forall v, get (u "width") (rattrs r) = Some v -> isNum v;
  ac_height : forall v, get (u "height") (rattrs r) = Some v -> isNum v;
  ac_unicodes : forall v, get (u "unicodes") (rattrs r) = Some v -> exists zs, v = PList (map PInt zs) /\ NoDup zs /\ zs <> [];
  ac_note : forall v, get (u "note") (rattrs r) = Some v -> exists s, v = PStr (noteLines T s);
  ac_image : forall v, get (u "image") (rattrs r) = Some v -> imageOk v;
  ac_guidelines : forall v, get (u "guidelines") (rattrs r) = Some v -> exists l, v = PList l /\ l <> [] /\ Forall (itemLike guideNums) l /\ Forall (fun a => guidelineValidator T a = true) l;
  ac_anchors : forall v, get (u "anchors") (rattrs r) = Some v -> exists l, v = PList l /\ l <> [] /\ Forall (itemLike anchorNums) l /\ Forall (fun a => anchorValidator T a = true) l;
  ac_lib : forall v, get (u "lib") (rattrs r) = Some v -> glyphLibValidator T v = Ok true;
  ac_ids : NoDup (somes (flat_map itemIds items ++ map gid (itemsOf' (getattr (rattrs r) (u "guidelines"))) ++ map gid (itemsOf' (getattr (rattrs r) (u "anchors")))));
  ac_idsOk : forall i, In i (somes (flat_map itemIds items)) -> identifierOk i = true }.

Lemma getattr_none g k : get k g = None -> getattr g k = PNone.
Proof. unfold getattr. intros ->. reflexivity. Qed.
Lemma getattr_some g k v : get k g = Some v -> getattr g k = v.
Proof. unfold getattr. intros ->. reflexivity. Qed.
Ltac at_ H X := match type of H with get ?k _ = Some ?v => let Y := fresh in pose proof (proj2 X k v H) as Y; unfold attrOk in Y; decompose [and] Y; clear Y end.
Lemma final s items r gl al idsG idsA : Inv s items -> r = optSet (u "anchors") (nonEmpty al) (optSet (u "guidelines") (nonEmpty gl) (setUnicodes s (sread s))) ->
  Forall (itemLike guideNums) gl -> Forall (itemLike anchorNums) al -> Forall (fun a => guidelineValidator T a = true) gl -> Forall (fun a => anchorValidator T a = true) al ->
  fresh (map gid gl) (sids s) idsG -> fresh (map gid al) idsG idsA -> accepted r items.
Proof.
  intros [Ic Ii Ip Id Io Ig Ia Iu It] -> Lg La Vg Va Fg Fa. destruct It as [It1 It2]. rewrite setUnicodes_opt.
  assert (O1 : forall k, k <> u "anchors" -> k <> u "guidelines" -> k <> u "unicodes" -> get k (rattrs (optSet (u "anchors") (nonEmpty al) (optSet (u "guidelines") (nonEmpty gl) (optSet (u "unicodes") (nonEmpty (map PInt (sunicodes s))) (sread s))))) = get k (rattrs (sread s))).
  { intros k N1 N2 N3. unfold optSet, setattr. destruct (nonEmpty al), (nonEmpty gl), (nonEmpty (map PInt (sunicodes s))); cbn [rattrs]; rewrite ?get_set_other by assumption; reflexivity. }
  assert (Bad : forall k v, In k [u "unicodes"; u "guidelines"] -> get k (rattrs (sread s)) <> Some v).
  { intros k v I G. destruct (It2 k v G) as [X _]. revert X. destruct I as [<-|[<-|[]]]; apply mem_nIn; reflexivity. }
  assert (GA : get (u "anchors") (rattrs (optSet (u "anchors") (nonEmpty al) (optSet (u "guidelines") (nonEmpty gl) (optSet (u "unicodes") (nonEmpty (map PInt (sunicodes s))) (sread s))))) = match al with [] => get (u "anchors") (rattrs (sread s)) | _ => Some (PList al) end).
  { destruct al; cbn [nonEmpty]; [|rewrite optSet_same; reflexivity]. cbn [optSet]. rewrite !optSet_other by reflexivity. reflexivity. }
  assert (GG : get (u "guidelines") (rattrs (optSet (u "anchors") (nonEmpty al) (optSet (u "guidelines") (nonEmpty gl) (optSet (u "unicodes") (nonEmpty (map PInt (sunicodes s))) (sread s))))) = nonEmpty gl).
  { rewrite optSet_other by reflexivity. rewrite optSet_same. destruct gl; [|reflexivity]. cbn [nonEmpty]. rewrite optSet_other by reflexivity. destruct (get (u "guidelines") (rattrs (sread s))) eqn:E; [|reflexivity]. exfalso. eapply Bad; [|exact E]. right. left. reflexivity. }
  assert (GU : get (u "unicodes") (rattrs (optSet (u "anchors") (nonEmpty al) (optSet (u "guidelines") (nonEmpty gl) (optSet (u "unicodes") (nonEmpty (map PInt (sunicodes s))) (sread s))))) = nonEmpty (map PInt (sunicodes s))).
  { rewrite !optSet_other by reflexivity. rewrite optSet_same. destruct (sunicodes s); [|reflexivity]. cbn [map nonEmpty]. destruct (get (u "unicodes") (rattrs (sread s))) eqn:E; [|reflexivity]. exfalso. eapply Bad; [|exact E]. left. reflexivity. }
  assert (AO : forall v, get (u "anchors") (rattrs (sread s)) = Some v -> exists l, v = PList l /\ l <> [] /\ Forall (itemLike anchorNums) l /\ Forall (fun a => anchorValidator T a = true) l /\ somes (map gid l) = []).
  { intros v G. apply It2 in G as (_ & _ & _ & _ & _ & _ & G). apply G. reflexivity. }
  set (rr := optSet (u "anchors") _ _) in *.
  constructor; try assumption.
  - unfold rr. rewrite !optSet_calls. exact Ic.
  - rewrite O1 by discriminate. destruct (get (u "name") (rattrs (sread s))) as [v|] eqn:E; [|contradiction]. apply It2 in E as (_ & E & _). destruct (E eq_refl) as (c & t & ->). eauto.
  - intros v G. rewrite O1 in G by discriminate. apply It2 in G as (_ & _ & G & _). apply G. auto.
  - intros v G. rewrite O1 in G by discriminate. apply It2 in G as (_ & _ & G & _). apply G. auto.
  - intros v G. rewrite GU in G. exists (sunicodes s). destruct (sunicodes s) as [|z zs]; [discriminate G|]. cbn [map nonEmpty] in G. injection G as <-. repeat split; [assumption|discriminate].
  - intros v G. rewrite O1 in G by discriminate. apply It2 in G as (_ & _ & _ & G & _). apply G. reflexivity.
  - intros v G. rewrite O1 in G by discriminate. apply It2 in G as (_ & _ & _ & _ & _ & G & _). apply G. reflexivity.
  - intros v G. rewrite GG in G. exists gl. destruct gl; [discriminate G|]. injection G as <-. repeat split; [discriminate|assumption..].
  - intros v G. rewrite GA in G. destruct al as [|a al]; [destruct (AO v G) as (l & H1 & H2 & H3 & H4 & _); eauto 6|]. injection G as <-. exists (a :: al). repeat split; [discriminate|assumption..].
  - intros v G. rewrite O1 in G by discriminate. apply It2 in G as (_ & _ & _ & _ & G & _). apply G. reflexivity.
  - apply idsSeq_fresh in Id as [Id _].
    assert (X : fresh (flat_map itemIds items ++ map gid gl ++ map gid al) [] idsA) by (apply fresh_app; exists (sids s); split; [exact Id|]; apply fresh_app; eauto). apply fresh_start in X as [_ X]. rewrite !somes_app in *.
    replace (itemsOf' (getattr (rattrs rr) (u "guidelines"))) with gl by (unfold getattr; rewrite GG; destruct gl; reflexivity).
    unfold getattr. rewrite GA. destruct al as [|a al]; [|exact X]. destruct (get (u "anchors") (rattrs (sread s))) as [v|] eqn:E; [|exact X]. destruct (AO v eq_refl) as (l & -> & _ & _ & _ & N). cbn [itemsOf']. rewrite N. exact X.
  - apply idsSeq_fresh in Id as [_ Id]. exact Id.
Qed.
Theorem readFormat_accepted obj pen vs f r : obj = true -> pen = true -> readGlyphTree T obj pen vs true f = Ok r -> exists items, accepted r items.
Proof.
  intros -> -> H. unfold readGlyphTree in H. destruct (eget (u "format") f) as [sv|]; [|discriminate H]. destruct (negb true || _); [|discriminate H].
  assert (St : forall r0, readName true true f (mkReading [] []) = Ok r0 -> Inv (startState r0) []).
  { intros r0 N. unfold readName in N. destruct (eget (u "name") f) as [[|c n]|]; try discriminate N. apply Ok_inj in N. subst r0.
    assert (A : attrsOk (setattr (u "name") (PStr (c :: n)) (mkReading [] []))).
    { split; unfold setattr; cbn [rattrs]; [rewrite get_set_same; discriminate|]. intros k v G. rewrite get_set in G. destruct (eqb_spec k (u "name")) as [->|]; [|discriminate G]. injection G as <-. attr. eauto. }
    constructor; try exact A; cbn [startState sread sids soutline sguidelines sanchors sunicodes flat_map idsSeq]; try constructor; reflexivity. }
  assert (H' : readFormat1 T true true true f = Ok r \/ readFormat2 T true true true f = Ok r) by (destruct (parseInt T sv) as [[|[[]|[]|]|]|]; try discriminate H; auto). clear H. destruct H' as [H|H].
  - unfold readFormat1 in H. apply bind_Ok in H as (r0 & N & H). apply bind_Ok in H as (s & Hs & H). apply Ok_inj in H. subst r.
    assert (K : exists items, Inv s items).
    { specialize (St _ N). revert Hs. generalize dependent (@nil gitem). generalize (startState r0). induction (echildren f) as [|e l IH]; intros s0 items I Hs; cbn [foldM] in Hs; [apply Ok_inj in Hs; subst; eauto|].
      apply bind_Ok in Hs as (s1 & H1 & Hs). destruct (element1_inv _ _ _ _ H1 I) as (it & I'). eapply IH; eassumption. }
    destruct K as (items & K). exists items. assert (Si : exists i, sids s = i) by eauto. eapply (final s items _ [] [] (sids s) (sids s)); try exact K; try constructor; reflexivity.
  - unfold readFormat2 in H. apply bind_Ok in H as (r0 & N & H). apply bind_Ok in H as (s & Hs & H).
    assert (K : exists items, Inv s items).
    { specialize (St _ N). revert Hs. generalize dependent (@nil gitem). generalize (startState r0). induction (echildren f) as [|e l IH]; intros s0 items I Hs; cbn [foldM] in Hs; [apply Ok_inj in Hs; subst; eauto|].
      apply bind_Ok in Hs as (s1 & H1 & Hs). destruct (element2_inv _ _ _ _ H1 I) as (it & I'). eapply IH; eassumption. }
    destruct K as (items & K). exists items. assert (K' := K). destruct K' as [_ _ _ _ _ Ig Ia _ _]. apply bind_Ok in H as ((r1 & ids) & H1 & H).
    assert (G : r1 = optSet (u "guidelines") (nonEmpty (sguidelines s)) (setUnicodes s (sread s)) /\ Forall (fun a => guidelineValidator T a = true) (sguidelines s) /\ fresh (map gid (sguidelines s)) (sids s) ids).
    { destruct (sguidelines s) as [|g gl]; [apply Ok_inj in H1; injection H1 as <- <-; repeat split; constructor|]. destruct (guidelinesValidator T (PList (g :: gl)) (sids s)) as [ok ids'] eqn:V. destruct ok; [|discriminate H1]. apply Ok_inj in H1. injection H1 as <- <-. apply uniqueLoop_iff in V as [V1 V2]. auto. }
    destruct G as (-> & Vg & Fg).
    assert (A : exists ids', r = optSet (u "anchors") (nonEmpty (sanchors s)) (optSet (u "guidelines") (nonEmpty (sguidelines s)) (setUnicodes s (sread s))) /\ Forall (fun a => anchorValidator T a = true) (sanchors s) /\ fresh (map gid (sanchors s)) ids ids').
    { destruct (sanchors s) as [|g gl]; [apply Ok_inj in H; subst r; exists ids; repeat split; constructor|]. destruct (anchorsValidator T (PList (g :: gl)) ids) as [ok ids'] eqn:V. cbn [fst negb orb] in H. destruct ok; [|discriminate H]. apply Ok_inj in H. subst r. apply uniqueLoop_iff in V as [V1 V2]. exists ids'. auto. }
    destruct A as (idsA & -> & Va & Fa). eapply final; try eassumption. reflexivity.
Qed.
End Accepted.
