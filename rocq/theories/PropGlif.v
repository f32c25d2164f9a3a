(** Properties of the GLIF writer and reader. *)
From Coq Require Import String NArith ZArith Bool Lia List Permutation.
From Coq.Floats Require Import SpecFloat.
From Verif Require Import Base PyVal PyText FloatRepr Xml FS Ufo UfoProofs PropUfoFiles Plist PlistProofs PropPlist Etree EtreeProofs PropEtree PlistFiles Validators PointPen PropPointPen Glif GlifProofs GlifOutline GlifElements GlifRead GlifFiles GlifNotes GlifAccepted GlifAgain GlifFormat1 GlifFetch.
Import ListNotations.
Local Open Scope string_scope.
Local Open Scope list_scope.

Local Notation isNum := GlifProofs.isNum.
Local Notation walk := Plist.walk.
Local Notation draws := Glif.draws.
Local Notation anchorOf := GlifFormat1.anchorOf.

(** * Vocabulary *)
(** [isNum v] (GlifProofs): v is an int or a finite double.  [valOk s], [textOk s]
    (EtreeProofs): s has only characters XML can carry in attribute values and in
    texts unchanged.  [plistable v], [textsOk v] (PlistProofs, PlistFiles): the
    values property lists can carry.  [psame v w] (PropUfoFiles): equal up to the
    order of dictionaries, tuples read as lists. *)
Definition attr (g : list (str * pyval)) (k : string) : pyval := match get (u k) g with Some v => v | None => PNone end.
Definition listed (v : pyval) : list pyval := match v with PList l => l | _ => [] end.
Definition absentOr (P : pyval -> Prop) (v : pyval) : Prop := v = PNone \/ P v.
(** the type of a point: "offcurve" is the same as none *)
Definition ptypeOf (p : gpoint) : option str := match ptype p with Some t => if eqb t (u "offcurve") then None else Some t | None => None end.
(** a contour readGlyph accepts: known types, only on-curve points smooth, "move"
    only at the start; going around the contour no off-curve points before "move"
    and "line" and at most two before "curve" *)
Definition goodContour (pts : list gpoint) : Prop :=
  let ts := map ptypeOf pts in
  (forall p, In p pts -> In (ptypeOf p) [None; Some (u "move"); Some (u "line"); Some (u "curve"); Some (u "qcurve")] /\ (psmooth p = true -> ptypeOf p <> None)) /\
  (forall a b, ts = a ++ Some (u "move") :: b -> a = []) /\
  (forall a n t b, ts ++ ts = a ++ repeat None n ++ Some t :: b -> (t = u "move" \/ t = u "line" -> n = 0) /\ (t = u "curve" -> n <= 2)).
Definition goodItem (i : gitem) : Prop := match i with Contour _ _ _ _ pts => goodContour pts | Component _ _ _ _ _ _ => True end.
(** coordinates and transformations are numbers *)
Definition numberItem (i : gitem) : Prop :=
  match i with
  | Contour _ _ _ _ pts => forall p, In p pts -> exists x y, pc p = Some (x, y) /\ isNum x /\ isNum y
  | Component _ _ _ _ tr _ => length tr = 6 /\ Forall isNum tr
  end.
(** point names and base glyph names are strings XML can carry *)
Definition textItem (i : gitem) : Prop :=
  match i with
  | Contour _ _ _ _ pts => forall p n, In p pts -> pname p = Some n -> valOk n
  | Component _ _ _ base _ _ => valOk base
  end.
Definition transformationDefaults : list (string * Z) := [("xScale", 1); ("xyScale", 0); ("yxScale", 0); ("yScale", 1); ("xOffset", 0); ("yOffset", 0)]%Z.
(** what is asked of a glyph, beyond being accepted by the validated writer *)
Record storable (name : str) (g : list (str * pyval)) (items : option (list gitem)) : Prop := {
  st_name : valOk name;
  st_width : absentOr isNum (attr g "width");
  st_height : absentOr isNum (attr g "height");
  st_note : forall s, attr g "note" = PStr s -> textOk s;
  st_image : forall k d, In (k, d) transformationDefaults -> vhas (u k) (attr g "image") = true -> isNum (vget (u k) (attr g "image"));
  st_imageText : forall k s, vget k (attr g "image") = PStr s -> valOk s;
  st_guidelines : forall v, In v (listed (attr g "guidelines")) -> (forall k, In k ["x"; "y"; "angle"] -> absentOr isNum (vget (u k) v)) /\ (forall k s, vget k v = PStr s -> valOk s);
  st_anchors : forall v, In v (listed (attr g "anchors")) -> (forall k, In k ["x"; "y"] -> absentOr isNum (vget (u k) v)) /\ (forall k s, vget k v = PStr s -> valOk s);
  st_items : forall l i, items = Some l -> In i l -> goodItem i /\ numberItem i /\ textItem i;
  st_lib : truthy (attr g "lib") = true -> plistable (attr g "lib");
  st_libText : textsOk (attr g "lib") }.
(** what is read back *)
Definition sameNumber (default : Z) (v : pyval) (w : option pyval) : Prop :=
  w = Some v \/ ((v = PNone \/ py_eq v (PInt default) = true) /\ (w = None \/ w = Some (PInt default))).
Definition sameImage (v : pyval) (w : pyval) : Prop :=
  (forall k, In k ["fileName"; "color"] -> vget (u k) w = vget (u k) v) /\
  (forall k d, In (k, d) transformationDefaults -> let x := if vhas (u k) v then vget (u k) v else PInt d in vget (u k) w = x \/ (vget (u k) w = PInt d /\ py_eq x (PInt d) = true)).
(** a value that is not written when it is empty *)
Definition sameOr (same : pyval -> pyval -> Prop) (v : pyval) (w : option pyval) : Prop :=
  match w with Some w => truthy v = true /\ same v w | None => truthy v = false end.
Definition sameList (v w : pyval) : Prop := exists l, w = PList l /\ Forall2 (fun a b => forall k, vget k b = vget k a) (listed v) l.
(** the first occurrence of each number, in order *)
Definition firsts (zs : list Z) : list Z := rev (nodup Z.eq_dec (rev zs)).
(** the lines of a note *)
Inductive keptLines (sp : N -> bool) : list str -> list str -> Prop :=
| kept_none : keptLines sp [] []
| kept_blank l ls ks : forallb sp l = true -> keptLines sp ls ks -> keptLines sp (l :: ls) ks
| kept_line a l b ls ks : l <> [] -> forallb sp a = true -> forallb sp b = true -> (forall c, hd_error l = Some c -> sp c = false) -> (forall c, hd_error (rev l) = Some c -> sp c = false) ->
    keptLines sp ls ks -> keptLines sp ((a ++ l ++ b) :: ls) (l :: ks).
Definition noteRead (sp : N -> bool) (s r : str) : Prop :=
  exists ls ks, s = join [10%N] ls /\ (forall l, In l ls -> ~ In 10%N l) /\ keptLines sp ls ks /\ r = join [10%N] ks.
(** points, contours and components as they are drawn *)
Definition samePoint (p q : gpoint) : Prop := pc q = pc p /\ ptypeOf q = ptypeOf p /\ psmooth q = psmooth p /\ pname q = pname p /\ theId (pkw q) = theId (pkw p).
Definition sameItem (i j : gitem) : Prop :=
  match i, j with
  | Contour _ _ _ id pts, Contour _ _ _ id' pts' => id' = id /\ Forall2 samePoint pts pts'
  | Component _ _ _ base tr id, Component _ _ _ base' tr' id' => base' = base /\ id' = id /\ Forall2 (fun v w => w = v \/ py_eq v w = true) tr tr'
  | _, _ => False
  end.

(** ** The vocabulary of the proofs *)
Lemma ptypeOf_seg p : ptypeOf p = segType p.
Proof. unfold ptypeOf, segType. destruct (ptype p) as [t|]; [|reflexivity]. change (eqb (Some t) (Some (u "offcurve"))) with (eqb t (u "offcurve")). reflexivity. Qed.
Lemma ptypes_segs pts : map ptypeOf pts = map segType pts.
Proof. apply map_ext. exact ptypeOf_seg. Qed.
Lemma moves_iff ts : movesOk true ts <-> forall a b, ts = a ++ Some (u "move") :: b -> a = [].
Proof.
  destruct ts as [|t ts]; cbn [movesOk]; [split; [intros _ [|? ?] b H; discriminate H|auto]|]. unfold noMoves. rewrite Forall_forall. split.
  - intros [_ H] a b E. destruct a as [|x a]; [reflexivity|]. injection E as -> ->. exfalso. apply (H (Some (u "move"))); [apply in_or_app; right; left; reflexivity|reflexivity].
  - intro H. split; [discriminate|]. intros x I ->. apply in_split in I as (a & b & ->). specialize (H (t :: a) b eq_refl). discriminate H.
Qed.
Lemma goodContour_iff pts : (forall p, In p pts -> numeric p) -> goodContour pts <-> rContour pts.
Proof.
  intro N. unfold goodContour, rContour. rewrite ptypes_segs, <- moves_iff, <- offsOk_twice, offsOk_spec, Forall_forall. split; intros (A & B & C); (split; [|split; [exact B|exact C]]).
  - intros p I. destruct (A p I) as [K S]. rewrite ptypeOf_seg in *. split; [apply N; exact I|]. split; [|exact S]. unfold known. cbn in K. destruct K as [K|[K|[K|[K|[K|[]]]]]]; rewrite <- K; tauto.
  - intros p I. destruct (A p I) as (_ & K & S). rewrite ptypeOf_seg. split; [|exact S]. destruct K as [K|[K|[K|[K|K]]]]; rewrite K; cbn; tauto.
Qed.
Lemma item_ok i : goodItem i -> numberItem i -> numericItem i /\ rItem' i.
Proof.
  destruct i as [ident pts|b tr ident]; cbn [goodItem numberItem numericItem rItem'].
  - intros G N. split; [apply Forall_forall; exact N|]. apply goodContour_iff; [exact N|exact G].
  - intros _ [L N]. split; [|exact I]. rewrite firstn_all2 by lia. exact N.
Qed.
Lemma item_clean i : textItem i -> itemClean i.
Proof. destruct i as [ident pts|b tr ident]; cbn; [|auto]. intro H. apply Forall_forall. intros p I. unfold pointClean. destruct (pname p) eqn:E; [|exact Logic.I]. eapply H; eassumption. Qed.
Lemma storable_readable name g items : storable name g items -> readable2 g items.
Proof.
  intros [Sn Sw Sh Sno Si Sit Sg Sa Sd Sl Slt]. constructor; try assumption.
  - intros k I H. assert (D : forall p, In p transformationInfo -> exists s, fst p = u s /\ In (s, snd p) transformationDefaults).
    { apply Forall_forall. unfold transformationInfo. repeat constructor; cbn [fst snd]; eexists; (split; [reflexivity|]); unfold transformationDefaults; cbn [In]; tauto. }
    apply in_map_iff in I as (p & <- & I). destruct (D p I) as (s & E & J). rewrite E in *. apply (Si s (snd p)); [exact J|exact H].
  - apply Forall_forall. intros v I. destruct (Sg v I) as [N _]. intros k K. destruct K as [<-|[<-|[<-|[]]]]; apply N; cbn; tauto.
  - apply Forall_forall. intros v I. destruct (Sa v I) as [N _]. intros k K. destruct K as [<-|[<-|[]]]; apply N; cbn; tauto.
  - destruct items as [l|]; [|exact I]. split; apply Forall_forall; intros i J; destruct (Sd l i eq_refl J) as (A & B & _); apply item_ok; assumption.
Qed.
Lemma storable_clean name g items : storable name g items -> cleanGlyph name g items.
Proof.
  intros [Sn Sw Sh Sno Si Sit Sg Sa Sd Sl Slt]. constructor; try assumption.
  - apply Forall_forall. intros v I. destruct (Sg v I) as [_ N]. intros k s _ E. eapply N. exact E.
  - apply Forall_forall. intros v I. destruct (Sa v I) as [_ N]. intros k s _ E. eapply N. exact E.
  - destruct items as [l|]; [|exact I]. apply Forall_forall. intros i J. destruct (Sd l i eq_refl J) as (_ & _ & C). apply item_clean. exact C.
Qed.
Lemma nub_firsts zs : nub [] zs = firsts zs.
Proof.
  assert (G : forall zs s, nub s zs = filter (fun z => negb (mem z s)) (firsts zs)).
  { clear. unfold firsts. induction zs as [|z zs IH] using rev_ind; intro s; [reflexivity|]. rewrite rev_app_distr. cbn [rev app nodup].
    assert (A : forall zs s, nub s (zs ++ [z]) = nub s zs ++ (if mem z s || mem z zs then [] else [z])).
    { clear. induction zs as [|y zs IH]; intro s; cbn [app nub]; [destruct (mem z s); reflexivity|]. change (mem z (y :: zs)) with (eqb z y || mem z zs). destruct (mem y s) eqn:M.
      - rewrite IH. destruct (eqb_spec z y) as [->|N]; [rewrite M; reflexivity|reflexivity].
      - rewrite IH. cbn [app]. f_equal. f_equal. change (mem z (y :: s)) with (eqb z y || mem z s). destruct (eqb z y), (mem z s); reflexivity. }
    rewrite A, IH. destruct (in_dec Z.eq_dec z (rev zs)) as [I|I].
    - apply in_rev in I. apply mem_In in I. rewrite I, orb_true_r, app_nil_r. reflexivity.
    - cbn [rev]. rewrite filter_app. f_equal. cbn [filter]. replace (mem z zs) with false by (symmetry; apply mem_nIn; intro J; apply I; apply in_rev in J; exact J). rewrite orb_false_r. destruct (mem z s); reflexivity. }
  rewrite G. assert (F : forall l : list Z, filter (fun z => negb (mem z [])) l = l) by (induction l as [|x l IH]; [reflexivity|cbn [filter]; rewrite IH; reflexivity]). apply F.
Qed.
(** what readGlyph delivers for a glyph written with the name, attributes and drawing given *)
Record sameGlyph (sp : N -> bool) (name : str) (g : list (str * pyval)) (items : option (list gitem)) (r : greading) : Prop := {
  sg_name : get (u "name") (rattrs r) = Some (PStr name);
  sg_width : sameNumber 0 (attr g "width") (get (u "width") (rattrs r));
  sg_height : sameNumber 0 (attr g "height") (get (u "height") (rattrs r));
  sg_noUnicodes : truthy (attr g "unicodes") = false -> get (u "unicodes") (rattrs r) = None;
  sg_unicodes : forall z zs, attr g "unicodes" = PList (map PInt (z :: zs)) -> get (u "unicodes") (rattrs r) = Some (PList (map PInt (firsts (z :: zs))));
  sg_noNote : truthy (attr g "note") = false -> get (u "note") (rattrs r) = None;
  sg_note : forall s, attr g "note" = PStr s -> s <> [] -> exists s', get (u "note") (rattrs r) = Some (PStr s') /\ noteRead sp s s';
  sg_image : sameOr sameImage (attr g "image") (get (u "image") (rattrs r));
  sg_guidelines : sameOr sameList (attr g "guidelines") (get (u "guidelines") (rattrs r));
  sg_anchors : sameOr sameList (attr g "anchors") (get (u "anchors") (rattrs r));
  sg_lib : sameOr psame (attr g "lib") (get (u "lib") (rattrs r));
  sg_items : exists items', rcalls r = gdrawing items' /\ Forall2 sameItem (match items with Some l => l | None => [] end) items' }.

Section Proofs.
Variable T : pytext.
Hypothesis LT : pytext_laws T.
Variable R : spec_float -> str.
Hypothesis LR : repr_laws T R.
Variable ro : pyval -> str.

Lemma attr_getattr g k : attr g k = getattr g (u k).
Proof. reflexivity. Qed.
Lemma advance_same w (b : bool) : (b = true -> zeroLike w = true) -> sameNumber 0 w (if b then None else Some (advOf w)).
Proof.
  intro H. unfold sameNumber, advOf. assert (Z : zeroLike w = true -> w = PNone \/ py_eq w (PInt 0) = true).
  { unfold zeroLike. destruct (is_none w) eqn:E; [destruct w; try discriminate E; left; reflexivity|right; assumption]. }
  destruct b; [right; auto|]. destruct (zeroLike w); [right; auto|left; reflexivity].
Qed.
Lemma kept_spec l : keptLines (isSpace T) l (kept (isSpace T) l).
Proof.
  induction l as [|s l IH]; [constructor|]. unfold kept. cbn [filter]. destruct (forallb (isSpace T) s) eqn:B; cbn [negb]; [apply kept_blank; assumption|]. cbn [map].
  destruct (strip_trimmed (isSpace T) s) as (a & b & E & Ba & Bb & H1 & H2). destruct (strip_nonempty (isSpace T) s B) as [N _]. rewrite E at 1. apply kept_line; try assumption.
  - intros c H. destruct (strip (isSpace T) s); [discriminate H|]. injection H as <-. exact H1.
  - intros c H. destruct (rev (strip (isSpace T) s)); [discriminate H|]. injection H as <-. exact H2.
Qed.
Lemma note_spec s : noteRead (isSpace T) s (noteLines T s).
Proof.
  exists (split1 10 s), (kept (isSpace T) (split1 10 s)). split; [symmetry; apply join_split1|]. split; [intros l I; eapply split1_no_sep; exact I|]. split; [apply kept_spec|reflexivity].
Qed.
Lemma keptLines_fun sp ls ks : keptLines sp ls ks -> ks = kept sp ls.
Proof.
  induction 1 as [|l ls ks B K IH|a l b ls ks N Ba Bb H1 H2 K IH]; [reflexivity| |]; unfold kept; cbn [filter].
  - rewrite B. exact IH.
  - assert (F : forallb sp (a ++ l ++ b) = false).
    { destruct l as [|c l]; [contradiction|]. rewrite forallb_app. cbn [app forallb]. rewrite (H1 c eq_refl). apply andb_false_r. }
    rewrite F. cbn [negb map]. f_equal; [|exact IH]. symmetry. apply strip_unique. exists a, b. split; [reflexivity|]. split; [exact Ba|]. split; [exact Bb|]. split.
    + destruct l as [|c l]; [exact I|]. apply H1. reflexivity.
    + destruct (rev l) as [|c r]; [exact I|]. apply H2. reflexivity.
Qed.
Lemma noteRead_fun s s' : noteRead (isSpace T) s s' -> s' = noteLines T s.
Proof.
  intros (ls & ks & -> & N & K & ->). rewrite noteLines_nl. unfold nl. apply keptLines_fun in K. rewrite K. destruct ls as [|l ls]; [reflexivity|]. rewrite split1_join; [reflexivity|discriminate|exact N].
Qed.
Lemma image_same v d : imageLike v d -> sameImage v d.
Proof.
  intro L. split.
  - intros k [<-|[<-|[]]]; rewrite L; reflexivity.
  - intros k d' I. cbv zeta. rewrite L. unfold imageEntry. assert (E : get (u k) transformationInfo = Some d') by (unfold transformationDefaults in I; cbn [In] in I; repeat (destruct I as [I|I]; [injection I as <- <-; reflexivity|]); contradiction).
    rewrite E. unfold dflt, defaultGet. set (x := if vhas (u k) v then vget (u k) v else PInt d'). destruct (py_eq x (PInt d')) eqn:P; [right; auto|left; reflexivity].
Qed.
Lemma list_same v (w : list pyval) : (truthy v = true -> exists l, v = PList l) -> Forall2 sameEntries (itemsOf' v) w -> sameOr sameList v (nonEmpty w).
Proof.
  intros P F. unfold sameOr, nonEmpty. destruct w as [|x w].
  - inversion F as [E|]. destruct (truthy v) eqn:Tr; [|reflexivity]. destruct (P eq_refl) as (l & ->). cbn in E. subst l. discriminate Tr.
  - assert (I : exists l, v = PList l /\ l <> []) by (destruct v as [| | | | | | |l| | |]; try (inversion F; fail); exists l; split; [reflexivity|intros ->; inversion F]). destruct I as (l & -> & N). split; [destruct l; [contradiction|reflexivity]|]. exists (x :: w). split; [reflexivity|exact F].
Qed.
Lemma point_same p : samePoint p (passed p).
Proof. unfold samePoint, passed. cbn [pc psmooth pname pkw theId]. rewrite !ptypeOf_seg. repeat split. unfold segType. cbn [ptype]. destruct (ptype p) as [t|]; [|reflexivity]. destruct (eqb (Some t) (Some (u "offcurve"))) eqn:E; cbn; [reflexivity|]. change (eqb (Some t) (Some (u "offcurve"))) with (eqb t (u "offcurve")) in E. change (eqb (Some t) (Some (u "offcurve"))) with (eqb t (u "offcurve")). rewrite E. reflexivity. Qed.
Lemma item_same i : numberItem i -> sameItem i (passedItem i).
Proof.
  destruct i as [ident pts|b tr ident]; cbn [passedItem sameItem numberItem].
  - intros _. split; [reflexivity|]. induction pts as [|p pts IH]; cbn [map]; constructor; [apply point_same|exact IH].
  - intros [L _]. split; [reflexivity|]. split; [reflexivity|]. do 7 (destruct tr as [|? tr]; try discriminate L). unfold transformationInfo. cbn [dflts].
    assert (D : forall d v, dflt d v = v \/ py_eq v (dflt d v) = true) by (intros d v; unfold dflt; destruct (py_eq v (PInt d)) eqn:E; [right; exact E|left; reflexivity]).
    do 6 (apply Forall2_cons; [apply D|]). apply Forall2_nil.
Qed.
Lemma written_lists name g draw root : writeGlyphTree T R ro (PStr name) g draw 2 true = Ok root ->
  (truthy (attr g "guidelines") = true -> exists l, attr g "guidelines" = PList l) /\ (truthy (attr g "anchors") = true -> exists l, attr g "anchors" = PList l).
Proof.
  rewrite !attr_getattr. unfold writeGlyphTree. cbn [is_str negb orb andb py_eq]. destruct (negb (eqb name [])); [|discriminate]. cbn [attrStr bind]. intro W.
  apply bind_Ok in W as (adv & Wadv & W). apply bind_Ok in W as (uni & Wuni & W). apply bind_Ok in W as (note & Wnote & W). apply bind_Ok in W as (image & Wimage & W).
  apply bind_Ok in W as ((gl & ids1) & Wgl & W). apply bind_Ok in W as ((al & ids2) & Wal & W). clear W Wadv Wuni Wnote Wimage. split; intro Tr.
  - unfold writeGuidelines in Wgl. cbn [Z.leb Z.compare Pos.compare Pos.compare_cont andb] in Wgl. rewrite Tr in Wgl. cbn [negb] in Wgl. destruct (getattr g (u "guidelines")); try discriminate Wgl. eauto.
  - unfold writeAnchors in Wal. cbn [Z.leb Z.compare Pos.compare Pos.compare_cont andb] in Wal. rewrite Tr in Wal. cbn [negb] in Wal. destruct (getattr g (u "anchors")); try discriminate Wal. eauto.
Qed.
Lemma round_same name g items r : readBack T name g items r -> storable name g items ->
  (truthy (attr g "guidelines") = true -> exists l, attr g "guidelines" = PList l) -> (truthy (attr g "anchors") = true -> exists l, attr g "anchors" = PList l) ->
  sameGlyph (isSpace T) name g items r.
Proof.
  intros [Bc Bn Bw Bh Bu Bno Bi (gl & Bg & Fg) (al & Ba & Fa) Bl] S Lg La. constructor; rewrite ?attr_getattr in *.
  - exact Bn.
  - rewrite Bw. apply advance_same. intro H. apply andb_prop in H. apply H.
  - rewrite Bh. apply advance_same. intro H. apply andb_prop in H. apply H.
  - intro F. rewrite Bu. unfold codesOf. rewrite F. reflexivity.
  - intros z zs E. rewrite Bu, E. unfold codesOf. cbn [map truthy negb is_int iterate]. rewrite map_map. cbn [codeOf]. rewrite map_id. rewrite nub_firsts.
    assert (N : firsts (z :: zs) <> []). { rewrite <- nub_firsts. discriminate. } destruct (firsts (z :: zs)); [contradiction|reflexivity].
  - intro F. rewrite Bno. destruct (getattr g (u "note")) as [| | | |[|c s]| | | | | |]; try reflexivity. discriminate F.
  - intros s E N. rewrite Bno, E. destruct s as [|c s]; [contradiction|]. eexists. split; [reflexivity|]. rewrite noteLines_written by exact LT. apply note_spec.
  - unfold sameOr. destruct (get (u "image") (rattrs r)) as [d|]; [|exact Bi]. split; [apply Bi|apply image_same; apply Bi].
  - rewrite Bg. apply list_same; assumption.
  - rewrite Ba. apply list_same; assumption.
  - exact Bl.
  - destruct items as [l|]; [|exists []; split; [exact Bc|constructor]]. exists (map passedItem l). split; [exact Bc|]. assert (N : forall i, In i l -> numberItem i) by (intros i I; apply (st_items _ _ _ S l i eq_refl I)). clear -N. induction l as [|i l IH]; cbn [map]; constructor; [apply item_same; apply N; left; reflexivity|apply IH; intros j I; apply N; right; exact I].
Qed.
Theorem glyph_round name g items b : writeGlyphBytes T R ro (PStr name) g (option_map gdrawing items) 2 true = Ok b -> storable name g items ->
  exists r, readGlyphBytes T true true [1%Z; 2%Z] true b = Ok r /\ sameGlyph (isSpace T) name g items r.
Proof.
  intros W S. destruct (file_round T LT R LR ro _ _ _ _ W (storable_readable _ _ _ S) (storable_clean _ _ _ S)) as (r & Er & B). exists r. split; [exact Er|].
  unfold writeGlyphBytes in W. apply bind_Ok in W as (root & Wt & _). destruct (written_lists _ _ _ _ Wt) as [Lg La]. apply round_same; assumption.
Qed.
End Proofs.

Lemma texts_none : textsOk PNone.
Proof. split; [intros s H|intros d k x H]; inversion H. Qed.

(** * C50: outlines accepted by the writer *)
Definition typesItem (i : gitem) : Prop := match i with Contour _ _ _ _ pts => forall p t, In p pts -> ptypeOf p = Some t -> valOk t | Component _ _ _ _ _ _ => True end.
Lemma only_outline T R ro name items root f r : pytext_laws T -> repr_laws T R -> writeGlyphTree T R ro (PStr name) [] (Some (gdrawing items)) 2 true = Ok root -> like T root f -> Forall numericItem items ->
  readGlyphTree T true true [1%Z; 2%Z] true f = Ok r -> Forall rItem' items.
Proof.
  intros LT LR W L N Er. unfold writeGlyphTree in W. cbn [is_str negb orb andb py_eq] in W. destruct (negb (eqb name [])); [|discriminate W]. cbn [attrStr bind] in W.
  change (writeAdvance R ro [] true) with (Ok (@nil elem)) in W. change (writeUnicodes [] true) with (Ok (@nil elem)) in W. change (writeNote T [] true) with (Ok (@nil elem)) in W. change (writeImage T R ro [] 2 true) with (Ok (@nil elem)) in W.
  change (writeGuidelines T R ro [] 2 true []) with (Ok (@nil elem, @nil str)) in W. cbn [bind] in W. change (writeAnchors T R ro [] 2 true []) with (Ok (@nil elem, @nil str)) in W. cbn [bind] in W.
  apply bind_Ok in W as (outl & Wout & W). change (writeLib T R [] true) with (Ok (@nil elem)) in W. cbn [bind app] in W. rewrite app_nil_r in W. apply Ok_inj in W. subst root.
  apply like_parts in L as (F & _ & At). cbn [echildren eattrib] in F, At.
  unfold writeOutline in Wout. apply bind_Ok in Wout as (s & W1 & W). cbn [Z.eqb Pos.eqb andb] in W. cbn [bind] in W. apply Ok_inj in W. subst outl.
  apply (pen_drawing R ro items) in W1 as (ids' & Wi & Is & ->). cbn [gOutline app] in F. apply F2_one in F as (e & E & L).
  unfold readGlyphTree, eget in Er. rewrite At in Er. change (get (u "format") [(u "name", name); (u "format", str_of_Z 2)]) with (Some (str_of_Z 2)) in Er. cbv iota in Er. rewrite (parseInt_str_of_Z T 2 LT) in Er. cbn [negb orb] in Er.
  change (mem 2%Z [1%Z; 2%Z]) with true in Er. cbv iota in Er. unfold readFormat2 in Er. apply bind_Ok in Er as (r0 & _ & Er). apply bind_Ok in Er as (s & Es & _). rewrite E in Es. cbn [foldM] in Es. apply bind_Ok in Es as (s' & Es & _).
  destruct (shape_parts _ _ (like_shape T _ _ L)) as (A1 & A2 & A3). cbn [etag eattrib echildren] in A1, A2, A3. unfold element2 in Es. rewrite A1, eqb_refl in Es. destruct (outlineOk T true e (startState r0)); [|discriminate Es]. cbn [startState seenOutline sids] in Es.
  rewrite (outlineLoop2_shape T true _ _ A3) in Es. apply bind_Ok in Es as ((cs & ids) & Ec & _). apply (outlineLoop2_written T LT R LR ro items) in Ec; [apply Ec|exact N].
Qed.
(** Proved: for every outline with numbers as coordinates and strings XML can carry,
    drawn into a GLIF 2, the reader accepts the file exactly if the contours are
    good.  Missing: GLIF 1, where the reader also rejects identifiers (C56). *)
Theorem C50_outlines_partial T R ro name items b : pytext_laws T -> repr_laws T R -> valOk name ->
  (forall i, In i items -> numberItem i /\ textItem i /\ typesItem i) ->
  writeGlyphBytes T R ro (PStr name) [] (Some (gdrawing items)) 2 true = Ok b ->
  (exists r, readGlyphBytes T true true [1%Z; 2%Z] true b = Ok r) <-> (forall i, In i items -> goodItem i).
Proof.
  intros LT LR Vn H W. split.
  - intros (r & Er) i I. assert (W' := W). unfold writeGlyphBytes in W'. apply bind_Ok in W' as (root & Wt & W').
    assert (N : Forall numericItem items).
    { apply Forall_forall. intros j J. destruct (H j J) as (N & _). destruct j as [ident pts|bb tr ident]; cbn [numericItem numberItem] in *; [apply Forall_forall; exact N|]. destruct N as [Lt N]. rewrite firstn_all2 by lia. exact N. }
    assert (Ty : Forall typesClean items).
    { apply Forall_forall. intros j J. destruct (H j J) as (_ & _ & Ty). destruct j as [ident pts|bb tr ident]; cbn in *; [|exact Logic.I]. apply Forall_forall. intros p K t E. rewrite <- ptypeOf_seg in E. eapply Ty; eassumption. }
    assert (Cl : cleanGlyph name [] (Some items)).
    { constructor; [exact Vn|discriminate|intros k s X; discriminate X|apply Forall_nil|apply Forall_nil| |exact texts_none]. apply Forall_forall. intros j J. apply item_clean. apply H. exact J. }
    assert (Rd : readable2 [] None).
    { constructor; [left; reflexivity|left; reflexivity|intros k _ X; discriminate X|apply Forall_nil|apply Forall_nil|exact Logic.I|discriminate]. }
    destruct (glyph_fine0 T R LR ro name [] (Some items) root Wt Rd (conj N Ty) Cl) as (F & Tg & Tx & Tl). destruct (tree_bytes T LT root F Tg Tx Tl) as (b' & f & Eb & Lk & Gt).
    rewrite Eb in W'. cbn [bind] in W'. apply Ok_inj in W'. rewrite W' in Gt. unfold readGlyphBytes in Er. rewrite Gt in Er. cbn [bind] in Er.
    assert (G := only_outline T R ro name items root f r LT LR Wt Lk N Er). rewrite Forall_forall in G. specialize (G i I). destruct (H i I) as (Ni & _). destruct i as [ident pts|bb tr ident]; cbn in *; [|exact Logic.I]. apply goodContour_iff; [exact Ni|exact G].
  - intro G. assert (S : storable name [] (Some items)).
    { constructor; [exact Vn|left; reflexivity|left; reflexivity|discriminate|intros k d _ X; discriminate X|intros k s X; discriminate X|intros v []|intros v []| |discriminate|exact texts_none].
      intros l i E I. injection E as <-. destruct (H i I) as (A & B & _). auto. }
    destruct (glyph_round T LT R LR ro name [] (Some items) b W S) as (r & Er & _). eauto.
Qed.
Print Assumptions C50_outlines_partial.
(** ** Cases *)
Definition roCase : pyval -> str := fun _ => [].
Definition ptc (x y : Z) (t : string) : gpoint := mkPoint (Some (PInt x, PInt y)) (if String.eqb t "" then None else Some (u t)) false None None.
Definition written (name : str) (g : list (str * pyval)) (items : option (list gitem)) (v : Z) : res bytes := writeGlyphBytes toyText toyRepr roCase (PStr name) g (option_map gdrawing items) v true.
Definition readBackCase (name : str) (g : list (str * pyval)) (items : option (list gitem)) (v : Z) : res greading :=
  do b <- written name g items v; readGlyphBytes toyText true true [1%Z; 2%Z] true b.
Definition isOk {A} (r : res A) : bool := match r with Ok _ => true | Err _ => false end.
(** a closed contour of a curve and a line is read; one whose last point is off the
    curve before a first point "line" is written, but not read *)
Example C50_case :
  isOk (readBackCase (u "a") [] (Some [GContour None [ptc 0 0 "line"; ptc 1 0 ""; ptc 2 1 "offcurve"; ptc 2 2 "curve"]]) 2) = true /\
  isOk (written (u "a") [] (Some [GContour None [ptc 0 0 "line"; ptc 1 0 "line"; ptc 2 1 ""]]) 2) = true /\
  readBackCase (u "a") [] (Some [GContour None [ptc 0 0 "line"; ptc 1 0 "line"; ptc 2 1 ""]]) 2 = Err GlifLibError.
Proof. vm_compute. auto. Qed.
Theorem C50_refuted : exists T R ro name cs b, pytext_laws T /\ repr_laws T R /\ writeGlyphBytes T R ro (PStr name) [] (Some cs) 2 true = Ok b /\ readGlyphBytes T true true [1%Z; 2%Z] true b = Err GlifLibError.
Proof.
  exists toyText, toyRepr, roCase, (u "a"), (gdrawing [GContour None [ptc 0 0 "line"; ptc 1 0 "line"; ptc 2 1 ""]]). eexists. split; [apply toyText_laws|]. split; [apply toyRepr_laws|]. split; [vm_compute; reflexivity|vm_compute; reflexivity].
Qed.
Print Assumptions C50_refuted.

(** * C56: GLIF 1 *)
(** what is asked of a glyph written as GLIF 1; images and guidelines are not written *)
Record storable1 (name : str) (g : list (str * pyval)) (items : option (list gitem)) : Prop := {
  s1_name : valOk name;
  s1_width : absentOr isNum (attr g "width");
  s1_height : absentOr isNum (attr g "height");
  s1_note : forall s, attr g "note" = PStr s -> textOk s;
  s1_anchors : forall v, In v (listed (attr g "anchors")) -> (forall k, In k ["x"; "y"] -> absentOr isNum (vget (u k) v)) /\ (forall k s, vget k v = PStr s -> valOk s);
  s1_items : forall l i, items = Some l -> In i l -> goodItem i /\ numberItem i /\ textItem i;
  s1_noIdentifiers : forall l i, items = Some l -> In i l -> match i with
    | Contour _ _ _ ident pts => ident = None /\ forall p, In p pts -> theId (pkw p) = None
    | Component _ _ _ _ _ ident => ident = None
    end;
  s1_lib : truthy (attr g "lib") = true -> plistable (attr g "lib");
  s1_libText : textsOk (attr g "lib") }.
(** GLIF 1 has no anchors: they are contours of one "move" point, and such contours
    with a name are taken for anchors *)
Definition namedMove (i : gitem) : option pyval :=
  match i with
  | Contour _ _ _ _ [p] =>
    match ptypeOf p, pname p, pc p with
    | Some t, Some n, Some (x, y) => if eqb t (u "move") then Some (PDict [(PStr (u "x"), x); (PStr (u "y"), y); (PStr (u "name"), PStr n)]) else None
    | _, _, _ => None
    end
  | _ => None
  end.
Definition moveContour (a : pyval) : gitem :=
  GContour None [mkPoint (Some (vget (u "x") a, vget (u "y") a)) (Some (u "move")) false (match vget (u "name") a with PStr s => Some s | _ => None end) None].
Definition contours1 (g : list (str * pyval)) (items : list gitem) : list gitem := items ++ map moveContour (listed (attr g "anchors")).
Record sameGlyph1 (sp : N -> bool) (name : str) (g : list (str * pyval)) (items : list gitem) (r : greading) : Prop := {
  s1g_name : get (u "name") (rattrs r) = Some (PStr name);
  s1g_width : sameNumber 0 (attr g "width") (get (u "width") (rattrs r));
  s1g_height : sameNumber 0 (attr g "height") (get (u "height") (rattrs r));
  s1g_noUnicodes : truthy (attr g "unicodes") = false -> get (u "unicodes") (rattrs r) = None;
  s1g_unicodes : forall z zs, attr g "unicodes" = PList (map PInt (z :: zs)) -> get (u "unicodes") (rattrs r) = Some (PList (map PInt (firsts (z :: zs))));
  s1g_noNote : truthy (attr g "note") = false -> get (u "note") (rattrs r) = None;
  s1g_note : forall s, attr g "note" = PStr s -> s <> [] -> exists s', get (u "note") (rattrs r) = Some (PStr s') /\ noteRead sp s s';
  s1g_image : get (u "image") (rattrs r) = None;
  s1g_guidelines : get (u "guidelines") (rattrs r) = None;
  s1g_lib : sameOr psame (attr g "lib") (get (u "lib") (rattrs r));
  s1g_anchors : let l := flat_map (fun i => match namedMove i with Some a => [a] | None => [] end) (contours1 g items) in
    get (u "anchors") (rattrs r) = match l with [] => None | _ => Some (PList l) end;
  (* asPassed: an identifier that is not given is the same as None *)
  s1g_items : exists items', map asPassed (rcalls r) = gdrawing items' /\ Forall2 sameItem (filter (fun i => match namedMove i with Some _ => false | None => true end) (contours1 g items)) items' }.

Lemma get_filter {A B} `{Eqb A} (p : A -> bool) (k : A) (l : list (A * B)) : p k = true -> get k (filter (fun kv => p (fst kv)) l) = get k l.
Proof. intro P. induction l as [|[a b] l IH]; [reflexivity|]. cbn [filter fst get]. destruct (p a) eqn:E; cbn [get]; [destruct (eqb k a); [reflexivity|exact IH]|]. destruct (eqb_spec k a) as [->|N]; [congruence|exact IH]. Qed.
Definition only1 (g : list (str * pyval)) : list (str * pyval) := filter (fun kv => negb (mem (fst kv) [u "image"; u "guidelines"])) g.
Lemma only1_get g k : mem k [u "image"; u "guidelines"] = false -> getattr (only1 g) k = getattr g k.
Proof. intro M. unfold getattr, only1. rewrite (get_filter (fun k => negb (mem k [u "image"; u "guidelines"])) k g) by (rewrite M; reflexivity). reflexivity. Qed.
Lemma only1_none g k : mem k [u "image"; u "guidelines"] = true -> getattr (only1 g) k = PNone.
Proof.
  intro M. unfold getattr, only1. replace (get k _) with (@None pyval); [reflexivity|]. symmetry. induction g as [|[a b] g IH]; [reflexivity|]. cbn [filter fst]. destruct (mem a _) eqn:E; cbn [negb]; [exact IH|]. cbn [get]. destruct (eqb_spec k a) as [->|N]; [congruence|exact IH].
Qed.
Lemma write1_only T R ro name g draw : writeGlyphTree T R ro name (only1 g) draw 1 true = writeGlyphTree T R ro name g draw 1 true.
Proof.
  unfold writeGlyphTree, writeAdvance, writeUnicodes, writeNote, writeImage, writeGuidelines, writeAnchors, writeOutline, anchorsFormat1, writeLib. rewrite !(only1_get g (u "width")), !(only1_get g (u "height")), !(only1_get g (u "unicodes")), !(only1_get g (u "note")), !(only1_get g (u "anchors")), !(only1_get g (u "lib")) by reflexivity. reflexivity.
Qed.
Lemma namedMove_anchor i : match i with Contour _ _ _ _ pts => forall p, In p pts -> exists c, pc p = Some c | _ => True end -> namedMove i = if anchorLike i then Some (anchorOf i) else None.
Proof.
  destruct i as [ident pts|b tr ident]; [|reflexivity]. destruct pts as [|p [|q pts]]; try reflexivity. cbn [namedMove anchorLike GlifFormat1.anchorOf]. intro N. destruct (N p (or_introl eq_refl)) as ([x y] & E). rewrite E, ptypeOf_seg.
  destruct (segType p) as [t|]; [|reflexivity]. change (eqb (Some t) (Some sMove)) with (eqb t (u "move")). destruct (pname p); [|rewrite andb_false_r; reflexivity]. destruct (eqb t (u "move")); reflexivity.
Qed.
Lemma storable1_ok name g items : storable1 name g (Some items) -> readable1 (only1 g) (Some items) /\ cleanGlyph name (only1 g) (Some items).
Proof.
  intros [Sn Sw Sh Sno Sa Si Sid Sl Slt]. assert (OK : forall i, In i items -> numericItem i /\ rItem' i) by (intros i I; destruct (Si items i eq_refl I) as (A & B & _); apply item_ok; assumption). split.
  - constructor; rewrite ?only1_get by reflexivity; try assumption.
    + apply Forall_forall. intros v I. destruct (Sa v I) as [N _]. intros k K. destruct K as [<-|[<-|[]]]; apply N; cbn; tauto.
    + split; [apply Forall_forall; intros i I; apply OK; exact I|]. split; [apply Forall_forall; intros i I; apply OK; exact I|].
      apply somes_nil. apply Forall_forall. intros o I. apply in_flat_map in I as (i & I & J). specialize (Sid items i eq_refl I). destruct i as [ident pts|bb tr ident]; cbn [itemIds] in J.
      * destruct Sid as [-> P]. destruct J as [<-|J]; [reflexivity|]. apply in_map_iff in J as (p & <- & J). apply P. exact J.
      * subst ident. destruct J as [<-|[]]. reflexivity.
  - constructor; rewrite ?(only1_get g (u "note")), ?(only1_get g (u "lib")), ?(only1_get g (u "anchors")), ?(only1_none g (u "image")), ?(only1_none g (u "guidelines")) by reflexivity; try assumption.
    + intros k s X. discriminate X.
    + apply Forall_nil.
    + apply Forall_forall. intros v I. destruct (Sa v I) as [_ N]. intros k s _ E. eapply N. exact E.
    + apply Forall_forall. intros i I. apply item_clean. apply (Si items i eq_refl I).
Qed.
(** Proved: a GLIF 1 whose outline has no identifiers, with good contours, numbers as
    coordinates and strings XML can carry, is read by UFO 1, 2 and 3 readers.  Its
    named anchors come back as anchors with position and name.  Missing: colors and
    identifiers of anchors, which GLIF 1 cannot store; anchors without a name, and
    contours of one "move" point with a name. *)
Theorem C56_format1_partial T R ro name g items b vs : pytext_laws T -> repr_laws T R ->
  writeGlyphBytes T R ro (PStr name) g (Some (gdrawing items)) 1 true = Ok b -> storable1 name g (Some items) -> In 1%Z vs ->
  exists r, readGlyphBytes T true true vs true b = Ok r /\ sameGlyph1 (isSpace T) name g items r.
Proof.
  intros LT LR W [Sn Sw Sh Sno Sa Si Sid Sl Slt] Iv.
  assert (W' : writeGlyphBytes T R ro (PStr name) (only1 g) (option_map gdrawing (Some items)) 1 true = Ok b) by (unfold writeGlyphBytes in *; rewrite write1_only; exact W).
  assert (Ga : getattr (only1 g) (u "anchors") = attr g "anchors") by (apply only1_get; reflexivity).
  assert (OK : forall i, In i items -> numericItem i /\ rItem' i) by (intros i I; destruct (Si items i eq_refl I) as (A & B & _); apply item_ok; assumption).
  destruct (storable1_ok name g items ltac:(constructor; assumption)) as [Rd Cl].
  destruct (file_round1 T LT R LR ro name (only1 g) (Some items) b vs W' Rd Cl (proj2 (mem_In 1%Z vs) Iv)) as (r & Er & [Bc Bn Bw Bh Bu Bno Bi Bg Ba Bl]). exists r. split; [exact Er|].
  unfold drawn1 in Bc, Ba. rewrite Ga in Bc, Ba. rewrite !(only1_get g (u "width")), !(only1_get g (u "height")) in Bw, Bh by reflexivity. rewrite !(only1_get g (u "unicodes")) in Bu by reflexivity. rewrite !(only1_get g (u "note")) in Bno by reflexivity. rewrite !(only1_get g (u "lib")) in Bl by reflexivity.
  change (itemsOf' (attr g "anchors")) with (listed (attr g "anchors")) in Bc, Ba.
  set (all := items ++ map anchorItem (listed (attr g "anchors"))) in *.
  assert (Nm : forall i, In i all -> namedMove i = if anchorLike i then Some (anchorOf i) else None).
  { intros i I. apply namedMove_anchor. unfold all in I. apply in_app_or in I as [I|I].
    - destruct (Si items i eq_refl I) as (_ & N & _). destruct i as [ident pts|bb tr ident]; [|exact Logic.I]. intros p J. destruct (N p J) as (x & y & E & _). eauto.
    - apply in_map_iff in I as (a & <- & _). intros p [<-|[]]. eexists; reflexivity. }
  assert (Na : forall l, namedMove (moveContour l) = namedMove (anchorItem l)) by reflexivity.
  assert (Fm : forall (f : gitem -> list pyval), (forall a, f (moveContour a) = f (anchorItem a)) -> flat_map f (contours1 g items) = flat_map f all).
  { intros f Hf. unfold contours1, all. rewrite !flat_map_app. f_equal. clear -Hf. induction (listed (attr g "anchors")) as [|a l IH]; [reflexivity|]. cbn [map flat_map]. rewrite Hf, IH. reflexivity. }
  constructor.
  - exact Bn.
  - rewrite Bw. apply advance_same. intro H. apply andb_prop in H. apply H.
  - rewrite Bh. apply advance_same. intro H. apply andb_prop in H. apply H.
  - rewrite attr_getattr. intro F. rewrite Bu. unfold codesOf. rewrite F. reflexivity.
  - rewrite attr_getattr. intros z zs E. rewrite Bu, E. unfold codesOf. cbn [map truthy negb is_int iterate]. rewrite map_map. cbn [codeOf]. rewrite map_id. rewrite nub_firsts.
    assert (N : firsts (z :: zs) <> []). { rewrite <- nub_firsts. discriminate. } destruct (firsts (z :: zs)); [contradiction|reflexivity].
  - rewrite attr_getattr. intro F. rewrite Bno. destruct (getattr g (u "note")) as [| | | |[|c s]| | | | | |]; try reflexivity. discriminate F.
  - rewrite attr_getattr. intros s E N. rewrite Bno, E. destruct s as [|c s]; [contradiction|]. eexists. split; [reflexivity|]. rewrite noteLines_written by exact LT. apply note_spec.
  - exact Bi.
  - exact Bg.
  - exact Bl.
  - cbv zeta. rewrite Ba, Fm by reflexivity. replace (flat_map (fun i => match namedMove i with Some a => [a] | None => [] end) all) with (map anchorOf (filter anchorLike all)); [destruct (map anchorOf (filter anchorLike all)); reflexivity|].
    clear -Nm. induction all as [|i l IH]; [reflexivity|]. cbn [filter flat_map]. rewrite (Nm i (or_introl eq_refl)). rewrite <- IH by (intros; apply Nm; right; assumption). destruct (anchorLike i); reflexivity.
  - eexists. split; [exact Bc|].
    assert (Fs : Forall2 (fun i j => namedMove i = namedMove j /\ sameItem i (passedItem j)) (contours1 g items) all).
    { unfold contours1, all. apply Forall2_app.
      - assert (N : forall i, In i items -> numberItem i) by (intros i I; apply (Si items i eq_refl I)). clear -N. induction items as [|i l IH]; constructor; [split; [reflexivity|apply item_same; apply N; left; reflexivity]|apply IH; intros j I; apply N; right; exact I].
      - clear. induction (listed (attr g "anchors")) as [|a l IH]; cbn [map]; constructor; [|exact IH]. split; [reflexivity|]. split; [reflexivity|]. constructor; [|constructor]. repeat split. }
    clear -Fs Nm. induction Fs as [|i j l m [E S] F IH]; [constructor|]. cbn [filter]. rewrite E, (Nm j (or_introl eq_refl)). specialize (IH (fun k I => Nm k (or_intror I))). destruct (anchorLike j); cbn [negb]; [exact IH|]. cbn [map]. constructor; assumption.
Qed.
Print Assumptions C56_format1_partial.
(** with anchors that are all named and no contour that looks like one, the anchors
    and the outline come back *)
Theorem C56_anchors_partial T R ro name g items b vs : pytext_laws T -> repr_laws T R ->
  writeGlyphBytes T R ro (PStr name) g (Some (gdrawing items)) 1 true = Ok b -> storable1 name g (Some items) -> In 1%Z vs ->
  (forall i, In i items -> namedMove i = None) -> (forall a, In a (listed (attr g "anchors")) -> exists n, vget (u "name") a = PStr n) ->
  exists r al items', readGlyphBytes T true true vs true b = Ok r /\
    get (u "anchors") (rattrs r) = match al with [] => None | _ => Some (PList al) end /\
    Forall2 (fun a w => forall k, In k ["x"; "y"; "name"] -> vget (u k) w = vget (u k) a) (listed (attr g "anchors")) al /\
    map asPassed (rcalls r) = gdrawing items' /\ Forall2 sameItem items items'.
Proof.
  intros LT LR W S Iv Ni Na. destruct (C56_format1_partial T R ro name g items b vs LT LR W S Iv) as (r & Er & G). destruct (s1g_items _ _ _ _ _ G) as (items' & Ec & F). assert (A := s1g_anchors _ _ _ _ _ G). cbv zeta in A.
  exists r, (map (fun a => PDict [(PStr (u "x"), vget (u "x") a); (PStr (u "y"), vget (u "y") a); (PStr (u "name"), vget (u "name") a)]) (listed (attr g "anchors"))), items'. split; [exact Er|].
  assert (E1 : forall l, (forall i, In i l -> namedMove i = None) -> flat_map (fun i => match namedMove i with Some a => [a] | None => [] end) l = [] /\ filter (fun i => match namedMove i with Some _ => false | None => true end) l = l).
  { induction l as [|i l IH]; intro H; [split; reflexivity|]. cbn [flat_map filter]. rewrite (H i (or_introl eq_refl)). destruct (IH (fun j I => H j (or_intror I))) as [-> ->]. split; reflexivity. }
  assert (E2 : forall l, (forall a, In a l -> exists n, vget (u "name") a = PStr n) -> flat_map (fun i => match namedMove i with Some a => [a] | None => [] end) (map moveContour l) = map (fun a => PDict [(PStr (u "x"), vget (u "x") a); (PStr (u "y"), vget (u "y") a); (PStr (u "name"), vget (u "name") a)]) l
    /\ filter (fun i => match namedMove i with Some _ => false | None => true end) (map moveContour l) = []).
  { induction l as [|a l IH]; intro H; [split; reflexivity|]. destruct (H a (or_introl eq_refl)) as (n & En). destruct (IH (fun b I => H b (or_intror I))) as [I1 I2]. cbn [map flat_map filter].
    assert (X : namedMove (moveContour a) = Some (PDict [(PStr (u "x"), vget (u "x") a); (PStr (u "y"), vget (u "y") a); (PStr (u "name"), vget (u "name") a)])) by (unfold moveContour; rewrite En; reflexivity).
    rewrite X, I1, I2. split; reflexivity. }
  destruct (E1 items Ni) as [A1 A2]. destruct (E2 _ Na) as [B1 B2]. unfold contours1 in A, F. rewrite flat_map_app, A1, B1 in A. cbn [app] in A. split; [exact A|]. split.
  - clear. induction (listed (attr g "anchors")) as [|a l IH]; cbn [map]; constructor; [|exact IH]. intros k [<-|[<-|[<-|[]]]]; reflexivity.
  - split; [exact Ec|]. rewrite filter_app, A2, B2, app_nil_r in F. exact F.
Qed.
Print Assumptions C56_anchors_partial.
Definition anchorCase (x y : Z) (n : option string) : pyval := PDict ([(PStr (u "x"), PInt x); (PStr (u "y"), PInt y)] ++ match n with Some n => [(PStr (u "name"), PStr (u n))] | None => [] end).
(** a named anchor comes back as an anchor, one without a name as a contour *)
Example C56_case :
  match readBackCase (u "a") [(u "width", PInt 500); (u "anchors", PList [anchorCase 1 2 (Some "top"); anchorCase 3 4 None])] (Some [GContour None [ptc 0 0 "line"; ptc 1 0 "line"]; GComponent (u "b") [PInt 1; PInt 0; PInt 0; PInt 1; PInt 7; PInt 0] None]) 1 with
  | Ok r => get (u "anchors") (rattrs r) = Some (PList [anchorCase 1 2 (Some "top")]) /\ get (u "width") (rattrs r) = Some (PInt 500) /\ length (rcalls r) = 8
  | Err _ => False
  end.
Proof. vm_compute. auto. Qed.
(** the identifiers that the writer puts into a GLIF 1 make the reader reject it *)
Theorem C56_refuted : exists T R ro name cs b, pytext_laws T /\ repr_laws T R /\ writeGlyphBytes T R ro (PStr name) [] (Some cs) 1 true = Ok b /\ readGlyphBytes T true true [1%Z] true b = Err GlifLibError.
Proof.
  exists toyText, toyRepr, roCase, (u "a"), (gdrawing [GContour (Some (u "id")) [ptc 0 0 "line"; ptc 1 0 "line"]]). eexists. split; [apply toyText_laws|]. split; [apply toyRepr_laws|]. split; [vm_compute; reflexivity|vm_compute; reflexivity].
Qed.
Print Assumptions C56_refuted.

(** * C58, C53: the whole glyph in GLIF 2 *)
(** Missing: strings XML cannot carry unchanged, booleans used as numbers, outlines
    that the reader rejects (C50). *)
Theorem C58_glyph_partial T R ro name g items b : pytext_laws T -> repr_laws T R ->
  writeGlyphBytes T R ro (PStr name) g (option_map gdrawing items) 2 true = Ok b -> storable name g items ->
  exists r, readGlyphBytes T true true [1%Z; 2%Z] true b = Ok r /\ sameGlyph (isSpace T) name g items r.
Proof. intros LT LR. apply glyph_round; assumption. Qed.
Print Assumptions C58_glyph_partial.
Definition glyphCase : list (str * pyval) :=
  [(u "width", PFloat (S754_finite false 6755399441055744 (-52))); (u "height", PInt 0); (u "unicodes", PList [PInt 65; PInt 10; PInt 65]); (u "note", PStr (u " a b" ++ [10; 32; 10; 99]%N));
   (u "image", PDict [(PStr (u "fileName"), PStr (u "i.png")); (PStr (u "xScale"), PInt 2)]); (u "guidelines", PList [PDict [(PStr (u "x"), PInt 5); (PStr (u "identifier"), PStr (u "g1"))]]);
   (u "anchors", PList [anchorCase 1 2 (Some "top")]); (u "lib", PDict [(PStr (u "k"), PList [PInt 1; PStr (u "<&>")])])].
Definition itemsCase : list gitem := [GContour (Some (u "c1")) [ptc 0 0 "line"; ptc 1 0 ""; ptc 2 1 "offcurve"; ptc 2 2 "curve"]; GComponent (u "b") [PInt 1; PInt 0; PInt 0; PInt 1; PInt 7; PInt 0] (Some (u "c2"))].
Example C58_case :
  match readBackCase (u "a<") glyphCase (Some itemsCase) 2 with
  | Ok r => map (fun k => get (u k) (rattrs r)) ["name"; "width"; "height"; "unicodes"; "note"] =
      [Some (PStr (u "a<")); Some (PFloat (S754_finite false 6755399441055744 (-52))); Some (PInt 0); Some (PList [PInt 65; PInt 10]); Some (PStr (u "a b" ++ [10; 99]%N))] /\
      get (u "lib") (rattrs r) = get (u "lib") glyphCase /\ get (u "guidelines") (rattrs r) = get (u "guidelines") glyphCase /\ rcalls r = gdrawing (map passedItem itemsCase)
  | Err _ => False
  end.
Proof. vm_compute. repeat split; reflexivity. Qed.
(** a glyph name with a tab is read back with a space *)
Theorem C58_refuted : exists T R ro name b r, pytext_laws T /\ repr_laws T R /\ writeGlyphBytes T R ro (PStr name) [] None 2 true = Ok b /\
  readGlyphBytes T true true [1%Z; 2%Z] true b = Ok r /\ get (u "name") (rattrs r) <> Some (PStr name).
Proof.
  exists toyText, toyRepr, roCase, [97; 9; 98]%N. eexists. eexists. split; [apply toyText_laws|]. split; [apply toyRepr_laws|]. split; [vm_compute; reflexivity|]. split; [vm_compute; reflexivity|]. vm_compute. discriminate.
Qed.
Print Assumptions C58_refuted.
Theorem C53_attributes_partial T R ro name g items b : pytext_laws T -> repr_laws T R ->
  writeGlyphBytes T R ro (PStr name) g (option_map gdrawing items) 2 true = Ok b -> storable name g items ->
  exists r, readGlyphBytes T true true [1%Z; 2%Z] true b = Ok r /\
    sameNumber 0 (attr g "width") (get (u "width") (rattrs r)) /\ sameNumber 0 (attr g "height") (get (u "height") (rattrs r)) /\
    sameOr sameImage (attr g "image") (get (u "image") (rattrs r)) /\
    sameOr sameList (attr g "guidelines") (get (u "guidelines") (rattrs r)) /\ sameOr sameList (attr g "anchors") (get (u "anchors") (rattrs r)).
Proof. intros LT LR W S. destruct (glyph_round T LT R LR ro _ _ _ _ W S) as (r & Er & []). exists r. auto 8. Qed.
Print Assumptions C53_attributes_partial.
Example C53_case :
  match readBackCase (u "a") glyphCase None 2 with
  | Ok r => get (u "image") (rattrs r) = Some (PDict [(PStr (u "fileName"), PStr (u "i.png")); (PStr (u "xScale"), PInt 2); (PStr (u "xyScale"), PInt 0); (PStr (u "yxScale"), PInt 0); (PStr (u "yScale"), PInt 1); (PStr (u "xOffset"), PInt 0); (PStr (u "yOffset"), PInt 0)])
  | Err _ => False
  end.
Proof. vm_compute. reflexivity. Qed.
(** True is accepted as a width, but written as "True" *)
Theorem C53_refuted : exists T R ro name g b, pytext_laws T /\ repr_laws T R /\ writeGlyphBytes T R ro (PStr name) g None 2 true = Ok b /\ readGlyphBytes T true true [1%Z; 2%Z] true b = Err GlifLibError.
Proof.
  exists toyText, toyRepr, (fun _ => u "True"), (u "a"), [(u "width", PBool true)]. eexists. split; [apply toyText_laws|]. split; [apply toyRepr_laws|]. split; [vm_compute; reflexivity|vm_compute; reflexivity].
Qed.
Print Assumptions C53_refuted.

(** * C51, C52: unicode values and notes, in both formats *)
Section Both.
Variable T : pytext.
Hypothesis LT : pytext_laws T.
Variable R : spec_float -> str.
Hypothesis LR : repr_laws T R.
Variable ro : pyval -> str.
Lemma written_1 name g root : writeGlyphTree T R ro name g None 2 true = Ok root -> exists root', writeGlyphTree T R ro name g None 1 true = Ok root'.
Proof.
  unfold writeGlyphTree. destruct (negb true || is_str name); [|discriminate]. destruct (negb (true && py_eq name (PStr []))); [|discriminate]. intro W. apply bind_Ok in W as (n & -> & W). cbn [bind].
  apply bind_Ok in W as (adv & -> & W). apply bind_Ok in W as (uni & -> & W). apply bind_Ok in W as (note & -> & W). apply bind_Ok in W as (image & _ & W). apply bind_Ok in W as ((gl & ids1) & _ & W). apply bind_Ok in W as ((al & ids2) & _ & W). apply bind_Ok in W as (outl & _ & W). apply bind_Ok in W as (lib & -> & W).
  cbn [bind]. change (writeImage T R ro g 1 true) with (Ok (@nil elem)). change (writeGuidelines T R ro g 1 true []) with (Ok (@nil elem, @nil str)). cbn [bind]. change (writeAnchors T R ro g 1 true []) with (Ok (@nil elem, @nil str)). cbn [bind writeOutline]. eexists. reflexivity.
Qed.
(** a glyph with neither image, guidelines, anchors nor lib *)
Definition plain (g : list (str * pyval)) : Prop := forall k, In k ["image"; "guidelines"; "anchors"; "lib"] -> attr g k = PNone.
Lemma plain_readable name g : plain g -> absentOr isNum (attr g "width") -> absentOr isNum (attr g "height") -> valOk name -> (forall s, attr g "note" = PStr s -> textOk s) ->
  readable2 g None /\ readable1 g None /\ cleanGlyph name g None.
Proof.
  intros P W H V N. assert (Pi : getattr g (u "image") = PNone) by (apply (P "image"); cbn; auto). assert (Pg : getattr g (u "guidelines") = PNone) by (apply (P "guidelines"); cbn; auto).
  assert (Pa : getattr g (u "anchors") = PNone) by (apply (P "anchors"); cbn; auto). assert (Pl : getattr g (u "lib") = PNone) by (apply (P "lib"); cbn; auto 6).
  split; [|split]; constructor; rewrite ?Pi, ?Pg, ?Pa, ?Pl; try assumption; try (intros; discriminate); try apply Forall_nil; try exact I; try exact texts_none.
Qed.
Lemma plain_round name g v : name <> [] -> valid2 T g None -> plain g -> absentOr isNum (attr g "width") -> absentOr isNum (attr g "height") -> valOk name -> (forall s, attr g "note" = PStr s -> textOk s) -> v = 1%Z \/ v = 2%Z ->
  exists b r, writeGlyphBytes T R ro (PStr name) g None v true = Ok b /\ readGlyphBytes T true true [1%Z; 2%Z] true b = Ok r /\
    get (u "unicodes") (rattrs r) = nonEmpty (map PInt (nub [] (codesOf (getattr g (u "unicodes"))))) /\
    get (u "note") (rattrs r) = match getattr g (u "note") with PStr (c :: s) => Some (PStr (noteLines T (c :: s))) | _ => None end.
Proof.
  intros Nn V P W H Vn N Hv. destruct (plain_readable name g P W H Vn N) as (R2 & R1 & C). destruct (written2 T R ro name g None Nn V) as (root & Wt). destruct Hv as [-> | ->].
  - destruct (written_1 _ _ _ Wt) as (root' & Wt'). destruct (file_parsed1 T LT R LR ro name g None root' Wt' R1 C) as (b & f & Wb & Lk & Gt). destruct (tree_round1 T LT R LR ro name g None root' f [1%Z; 2%Z] Wt' R1 Lk eq_refl) as (r & Er & B).
    exists b, r. split; [exact Wb|]. split; [unfold readGlyphBytes; rewrite Gt; exact Er|]. split; [apply (r1_unicodes _ _ _ _ _ B)|]. rewrite (r1_note _ _ _ _ _ B). destruct (getattr g (u "note")) as [| | | |[|c s]| | | | | |]; try reflexivity. rewrite noteLines_written by exact LT. reflexivity.
  - destruct (file_parsed T LT R LR ro name g None root Wt R2 C) as (b & f & Wb & Lk & Gt). destruct (tree_round T LT R LR ro name g None root f Wt R2 Lk) as (r & Er & B).
    exists b, r. split; [exact Wb|]. split; [unfold readGlyphBytes; rewrite Gt; exact Er|]. split; [apply (rb_unicodes _ _ _ _ _ B)|]. rewrite (rb_note _ _ _ _ _ B). destruct (getattr g (u "note")) as [| | | |[|c s]| | | | | |]; try reflexivity. rewrite noteLines_written by exact LT. reflexivity.
Qed.
End Both.
Theorem C51_unicodes T R ro name zs v : pytext_laws T -> repr_laws T R -> name <> [] -> valOk name -> v = 1%Z \/ v = 2%Z ->
  exists b r, writeGlyphBytes T R ro (PStr name) [(u "unicodes", PList (map PInt zs))] None v true = Ok b /\ readGlyphBytes T true true [1%Z; 2%Z] true b = Ok r /\
    get (u "unicodes") (rattrs r) = match firsts zs with [] => None | l => Some (PList (map PInt l)) end.
Proof.
  intros LT LR Nn Vn Hv. set (g := [(u "unicodes", PList (map PInt zs))]).
  assert (V : valid2 T g None) by (constructor; try (left; reflexivity); try exact I; right; exists zs; reflexivity).
  assert (P : plain g) by (intros k K; destruct K as [<-|[<-|[<-|[<-|[]]]]]; reflexivity).
  destruct (plain_round T LT R LR ro name g v Nn V P (or_introl eq_refl) (or_introl eq_refl) Vn ltac:(discriminate) Hv) as (b & r & Wb & Er & U & _).
  exists b, r. split; [exact Wb|]. split; [exact Er|]. rewrite U. change (getattr g (u "unicodes")) with (PList (map PInt zs)). unfold codesOf. destruct zs as [|z zs]; [reflexivity|]. cbn [map truthy negb is_int iterate]. rewrite map_map. cbn [codeOf]. rewrite map_id, nub_firsts. destruct (firsts (z :: zs)); reflexivity.
Qed.
Print Assumptions C51_unicodes.
Example C51_case : firsts [65; 66; 65; -3; 66]%Z = [65; 66; -3]%Z /\
  forall v, In v [1; 2]%Z -> match readBackCase (u "a") [(u "unicodes", PList [PInt 65; PInt 1114112; PInt 65; PInt (-3)])] None v with Ok r => get (u "unicodes") (rattrs r) = Some (PList [PInt 65; PInt 1114112; PInt (-3)]) | Err _ => False end.
Proof. split; [reflexivity|]. intros v [<-|[<-|[]]]; vm_compute; reflexivity. Qed.

Lemma noteRead_text sp s s' : noteRead sp s s' -> textOk s -> textOk s'.
Proof.
  intros (ls & ks & -> & _ & K & ->) [X Y]. assert (J : forall (l : list str) c, In c (join [10%N] l) -> c = 10%N \/ exists x, In x l /\ In c x).
  { induction l as [|x l IH]; intros c I; [destruct I|]. destruct l as [|y l]; [cbn in I; right; exists x; split; [left; reflexivity|exact I]|]. change (join [10%N] (x :: y :: l)) with (x ++ [10%N] ++ join [10%N] (y :: l)) in I. apply in_app_or in I as [I|I]; [right; exists x; split; [left; reflexivity|exact I]|]. destruct I as [<-|I]; [left; reflexivity|]. destruct (IH c I) as [->|(z & A & B)]; [left; reflexivity|right; exists z; split; [right; exact A|exact B]]. }
  assert (L : forall (l : list str) x c, In x l -> In c x -> In c (join [10%N] l)).
  { clear. induction l as [|y l IH]; intros x c I H; [destruct I|]. destruct l as [|z l]; [destruct I as [->|[]]; exact H|]. change (join [10%N] (y :: z :: l)) with (y ++ [10%N] ++ join [10%N] (z :: l)). apply in_or_app. destruct I as [->|I]; [left; exact H|]. right. right. eapply IH; eassumption. }
  assert (Kc : forall k c, In k ks -> In c k -> exists l, In l ls /\ In c l).
  { clear -K. induction K as [|l ls ks B K IH|a l b ls ks N Ba Bb H1 H2 K IH]; intros k c I H; [destruct I| |].
    - destruct (IH k c I H) as (x & A & B'). exists x. split; [right; exact A|exact B'].
    - destruct I as [<-|I]; [exists (a ++ l ++ b); split; [left; reflexivity|apply in_or_app; right; apply in_or_app; left; exact H]|]. destruct (IH k c I H) as (x & A & B'). exists x. split; [right; exact A|exact B']. }
  rewrite Forall_forall in X. split; [apply Forall_forall|]; intro c.
  - intro I. apply J in I as [->|(k & A & B)]; [unfold xmlCompat; lia|]. destruct (Kc k c A B) as (l & C & D). apply X. eapply L; eassumption.
  - apply J in c as [E|(k & A & B)]; [discriminate E|]. destruct (Kc k 13%N A B) as (l & C & D). apply Y. eapply L; eassumption.
Qed.
Theorem C52_note T R ro name s v : pytext_laws T -> repr_laws T R -> name <> [] -> valOk name -> s <> [] -> textOk s -> v = 1%Z \/ v = 2%Z ->
  exists s', noteRead (isSpace T) s s' /\
    (exists b r, writeGlyphBytes T R ro (PStr name) [(u "note", PStr s)] None v true = Ok b /\ readGlyphBytes T true true [1%Z; 2%Z] true b = Ok r /\ get (u "note") (rattrs r) = Some (PStr s')) /\
    (exists b r, writeGlyphBytes T R ro (PStr name) [(u "note", PStr s')] None v true = Ok b /\ readGlyphBytes T true true [1%Z; 2%Z] true b = Ok r /\ get (u "note") (rattrs r) = match s' with [] => None | _ => Some (PStr s') end).
Proof.
  intros LT LR Nn Vn Ns Tx Hv. exists (noteLines T s). assert (Sp := note_spec T s). split; [exact Sp|].
  assert (G : forall s, textOk s -> exists b r, writeGlyphBytes T R ro (PStr name) [(u "note", PStr s)] None v true = Ok b /\ readGlyphBytes T true true [1%Z; 2%Z] true b = Ok r /\ get (u "note") (rattrs r) = match s with [] => None | _ => Some (PStr (noteLines T s)) end).
  { intros s0 T0. set (g := [(u "note", PStr s0)]).
    assert (V : valid2 T g None) by (constructor; try (left; reflexivity); try exact I; right; reflexivity).
    assert (P : plain g) by (intros k K; destruct K as [<-|[<-|[<-|[<-|[]]]]]; reflexivity).
    destruct (plain_round T LT R LR ro name g v Nn V P (or_introl eq_refl) (or_introl eq_refl) Vn (fun s1 E => eq_ind s0 textOk T0 s1 (f_equal (fun v => match v with PStr x => x | _ => [] end) E)) Hv) as (b & r & Wb & Er & _ & U).
    exists b, r. split; [exact Wb|]. split; [exact Er|]. rewrite U. change (getattr g (u "note")) with (PStr s0). destruct s0; reflexivity. }
  split.
  - destruct (G s Tx) as (b & r & A & B & C). exists b, r. split; [exact A|]. split; [exact B|]. rewrite C. destruct s; [contradiction|reflexivity].
  - destruct (G _ (noteRead_text _ _ _ Sp Tx)) as (b & r & A & B & C). exists b, r. split; [exact A|]. split; [exact B|]. rewrite C. rewrite noteLines_idem. reflexivity.
Qed.
Print Assumptions C52_note.
(** what is read is determined by [noteRead] *)
Theorem C52_unique T s s' s'' : noteRead (isSpace T) s s' -> noteRead (isSpace T) s s'' -> s' = s''.
Proof. intros A B. apply noteRead_fun in A, B. congruence. Qed.
Example C52_case : forall v, In v [1; 2]%Z ->
  match readBackCase (u "a") [(u "note", PStr (u "  x  y " ++ [10; 32; 10]%N ++ u " z"))] None v with Ok r => get (u "note") (rattrs r) = Some (PStr (u "x  y" ++ [10%N] ++ u "z")) | Err _ => False end.
Proof. intros v [<-|[<-|[]]]; vm_compute; reflexivity. Qed.

(** * C54, C82: reading, writing and reading again *)
(** an identifier that is not given is the same as None *)
Definition sameCall (c d : gcall) : Prop :=
  match c, d with
  | PBegin i, PBegin j => theId j = theId i
  | PAdd p, PAdd q => samePoint p q
  | PEnd, PEnd => True
  | PComponent b t i, PComponent b' t' j => b' = b /\ theId j = theId i /\ Forall2 (fun v w => w = v \/ py_eq v w = true) t t'
  | _, _ => False
  end.
Definition callText (c : gcall) : Prop :=
  match c with PAdd p => forall n, pname p = Some n -> valOk n | PComponent b _ _ => valOk b | _ => True end.
(** what is asked of what has been read: only strings that XML carries unchanged when
    they are not escaped, and integers that fit property lists *)
Record cleanReading (r : greading) : Prop := {
  cr_calls : Forall callText (rcalls r);
  cr_name : forall s, attr (rattrs r) "name" = PStr s -> valOk s;
  cr_note : forall s, attr (rattrs r) "note" = PStr s -> textOk s;
  cr_image : forall k s, vget k (attr (rattrs r) "image") = PStr s -> valOk s;
  cr_guidelines : forall v k s, In v (listed (attr (rattrs r) "guidelines")) -> vget k v = PStr s -> valOk s;
  cr_anchors : forall v k s, In v (listed (attr (rattrs r) "anchors")) -> vget k v = PStr s -> valOk s;
  cr_lib : truthy (attr (rattrs r) "lib") = true -> plistable (attr (rattrs r) "lib");
  cr_libText : textsOk (attr (rattrs r) "lib") }.
Record sameReading (r r' : greading) : Prop := {
  sr_calls : Forall2 sameCall (rcalls r) (rcalls r');
  sr_name : get (u "name") (rattrs r') = get (u "name") (rattrs r);
  sr_width : sameNumber 0 (attr (rattrs r) "width") (get (u "width") (rattrs r'));
  sr_height : sameNumber 0 (attr (rattrs r) "height") (get (u "height") (rattrs r'));
  sr_unicodes : get (u "unicodes") (rattrs r') = get (u "unicodes") (rattrs r);
  sr_note : get (u "note") (rattrs r') = get (u "note") (rattrs r) \/ (get (u "note") (rattrs r') = None /\ get (u "note") (rattrs r) = Some (PStr []));
  sr_image : sameOr sameImage (attr (rattrs r) "image") (get (u "image") (rattrs r'));
  sr_guidelines : sameOr sameList (attr (rattrs r) "guidelines") (get (u "guidelines") (rattrs r'));
  sr_anchors : sameOr sameList (attr (rattrs r) "anchors") (get (u "anchors") (rattrs r'));
  sr_lib : sameOr psame (attr (rattrs r) "lib") (get (u "lib") (rattrs r')) }.

Lemma asPassed_twice cs : map asPassed (map asPassed cs) = map asPassed cs.
Proof. rewrite map_map. apply map_ext. intros [i|p| |b t i]; reflexivity. Qed.
Lemma rItem_good i : rItem i -> goodItem i /\ numberItem i.
Proof.
  destruct i as [ident pts|b tr ident]; cbn [rItem goodItem numberItem]; [|auto]. intro H. assert (N : forall p, In p pts -> numeric p) by (intros p I; destruct H as [H _]; rewrite Forall_forall in H; apply (H p I)). split; [apply goodContour_iff; assumption|exact N].
Qed.
Lemma calls_text cs items : map asPassed cs = gdrawing items -> Forall callText cs -> forall i, In i items -> textItem i.
Proof.
  intros E F i I. assert (F' : forall c, In c (gdrawing items) -> callText c).
  { rewrite <- E. intros c J. apply in_map_iff in J as (c0 & <- & J). rewrite Forall_forall in F. specialize (F c0 J). destruct c0 as [j|p| |bb t j]; exact F. }
  destruct i as [ident pts|b tr ident]; cbn [textItem].
  - intros p n J. apply (F' (PAdd p)). apply in_flat_map. exists (GContour ident pts). split; [exact I|]. cbn. right. apply in_or_app. left. apply in_map. exact J.
  - apply (F' (PComponent b tr (Some ident))). apply in_flat_map. exists (GComponent b tr ident). split; [exact I|left; reflexivity].
Qed.
Lemma calls_same cs items items' : map asPassed cs = gdrawing items -> Forall2 sameItem items items' -> Forall2 sameCall cs (gdrawing items').
Proof.
  intros E F. assert (G : Forall2 sameCall (gdrawing items) (gdrawing items')).
  { clear E. induction F as [|i j items items' S F IH]; [constructor|]. change (gdrawing (i :: items)) with (gcallsOf i ++ gdrawing items). change (gdrawing (j :: items')) with (gcallsOf j ++ gdrawing items'). apply Forall2_app; [|exact IH].
    destruct i as [ident pts|b tr ident], j as [ident' pts'|b' tr' ident']; cbn [sameItem] in S; try contradiction.
    - destruct S as [-> S]. cbn. constructor; [reflexivity|]. apply Forall2_app; [|constructor; [exact I|constructor]]. induction S as [|p q pts pts' S1 S2 IHs]; [constructor|]. cbn [map]. constructor; [exact S1|exact IHs].
    - destruct S as (-> & -> & S). cbn. constructor; [|constructor]. split; [reflexivity|]. split; [reflexivity|exact S]. }
  rewrite <- E in G. clear - G. remember (map asPassed cs) as l eqn:El. revert cs El. induction G as [|c d l m S G IH]; intros [|c0 cs] El; try discriminate El; constructor.
  - injection El as -> _. destruct c0 as [i|p| |bb t i], d as [j|q| |b' t' j]; exact S.
  - apply IH. injection El as _ ->. reflexivity.
Qed.
Section ReadAgain.
Variable T : pytext.
Hypothesis LT : pytext_laws T.
Variable R : spec_float -> str.
Hypothesis LR : repr_laws T R.
Variable ro : pyval -> str.
Lemma read_write_read name g cs items : name <> [] -> valid2 T g (Some items) -> storable name g (Some items) -> map asPassed cs = gdrawing items -> Forall isPassed items ->
  exists b r, writeGlyphBytes T R ro (PStr name) g (Some cs) 2 true = Ok b /\ readGlyphBytes T true true [1%Z; 2%Z] true b = Ok r /\ sameGlyph (isSpace T) name g (Some items) r.
Proof.
  intros Nn V S E P. destruct (written2 T R ro name g (Some items) Nn V) as (root & Wt). destruct (file_parsed T LT R LR ro name g (Some items) root Wt (storable_readable _ _ _ S) (storable_clean _ _ _ S)) as (b & f & Wb & _).
  destruct (glyph_round T LT R LR ro name g (Some items) b Wb S) as (r & Er & Sg). exists b, r. split; [|auto]. unfold writeGlyphBytes in *. rewrite (writeGlyphTree_passed T R ro (PStr name) g cs (gdrawing items)); [exact Wb|]. rewrite E. symmetry. apply asPassed_drawing. exact P.
Qed.
End ReadAgain.
(** Proved for point names and base glyph names that XML attributes carry unchanged.
    The coordinates, types, smooth flags, names and identifiers of points and
    contours come back; of components transformations up to ==. *)
Theorem C54_outline_partial T R ro vs b0 r name : pytext_laws T -> repr_laws T R -> name <> [] -> valOk name ->
  readGlyphBytes T true true vs true b0 = Ok r -> Forall callText (rcalls r) ->
  exists b r', writeGlyphBytes T R ro (PStr name) [] (Some (rcalls r)) 2 true = Ok b /\ readGlyphBytes T true true [1%Z; 2%Z] true b = Ok r' /\ Forall2 sameCall (rcalls r) (rcalls r').
Proof.
  intros LT LR Nn Vn Er Cl. unfold readGlyphBytes in Er. apply bind_Ok in Er as (f & _ & Er). destruct (readFormat_accepted T R LR true true vs f r eq_refl eq_refl Er) as (items & [Ac Ai Ap _ _ _ _ _ _ _ _ _ Aid Aok]).
  assert (V : valid2 T [] (Some items)).
  { constructor; try (left; reflexivity).
    - split; [|exact Aok]. eapply Forall_impl; [|exact Ai]. intros i. apply rItem_wItem.
    - cbn [app map itemsOf' getattr get]. rewrite somes_app in Aid. clear - Aid. revert Aid. generalize (somes (flat_map itemIds items)). intros l N. induction l as [|x l IH]; [constructor|]. cbn [app] in N. inversion N as [|? ? H1 H2]; subst. constructor; [|auto]. intro I. apply H1. apply in_or_app. left. exact I. }
  assert (S : storable name [] (Some items)).
  { constructor; [exact Vn|left; reflexivity|left; reflexivity|discriminate|intros k d _ X; discriminate X|intros k s X; discriminate X|intros v []|intros v []| |discriminate|exact texts_none].
    intros l i E I. injection E as <-. rewrite Forall_forall in Ai. destruct (rItem_good i (Ai i I)) as [A B]. split; [exact A|]. split; [exact B|]. eapply calls_text; eassumption. }
  destruct (read_write_read T LT R LR ro name [] (rcalls r) items Nn V S Ac Ap) as (b & r' & Wb & Er' & Sg). exists b, r'. split; [exact Wb|]. split; [exact Er'|].
  destruct (sg_items _ _ _ _ _ Sg) as (items' & -> & F). eapply calls_same; eassumption.
Qed.
Print Assumptions C54_outline_partial.
(** (toyText reads floats as mantissa and exponent to base 2)  *)
Definition docCase : string := "<?xml version='1.0' encoding='UTF-8'?><glyph name='a' format='2'><outline><contour identifier='c'><point x='6755399441055744e-52' y='-0' type='curve' smooth='yes' name='n'/><point x='2' y='3'/></contour><component base='b' xScale='4503599627370496e-52' yOffset='+7' identifier='d'/></outline></glyph>".
Example C54_case :
  match readGlyphBytes toyText true true [1%Z; 2%Z] true (u docCase) with
  | Ok r => match writeGlyphBytes toyText toyRepr roCase (PStr (u "x")) [] (Some (rcalls r)) 2 true with
            | Ok b => match readGlyphBytes toyText true true [1%Z; 2%Z] true b with Ok r' => length (rcalls r) = 5 /\ Forall2 (fun c d => match c with PComponent _ _ _ => True | _ => d = c end) (rcalls r) (rcalls r') | Err _ => False end
            | Err _ => False
            end
  | Err _ => False
  end.
Proof. vm_compute. split; [reflexivity|]. repeat constructor. Qed.
(** a tab in the name of a point, written as a character reference in the document,
    is written unescaped and read as a space *)
Definition docTab : string := "<?xml version='1.0' encoding='UTF-8'?><glyph name='a' format='2'><outline><contour><point x='1' y='2' type='move' name='a&#9;b'/></contour></outline></glyph>".
Theorem C54_refuted : exists T R ro b0 r b r', pytext_laws T /\ repr_laws T R /\ readGlyphBytes T true true [1%Z; 2%Z] true b0 = Ok r /\
  writeGlyphBytes T R ro (PStr (u "a")) [] (Some (rcalls r)) 2 true = Ok b /\ readGlyphBytes T true true [1%Z; 2%Z] true b = Ok r' /\ ~ Forall2 sameCall (rcalls r) (rcalls r').
Proof.
  exists toyText, toyRepr, roCase, (u docTab). eexists. eexists. eexists. split; [apply toyText_laws|]. split; [apply toyRepr_laws|]. split; [vm_compute; reflexivity|]. split; [vm_compute; reflexivity|]. split; [vm_compute; reflexivity|].
  intro F. inversion F as [|? ? ? ? _ F1]; subst. inversion F1 as [|? ? ? ? S _]; subst. destruct S as (_ & _ & _ & S & _). vm_compute in S. discriminate S.
Qed.
Print Assumptions C54_refuted.

Lemma firsts_nodup zs : NoDup zs -> firsts zs = zs.
Proof. intro N. unfold firsts. rewrite nodup_fixed_point; [apply rev_involutive|]. apply NoDup_rev. exact N. Qed.
Theorem C82_read_write_read_partial T R ro vs b0 r : pytext_laws T -> repr_laws T R ->
  readGlyphBytes T true true vs true b0 = Ok r -> cleanReading r ->
  exists name b r', get (u "name") (rattrs r) = Some (PStr name) /\ writeGlyphBytes T R ro (PStr name) (rattrs r) (Some (rcalls r)) 2 true = Ok b /\
    readGlyphBytes T true true [1%Z; 2%Z] true b = Ok r' /\ sameReading r r'.
Proof.
  intros LT LR Er [Cc Cn Cno Ci Cg Ca Cl Clt]. unfold readGlyphBytes in Er. apply bind_Ok in Er as (f & _ & Er). destruct (readFormat_accepted T R LR true true vs f r eq_refl eq_refl Er) as (items & Ac).
  assert (V := accepted_valid T r items Ac Cl). assert (Rd := accepted_readable T r items Ac Cl). destruct (ac_name _ _ _ Ac) as (c & s & En). set (name := c :: s) in *.
  assert (S : storable name (rattrs r) (Some items)).
  { destruct Rd as [Hw Hh Hi Hg Ha Hd Hl]. constructor; try assumption.
    - apply Cn. unfold attr. rewrite En. reflexivity.
    - intros k d I Vh. apply Hi; [|exact Vh]. unfold transformationDefaults in I. cbn [In] in I. unfold transformationInfo. cbn [map fst In]. repeat (destruct I as [I|I]; [injection I as <- <-; tauto|]). destruct I.
    - intros v I. rewrite Forall_forall in Hg. split; [|intros k s0 E; eapply Cg; eassumption]. intros k K. apply (Hg v I). unfold guideNums. destruct K as [<-|[<-|[<-|[]]]]; cbn [In]; tauto.
    - intros v I. rewrite Forall_forall in Ha. split; [|intros k s0 E; eapply Ca; eassumption]. intros k K. apply (Ha v I). unfold anchorNums. destruct K as [<-|[<-|[]]]; cbn [In]; tauto.
    - intros l i E I. injection E as <-. assert (Ai := ac_items _ _ _ Ac). rewrite Forall_forall in Ai. destruct (rItem_good i (Ai i I)) as [A B]. split; [exact A|]. split; [exact B|]. eapply calls_text; [exact (ac_calls _ _ _ Ac)|exact Cc|exact I]. }
  destruct (read_write_read T LT R LR ro name (rattrs r) (rcalls r) items ltac:(discriminate) V S (ac_calls _ _ _ Ac) (ac_passed _ _ _ Ac)) as (b & r' & Wb & Er' & [Gn Gw Gh Gnu Gu Gnn Gno Gi Gg Ga Gl (items' & Gc & Gf)]).
  exists name, b, r'. split; [exact En|]. split; [exact Wb|]. split; [exact Er'|]. constructor; try assumption.
  - rewrite Gc. eapply calls_same; [exact (ac_calls _ _ _ Ac)|exact Gf].
  - congruence.
  - destruct (get (u "unicodes") (rattrs r)) as [v|] eqn:E; [|apply Gnu; unfold attr; rewrite E; reflexivity]. destruct (ac_unicodes _ _ _ Ac v E) as (zs & -> & ND & Ne). destruct zs as [|z zs]; [contradiction|]. rewrite (Gu z zs); [rewrite firsts_nodup by exact ND; reflexivity|]. unfold attr. rewrite E. reflexivity.
  - destruct (get (u "note") (rattrs r)) as [v|] eqn:E; [|left; apply Gnn; unfold attr; rewrite E; reflexivity]. destruct (ac_note _ _ _ Ac v E) as (s0 & ->). destruct (noteLines T s0) as [|c0 s1] eqn:N.
    + right. split; [|reflexivity]. apply Gnn. unfold attr. rewrite E. reflexivity.
    + left. destruct (Gno (c0 :: s1)) as (s' & -> & Ns); [unfold attr; rewrite E; reflexivity|discriminate|]. apply noteRead_fun in Ns. rewrite <- N in Ns. rewrite noteLines_idem, N in Ns. rewrite Ns. reflexivity.
Qed.
Print Assumptions C82_read_write_read_partial.

(** * C83: outlines read are well-formed *)
Lemma adj_all (l : list gpoint) : (forall l1 a b l2, l = l1 ++ a :: b :: l2 -> ptype b = Some sLine -> isOn coord ident a) -> adj coord ident l.
Proof.
  induction l as [|a l IH]; intro H; [exact I|]. destruct l as [|b l]; [exact I|]. split; [intro E; apply (H [] a b l); [reflexivity|exact E]|]. apply IH. intros l1 x y l2 E. apply (H (a :: l1) x y l2). rewrite E. reflexivity.
Qed.
Lemma contour_readable pts : (forall p, In p pts -> exists c, pc p = Some c) -> (forall p, In p pts -> ptypeOf p = ptype p) -> goodContour pts -> PropPointPen.readable coord ident pts.
Proof.
  intros Pc Pt (G1 & G2 & G3). assert (Ets : map ptypeOf pts = map ptype pts) by (apply map_ext_in; exact Pt). rewrite Ets in *.
  split; [apply Forall_forall; exact Pc|]. destruct pts as [|p r]; [exact I|].
  assert (K : forall q, In q r -> ptype q <> Some (u "move")).
  { intros q I E. apply in_split in I as (a & b & ->). cbn [map] in G2. rewrite map_app in G2. cbn [map] in G2. rewrite E in G2. specialize (G2 (ptype p :: map ptype a) (map ptype b) eq_refl). discriminate G2. }
  assert (Kn : forall q, In q (p :: r) -> ptype q <> Some (u "move") -> knownType coord ident q).
  { intros q I N. destruct (G1 q I) as [H _]. rewrite (Pt q I) in H. unfold knownType. destruct H as [H|[H|[H|[H|[H|[]]]]]]; rewrite <- H in *; [left; reflexivity|contradiction|right; left; reflexivity|right; right; left; reflexivity|right; right; right; reflexivity]. }
  split; [apply Forall_forall; intros q I; apply Kn; [right; exact I|apply K; exact I]|].
  assert (A : forall l l', (p :: r) ++ (p :: r) = l ++ l' -> adj coord ident l).
  { intros l l' E. apply adj_all. intros l1 a b l2 -> Eb Ea. rewrite <- map_app, E in G3. rewrite !map_app in G3. cbn [map] in G3. rewrite Ea, Eb in G3.
    destruct (G3 (map ptype l1) 1 (u "line") (map ptype l2 ++ map ptype l')) as [H _]; [rewrite <- app_assoc; reflexivity|]. specialize (H (or_intror eq_refl)). discriminate H. }
  destruct (eqb_spec (ptype p) (Some (u "move"))) as [E|N].
  - left. split; [exact E|]. split; [|apply (A _ (p :: r)); reflexivity]. destruct (exists_last (l := p :: r)) as (l & q & El); [discriminate|]. exists l, q. split; [exact El|]. intro Eq. unfold isOff in Eq.
    assert (X : map ptype (p :: r) = map ptype l ++ [None]) by (rewrite El, map_app; cbn [map]; rewrite Eq; reflexivity).
    destruct (G3 (map ptype l) 1 (u "move") (map ptype r)) as [H _]; [rewrite X at 1; cbn [map]; rewrite E, <- app_assoc; reflexivity|]. specialize (H (or_introl eq_refl)). discriminate H.
  - right. split; [apply Kn; [left; reflexivity|exact N]|]. apply (A _ r). rewrite <- app_assoc. reflexivity.
Qed.
Definition beginPassed (c : gcall) : gcall := match c with PBegin i => PBegin (Some (theId i)) | PAdd p => PAdd p | PEnd => PEnd | PComponent b t i => PComponent b t (Some (theId i)) end.
Definition likePoint (p q : gpoint) : Prop := pc q = pc p /\ ptype q = ptype p /\ psmooth q = psmooth p.
Lemma adds_passed cs : forall pts, map asPassed cs = map PAdd pts -> exists qs, cs = map PAdd qs /\ Forall2 likePoint pts qs.
Proof.
  induction cs as [|c cs IH]; intros [|p pts] E; try discriminate E; [exists []; split; [reflexivity|constructor]|]. cbn [map] in E. destruct c as [i|q| |b t i]; try discriminate E. injection E as E1 E2. destruct (IH _ E2) as (qs & -> & F). exists (q :: qs). split; [reflexivity|]. constructor; [|exact F]. subst p. repeat split; reflexivity.
Qed.
Lemma lift_items items : forall cs, map asPassed cs = gdrawing items ->
  exists items', map beginPassed cs = gdrawing items' /\ Forall2 (fun i j => match i, j with
    | Contour _ _ _ _ pts, Contour _ _ _ _ qs => Forall2 likePoint pts qs
    | Component _ _ _ _ _ _, Component _ _ _ _ _ _ => i = j
    | _, _ => False end) items items'.
Proof.
  induction items as [|i items IH]; intros cs E; [destruct cs; [|discriminate E]; exists []; split; [reflexivity|constructor]|].
  change (gdrawing (i :: items)) with (gcallsOf i ++ gdrawing items) in E. apply map_eq_app in E as (c1 & c2 & -> & E1 & E2). destruct (IH _ E2) as (items' & E' & F). rewrite map_app, E'. destruct i as [ident pts|b tr ident].
  - cbn [callsOf] in E1. destruct c1 as [|c c1]; [discriminate E1|]. cbn [map] in E1. injection E1 as Ec E1. apply map_eq_app in E1 as (c3 & c4 & -> & E3 & E4). destruct (adds_passed _ _ E3) as (qs & -> & Fq).
    exists (GContour ident qs :: items'). split; [|constructor; assumption]. change (gdrawing (GContour ident qs :: items')) with (gcallsOf (GContour ident qs) ++ gdrawing items'). f_equal. cbn [map callsOf]. rewrite map_app. f_equal; [destruct c as [j|p| |bb t j]; try discriminate Ec; exact Ec|]. f_equal; [rewrite map_map; reflexivity|].
    destruct c4 as [|c4 [|]]; try discriminate E4. destruct c4; try discriminate E4. reflexivity.
  - cbn [callsOf] in E1. destruct c1 as [|c [|]]; try discriminate E1. cbn [map] in E1. injection E1 as E1. exists (GComponent b tr ident :: items'). split; [|constructor; [reflexivity|exact F]]. change (gdrawing (GComponent b tr ident :: items')) with (gcallsOf (GComponent b tr ident) ++ gdrawing items'). f_equal. cbn [map callsOf]. f_equal. destruct c as [j|p| |bb t j]; try discriminate E1. exact E1.
Qed.
Lemma toSegment_begin implied cs : pointToSegment (None : ident) implied (map beginPassed cs) = pointToSegment (None : ident) implied cs.
Proof.
  unfold pointToSegment. assert (H : forall s, run (toSegmentStep (None : ident) implied) s (map beginPassed cs) = run (toSegmentStep (None : ident) implied) s cs); [|rewrite H; reflexivity].
  induction cs as [|c cs IH]; intro s; [reflexivity|]. cbn [map run]. replace (toSegmentStep (None : ident) implied s (beginPassed c)) with (toSegmentStep (None : ident) implied s c) by (destruct c; reflexivity). destruct (toSegmentStep _ _ s c) as [[s' o]|]; cbn [bind fst snd]; [rewrite IH|]; reflexivity.
Qed.
(** Every GLIF accepted by the reader is drawn with well-formed contours, and
    PointToSegmentPen draws it with a segment pen without failing; [drawnAs]
    (PropPointPen) says what is drawn for each contour. *)
Theorem C83_outlines T R vs b r implied : repr_laws T R -> readGlyphBytes T true true vs true b = Ok r ->
  exists items outs, map beginPassed (rcalls r) = gdrawing items /\ (forall i, In i items -> goodItem i /\ numberItem i) /\
    pointToSegment None implied (rcalls r) = Ok (concat outs) /\
    Forall2 (fun i out => match i with Contour _ _ _ _ pts => drawnAs coord (list pyval) ident implied pts out | Component _ _ _ b t _ => out = [SComponent b t] end) items outs.
Proof.
  intros LR Er. unfold readGlyphBytes in Er. apply bind_Ok in Er as (f & _ & Er). destruct (readFormat_accepted T R LR true true vs f r eq_refl eq_refl Er) as (items & Ac). destruct (lift_items items (rcalls r) (ac_calls _ _ _ Ac)) as (items' & E & F).
  assert (G : forall i, In i items' -> (goodItem i /\ numberItem i) /\ match i with Contour _ _ _ _ pts => PropPointPen.readable coord ident pts | _ => True end).
  { assert (Ai := ac_items _ _ _ Ac). assert (Ap := ac_passed _ _ _ Ac). clear - F Ai Ap. induction F as [|i j items items' S F IH]; intros k [].
    - subst k. inversion Ai as [|? ? A1 _]; inversion Ap as [|? ? A2 _]; subst. apply rItem_good in A1 as [A1 A3]. destruct i as [ident pts|b tr ident], j as [ident' qs|b' tr' ident']; try contradiction; [|injection S as <- <- <-; auto]. cbn [isPassed goodItem numberItem] in *.
      assert (Eq : forall q, In q qs -> exists p, In p pts /\ likePoint p q) by (clear - S; induction S as [|p q pts qs L S IH]; intros x []; [subst x; exists p; split; [left; reflexivity|exact L]|destruct (IH x H) as (y & A & B); exists y; split; [right; exact A|exact B]]).
      assert (Ty : map ptypeOf qs = map ptypeOf pts) by (clear - S; induction S as [|p q pts qs (_ & L & _) S IH]; [reflexivity|]; cbn [map]; rewrite IH; f_equal; unfold ptypeOf; rewrite L; reflexivity).
      assert (Good : goodContour qs).
      { destruct A1 as (G1 & G2 & G3). unfold goodContour. rewrite Ty. split; [|split; assumption]. intros q I. destruct (Eq q I) as (p & J & Lc & Lt & Ls). destruct (G1 p J) as [K1 K2]. assert (X : ptypeOf q = ptypeOf p) by (unfold ptypeOf; rewrite Lt; reflexivity). rewrite X, Ls. auto. }
      assert (Num : forall q, In q qs -> exists x y, pc q = Some (x, y) /\ isNum x /\ isNum y) by (intros q I; destruct (Eq q I) as (p & J & Lc & _); rewrite Lc; apply A3; exact J).
      split; [split; assumption|]. apply contour_readable; [intros q I; destruct (Num q I) as (x & y & -> & _); eauto| |exact Good].
      intros q I. destruct (Eq q I) as (p & J & _ & Lt & _). unfold ptypeOf. rewrite Lt. fold (ptypeOf p). rewrite ptypeOf_seg.
      assert (X : passed p = p) by (clear - A2 J; induction pts as [|y pts IH]; [destruct J|]; cbn [map] in A2; injection A2 as P1 P2; destruct J as [->|J]; auto). rewrite <- X at 2. reflexivity.
    - inversion Ai; inversion Ap; subst. apply IH; assumption. }
  destruct (C49_segments coord (list pyval) ident None implied items') as (outs & Eo & Fo); [apply Forall_forall; intros i I; apply (G i I)|].
  exists items', outs. split; [exact E|]. split; [intros i I; apply (G i I)|]. split; [|exact Fo]. rewrite <- toSegment_begin, E. exact Eo.
Qed.
Print Assumptions C83_outlines.
Example C83_case :
  match readGlyphBytes toyText true true [1%Z; 2%Z] true (u docCase) with
  | Ok r => pointToSegment None false (rcalls r) = Ok [SMove (PFloat (S754_finite false 6755399441055744 (-52)), PInt 0); SCurve [(PInt 2, PInt 3)] (PFloat (S754_finite false 6755399441055744 (-52)), PInt 0); SClose;
      SComponent (u "b") [PFloat (S754_finite false 4503599627370496 (-52)); PInt 0; PInt 0; PInt 1; PInt 0; PInt 7]]
  | Err _ => False
  end.
Proof. vm_compute. reflexivity. Qed.

(** * C55: identifiers *)
Definition callId (c : gcall) : option str := match c with PBegin i => theId i | PAdd p => theId (pkw p) | PEnd => None | PComponent _ _ i => theId i end.
Definition itemId (v : pyval) : option str := match vget (u "identifier") v with PStr s => Some s | _ => None end.
Definition given (l : list (option str)) : list str := flat_map (fun o => match o with Some s => [s] | None => [] end) l.
(** the identifiers of contours, points, components, guidelines and anchors *)
Definition identifiers (r : greading) : list str :=
  given (map callId (rcalls r) ++ map itemId (listed (attr (rattrs r) "guidelines")) ++ map itemId (listed (attr (rattrs r) "anchors"))).
Definition goodIdentifier (s : str) : Prop := 1 <= length s <= 100 /\ forall c, In c s -> (32 <= c <= 126)%N.
Lemma identifierOk_good s : identifierOk s = true -> goodIdentifier s.
Proof.
  unfold identifierOk. destruct s as [|c s]; [discriminate|]. destruct (Nat.ltb_spec 100 (length (c :: s))) as [H|H]; [discriminate|]. intro F. split; [cbn [length] in *; lia|]. intros x I. rewrite forallb_forall in F. specialize (F x I). apply negb_true_iff in F. apply orb_false_iff in F as [A B]. apply N.ltb_ge in A, B. lia.
Qed.
Lemma given_somes l : given l = somes l.
Proof. reflexivity. Qed.
Lemma calls_ids cs items : map asPassed cs = gdrawing items -> given (map callId cs) = somes (flat_map itemIds items).
Proof.
  intro E. assert (H : map callId cs = map callId (gdrawing items)) by (rewrite <- E, map_map; apply map_ext; intros [i|p| |b t i]; reflexivity). rewrite H, given_somes. clear.
  induction items as [|i items IH]; [reflexivity|]. change (gdrawing (i :: items)) with (gcallsOf i ++ gdrawing items). rewrite map_app. cbn [flat_map]. rewrite !somes_app, IH. f_equal. destruct i as [ident pts|b tr ident]; [|reflexivity].
  cbn [callsOf map itemIds]. rewrite map_app, map_map. cbn [map callId]. change (ident :: map pid pts) with ([ident] ++ map pid pts). change (theId (Some ident) :: map (fun x => theId (pkw x)) pts ++ [None]) with ([ident] ++ map pid pts ++ [None]). rewrite !somes_app. cbn [somes flat_map]. rewrite !app_nil_r. reflexivity.
Qed.
Lemma validated_id v s : itemId v = Some s -> optionalIdentifierOk v = true -> goodIdentifier s.
Proof.
  unfold itemId, optionalIdentifierOk. destruct (vget (u "identifier") v); try discriminate. intros E H. injection E as <-. apply identifierOk_good. exact H.
Qed.
Lemma guideline_id T v s : guidelineValidator T v = true -> itemId v = Some s -> goodIdentifier s.
Proof.
  intros V E. apply (validated_id _ _ E). unfold guidelineValidator in V. repeat match type of V with (if ?c then _ else _) = true => destruct c eqn:?; try discriminate V end. apply negb_false_iff. assumption.
Qed.
Lemma anchor_id T v s : anchorValidator T v = true -> itemId v = Some s -> goodIdentifier s.
Proof.
  intros V E. apply (validated_id _ _ E). unfold anchorValidator in V. repeat match type of V with (if ?c then _ else _) = true => destruct c eqn:?; try discriminate V end. apply negb_false_iff. assumption.
Qed.
Theorem C55_identifiers T R vs b r : repr_laws T R -> readGlyphBytes T true true vs true b = Ok r -> NoDup (identifiers r) /\ Forall goodIdentifier (identifiers r).
Proof.
  intros LR Er. unfold readGlyphBytes in Er. apply bind_Ok in Er as (f & _ & Er). destruct (readFormat_accepted T R LR true true vs f r eq_refl eq_refl Er) as (items & [Ac _ _ _ _ _ _ _ _ Ag Aa _ Aid Aok]). unfold identifiers. rewrite !given_somes, !somes_app. rewrite <- (given_somes (map callId (rcalls r))), (calls_ids _ _ Ac).
  change itemId with gid. change listed with itemsOf'. rewrite !attr_getattr. split; [rewrite !somes_app in Aid; exact Aid|]. apply Forall_app. split; [apply Forall_forall; intros s I; apply identifierOk_good; apply Aok; exact I|]. apply Forall_app.
  assert (Sm : forall (l : list pyval) s, In s (somes (map gid l)) -> exists v, In v l /\ gid v = Some s) by (clear; intros l s I; unfold somes in I; apply in_flat_map in I as (o & I & J); apply in_map_iff in I as (v & <- & I); exists v; split; [exact I|]; destruct (gid v); [destruct J as [->|[]]; reflexivity|destruct J]).
  split; apply Forall_forall; intros s I; apply Sm in I as (v & I & E); unfold getattr in I.
  - destruct (get (u "guidelines") (rattrs r)) as [w|] eqn:Ew; [|destruct I]. destruct (Ag w eq_refl) as (l & -> & _ & _ & V). cbn [itemsOf'] in I. rewrite Forall_forall in V. eapply guideline_id; [apply V; exact I|exact E].
  - destruct (get (u "anchors") (rattrs r)) as [w|] eqn:Ew; [|destruct I]. destruct (Aa w eq_refl) as (l & -> & _ & _ & V). cbn [itemsOf'] in I. rewrite Forall_forall in V. eapply anchor_id; [apply V; exact I|exact E].
Qed.
Print Assumptions C55_identifiers.
Definition docIds (a b c : string) : str := u "<?xml version='1.0' encoding='UTF-8'?><glyph name='a' format='2'><guideline x='1' identifier='" ++ u a ++ u "'/><outline><contour identifier='" ++ u b ++ u "'><point x='1' y='2' type='move' identifier='" ++ u c ++ u "'/></contour></outline></glyph>".
Example C55_case :
  match readGlyphBytes toyText true true [1%Z; 2%Z] true (docIds "x" "y" "z") with Ok r => identifiers r = [u "y"; u "z"; u "x"] | Err _ => False end /\
  map (fun d => readGlyphBytes toyText true true [1%Z; 2%Z] true d) [docIds "x" "y" "x"; docIds "x" "y" "y"; docIds "x" "x" "z"; docIds "" "y" "z"; docIds "x" "&#127;" "z"] = repeat (Err GlifLibError) 5.
Proof. vm_compute. auto. Qed.

(** * C57: rapid fetching *)
(** [flatGlyph root] (GlifFetch): no element deeper than the children of the glyph
    element is called "glyph" or "outline".  Documents violating this can be
    accepted by the reader, which does not look into lib, note, advance and unicode
    elements. *)
Theorem C57_fetch_partial T vs b root r : glifTree T b = Ok root -> flatGlyph root -> readGlyphBytes T true true vs true b = Ok r ->
  get (u "unicodes") (rattrs r) = match fetchUnicodes T root with [] => None | l => Some (PList (map PInt l)) end /\
  match get (u "image") (rattrs r) with Some d => exists f, vget (u "fileName") d = PStr f /\ fetchImage root = Some f | None => fetchImage root = None end /\
  fetchComponents root = flat_map (fun c => match c with PComponent b _ _ => [b] | _ => [] end) (rcalls r).
Proof.
  intros Gt Fl Er. unfold readGlyphBytes in Er. rewrite Gt in Er. cbn [bind] in Er. assert (Tg : etag root = u "glyph").
  { unfold glifTree in Gt. apply bind_Ok in Gt as (x & _ & Gt). destruct (eqb_spec (etag x) (u "glyph")) as [E|]; [|discriminate Gt]. destruct (blankText T (etextOf x)); [|discriminate Gt]. apply Ok_inj in Gt. subst. exact E. }
  destruct (fetchers_agree T vs root r Tg Fl Er) as (A & B & C). split; [rewrite A; destruct (fetchUnicodes T root); reflexivity|]. split; [exact B|]. symmetry. exact C.
Qed.
Print Assumptions C57_fetch_partial.
(** in particular for every file written *)
Definition codesWritten (g : list (str * pyval)) (us : list Z) : Prop :=
  (truthy (attr g "unicodes") = false -> us = []) /\ (forall zs, attr g "unicodes" = PList (map PInt zs) -> us = firsts zs).
Definition imageWritten (g : list (str * pyval)) (o : option str) : Prop :=
  (truthy (attr g "image") = false -> o = None) /\ (forall f, vget (u "fileName") (attr g "image") = PStr f -> o = Some f).
Definition basesWritten (items : option (list gitem)) : list str :=
  flat_map (fun i => match i with Component _ _ _ base _ _ => [base] | _ => [] end) (match items with Some l => l | None => [] end).
Lemma mapInt_inj p q : map PInt p = map PInt q -> p = q.
Proof. revert q. induction p as [|x p IH]; intros [|w q] E; try discriminate E; [reflexivity|]. cbn [map] in E. injection E as -> E. f_equal. apply IH. exact E. Qed.
Lemma codes_read g o us : (truthy (attr g "unicodes") = false -> o = None) -> (forall z zs, attr g "unicodes" = PList (map PInt (z :: zs)) -> o = Some (PList (map PInt (firsts (z :: zs))))) ->
  o = match us with [] => None | l => Some (PList (map PInt l)) end -> codesWritten g us.
Proof.
  intros H0 H1 E. split.
  - intro F. apply H0 in F. rewrite F in E. destruct us; [reflexivity|discriminate E].
  - intros [|z zs] Ez; [rewrite Ez in H0; rewrite (H0 eq_refl) in E; destruct us; [reflexivity|discriminate E]|]. rewrite (H1 z zs Ez) in E. destruct us as [|y l]; [discriminate E|]. injection E as E. symmetry. apply mapInt_inj. exact E.
Qed.
Lemma bases_items l m : Forall2 sameItem l m -> bases (gdrawing m) = basesWritten (Some l).
Proof.
  intro F. unfold bases, basesWritten. induction F as [|i j l m Sm F IH]; [reflexivity|]. change (gdrawing (j :: m)) with (gcallsOf j ++ gdrawing m). rewrite flat_map_app. cbn [flat_map]. rewrite IH. f_equal.
  destruct i as [ident pts|bb tr ident], j as [ident' qs|b' tr' ident']; cbn in Sm; try contradiction; [|destruct Sm as (-> & _); reflexivity]. cbn [callsOf flat_map app]. rewrite flat_map_app. cbn [flat_map app]. rewrite app_nil_r. clear. induction qs as [|q qs IH]; [reflexivity|exact IH].
Qed.
Theorem C57_written T R ro name g items b : pytext_laws T -> repr_laws T R ->
  writeGlyphBytes T R ro (PStr name) g (option_map gdrawing items) 2 true = Ok b -> storable name g items ->
  exists root, glifTree T b = Ok root /\ codesWritten g (fetchUnicodes T root) /\ imageWritten g (fetchImage root) /\ fetchComponents root = basesWritten items.
Proof.
  intros LT LR W S. assert (W' := W). unfold writeGlyphBytes in W'. apply bind_Ok in W' as (root & Wt & _). destruct (file_parsed T LT R LR ro name g items root Wt (storable_readable _ _ _ S) (storable_clean _ _ _ S)) as (b' & f & Wb & Lk & Gt). rewrite W in Wb. injection Wb as <-.
  exists f. split; [exact Gt|]. destruct (written_flat T R ro name g items root f Wt (st_lib _ _ _ S) Lk) as [_ Fl]. destruct (glyph_round T LT R LR ro name g items b W S) as (r & Er & Sg). destruct (C57_fetch_partial T _ b f r Gt Fl Er) as (A & B & C). split; [|split].
  - eapply codes_read; [apply (sg_noUnicodes _ _ _ _ _ Sg)|apply (sg_unicodes _ _ _ _ _ Sg)|rewrite A; destruct (fetchUnicodes T f); reflexivity].
  - assert (G := sg_image _ _ _ _ _ Sg). unfold sameOr in G. destruct (get (u "image") (rattrs r)) as [d|].
    + destruct B as (f0 & B1 & B2). destruct G as [G0 [G _]]. split; [intro X; rewrite X in G0; discriminate G0|]. intros fn E. rewrite (G "fileName" (or_introl eq_refl)), E in B1. injection B1 as ->. exact B2.
    + split; [intros _; exact B|]. intros fn E. exfalso. destruct (attr g "image") as [| | | | | | | | |[|]|]; try discriminate E. discriminate G.
  - rewrite C. destruct (sg_items _ _ _ _ _ Sg) as (items' & -> & F). apply bases_items in F. destruct items; exact F.
Qed.
Print Assumptions C57_written.
Theorem C57_written_1 T R ro name g items b : pytext_laws T -> repr_laws T R ->
  writeGlyphBytes T R ro (PStr name) g (Some (gdrawing items)) 1 true = Ok b -> storable1 name g (Some items) ->
  exists root, glifTree T b = Ok root /\ codesWritten g (fetchUnicodes T root) /\ fetchImage root = None /\ fetchComponents root = basesWritten (Some items).
Proof.
  intros LT LR W S. destruct (storable1_ok name g items S) as [Rd Cl]. destruct (C56_format1_partial T R ro name g items b [1%Z] LT LR W S (or_introl eq_refl)) as (r & Er & Sg).
  assert (W' : writeGlyphBytes T R ro (PStr name) (only1 g) (option_map gdrawing (Some items)) 1 true = Ok b) by (unfold writeGlyphBytes in *; rewrite write1_only; exact W).
  assert (W2 := W'). unfold writeGlyphBytes in W2. apply bind_Ok in W2 as (root & Wt & _). destruct (file_parsed1 T LT R LR ro name (only1 g) (Some items) root Wt Rd Cl) as (b' & f & Wb & Lk & Gt). rewrite W' in Wb. injection Wb as <-.
  exists f. split; [exact Gt|]. destruct (written_flat1 T R ro name (only1 g) (Some items) root f Wt Rd Lk) as [_ Fl]. destruct (C57_fetch_partial T _ b f r Gt Fl Er) as (A & B & C). split; [|split].
  - eapply codes_read; [apply (s1g_noUnicodes _ _ _ _ _ Sg)|apply (s1g_unicodes _ _ _ _ _ Sg)|rewrite A; destruct (fetchUnicodes T f); reflexivity].
  - rewrite (s1g_image _ _ _ _ _ Sg) in B. exact B.
  - rewrite C. destruct (s1g_items _ _ _ _ _ Sg) as (items' & Ec & F). apply bases_items in F. rewrite <- Ec in F. transitivity (bases (map asPassed (rcalls r))); [unfold bases; clear; induction (rcalls r) as [|c l IH]; [reflexivity|]; cbn [map flat_map]; rewrite IH; destruct c; reflexivity|]. rewrite F. clear. unfold basesWritten, contours1. rewrite filter_app, flat_map_app.
    replace (flat_map _ (filter _ (map moveContour (listed (attr g "anchors"))))) with (@nil str); [rewrite app_nil_r; induction items as [|i l IH]; [reflexivity|]; cbn [filter flat_map]; rewrite <- IH; destruct i as [ident pts|bb tr ident]; [destruct (namedMove _)|]; reflexivity|].
    induction (listed (attr g "anchors")) as [|a l IH]; [reflexivity|]. cbn [map filter]. destruct (namedMove (moveContour a)); [exact IH|]. cbn [flat_map moveContour app]. exact IH.
Qed.
Print Assumptions C57_written_1.
Definition fetched (b : bytes) : res (list Z * option str * list str * res greading) := do root <- glifTree toyText b; Ok (fetchUnicodes toyText root, fetchImage root, fetchComponents root, readGlyphBytes toyText true true [1%Z; 2%Z] true b).
Definition docFetch : str := u "<?xml version='1.0' encoding='UTF-8'?><glyph name='a' format='2'><unicode hex='41'/><image fileName='i.png'/><outline><component base='x'/><contour/><component base='y'/></outline><unicode hex='0042'/><unicode hex='41'/></glyph>".
Example C57_case :
  match fetched docFetch with
  | Ok (us, im, cs, Ok r) => us = [65; 66]%Z /\ im = Some (u "i.png") /\ cs = [u "x"; u "y"] /\ get (u "unicodes") (rattrs r) = Some (PList [PInt 65; PInt 66])
  | _ => False
  end.
Proof. vm_compute. auto. Qed.
Definition docNested : str := u "<?xml version='1.0' encoding='UTF-8'?><glyph name='a' format='2'><note>n<glyph><unicode hex='41'/><image fileName='x'/></glyph><outline><component base='b'/></outline></note></glyph>".
Theorem C57_refuted : exists T vs b root r, pytext_laws T /\ glifTree T b = Ok root /\ readGlyphBytes T true true vs true b = Ok r /\
  get (u "unicodes") (rattrs r) = None /\ fetchUnicodes T root = [65%Z] /\ get (u "image") (rattrs r) = None /\ fetchImage root = Some (u "x") /\ rcalls r = [] /\ fetchComponents root = [u "b"].
Proof.
  exists toyText, [1%Z; 2%Z], docNested. eexists. eexists. split; [apply toyText_laws|]. split; [vm_compute; reflexivity|]. split; [vm_compute; reflexivity|]. repeat split; vm_compute; reflexivity.
Qed.
Print Assumptions C57_refuted.

(** * C59: format versions *)
Definition statedFormat (T : pytext) (root : elem) : option Z := match eget (u "format") root with Some s => parseInt T s | None => None end.
Theorem C59_read T ufo obj pen b root : glifTree T b = Ok root ->
  (statedFormat T root <> Some 1%Z /\ (ufo < 3)%Z) \/ (statedFormat T root <> Some 1%Z /\ statedFormat T root <> Some 2%Z) ->
  gsReadBytes T ufo obj pen true b = Err GlifLibError.
Proof.
  intros Gt H. unfold gsReadBytes, readGlyphBytes. rewrite Gt. cbn [bind]. unfold readGlyphTree. unfold statedFormat in H. destruct (eget (u "format") root) as [s|]; [|reflexivity]. destruct (parseInt T s) as [z|]; [|reflexivity]. cbn [negb orb].
  assert (M : mem z (readVersions ufo) = false); [|rewrite M; reflexivity]. apply mem_nIn. unfold readVersions. destruct H as [[N L]|[N1 N2]].
  - destruct (Z.ltb_spec ufo 3); [|lia]. intros [<-|[]]. apply N. reflexivity.
  - destruct (ufo <? 3)%Z; intro I; cbn [In] in I; destruct I as [<-|I]; try (apply N1; reflexivity); [destruct I|]. destruct I as [<-|[]]. apply N2. reflexivity.
Qed.
Print Assumptions C59_read.
(** the two formats are not rejected for their version *)
Theorem C59_accepts T obj pen b root ufo z : glifTree T b = Ok root -> statedFormat T root = Some z -> z = 1%Z \/ (z = 2%Z /\ (3 <= ufo)%Z) ->
  gsReadBytes T ufo obj pen true b = if (z =? 1)%Z then readFormat1 T obj pen true root else readFormat2 T obj pen true root.
Proof.
  intros Gt E H. unfold gsReadBytes, readGlyphBytes. rewrite Gt. cbn [bind]. unfold readGlyphTree. unfold statedFormat in E. destruct (eget (u "format") root) as [s|]; [|discriminate E]. rewrite E. unfold readVersions. destruct H as [->|[-> L]]; [destruct (ufo <? 3)%Z; reflexivity|]. destruct (Z.ltb_spec ufo 3); [lia|reflexivity].
Qed.
(** what writeGlyph writes states the version it was asked for, or the default of the
    UFO version, and for UFO 1 and 2 never version 2 *)
Theorem C59_write T R ro ufo name g draw fv validate b : gsWriteBytes T R ro ufo name g draw fv validate = Ok b ->
  exists v, (v = 1%Z \/ v = 2%Z) /\ ((ufo < 3)%Z -> v = 1%Z) /\ (fv = Some v \/ (fv = None /\ ((3 <= ufo)%Z -> v = 2%Z))) /\
    exists root bytes, tostring T false true root = Ok bytes /\ b = xmlDeclaration ++ [10%N] ++ bytes /\ etag root = u "glyph" /\ eget (u "format") root = Some (str_of_Z v).
Proof.
  unfold gsWriteBytes. intro W. apply bind_Ok in W as (v & Wv & W). exists v. unfold writeVersion in Wv. set (v0 := match fv with Some v => v | None => if (3 <=? ufo)%Z then 2%Z else 1%Z end) in *. destruct (mem v0 [1%Z; 2%Z]) eqn:M; [|discriminate Wv]. destruct (negb ((v0 =? 2)%Z && (ufo <? 3)%Z)) eqn:N; [|discriminate Wv]. apply Ok_inj in Wv. subst v.
  assert (V : v0 = 1%Z \/ v0 = 2%Z) by (apply mem_In in M; cbn in M; destruct M as [M|[M|[]]]; auto). split; [exact V|]. split.
  - intro L. destruct V as [V|V]; [exact V|]. exfalso. rewrite V in N. destruct (Z.ltb_spec ufo 3); [discriminate N|lia].
  - split.
    + subst v0. destruct fv as [v|]; [left; reflexivity|right; split; [reflexivity|]]. intro L. destruct (Z.leb_spec 3 ufo); [reflexivity|lia].
    + unfold writeGlyphBytes in W. apply bind_Ok in W as (root & Wt & W). apply bind_Ok in W as (bs & Wb & W). apply Ok_inj in W. exists root, bs. split; [exact Wb|]. split; [symmetry; exact W|]. unfold writeGlyphTree in Wt.
      destruct (negb validate || is_str name); [|discriminate Wt]. destruct (negb (validate && py_eq name (PStr []))); [|discriminate Wt]. apply bind_Ok in Wt as (n & _ & Wt). apply bind_Ok in Wt as (? & _ & Wt). apply bind_Ok in Wt as (? & _ & Wt). apply bind_Ok in Wt as (? & _ & Wt). apply bind_Ok in Wt as (? & _ & Wt).
      apply bind_Ok in Wt as ((? & ?) & _ & Wt). apply bind_Ok in Wt as ((? & ?) & _ & Wt). apply bind_Ok in Wt as (? & _ & Wt). apply bind_Ok in Wt as (? & _ & Wt). apply Ok_inj in Wt. subst root. split; reflexivity.
Qed.
Print Assumptions C59_write.
Definition docFormat (s : string) : str := u "<?xml version='1.0' encoding='UTF-8'?><glyph name='a' format='" ++ u s ++ u "'/>".
Example C59_case :
  map (fun d => isOk (gsReadBytes toyText 2 true true true (docFormat d))) ["1"; "2"; "3"; "x"; ""] = [true; false; false; false; false] /\
  map (fun d => isOk (gsReadBytes toyText 3 true true true (docFormat d))) ["1"; "2"; "3"; "x"; ""] = [true; true; false; false; false] /\
  gsWriteBytes toyText toyRepr roCase 2 (PStr (u "a")) [] None (Some 2%Z) true = Err GlifLibError /\ isOk (gsWriteBytes toyText toyRepr roCase 3 (PStr (u "a")) [] None (Some 1%Z) true) = true.
Proof. vm_compute. auto. Qed.
Example C82_case :
  match readGlyphBytes toyText true true [1%Z; 2%Z] true (docIds "x" "y" "z") with
  | Ok r => match writeGlyphBytes toyText toyRepr roCase (PStr (u "a")) (rattrs r) (Some (rcalls r)) 2 true with
            | Ok b => readGlyphBytes toyText true true [1%Z; 2%Z] true b = Ok r
            | Err _ => False
            end
  | Err _ => False
  end.
Proof. vm_compute. reflexivity. Qed.
