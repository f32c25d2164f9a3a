(** Property C103: which glyphs writeGlyphToString accepts.  The validated
    writer accepts exactly the glyphs of the documented form, drawn by calls in a
    legal order, with texts XML can carry. *)
From Coq Require Import String NArith ZArith Bool Lia List Permutation.
From Coq.Floats Require Import SpecFloat.
From Verif Require Import Base PyVal PyText FloatRepr Xml FS Ufo UfoProofs PropUfoFiles Plist PlistProofs PropPlist Etree EtreeProofs PropEtree PlistFiles Validators PropValidators PropFontInfoTypes PropFontInfoAccepts PointPen Glif GlifProofs GlifOutline GlifElements GlifRead GlifFiles PropGlif GlifTexts.
Import ListNotations.
Local Open Scope string_scope.
Local Open Scope list_scope.
Local Notation isNum := PropValidators.isNum.
Local Notation attr := PropGlif.attr.

(** * The statement *)
(** [xml s]: all characters of s are among those of XML 1.0.  [isNum], [orNone],
    [goodGuideline] and so on are those of C74 and C95.  [attr g k] is the
    attribute k of the glyph object, None if it has none. *)
Definition integer (v : pyval) : Prop := exists z, intOf v z.
Definition falsy (v : pyval) : Prop := truthy v = false.
(** what iterating gives *)
Inductive iterates : pyval -> list pyval -> Prop :=
| it_list l : iterates (PList l) l
| it_tuple l : iterates (PTuple l) l
| it_dict d : iterates (PDict d) (map fst d)
| it_bytes b : iterates (PBytes b) (map (fun c => PInt (Z.of_N c)) b).
(** an integer or integers *)
Definition goodUnicodes (v : pyval) : Prop := falsy v \/ integer v \/ exists l, iterates v l /\ Forall integer l.
(** a note is written without the white space around it *)
Definition goodNote (T : pytext) (v : pyval) : Prop := falsy v \/ exists s, v = PStr s /\ xml (strip (isSpace T) s).
Definition xmlAt (ks : list string) (v : pyval) : Prop := forall k s, In k ks -> at_ k v = PStr s -> xml s.
(** what plistlib can write *)
Inductive goodPlist : pyval -> Prop :=
| gp_str s : xml s -> goodPlist (PStr s)
| gp_bool b : goodPlist (PBool b)
| gp_int z : (- 2 ^ 63 <= z < 2 ^ 64)%Z -> goodPlist (PInt z)
| gp_float f : goodPlist (PFloat f)
| gp_date y mo d h mi s us : goodPlist (PDate y mo d h mi s us)
| gp_bytes b : goodPlist (PBytes b)
| gp_list l : Forall goodPlist l -> goodPlist (PList l)
| gp_tuple l : Forall goodPlist l -> goodPlist (PTuple l)
| gp_dict d : Forall (fun kx => (exists s, fst kx = PStr s /\ xml s) /\ goodPlist (snd kx)) d -> goodPlist (PDict d).

(** ** Drawing *)
(** after the calls [a]: whether a contour is open, the points added since the
    last endPath, and the number of off-curve points at the end of the contour *)
Definition opened (a : list gcall) : bool :=
  fold_left (fun o c => match c with PBegin _ => true | PEnd => false | _ => o end) a false.
Definition points (a : list gcall) : list gpoint :=
  fold_left (fun l c => match c with PEnd => [] | PAdd p => l ++ [p] | _ => l end) a [].
Definition offs (a : list gcall) : nat :=
  fold_left (fun n c => match c with PBegin _ | PEnd => 0 | PAdd p => match ptypeOf p with None => S n | Some _ => 0 end | PComponent _ _ _ => n end) a 0.
Definition goodId (i : option str) : Prop :=
  forall s, i = Some s -> 1 <= length s <= 100 /\ forall c, In c s -> (32 <= c <= 126)%N.
Definition someXml (o : option str) : Prop := forall s, o = Some s -> xml s.
(** a call that is allowed after the calls [a] *)
Definition allowed (a : list gcall) (c : gcall) : Prop :=
  match c with
  | PBegin i => goodId (theId i)
  | PAdd p =>
    opened a = true /\ (forall x y, pc p = Some (x, y) -> isNum x /\ isNum y) /\
    (** a move is the first point; no off-curve points before a line, at most two before a curve *)
    (ptypeOf p = Some (u "move") -> points a = []) /\
    (ptypeOf p = Some (u "line") -> forall l q, points a = l ++ [q] -> ptypeOf q <> None) /\
    (ptypeOf p = Some (u "curve") -> offs a <= 2) /\
    (psmooth p = true -> ptypeOf p <> None) /\
    someXml (ptypeOf p) /\ someXml (pname p) /\ goodId (theId (pkw p))
  | PEnd =>
    opened a = true /\
    (** an open contour does not end with an off-curve point *)
    (forall p l m q, points a = p :: l -> points a = m ++ [q] -> ptypeOf p = Some (u "move") -> ptypeOf q <> None)
  | PComponent base tr i => xml base /\ Forall isNum (firstn 6 tr) /\ goodId (theId i)
  end.
Definition legal (cs : list gcall) : Prop := forall a c b, cs = a ++ c :: b -> allowed a c.
(** the identifiers given to the pen *)
Definition penIds (cs : list gcall) : list str :=
  flat_map (fun c => match match c with PBegin i | PComponent _ _ i => theId i | PAdd p => theId (pkw p) | PEnd => None end with Some s => [s] | None => [] end) cs.

(** ** Glyphs *)
Record goodCommon (T : pytext) (name : pyval) (g : list (str * pyval)) : Prop := {
  gc_name : exists s, name = PStr s /\ s <> [] /\ xml s;
  gc_width : orNone isNum (attr g "width");
  gc_height : orNone isNum (attr g "height");
  gc_unicodes : goodUnicodes (attr g "unicodes");
  gc_note : goodNote T (attr g "note");
  gc_lib : falsy (attr g "lib") \/ goodGlyphLib T (attr g "lib") /\ goodPlist (attr g "lib") }.
(** the guidelines, the anchors *)
Definition guidelinesOf (T : pytext) (v : pyval) (l : list pyval) : Prop :=
  falsy v /\ l = [] \/ truthy v = true /\ v = PList l /\ Forall (fun x => goodGuideline T x /\ xmlAt ["name"; "color"] x) l.
Definition anchorsOf (T : pytext) (ks : list string) (v : pyval) (l : list pyval) : Prop :=
  falsy v /\ l = [] \/ truthy v = true /\ v = PList l /\ Forall (fun x => goodAnchor T x /\ xmlAt ks x) l.
Definition goodGlif2 (T : pytext) (name : pyval) (g : list (str * pyval)) (draw : option (list gcall)) : Prop :=
  goodCommon T name g /\
  (falsy (attr g "image") \/ goodImage T (attr g "image") /\ xmlAt ["fileName"; "color"] (attr g "image")) /\
  exists gs al, guidelinesOf T (attr g "guidelines") gs /\ anchorsOf T ["name"; "color"] (attr g "anchors") al /\
    let cs := match draw with Some cs => cs | None => [] end in
    legal cs /\ NoDup (identifiersOf gs ++ identifiersOf al ++ penIds cs).
(** In format 1 the image and the guidelines are ignored, and so are anchors if
    there is no drawing; an anchor is drawn as a contour of one point. *)
Definition anchorPath (a : pyval) : list gcall :=
  [PBegin None; PAdd (mkPoint (Some (at_ "x" a, at_ "y" a)) (Some (u "move")) false (match at_ "name" a with PStr s => Some s | _ => None end) None); PEnd].
Definition goodGlif1 (T : pytext) (name : pyval) (g : list (str * pyval)) (draw : option (list gcall)) : Prop :=
  goodCommon T name g /\
  forall cs, draw = Some cs -> NoDup (penIds cs) /\
    exists al, anchorsOf T ["name"] (attr g "anchors") al /\ NoDup (identifiersOf al) /\ legal (cs ++ flat_map anchorPath al).

(** * Proofs *)
Lemma integer_iff v : is_int v = true <-> integer v.
Proof.
  unfold integer, intOf. destruct v; cbn; split; intro H; try discriminate H; try reflexivity; try (destruct H as (z0 & [H|(b0 & H & _)]); discriminate H).
  - eexists. right. eexists. split; reflexivity.
  - eexists. left. reflexivity.
Qed.
Lemma at_getattr g k : getattr g (u k) = attr g k.
Proof. reflexivity. Qed.
Lemma serial_sub tag l : xml tag -> (serial (sub tag l) <-> Forall (fun kv => xml (fst kv) /\ xml (snd kv)) l).
Proof. intro X. unfold sub. split; intro H; [inversion H; assumption|]. constructor; try assumption; try exact I. constructor. Qed.
Lemma tidy_sub tag l : tidy (sub tag l).
Proof. constructor; [left; reflexivity|constructor]. Qed.
Lemma xml_lit s : forallb (fun c => ((c =? 10) || ((32 <=? c) && (c <? 128))))%N s = true -> xml s.
Proof. intro H. apply (ascii_ok s). apply lit_ascii. exact H. Qed.
Lemma xml_ascii s : ascii s -> xml s.
Proof. intro H. apply (ascii_ok s). exact H. Qed.
Lemma Forall_present (P : str * str -> Prop) l : Forall P (present l) <-> Forall (fun p => match snd p with Some s => P (fst p, s) | None => True end) l.
Proof.
  induction l as [|[k [s|]] l IH]; cbn [present flat_map fst snd app]; [split; constructor| |].
  - rewrite !Forall_cons_iff. fold (present l). rewrite IH. reflexivity.
  - rewrite Forall_cons_iff. fold (present l). rewrite IH. cbn. tauto.
Qed.

Section Writer.
Variable T : pytext.
Variable R : spec_float -> str.
Variable ro : pyval -> str.
Hypothesis RX : forall f, xml (R f).
Notation repr := (reprOf R ro).
Lemma repr_xml v : isNum v -> xml (repr v).
Proof. intros [(z & ->)|[(b & ->)|(f & ->)]]; cbn [reprOf]; [apply xml_ascii, strZ_ascii|destruct b; apply xml_lit; reflexivity|apply RX]. Qed.

(** ** Advance, unicodes, note *)
Lemma advanceNumber_iff v : (exists w, advanceNumber true v = Ok w) <-> orNone isNum v.
Proof.
  unfold advanceNumber, orNone. destruct (is_none v) eqn:N; [destruct v; try discriminate N; split; eauto|]. cbn [negb orb]. rewrite <- number_iff. destruct (is_number v) eqn:Q.
  - split; [auto|]. intros _. destruct (py_eq v (PInt 0)); eauto.
  - split; [intros (w & H); discriminate H|]. intros [->|H]; discriminate.
Qed.
Lemma advanceNumber_num v w : advanceNumber true v = Ok w -> orNone isNum w.
Proof.
  unfold advanceNumber, orNone. destruct (is_none v); [intro H; apply Ok_inj in H; auto|]. cbn [negb orb]. destruct (is_number v) eqn:Q; [|discriminate].
  destruct (py_eq v (PInt 0)); intro H; apply Ok_inj in H; subst; [auto|]. right. apply number_iff. exact Q.
Qed.
Lemma advance_iff g : (exists l, writeAdvance R ro g true = Ok l /\ Forall serial l) <-> orNone isNum (attr g "width") /\ orNone isNum (attr g "height").
Proof.
  rewrite <- !advanceNumber_iff. unfold writeAdvance. rewrite !at_getattr. split.
  - intros (l & E & _). apply bind_Ok in E as (w & Ew & E). apply bind_Ok in E as (h & Eh & _). eauto.
  - intros [(w & Ew) (h & Eh)]. rewrite Ew, Eh. cbn [bind]. apply advanceNumber_num in Ew, Eh.
    assert (H : Forall (fun kv => xml (fst kv) /\ xml (snd kv)) (optRepr R ro (u "height") h ++ optRepr R ro (u "width") w)).
    { apply Forall_app. unfold optRepr. split.
      - destruct (is_none h) eqn:N; [constructor|]. constructor; [|constructor]. split; [apply xml_lit; reflexivity|]. apply repr_xml. destruct Eh as [->|Eh]; [discriminate N|exact Eh].
      - destruct (is_none w) eqn:N; [constructor|]. constructor; [|constructor]. split; [apply xml_lit; reflexivity|]. apply repr_xml. destruct Ew as [->|Ew]; [discriminate N|exact Ew]. }
    destruct (optRepr _ _ _ _ ++ _); [exists []; split; [reflexivity|constructor]|]. eexists. split; [reflexivity|]. constructor; [|constructor]. apply serial_sub; [apply xml_lit; reflexivity|exact H].
Qed.
Lemma advance_tidy g l : writeAdvance R ro g true = Ok l -> Forall tidy l.
Proof.
  unfold writeAdvance. intro E. apply bind_Ok in E as (w & _ & E). apply bind_Ok in E as (h & _ & E). destruct (_ ++ _); apply Ok_inj in E; subst l; [constructor|]. constructor; [apply tidy_sub|constructor].
Qed.
Lemma unicodesLoop_iff codes : forall seen, (exists l, unicodesLoop true codes seen = Ok l) <-> Forall integer codes.
Proof.
  induction codes as [|c r IH]; intro seen; cbn [unicodesLoop]; [split; [constructor|eauto]|]. rewrite Forall_cons_iff, <- integer_iff. cbn [negb orb]. destruct (is_int c) eqn:Q.
  - assert (H : hashable c = true) by (destruct c; try discriminate Q; reflexivity). rewrite H.
    destruct (existsb (py_eq c) seen); [rewrite IH; tauto|]. assert (F : exists h, formatHex c = Ok h) by (destruct c; try discriminate Q; eexists; reflexivity). destruct F as (h & ->). cbn [bind].
    rewrite <- (IH (c :: seen)). split; [intros (l & E); apply bind_Ok in E as (t & E & _); eauto|]. intros (_ & t & ->). cbn [bind]. eauto.
  - split; [intros (l & E); discriminate E|]. intros (E & _). discriminate E.
Qed.
Lemma unicode_serial zs : Forall serial (map unicodeElem zs).
Proof.
  apply Forall_forall. intros e J. apply in_map_iff in J as (z & <- & _). apply serial_sub; [apply xml_lit; reflexivity|]. constructor; [|constructor]. split; [apply xml_lit; reflexivity|apply xml_ascii, hex04_ascii].
Qed.
Lemma unicodes_iff g : (exists l, writeUnicodes g true = Ok l /\ Forall serial l) <-> goodUnicodes (attr g "unicodes").
Proof.
  assert (S : (exists l, writeUnicodes g true = Ok l /\ Forall serial l) <-> exists l, writeUnicodes g true = Ok l).
  { split; [intros (l & E & _); eauto|]. intros (l & E). exists l. split; [exact E|]. apply (writeUnicodes_inv ro) in E. subst l. apply unicode_serial. }
  rewrite S. unfold writeUnicodes, goodUnicodes, falsy. rewrite at_getattr. destruct (truthy (attr g "unicodes")) eqn:Tr; cbn [negb]; [|split; eauto]. cbn [andb].
  destruct (is_int (attr g "unicodes")) eqn:Q.
  - cbn [iterate bind]. rewrite unicodesLoop_iff. apply integer_iff in Q. split; [intros _; auto|intros _; constructor; [exact Q|constructor]].
  - split.
    + intros (l & E). apply bind_Ok in E as (codes & It & E). assert (F : Forall integer codes) by (apply (unicodesLoop_iff codes []); eauto). right. right.
      destruct (attr g "unicodes") as [| | | |s|b| |l0|l0|d|]; try discriminate It; apply Ok_inj in It; subst codes.
      * exfalso. destruct s as [|c s]; [discriminate Tr|]. inversion F as [|? ? H]; subst. apply integer_iff in H. discriminate H.
      * eexists. split; [constructor|exact F].
      * eexists. split; [constructor|exact F].
      * eexists. split; [constructor|exact F].
      * eexists. split; [constructor|exact F].
    + intros [H|[H|(l & It & F)]]; [discriminate H|apply integer_iff in H; rewrite H in Q; discriminate Q|].
      assert (E : iterate (attr g "unicodes") = Ok l) by (inversion It; reflexivity). rewrite E. cbn [bind]. apply unicodesLoop_iff. exact F.
Qed.
Lemma unicodes_tidy g l : writeUnicodes g true = Ok l -> Forall tidy l.
Proof. intro E. apply (writeUnicodes_inv ro) in E. subst l. apply Forall_forall. intros e J. apply in_map_iff in J as (z & <- & _). apply tidy_sub. Qed.
Lemma note_iff g : (exists l, writeNote T g true = Ok l /\ Forall serial l) <-> goodNote T (attr g "note").
Proof.
  unfold writeNote, goodNote, falsy. rewrite at_getattr. destruct (truthy (attr g "note")) eqn:Tr; cbn [negb]; [|split; [auto|intros _; exists []; split; [reflexivity|constructor]]]. cbn [orb].
  destruct (attr g "note") as [| | | |s| | | | | |] eqn:E; cbn [is_str]; try (split; [intros (l1 & H & _); discriminate H|intros [H|(s1 & H & _)]; discriminate H]).
  split.
  - intros (l & H & F). apply Ok_inj in H. subst l. right. exists s. split; [reflexivity|]. inversion F as [|? ? F1 _]; subst. inversion F1 as [? ? ? ? ? _ _ X _ _]; subst. cbn [serialText] in X. inversion X as [|? ? _ X']; subst. apply Forall_app in X'. apply X'.
  - intros [H|(s' & H & X)]; [discriminate H|]. injection H as <-. eexists. split; [reflexivity|]. constructor; [|constructor]. constructor; try exact I; try apply Forall_nil; [apply xml_lit; reflexivity|].
    cbn [serialText]. apply Forall_cons; [right; left; reflexivity|]. apply Forall_app. split; [exact X|apply xml_lit; reflexivity].
Qed.
Lemma note_tidy g l : writeNote T g true = Ok l -> Forall tidy l.
Proof.
  unfold writeNote. destruct (negb (truthy _)); [intro E; apply Ok_inj in E; subst; constructor|]. destruct (negb true || is_str _); [|discriminate]. destruct (getattr g (u "note")); try discriminate. intro E. apply Ok_inj in E. subst l.
  constructor; [|constructor]. constructor; [left; reflexivity|constructor].
Qed.

(** ** Image, guidelines, anchors *)
Definition pairXml (kv : str * str) : Prop := xml (fst kv) /\ xml (snd kv).
Lemma numAttr_xml g k : forallb (fun c => ((c =? 10) || ((32 <=? c) && (c <? 128))))%N k = true -> orNone isNum (vget k g) ->
  match snd (numAttr R ro g k) with Some s => pairXml (fst (numAttr R ro g k), s) | None => True end.
Proof. intros K [E|N]; unfold numAttr; cbn [fst snd]; [rewrite E; exact I|]. destruct (is_none (vget k g)); [exact I|]. split; [apply xml_lit; exact K|apply repr_xml; exact N]. Qed.
Lemma strAttr_xml g k : forallb (fun c => ((c =? 10) || ((32 <=? c) && (c <? 128))))%N k = true ->
  (match snd (strAttr g k) with Some s => pairXml (fst (strAttr g k), s) | None => True end <-> forall s, vget k g = PStr s -> xml s).
Proof.
  intro K. unfold strAttr. cbn [fst snd]. destruct (vget k g); split; intro H; try exact I; try (intros s' E; discriminate E).
  - intros s' E. injection E as <-. apply H.
  - split; [apply xml_lit; exact K|apply H; reflexivity].
Qed.
Lemma identifier_xml v s : orNone identifier v -> v = PStr s -> xml s.
Proof. intros [->|(s' & -> & _ & B)] E; [discriminate E|]. injection E as <-. apply Forall_forall. intros c J. specialize (B c J). unfold xmlCompat. lia. Qed.
Lemma guideline_serial g : goodGuideline T g -> (serial (sub (u "guideline") (present (map (numAttr R ro g) guideNums ++ map (strAttr g) itemStrs))) <-> xmlAt ["name"; "color"] g).
Proof.
  intros (_ & Ls & _ & Id & _). destruct (line_nums g Ls) as (Nx & Ny & Na). rewrite serial_sub by (apply xml_lit; reflexivity). fold pairXml. rewrite Forall_present, Forall_app. unfold guideNums, itemStrs. cbn [map]. rewrite !Forall_cons_iff.
  rewrite !strAttr_xml by reflexivity. unfold xmlAt. split.
  - intros (_ & Hn & Hc & _) k s [<-|[<-|[]]] E; [apply Hn|apply Hc]; exact E.
  - intro H. split; [repeat split; try (apply numAttr_xml; [reflexivity|assumption]); constructor|].
    split; [intros s E; apply (H "name" s); [left; reflexivity|exact E]|]. split; [intros s E; apply (H "color" s); [right; left; reflexivity|exact E]|]. split; [|constructor]. intros s E. eapply identifier_xml; [exact Id|exact E].
Qed.
Lemma anchor_serial g : goodAnchor T g -> (serial (sub (u "anchor") (present (map (numAttr R ro g) anchorNums ++ map (strAttr g) itemStrs))) <-> xmlAt ["name"; "color"] g).
Proof.
  intros (_ & Nx & Ny & _ & Id & _). rewrite serial_sub by (apply xml_lit; reflexivity). fold pairXml. rewrite Forall_present, Forall_app. unfold anchorNums, itemStrs. cbn [map]. rewrite !Forall_cons_iff.
  rewrite !strAttr_xml by reflexivity. unfold xmlAt. split.
  - intros (_ & Hn & Hc & _) k s [<-|[<-|[]]] E; [apply Hn|apply Hc]; exact E.
  - intro H. split; [repeat split; try (apply numAttr_xml; [reflexivity|right; assumption]); constructor|].
    split; [intros s E; apply (H "name" s); [left; reflexivity|exact E]|]. split; [intros s E; apply (H "color" s); [right; left; reflexivity|exact E]|]. split; [|constructor]. intros s E. eapply identifier_xml; [exact Id|exact E].
Qed.
Lemma optAttr_total k v : orNone text v -> exists a, optAttr k v = Ok a.
Proof. intros [->|(s & ->)]; eexists; reflexivity. Qed.
Lemma writeIdentifier_total v ids ids' : orNone text v -> fresh [match v with PStr s => Some s | _ => None end] ids ids' -> exists a, writeIdentifier true v ids = Ok (a, ids').
Proof.
  intros [->|(s & ->)] F; cbn [fresh] in F; [subst; eexists; reflexivity|]. destruct F as [N ->]. unfold writeIdentifier. cbn [is_none attrStr bind andb]. apply mem_nIn in N. rewrite N. eexists. reflexivity.
Qed.
Lemma onlyKeys_dict l v : onlyKeys l v -> is_dict v = true.
Proof. intros (d & -> & _). reflexivity. Qed.
Lemma num_has k v : is_dict v = true -> isNum (vget k v) -> vhas k v = true.
Proof. unfold vget, vhas. destruct v; try discriminate. intros _. cbn [items]. destruct (dget k d); [reflexivity|]. intros [(z & E)|[(b & E)|(f & E)]]; discriminate E. Qed.
Lemma writeGuideline_total g ids ids' : goodGuideline T g -> fresh [gid g] ids ids' -> exists e, writeGuideline R ro true g ids = Ok (e, ids').
Proof.
  intros (K & _ & Nm & Id & Co) F. unfold writeGuideline. rewrite (onlyKeys_dict _ _ K). destruct (optAttr_total (u "name") _ Nm) as (a & Ea). unfold at_ in Ea. rewrite Ea. cbn [bind].
  destruct (optAttr_total (u "color") (at_ "color" g)) as (b & Eb); [eapply orNone_weak; [apply colour_text|exact Co]|]. unfold at_ in Eb. rewrite Eb. cbn [bind].
  destruct (writeIdentifier_total (at_ "identifier" g) ids ids') as (c & Ec); [eapply orNone_weak; [apply identifier_text|exact Id]|exact F|]. unfold at_ in Ec. rewrite Ec. cbn [bind]. eexists. reflexivity.
Qed.
Lemma writeAnchor_total g ids ids' : goodAnchor T g -> fresh [gid g] ids ids' -> exists e, writeAnchor R ro true g ids = Ok (e, ids').
Proof.
  intros (K & Nx & Ny & Nm & Id & Co) F. unfold writeAnchor. rewrite (onlyKeys_dict _ _ K). rewrite (num_has _ _ (onlyKeys_dict _ _ K) Nx), (num_has _ _ (onlyKeys_dict _ _ K) Ny). destruct (optAttr_total (u "name") _ Nm) as (a & Ea). unfold at_ in Ea. rewrite Ea. cbn [bind].
  destruct (optAttr_total (u "color") (at_ "color" g)) as (b & Eb); [eapply orNone_weak; [apply colour_text|exact Co]|]. unfold at_ in Eb. rewrite Eb. cbn [bind].
  destruct (writeIdentifier_total (at_ "identifier" g) ids ids') as (c & Ec); [eapply orNone_weak; [apply identifier_text|exact Id]|exact F|]. unfold at_ in Ec. rewrite Ec. cbn [bind]. eexists. reflexivity.
Qed.
Lemma writeLoop_iff (w : pyval -> list str -> res (elem * list str)) (el : pyval -> elem) (P : pyval -> Prop) :
  (forall x ids e ids', P x -> w x ids = Ok (e, ids') -> e = el x /\ fresh [gid x] ids ids') ->
  (forall x ids ids', P x -> fresh [gid x] ids ids' -> exists e, w x ids = Ok (e, ids')) ->
  forall l, Forall P l -> forall ids es ids', writeLoop w l ids = Ok (es, ids') <-> es = map el l /\ fresh (map gid l) ids ids'.
Proof.
  intros A B. induction 1 as [|x l Px F IH]; intros ids es ids'; cbn [writeLoop map].
  - cbn [fresh]. split; [intro H; apply Ok_inj in H; injection H as <- <-; auto|intros [-> ->]; reflexivity].
  - change (gid x :: map gid l) with ([gid x] ++ map gid l). rewrite fresh_app. split.
    + intro H. apply bind_Ok in H as ((e & i1) & He & H). apply bind_Ok in H as ((t & i2) & Ht & H). apply Ok_inj in H. injection H as <- <-. apply (A x _ _ _ Px) in He as [-> Fx]. apply IH in Ht as [-> Fl]. eauto.
    + intros (-> & i1 & Fx & Fl). destruct (B x ids i1 Px Fx) as (e & He). rewrite He. cbn [bind]. rewrite (proj2 (IH i1 _ ids') (conj eq_refl Fl)). cbn [bind]. apply (A x _ _ _ Px) in He as [-> _]. reflexivity.
Qed.
Lemma ids_somes l : identifiersOf l = somes (map gid l).
Proof. unfold identifiersOf, somes. rewrite flat_map_concat_map, map_map. f_equal. apply map_ext. intro g. unfold gid. destruct (vget (u "identifier") g); reflexivity. Qed.
Lemma guidelines_iff g l ids : keysOnce (attr g "guidelines") ->
  ((writeGuidelines T R ro g 2 true [] = Ok (l, ids) /\ Forall serial l) <->
   exists gs, guidelinesOf T (attr g "guidelines") gs /\ l = map (fun x => sub (u "guideline") (present (map (numAttr R ro x) guideNums ++ map (strAttr x) itemStrs))) gs /\ fresh (map gid gs) [] ids).
Proof.
  intro KO. unfold writeGuidelines, guidelinesOf, falsy. rewrite at_getattr. change (2 <=? 2)%Z with true. cbn [andb]. destruct (truthy (attr g "guidelines")) eqn:Tr; cbn [negb].
  2:{ split; [intros [H _]; apply Ok_inj in H; injection H as <- <-; exists []; repeat split; auto|]. intros (gs & [[_ ->]|[H _]] & -> & F); [|discriminate H]. cbn [map fresh] in *. subst ids. split; [reflexivity|constructor]. }
  cbn [orb].
  assert (Lp : forall gs, Forall (goodGuideline T) gs -> keysOnce (PList gs) -> forall es ids', writeLoop (writeGuideline R ro true) gs [] = Ok (es, ids') <->
    es = map (fun x => sub (u "guideline") (present (map (numAttr R ro x) guideNums ++ map (strAttr x) itemStrs))) gs /\ fresh (map gid gs) [] ids').
  { intros gs F _. apply (writeLoop_iff _ _ (goodGuideline T)); [|intros x i1 i2; apply writeGuideline_total|exact F].
    intros x i1 e i2 _ H. apply writeGuideline_inv in H as (-> & _ & Fr). auto. }
  split.
  - intros [H S]. destruct (fst (guidelinesValidator T (attr g "guidelines") [])) eqn:V; [|discriminate H]. pose proof (proj1 (proj1 (C95_lists T _ [] KO)) V) as (gs & E & G & _). rewrite E in *. cbn [iterate bind] in H.
    apply (Lp gs G KO) in H as [-> Fr]. exists gs. split; [|auto]. right. split; [reflexivity|]. split; [reflexivity|].
    apply Forall_forall. intros x J. rewrite Forall_forall in G. split; [auto|]. apply guideline_serial; [auto|]. rewrite Forall_forall in S. apply S. apply in_map_iff. eauto.
  - intros (gs & [[H _]|(_ & E & G)] & -> & F); [discriminate H|]. rewrite E in *.
    assert (G1 : Forall (goodGuideline T) gs) by (eapply Forall_impl; [|exact G]; intros x H; apply H).
    assert (V : fst (guidelinesValidator T (PList gs) []) = true).
    { apply (proj1 (C95_lists T _ [] KO)). exists gs. split; [reflexivity|]. split; [exact G1|]. rewrite ids_somes. apply fresh_iff in F. split; [apply F|intros s _ []]. }
    rewrite V. cbn [iterate bind]. split; [apply (Lp gs G1 KO); auto|]. apply Forall_forall. intros e J. apply in_map_iff in J as (x & <- & J). rewrite Forall_forall in G. apply guideline_serial; apply G; exact J.
Qed.
Lemma anchors_iff g l ids0 ids : keysOnce (attr g "anchors") ->
  ((writeAnchors T R ro g 2 true ids0 = Ok (l, ids) /\ Forall serial l) <->
   exists al, anchorsOf T ["name"; "color"] (attr g "anchors") al /\ l = map (fun x => sub (u "anchor") (present (map (numAttr R ro x) anchorNums ++ map (strAttr x) itemStrs))) al /\ fresh (map gid al) ids0 ids).
Proof.
  intro KO. unfold writeAnchors, anchorsOf, falsy. rewrite at_getattr. change (2 <=? 2)%Z with true. cbn [andb]. destruct (truthy (attr g "anchors")) eqn:Tr; cbn [negb].
  2:{ split; [intros [H _]; apply Ok_inj in H; injection H as <- <-; exists []; repeat split; auto|]. intros (gs & [[_ ->]|[H _]] & -> & F); [|discriminate H]. cbn [map fresh] in *. subst ids. split; [reflexivity|constructor]. }
  cbn [orb].
  assert (Lp : forall gs, Forall (goodAnchor T) gs -> keysOnce (PList gs) -> forall es ids', writeLoop (writeAnchor R ro true) gs ids0 = Ok (es, ids') <->
    es = map (fun x => sub (u "anchor") (present (map (numAttr R ro x) anchorNums ++ map (strAttr x) itemStrs))) gs /\ fresh (map gid gs) ids0 ids').
  { intros gs F KG. apply (writeLoop_iff _ _ (fun x => goodAnchor T x /\ keysOnce x)).
    - intros x i1 e i2 [G K] H. apply (writeAnchor_inv T) in H as (-> & _ & Fr); [auto|]. apply C95_anchors; assumption.
    - intros x i1 i2 [G _]. apply writeAnchor_total. exact G.
    - rewrite Forall_forall in *. intros x J. split; [auto|]. eapply keys_list; eassumption. }
  split.
  - intros [H S]. destruct (fst (anchorsValidator T (attr g "anchors") [])) eqn:V; [|discriminate H]. pose proof (proj1 (proj2 (C95_lists T _ [] KO)) V) as (gs & E & G & _). rewrite E in *. cbn [iterate bind] in H.
    apply (Lp gs G KO) in H as [-> Fr]. exists gs. split; [|auto]. right. split; [reflexivity|]. split; [reflexivity|].
    apply Forall_forall. intros x J. rewrite Forall_forall in G. split; [auto|]. apply anchor_serial; [auto|]. rewrite Forall_forall in S. apply S. apply in_map_iff. eauto.
  - intros (gs & [[H _]|(_ & E & G)] & -> & F); [discriminate H|]. rewrite E in *.
    assert (G1 : Forall (goodAnchor T) gs) by (eapply Forall_impl; [|exact G]; intros x H; apply H).
    assert (V : fst (anchorsValidator T (PList gs) []) = true).
    { apply (proj2 (C95_lists T _ [] KO)). exists gs. split; [reflexivity|]. split; [exact G1|]. rewrite ids_somes. apply fresh_iff in F. split; [apply F|intros s _ []]. }
    rewrite V. cbn [iterate bind]. split; [apply (Lp gs G1 KO); auto|]. apply Forall_forall. intros e J. apply in_map_iff in J as (x & <- & J). rewrite Forall_forall in G. apply anchor_serial; apply G; exact J.
Qed.
Lemma subs_tidy {A} tag (f : A -> list (str * str)) l : Forall tidy (map (fun x => sub tag (f x)) l).
Proof. apply Forall_forall. intros e J. apply in_map_iff in J as (x & <- & _). apply tidy_sub. Qed.
Lemma image_num k d image : (forall k, In k ["xScale"; "xyScale"; "yxScale"; "yScale"; "xOffset"; "yOffset"] -> orNone isNum (at_ k image)) -> In (k, d) transformationInfo -> orNone isNum (vget k image).
Proof. intros H J. cbn in J. repeat (destruct J as [J|J]; [injection J as <- _; match goal with |- orNone _ (vget (u ?k) _) => apply (H k); cbn; auto 8 end|]). destruct J. Qed.
Lemma image_iff g : keysOnce (attr g "image") ->
  ((exists l, writeImage T R ro g 2 true = Ok l /\ Forall serial l) <-> falsy (attr g "image") \/ goodImage T (attr g "image") /\ xmlAt ["fileName"; "color"] (attr g "image")).
Proof.
  intro KO. assert (S : goodImage T (attr g "image") -> (serial (sub (u "image") (present (imageAttrs R ro (attr g "image")))) <-> xmlAt ["fileName"; "color"] (attr g "image"))).
  { intros (_ & (s & Fn & _) & Nu & Co). rewrite serial_sub by (apply xml_lit; reflexivity). fold pairXml. rewrite Forall_present. unfold imageAttrs. rewrite Forall_cons_iff, Forall_app, Forall_cons_iff.
    rewrite !strAttr_xml by reflexivity. unfold xmlAt. split.
    - intros (A & _ & B & _) k s' [<-|[<-|[]]] E; [apply A|apply B]; exact E.
    - intro H. split; [intros s' E; apply (H "fileName"); [left; reflexivity|exact E]|]. split; [|split; [intros s' E; apply (H "color"); [right; left; reflexivity|exact E]|constructor]].
      apply Forall_forall. intros x J. apply in_map_iff in J as ([k d] & <- & J). unfold imageAttr. cbn [fst snd]. unfold imageNumber. cbn [fst snd].
      assert (V : xml (repr (defaultGet k (PInt d) (attr g "image")))).
      { unfold defaultGet. destruct (vhas k (attr g "image")); [|apply repr_xml; left; eauto]. destruct (image_num k d _ Nu J) as [E|E]; [rewrite E; apply xml_lit; reflexivity|apply repr_xml; exact E]. }
      destruct (py_eq _ _); [exact I|]. split; [|exact V]. cbn [fst]. cbn in J. repeat (destruct J as [J|J]; [injection J as <- _; apply xml_lit; reflexivity|]). destruct J. }
  unfold falsy. split.
  - intros (l & E & F). apply writeImage_inv in E as [[E _]|(Tr & V & ->)]; rewrite at_getattr in *; [auto|]. right. apply (C95_images T _ KO) in V. split; [exact V|]. apply S; [exact V|]. inversion F. assumption.
  - intros [Tr|[G X]].
    + exists []. split; [|constructor]. unfold writeImage. rewrite at_getattr, Tr. reflexivity.
    + destruct (truthy (attr g "image")) eqn:Tr; [|exists []; split; [|constructor]; unfold writeImage; rewrite at_getattr, Tr; reflexivity].
      assert (E : exists l, writeImage T R ro g 2 true = Ok l).
      { unfold writeImage. rewrite at_getattr, Tr. change (2 <=? 2)%Z with true. cbn [andb negb orb]. rewrite (proj2 (C95_images T _ KO) G). destruct G as (K & (s & Fn & _) & _ & Co). rewrite (onlyKeys_dict _ _ K). unfold at_ in Fn.
        assert (Hs : vhas (u "fileName") (attr g "image") = true) by (unfold vhas, vget in *; destruct (attr g "image"); try discriminate Fn; cbn [items] in *; destruct (dget (u "fileName") d); [reflexivity|discriminate Fn]).
        rewrite Hs, Fn. cbn [attrStr bind]. destruct (optAttr_total (u "color") (at_ "color" (attr g "image"))) as (b & Eb); [eapply orNone_weak; [apply colour_text|exact Co]|]. unfold at_ in Eb. rewrite Eb. cbn [bind]. eauto. }
      destruct E as (l & E). exists l. split; [exact E|]. apply writeImage_inv in E as [[_ ->]|(_ & _ & ->)]; [constructor|]. constructor; [|constructor]. rewrite at_getattr. apply S; assumption.
Qed.
Lemma image_tidy g l : writeImage T R ro g 2 true = Ok l -> Forall tidy l.
Proof. intro E. apply writeImage_inv in E as [[_ ->]|(_ & _ & ->)]; [constructor|]. constructor; [apply tidy_sub|constructor]. Qed.

(** ** Lib *)
Lemma serial_leaf tag s : xml tag -> (serial (leaf tag (Some (XS s))) <-> xml s).
Proof. intro X. unfold leaf. split; intro H; [inversion H; assumption|]. constructor; try assumption; try exact I; apply Forall_nil. Qed.
Lemma serial_node tag ch : xml tag -> (serial (node0 tag ch) <-> Forall serial ch).
Proof. intro X. unfold node0. split; intro H; [inversion H; assumption|]. constructor; try assumption; try exact I. apply Forall_nil. Qed.
Lemma b64char_ascii v : (32 <= b64char v < 128)%N.
Proof. unfold b64char. destruct (N.ltb_spec v 26); [lia|]. destruct (N.ltb_spec v 52); [lia|]. destruct (N.ltb_spec v 62); [lia|]. destruct (v =? 62)%N; lia. Qed.
Lemma b64_ascii b : ascii (b64encode b).
Proof.
  assert (H : forall n b, length b <= n -> ascii (b64encode b)); [|apply (H (length b)); apply Nat.le_refl].
  clear b. pose proof b64char_ascii as B.
  assert (C : forall v s, ascii s -> ascii (b64char v :: s)) by (intros v s A; constructor; [right; apply B|exact A]).
  assert (E : forall s, ascii s -> ascii (61%N :: s)) by (intros s A; constructor; [lia|exact A]).
  assert (N0 : ascii []) by apply Forall_nil.
  induction n as [|n IH]; intros b L; [destruct b; [exact N0|cbn in L; lia]|]. destruct b as [|x [|y [|z r]]]; cbn [b64encode]; auto 8.
  do 4 apply C. apply IH. cbn in L. lia.
Qed.
Lemma base64_ascii b pr lv : ascii (encodeBase64 b pr lv).
Proof.
  unfold encodeBase64. pose proof (b64_ascii b) as A. destruct (b64encode b) as [|x r] eqn:E; [exact A|]. destruct pr; [|exact A]. cbv zeta.
  assert (J : ascii (10%N :: concat (repeat (u "  ") lv))) by (apply Forall_forall; intros c H; apply indent_chars in H as [-> | ->]; lia).
  apply Forall_app. split; [|exact J]. unfold ascii in *. rewrite Forall_forall in *. intros c H. apply chunks_In in H as [H|H]; auto.
Qed.
Lemma dictCh_iff (m : list (str * res elem)) : (exists ch, dictChildren (map (fun '(k, x) => (PStr k, x)) m) = Ok ch /\ Forall serial ch) <-> Forall (fun kx => xml (fst kx) /\ exists e, snd kx = Ok e /\ serial e) m.
Proof.
  induction m as [|[k x] m IH]; cbn [map dictChildren]; [split; [constructor|intros _; exists []; split; [reflexivity|constructor]]|]. rewrite Forall_cons_iff, <- IH. cbn [fst snd]. split.
  - intros (ch & E & F). apply bind_Ok in E as (e & Ee & E). apply bind_Ok in E as (t & Et & E). apply Ok_inj in E. subst ch. inversion F as [|? ? F1 F2]; subst. inversion F2 as [|? ? F3 F4]; subst.
    apply (serial_leaf (u "key") k) in F1; [|apply xml_lit; reflexivity]. split; [split; [exact F1|eauto]|eauto].
  - intros ((X & e & Ee & Se) & t & Et & Ft). rewrite Ee. cbn [bind]. rewrite Et. cbn [bind]. eexists. split; [reflexivity|]. constructor; [|constructor; assumption]. apply serial_leaf; [apply xml_lit; reflexivity|exact X].
Qed.
Lemma strItems_None {A} (d : list (pyval * A)) : strItems d = None -> exists k x, In (k, x) d /\ forall s, k <> PStr s.
Proof.
  induction d as [|[k x] d IH]; cbn [strItems]; [discriminate|]. destruct k; try (intros _; eexists; eexists; split; [left; reflexivity|discriminate]).
  destruct (strItems d); [discriminate|]. intros _. destruct IH as (k' & x' & J & H); [reflexivity|]. exists k', x'. split; [right; exact J|exact H].
Qed.
Lemma strItems_Some {A} (d : list (pyval * A)) m : strItems d = Some m -> d = map (fun '(k, x) => (PStr k, x)) m.
Proof.
  revert m. induction d as [|[k x] d IH]; intros m; cbn [strItems]; [intro H; injection H as <-; reflexivity|]. destruct k; try discriminate. destruct (strItems d) as [r|]; [|discriminate]. intro H. injection H as <-. cbn [map]. rewrite <- (IH r) by reflexivity. reflexivity.
Qed.
Lemma mapM_iff (f : pyval -> res elem) l : (exists ch, mapM f l = Ok ch /\ Forall serial ch) <-> Forall (fun x => exists e, f x = Ok e /\ serial e) l.
Proof.
  induction l as [|x l IH]; cbn [mapM]; [split; [constructor|intros _; exists []; split; [reflexivity|constructor]]|]. rewrite Forall_cons_iff, <- IH. split.
  - intros (ch & E & F). apply bind_Ok in E as (e & Ee & E). apply bind_Ok in E as (t & Et & E). apply Ok_inj in E. subst ch. inversion F; subst. split; eauto.
  - intros ((e & Ee & Se) & t & Et & Ft). rewrite Ee. cbn [bind]. rewrite Et. cbn [bind]. eexists. split; [reflexivity|]. constructor; assumption.
Qed.
Lemma lit_iff (P : Prop) e : serial e -> P -> ((exists e', Ok e = Ok e' /\ serial e') <-> P).
Proof. intros S H. split; [auto|]. intros _. eauto. Qed.
Lemma err_iff (P : Prop) x : ~ P -> ((exists e' : elem, Err x = Ok e' /\ serial e') <-> P).
Proof. intro H. split; [intros (e & E & _); discriminate E|intro; contradiction]. Qed.
Lemma mk_iff v : forall pr lv, (exists e, makeElement R true pr lv v = Ok e /\ serial e) <-> goodPlist v.
Proof.
  induction v using pyval_ind'; intros pr lv.
  - apply err_iff. intro H. inversion H.
  - cbn [makeElement]. apply lit_iff; [|constructor]. destruct b; (constructor; try exact I; try apply Forall_nil; apply xml_lit; reflexivity).
  - cbn [makeElement]. destruct (Z.leb_spec (- 2 ^ 63) z), (Z.ltb_spec z (2 ^ 64)); cbn [andb]; try (apply err_iff; intro K; inversion K; lia).
    apply lit_iff; [|constructor; lia]. apply serial_leaf; [apply xml_lit; reflexivity|apply xml_ascii, strZ_ascii].
  - cbn [makeElement]. apply lit_iff; [|constructor]. apply serial_leaf; [apply xml_lit; reflexivity|apply RX].
  - cbn [makeElement]. split.
    + intros (e & E & S). apply Ok_inj in E. subst e. apply serial_leaf in S; [|apply xml_lit; reflexivity]. constructor. exact S.
    + intro H. inversion H; subst. eexists. split; [reflexivity|]. apply serial_leaf; [apply xml_lit; reflexivity|assumption].
  - cbn [makeElement]. apply lit_iff; [|constructor]. unfold leaf. constructor; try exact I; try apply Forall_nil; [apply xml_lit; reflexivity|]. pose proof (ascii_ok _ (base64_ascii b pr lv)) as [[A _] B]. split; assumption.
  - cbn [makeElement]. apply lit_iff; [|constructor]. apply serial_leaf; [apply xml_lit; reflexivity|apply xml_ascii, date_ascii].
  - rewrite mk_list. assert (Q : goodPlist (PList l) <-> Forall goodPlist l) by (split; [intro K; inversion K; assumption|constructor; assumption]). rewrite Q.
    assert (F : Forall (fun x => exists e, makeElement R true pr (S lv) x = Ok e /\ serial e) l <-> Forall goodPlist l) by (clear Q; induction H as [|x l Hx H IH]; [split; constructor|]; rewrite !Forall_cons_iff, IH, Hx; tauto).
    rewrite <- F, <- mapM_iff. split.
    + intros (e & E & S). apply bind_Ok in E as (ch & M & E). apply Ok_inj in E. subst e. apply serial_node in S; [eauto|apply xml_lit; reflexivity].
    + intros (ch & -> & S). cbn [bind]. eexists. split; [reflexivity|]. apply serial_node; [apply xml_lit; reflexivity|exact S].
  - rewrite mk_tuple. assert (Q : goodPlist (PTuple l) <-> Forall goodPlist l) by (split; [intro K; inversion K; assumption|constructor; assumption]). rewrite Q.
    assert (F : Forall (fun x => exists e, makeElement R true pr (S lv) x = Ok e /\ serial e) l <-> Forall goodPlist l) by (clear Q; induction H as [|x l Hx H IH]; [split; constructor|]; rewrite !Forall_cons_iff, IH, Hx; tauto).
    rewrite <- F, <- mapM_iff. split.
    + intros (e & E & S). apply bind_Ok in E as (ch & M & E). apply Ok_inj in E. subst e. apply serial_node in S; [eauto|apply xml_lit; reflexivity].
    + intros (ch & -> & S). cbn [bind]. eexists. split; [reflexivity|]. apply serial_node; [apply xml_lit; reflexivity|exact S].
  - destruct (strItems d) as [m|] eqn:Sd.
    + apply strItems_Some in Sd. subst d. rewrite mk_dict_str.
      assert (Q : goodPlist (PDict (map (fun '(k, x) => (PStr k, x)) m)) <-> Forall (fun kx => xml (fst kx) /\ goodPlist (snd kx)) m).
      { split; [intro K; inversion K as [| | | | | | | |? F]; subst|intro F; constructor]; rewrite Forall_map in *; (eapply Forall_impl; [|exact F]; intros [k x]; cbn [fst snd]).
        - intros ((s & E & X) & G). injection E as <-. auto.
        - intros (X & G). eauto. }
      rewrite Q. assert (F : Forall (fun kx => xml (fst kx) /\ goodPlist (snd kx)) m <-> Forall (fun kx => xml (fst kx) /\ exists e, makeElement R true pr (S lv) (snd kx) = Ok e /\ serial e) m).
      { clear Q. rewrite Forall_map in H. induction H as [|[k x] m Hx H IH]; [split; constructor|]. rewrite !Forall_cons_iff, IH. cbn [fst snd] in *. destruct Hx as [_ Hx]. rewrite Hx. tauto. }
      rewrite F. clear F Q H.
      assert (Pm : forall P : str * pyval -> Prop, Forall P m <-> Forall P (itemsOf true m)) by (intro P; split; intro F; (eapply Permutation_Forall; [|exact F]); [apply Permutation_sym|]; apply itemsOf_perm).
      rewrite Pm. generalize (itemsOf true m). clear Pm m. intro m.
      assert (D : Forall (fun kx => xml (fst kx) /\ exists e, makeElement R true pr (S lv) (snd kx) = Ok e /\ serial e) m <->
        exists ch, dictChildren (map (fun '(k, x) => (PStr k, makeElement R true pr (S lv) x)) m) = Ok ch /\ Forall serial ch).
      { replace (map (fun '(k, x) => (PStr k, makeElement R true pr (S lv) x)) m) with (map (fun '(k, x) => (PStr k, x)) (map (fun '(k, x) => (k, makeElement R true pr (S lv) x)) m)) by (rewrite map_map; apply map_ext; intros [k x]; reflexivity).
        rewrite dictCh_iff, Forall_map. split; intro F; (eapply Forall_impl; [|exact F]; intros [k x]; auto). }
      rewrite D. split.
      * intros (e & E & S). apply bind_Ok in E as (ch & M & E). apply Ok_inj in E. subst e. apply serial_node in S; [eauto|apply xml_lit; reflexivity].
      * intros (ch & -> & S). cbn [bind]. eexists. split; [reflexivity|]. apply serial_node; [apply xml_lit; reflexivity|exact S].
    + rewrite mk_dict. unfold dictElement. destruct (strItems_None _ Sd) as (k & x & J & N).
      assert (E : strItems (map (fun '(k, x) => (k, makeElement R true pr (S lv) x)) d) = None).
      { clear - Sd. induction d as [|[k x] d IH]; [discriminate Sd|]. cbn [map strItems] in *. destruct k; try reflexivity. destruct (strItems d); [discriminate Sd|]. rewrite IH by reflexivity. reflexivity. }
      rewrite E. apply err_iff. intro K. inversion K as [| | | | | | | |? F]; subst. rewrite Forall_forall in F. destruct (F _ J) as [(s & Es & _) _]. cbn [fst] in Es. exact (N s Es).
  - apply err_iff. intro H. inversion H.
Qed.
Lemma mk_tidy v : forall sk pr lv e, makeElement R sk pr lv v = Ok e -> tidy e.
Proof.
  assert (L : forall tag t, tidy (leaf tag t)) by (intros; constructor; [left; reflexivity|constructor]).
  assert (N : forall tag ch, Forall tidy ch -> tidy (node0 tag ch)) by (intros; constructor; [right; reflexivity|assumption]).
  assert (M : forall (f : pyval -> res elem) (l : list pyval) ch, Forall (fun x => forall e, f x = Ok e -> tidy e) l -> mapM f l = Ok ch -> Forall tidy ch).
  { intros f l. induction l as [|x l IH]; intros ch F E; cbn [mapM] in E; [apply Ok_inj in E; subst; constructor|]. apply bind_Ok in E as (e & Ee & E). apply bind_Ok in E as (t & Et & E). apply Ok_inj in E. subst ch. inversion F; subst. constructor; eauto. }
  assert (D : forall (l : list (pyval * res elem)) ch, Forall (fun kx => forall e, snd kx = Ok e -> tidy e) l -> dictChildren l = Ok ch -> Forall tidy ch).
  { intros l. induction l as [|[k x] l IH]; intros ch F E; cbn [dictChildren] in E; [apply Ok_inj in E; subst; constructor|]. destruct k; try discriminate E. apply bind_Ok in E as (e & Ee & E). apply bind_Ok in E as (t & Et & E). apply Ok_inj in E. subst ch. inversion F; subst.
    constructor; [apply L|]. constructor; [auto|]. eapply IH; eauto. }
  induction v using pyval_ind'; intros sk pr lv e E.
  - discriminate E.
  - cbn [makeElement] in E. apply Ok_inj in E. subst e. apply L.
  - cbn [makeElement] in E. destruct (_ && _); [|discriminate E]. apply Ok_inj in E. subst e. apply L.
  - cbn [makeElement] in E. apply Ok_inj in E. subst e. apply L.
  - cbn [makeElement] in E. apply Ok_inj in E. subst e. apply L.
  - cbn [makeElement] in E. apply Ok_inj in E. subst e. apply L.
  - cbn [makeElement] in E. apply Ok_inj in E. subst e. apply L.
  - rewrite mk_list in E. apply bind_Ok in E as (ch & Ec & E). apply Ok_inj in E. subst e. apply N. eapply M; [|exact Ec]. eapply Forall_impl; [|exact H]. intros x Hx e Ee. eapply Hx. exact Ee.
  - rewrite mk_tuple in E. apply bind_Ok in E as (ch & Ec & E). apply Ok_inj in E. subst e. apply N. eapply M; [|exact Ec]. eapply Forall_impl; [|exact H]. intros x Hx e Ee. eapply Hx. exact Ee.
  - rewrite mk_dict in E. unfold dictElement in E. apply bind_Ok in E as (ch & Ec & E). apply Ok_inj in E. subst e. apply N.
    assert (F : Forall (fun kx => forall e, snd kx = Ok e -> tidy e) (map (fun '(k, x) => (k, makeElement R sk pr (S lv) x)) d)).
    { rewrite Forall_map. eapply Forall_impl; [|exact H]. intros [k x] [_ Hx] e Ee. cbn [snd] in *. eapply Hx. exact Ee. }
    destruct sk; [|eapply D; eassumption]. destruct (strItems _) as [m|] eqn:Es; [|discriminate Ec]. apply strItems_Some in Es. rewrite Es in F. eapply D; [|exact Ec]. rewrite Forall_map in F |- *. eapply Permutation_Forall; [apply Permutation_sym, sortItems_perm|exact F].
  - discriminate E.
Qed.
Lemma lib_iff g : (exists l, writeLib T R g true = Ok l /\ Forall serial l) <-> falsy (attr g "lib") \/ goodGlyphLib T (attr g "lib") /\ goodPlist (attr g "lib").
Proof.
  unfold writeLib, falsy. rewrite at_getattr. destruct (truthy (attr g "lib")) eqn:Tr; cbn [negb]; [|split; [auto|intros _; exists []; split; [reflexivity|constructor]]].
  rewrite <- (proj2 (C95_libs T (attr g "lib"))), <- (mk_iff (attr g "lib") true 2). split.
  - intros (l & E & F). right. apply bind_Ok in E as (v & Ev & E). destruct v; [|discriminate E]. destruct (is_dict _); [|discriminate E]. apply bind_Ok in E as (e & Ee & E). apply Ok_inj in E. subst l. split; [exact Ev|]. exists e. split; [exact Ee|].
    inversion F as [|? ? F1 _]; subst. inversion F1 as [? ? ? ? ? _ _ _ _ F2]; subst. inversion F2. assumption.
  - intros [H|(V & e & Ee & S)]; [discriminate H|]. rewrite V. cbn [bind]. assert (Dd : is_dict (attr g "lib") = true) by (apply (proj2 (C95_libs T (attr g "lib"))) in V as (d & -> & _); reflexivity).
    rewrite Dd. unfold totree. rewrite Ee. cbn [bind]. eexists. split; [reflexivity|]. constructor; [|constructor]. constructor; try exact I; try apply Forall_nil; [apply xml_lit; reflexivity|]. constructor; [exact S|constructor].
Qed.
Lemma lib_tidy g l : writeLib T R g true = Ok l -> Forall tidy l.
Proof.
  unfold writeLib. destruct (negb _); [intro E; apply Ok_inj in E; subst; constructor|]. intro E. apply bind_Ok in E as (v & Ev & E). destruct v; [|discriminate E]. destruct (is_dict _); [|discriminate E]. apply bind_Ok in E as (e & Ee & E). apply Ok_inj in E. subst l.
  constructor; [|constructor]. constructor; [right; reflexivity|]. constructor; [|constructor]. eapply mk_tidy. exact Ee.
Qed.

(** ** The pen *)
Definition callId (c : gcall) : option str :=
  match c with PBegin i | PComponent _ _ i => theId i | PAdd p => theId (pkw p) | PEnd => None end.
Lemma penIds_somes cs : penIds cs = somes (map callId cs).
Proof. unfold penIds, somes, callId. rewrite !flat_map_concat_map, map_map. reflexivity. Qed.
Lemma goodId_iff i : goodId i <-> forall s, In s (somes [i]) -> identifierOk s = true.
Proof.
  unfold goodId. destruct i as [s|]; cbn [somes flat_map app In].
  - pose proof (C41_identifier_rule (PStr s)) as H. cbn [identifierValidator] in H. split.
    + intros G x [<-|[]]. apply H. exists s. split; [reflexivity|]. apply G. reflexivity.
    + intros G x E. injection E as <-. destruct (proj1 H) as (y & Y & Z); [apply G; left; reflexivity|]. injection Y as <-. exact Z.
  - split; [intros _ s []|intros _ s E; discriminate E].
Qed.
Lemma idsSeq_one i ids ids' : idsSeq [i] ids ids' <-> fresh [i] ids ids' /\ goodId i.
Proof. rewrite idsSeq_fresh, goodId_iff. reflexivity. Qed.
Lemma idAttr_xml i : goodId i -> Forall (fun kv : str * str => xml (fst kv) /\ xml (snd kv)) (idAttr i).
Proof.
  intro G. destruct i as [s|]; [|constructor]. constructor; [|constructor]. split; [apply xml_lit; reflexivity|]. apply xml_ascii. apply Forall_forall. intros c J. destruct (G s eq_refl) as [_ H]. apply H in J. lia.
Qed.
Record inv (pre : list gcall) (s : gpen) : Prop := {
  inv_contour : match gContour s with
    | Some n => opened pre = true /\ exists o1 tag at' ch o2, gOutline s = o1 ++ Elem tag at' None ch None :: o2 /\ n = length o1
    | None => opened pre = false end;
  inv_types : gTypes s = map segName (points pre);
  inv_off : gOff s = offs pre;
  inv_tidy : Forall tidy (gOutline s) }.
Lemma appendAt_mid e tag at' text ch tail o2 o1 : appendAt (length o1) e (o1 ++ Elem tag at' text ch tail :: o2) = o1 ++ Elem tag at' text (ch ++ [e]) tail :: o2.
Proof. induction o1 as [|x o1 IH]; [reflexivity|]. cbn [length app appendAt]. destruct x. rewrite IH. reflexivity. Qed.
Lemma textAt_mid e o2 o1 : textAt (length o1) (o1 ++ e :: o2) = o1 ++ contourText e :: o2.
Proof. induction o1 as [|x o1 IH]; [reflexivity|]. cbn [length app textAt]. rewrite IH. reflexivity. Qed.
Lemma opened_snoc a c : opened (a ++ [c]) = match c with PBegin _ => true | PEnd => false | _ => opened a end.
Proof. unfold opened. rewrite fold_left_app. reflexivity. Qed.
Lemma points_snoc a c : points (a ++ [c]) = match c with PEnd => [] | PAdd p => points a ++ [p] | _ => points a end.
Proof. unfold points. rewrite fold_left_app. reflexivity. Qed.
Lemma offs_snoc a c : offs (a ++ [c]) = match c with PBegin _ | PEnd => 0 | PAdd p => match ptypeOf p with None => S (offs a) | Some _ => 0 end | PComponent _ _ _ => offs a end.
Proof. unfold offs. rewrite fold_left_app. reflexivity. Qed.
Definition pointOk (s : gpen) (p : gpoint) : Prop :=
  (forall x y, pc p = Some (x, y) -> isNum x /\ isNum y) /\
  (segType p = Some sMove -> gTypes s = []) /\
  (segType p = Some sLine -> gTypes s <> [] -> last (gTypes s) [] <> u "offcurve") /\
  (segType p = Some sCurve -> gOff s <= 2) /\
  (psmooth p = true -> segType p <> None).
Lemma penPoint_spec s p s' : penPoint R ro 2 true s p = Ok s' <->
  exists n ids', gContour s = Some n /\ pointOk s p /\ idsSeq [pid p] (gIds s) ids' /\
    s' = mkGpen (appendAt n (pointElem R ro p) (gOutline s)) (Some n) (nextOff (gOff s) p) (gTypes s ++ [segName p]) ids'.
Proof.
  unfold penPoint. fold (segType p). cbn [negb orb andb]. rewrite andb_true_r.
  assert (XY : (exists xy, match pc p with None => Ok [] | Some (x, y) => check (is_number x && is_number y) else GlifLibError; Ok [(u "x", repr x); (u "y", repr y)] end = Ok xy) <->
    (forall x y, pc p = Some (x, y) -> isNum x /\ isNum y)).
  { destruct (pc p) as [[x y]|]; [|split; [intros _ x y E; discriminate E|intros _; eexists; reflexivity]]. split.
    - intros (xy & E) x' y' Q. injection Q as <- <-. destruct (is_number x) eqn:X, (is_number y) eqn:Y; try discriminate E. rewrite <- !number_iff. auto.
    - intro H. destruct (H x y eq_refl) as [X Y]. apply number_iff in X, Y. rewrite X, Y. eexists. reflexivity. }
  assert (XV : forall xy, match pc p with None => Ok [] | Some (x, y) => check (is_number x && is_number y) else GlifLibError; Ok [(u "x", repr x); (u "y", repr y)] end = Ok xy ->
    xy = match pc p with Some (x, y) => [(u "x", repr x); (u "y", repr y)] | None => [] end).
  { intros xy E. destruct (pc p) as [[x y]|]; [destruct (is_number x && is_number y); [|discriminate E]|]; apply Ok_inj in E; auto. }
  unfold pointOk. destruct (match pc p with None => _ | _ => _ end) as [xy|e] eqn:Exy.
  2:{ cbn [bind]. split; [intro H; discriminate H|]. intros (n & ids' & _ & (H & _) & _). apply XY in H as (xy & H). discriminate H. }
  assert (HX := proj1 XY (ex_intro _ xy eq_refl)). specialize (XV xy eq_refl). subst xy. clear XY Exy. cbn [bind].
  set (nf := match gTypes s with [] => false | _ => true end).
  assert (NF : nf = true <-> gTypes s <> []) by (unfold nf; destruct (gTypes s); split; intro H; congruence).
  destruct (eqb_spec (segType p) (Some sMove)) as [M|M], nf eqn:En; cbn [negb andb orb].
  { split; [intro H; discriminate H|]. intros (n & ids' & _ & (_ & H & _) & _). exfalso. apply (proj1 NF eq_refl). auto. }
  all: destruct (eqb_spec (segType p) (Some sLine)) as [L|L]; cbn [negb andb orb].
  all: try (destruct (eqb_spec (last (gTypes s) []) (u "offcurve")) as [O|O]; cbn [negb andb orb]).
  all: try (split; [intro H; discriminate H|]; intros (n & ids' & _ & (_ & _ & H & _) & _); exfalso; apply (H L); [apply NF; reflexivity|exact O]).
  all: destruct (eqb_spec (segType p) (Some sCurve)) as [C|C]; cbn [negb andb orb].
  all: try (destruct (Nat.ltb_spec 2 (gOff s)) as [G|G]; cbn [negb]; [split; [intro H; discriminate H|]; intros (n & ids' & _ & (_ & _ & _ & H & _) & _); exfalso; specialize (H C); lia|]).
  all: replace (match segType p with Some t => ([(u "type", t)], t) | None => ([], u "offcurve") end) with (match segType p with Some t => [(u "type", t)] | None => [] end, segName p) by (unfold segName; destruct (segType p); reflexivity).
  all: rewrite segName_off.
  all: replace (if match segType p with Some _ => false | None => true end then S (gOff s) else 0) with (nextOff (gOff s) p) by (unfold nextOff; destruct (segType p); reflexivity).
  all: destruct (psmooth p && match segType p with Some _ => false | None => true end) eqn:Sm; cbn [negb].
  all: try (split; [intro H; discriminate H|]; intros (n & ids' & _ & (_ & _ & _ & _ & H) & _); exfalso; apply andb_prop in Sm as [S1 S2]; specialize (H S1); destruct (segType p); congruence).
  all: assert (SM : psmooth p = true -> segType p <> None) by (intros S1 S2; rewrite S1, S2 in Sm; discriminate Sm).
  all: assert (NE : nf = false -> gTypes s = []) by (unfold nf; destruct (gTypes s); [reflexivity|discriminate]); try specialize (NE En).
  all: fold (pid p); split.
  all: try (intros H; apply bind_Ok in H as ([idt ids'] & Hi & H); apply penIdentifier_iff in Hi as [-> Sq]; destruct (gContour s) as [n|] eqn:Gc; [|discriminate H]; apply Ok_inj in H; subst s'; exists n, ids';
    split; [reflexivity|]; split; [|split; [exact Sq|reflexivity]]; split; [exact HX|]; split; [first [intro; contradiction|intro; exact NE]|]; split; [first [intro; contradiction|intros _ N; exact O|intros _ N; contradiction]|]; split; [first [intro; contradiction|intro; exact G]|exact SM]).
  all: intros (n & ids' & Gc & _ & Sq & ->); assert (X : penIdentifier 2 true (pid p) (gIds s) = Ok (idAttr (pid p), ids')) by (apply penIdentifier_iff; auto); rewrite X, Gc; reflexivity.
Qed.
Lemma pointElem_serial p : (forall x y, pc p = Some (x, y) -> isNum x /\ isNum y) -> goodId (pid p) -> (serial (pointElem R ro p) <-> someXml (segType p) /\ someXml (pname p)).
Proof.
  intros X G. unfold pointElem. rewrite serial_sub by (apply xml_lit; reflexivity). rewrite !Forall_app.
  assert (A : Forall (fun kv : str * str => xml (fst kv) /\ xml (snd kv)) (match pc p with Some (x, y) => [(u "x", repr x); (u "y", repr y)] | None => [] end)).
  { destruct (pc p) as [[x y]|]; [|constructor]. destruct (X x y eq_refl) as [HX HY]. constructor; [split; [apply xml_lit; reflexivity|apply repr_xml; exact HX]|]. constructor; [split; [apply xml_lit; reflexivity|apply repr_xml; exact HY]|constructor]. }
  assert (B : Forall (fun kv : str * str => xml (fst kv) /\ xml (snd kv)) (if psmooth p then [(u "smooth", u "yes")] else [])).
  { destruct (psmooth p); [|constructor]. constructor; [split; apply xml_lit; reflexivity|constructor]. }
  assert (O : forall k (o : option str), xml k -> (Forall (fun kv : str * str => xml (fst kv) /\ xml (snd kv)) (match o with Some t => [(k, t)] | None => [] end) <-> someXml o)).
  { intros k o K. unfold someXml. destruct o as [t|]; split; intro H.
    - intros s0 E. injection E as <-. inversion H as [|? ? [_ H1] _]; subst. exact H1.
    - constructor; [|constructor]. split; [exact K|apply H; reflexivity].
    - intros s0 E. discriminate E.
    - constructor. }
  rewrite (O (u "type")), (O (u "name")) by (apply xml_lit; reflexivity). pose proof (idAttr_xml _ G). tauto.
Qed.
Lemma componentElem_serial b tr i : Forall isNum (firstn 6 tr) -> goodId i -> (serial (componentElem R ro b tr i) <-> xml b).
Proof.
  intros F G. unfold componentElem. rewrite serial_sub by (apply xml_lit; reflexivity). rewrite Forall_cons_iff, Forall_app. cbn [fst snd].
  assert (A : forall info l, Forall (fun kd => xml (fst kd)) info -> Forall isNum (firstn (length info) l) -> Forall (fun kv : str * str => xml (fst kv) /\ xml (snd kv)) (transAttrs R ro info l)).
  { induction info as [|[k d] info IH]; intros l K N; [constructor|]. destruct l as [|v l]; [constructor|]. cbn [length firstn transAttrs] in *. inversion K; inversion N; subst. apply Forall_app. split; [|apply IH; assumption].
    destruct (py_eq v (PInt d)); constructor; [|constructor]. split; [assumption|apply repr_xml; assumption]. }
  assert (K : Forall (fun kd : str * Z => xml (fst kd)) transformationInfo) by (unfold transformationInfo; repeat (apply Forall_cons; [apply xml_lit; reflexivity|]); apply Forall_nil).
  specialize (A transformationInfo tr K F). pose proof (idAttr_xml _ G). assert (xml (u "base")) by (apply xml_lit; reflexivity). tauto.
Qed.
Lemma serial_mid (o1 o2 : list elem) e : Forall serial (o1 ++ e :: o2) <-> serial e /\ Forall serial (o1 ++ o2).
Proof. rewrite !Forall_app, Forall_cons_iff. tauto. Qed.
Lemma types_hd l : hd_error (map segName l) = Some sMove <-> exists p r, l = p :: r /\ ptypeOf p = Some (u "move").
Proof.
  destruct l as [|p r]; cbn [map hd_error]; [split; [discriminate|intros (p & r & E & _); discriminate E]|]. unfold segName. rewrite <- ptypeOf_seg. split.
  - intro E. injection E as E. exists p, r. split; [reflexivity|]. destruct (ptypeOf p) as [t|]; [rewrite E; reflexivity|discriminate E].
  - intros (p' & r' & E & H). injection E as <- <-. rewrite H. reflexivity.
Qed.
Lemma types_last l : (last (map segName l) [] = u "offcurve") <-> exists m q, l = m ++ [q] /\ ptypeOf q = None.
Proof.
  destruct l as [|p r] using rev_ind; [split; [discriminate|intros (m & q & E & _); destruct m; discriminate E]|]. rewrite map_app. cbn [map]. rewrite last_last. rewrite <- eqb_eq, segName_off, <- ptypeOf_seg. split.
  - intro H. exists r, p. split; [reflexivity|]. destruct (ptypeOf p); [discriminate H|reflexivity].
  - intros (m & q & E & H). apply app_inj_tail in E as [_ <-]. rewrite H. reflexivity.
Qed.
Lemma pointOk_iff pre s p : inv pre s -> (pointOk s p <->
    (forall x y, pc p = Some (x, y) -> isNum x /\ isNum y) /\
    (ptypeOf p = Some (u "move") -> points pre = []) /\
    (ptypeOf p = Some (u "line") -> forall l q, points pre = l ++ [q] -> ptypeOf q <> None) /\
    (ptypeOf p = Some (u "curve") -> offs pre <= 2) /\
    (psmooth p = true -> ptypeOf p <> None)).
Proof.
  intros [_ IT IO _]. unfold pointOk. rewrite IT, IO, ptypeOf_seg. change (u "move") with sMove. change (u "line") with sLine. change (u "curve") with sCurve.
  assert (E : map segName (points pre) = [] <-> points pre = []) by (destruct (points pre); split; intro Q; try reflexivity; discriminate Q).
  assert (L : (map segName (points pre) <> [] -> last (map segName (points pre)) [] <> u "offcurve") <-> (forall l q, points pre = l ++ [q] -> ptypeOf q <> None)).
  { split.
    - intros H l q Q N. apply H; [rewrite Q, map_app; intro X; apply app_eq_nil in X as [_ X]; discriminate X|]. apply types_last. eauto.
    - intros H _ N. apply types_last in N as (m & q & Q & N). exact (H m q Q N). }
  rewrite L, E. tauto.
Qed.
Lemma step_inv pre s c s' : inv pre s -> penStep R ro 2 true s c = Ok s' -> inv (pre ++ [c]) s' /\ fresh [callId c] (gIds s) (gIds s').
Proof.
  intros IV E. destruct IV as [IC IT IO ID]. destruct c as [i|p| |b tr i]; cbn [penStep callId] in *.
  - unfold penBegin in E. apply bind_Ok in E as ([at' ids'] & Ei & E). apply penIdentifier_iff in Ei as [-> Sq]. apply Ok_inj in E. subst s'. cbn [gIds]. apply idsSeq_one in Sq as [Fr _]. split; [|exact Fr].
    constructor; cbn [gContour gOutline gTypes gOff]; rewrite ?opened_snoc, ?points_snoc, ?offs_snoc.
    + split; [reflexivity|]. exists (gOutline s), (u "contour"), (idAttr (theId i)), [], []. auto.
    + exact IT.
    + reflexivity.
    + apply Forall_app. split; [exact ID|]. constructor; [apply tidy_sub|constructor].
  - apply penPoint_spec in E as (n & ids' & Gc & _ & Sq & ->). cbn [gIds]. apply idsSeq_one in Sq as [Fr _]. split; [|exact Fr]. rewrite Gc in IC. destruct IC as [OP (o1 & tag & at' & ch & o2 & EO & EN)].
    constructor; cbn [gContour gOutline gTypes gOff]; rewrite ?opened_snoc, ?points_snoc, ?offs_snoc.
    + split; [exact OP|]. rewrite EO, EN, appendAt_mid. eauto 8.
    + rewrite IT, map_app. reflexivity.
    + unfold nextOff. rewrite IO, ptypeOf_seg. reflexivity.
    + rewrite EO, EN, appendAt_mid. rewrite EO in ID. rewrite Forall_app, Forall_cons_iff in ID. destruct ID as (D1 & D2 & D3). rewrite Forall_app, Forall_cons_iff. split; [exact D1|]. split; [|exact D3].
      inversion D2; subst. constructor; [right; reflexivity|]. apply Forall_app. split; [assumption|]. constructor; [apply tidy_sub|constructor].
  - unfold penEnd in E. destruct (negb _); [|discriminate E]. destruct (gContour s) as [n|]; [|discriminate E]. apply Ok_inj in E. subst s'. cbn [gIds]. split; [|reflexivity]. destruct IC as [OP (o1 & tag & at' & ch & o2 & EO & EN)].
    constructor; cbn [gContour gOutline gTypes gOff]; rewrite ?opened_snoc, ?points_snoc, ?offs_snoc; try reflexivity.
    rewrite EO, EN, textAt_mid. rewrite EO in ID. rewrite Forall_app, Forall_cons_iff in ID. destruct ID as (D1 & D2 & D3). rewrite Forall_app, Forall_cons_iff. split; [exact D1|]. split; [|exact D3].
    unfold contourText. destruct ch; [|exact D2]. constructor; [left; reflexivity|constructor].
  - unfold penComponent in E. apply bind_Ok in E as (a & Ea & E). apply bind_Ok in E as ([at' ids'] & Ei & E). apply penIdentifier_iff in Ei as [-> Sq]. apply Ok_inj in E. subst s'. cbn [gIds]. apply idsSeq_one in Sq as [Fr _]. split; [|exact Fr].
    constructor; cbn [gContour gOutline gTypes gOff]; rewrite ?opened_snoc, ?points_snoc, ?offs_snoc; try assumption.
    + destruct (gContour s) as [n|]; [|exact IC]. destruct IC as [OP (o1 & tag & at' & ch & o2 & EO & EN)]. split; [exact OP|]. rewrite EO. exists o1, tag, at', ch. eexists. split; [rewrite <- app_assoc; reflexivity|exact EN].
    + apply Forall_app. split; [exact ID|]. constructor; [apply tidy_sub|constructor].
Qed.
Lemma step_iff pre s c : inv pre s ->
  ((exists s', penStep R ro 2 true s c = Ok s' /\ Forall serial (gOutline s')) <-> Forall serial (gOutline s) /\ allowed pre c /\ exists ids', fresh [callId c] (gIds s) ids').
Proof.
  intro IV. pose proof IV as [IC IT IO ID]. destruct c as [i|p| |b tr i]; cbn [penStep callId allowed].
  - unfold penBegin. split.
    + intros (s' & E & F). apply bind_Ok in E as ([at' ids'] & Ei & E). apply penIdentifier_iff in Ei as [-> Sq]. apply Ok_inj in E. subst s'. cbn [gOutline] in F. apply Forall_app in F as [F _]. apply idsSeq_one in Sq as [Fr G]. eauto.
    + intros (F & G & ids' & Fr). assert (Sq : idsSeq [theId i] (gIds s) ids') by (apply idsSeq_one; auto).
      assert (X : penIdentifier 2 true (theId i) (gIds s) = Ok (idAttr (theId i), ids')) by (apply penIdentifier_iff; auto). rewrite X. cbn [bind]. eexists. split; [reflexivity|]. cbn [gOutline]. apply Forall_app. split; [exact F|].
      constructor; [|constructor]. apply serial_sub; [apply xml_lit; reflexivity|]. apply idAttr_xml. exact G.
  - split.
    + intros (s' & E & F). apply penPoint_spec in E as (n & ids' & Gc & PO & Sq & ->). cbn [gOutline] in F. apply idsSeq_one in Sq as [Fr G]. rewrite Gc in IC. destruct IC as [OP (o1 & tag & at' & ch & o2 & EO & EN)].
      rewrite EO, EN, appendAt_mid, serial_mid in F. destruct F as [F1 F2]. inversion F1 as [? ? ? ? ? A1 A2 A3 A4 A5]; subst. apply Forall_app in A5 as [A5 A6]. inversion A6 as [|? ? A7 _]; subst.
      apply (pointOk_iff pre) in PO; [|exact IV]. destruct PO as (P1 & P2 & P3 & P4 & P5). apply pointElem_serial in A7; [|exact P1|exact G]. rewrite <- ptypeOf_seg in A7. destruct A7 as [B1 B2].
      split; [|split; [|eauto]]; [rewrite EO; apply serial_mid; split; [constructor; assumption|exact F2]|]. repeat (split; [assumption|]). exact G.
    + intros (F & (OP & P1 & P2 & P3 & P4 & P5 & B1 & B2 & G) & ids' & Fr). destruct (gContour s) as [n|] eqn:Gc; [|congruence]. destruct IC as [_ (o1 & tag & at' & ch & o2 & EO & EN)].
      assert (PO : pointOk s p) by (apply (pointOk_iff pre); auto). assert (Sq : idsSeq [pid p] (gIds s) ids') by (apply idsSeq_one; auto).
      eexists. split; [apply penPoint_spec; exists n, ids'; split; [exact Gc|]; split; [exact PO|]; split; [exact Sq|reflexivity]|]. cbn [gOutline]. rewrite EO, EN, appendAt_mid. rewrite EO in F. apply serial_mid in F as [F1 F2]. apply serial_mid. split; [|exact F2].
      inversion F1; subst. constructor; try assumption. apply Forall_app. split; [assumption|]. constructor; [|constructor]. apply pointElem_serial; [exact P1|exact G|]. rewrite <- ptypeOf_seg. auto.
  - unfold penEnd. cbn [andb]. rewrite IT.
    assert (CK : negb (eqb (hd_error (map segName (points pre))) (Some sMove) && eqb (last (map segName (points pre)) []) (u "offcurve")) = true <->
      (forall p l m q, points pre = p :: l -> points pre = m ++ [q] -> ptypeOf p = Some (u "move") -> ptypeOf q <> None)).
    { rewrite negb_true_iff. rewrite <- not_true_iff_false, andb_true_iff, !eqb_eq, types_hd, types_last. split.
      - intros H p l m q E1 E2 Mv Nq. apply H. split; eauto.
      - intros H [(p & l & E1 & Mv) (m & q & E2 & Nq)]. exact (H p l m q E1 E2 Mv Nq). }
    rewrite <- CK. assert (ST : serialText (Some (XS (u (String (Ascii.ascii_of_nat 10) "  "))))) by (apply xml_lit; reflexivity). split.
    + intros (s' & E & F). destruct (negb _); [|discriminate E]. destruct (gContour s) as [n|]; [|discriminate E]. destruct IC as [OP (o1 & tag & at' & ch & o2 & EO & EN)]. apply Ok_inj in E. subst s'. cbn [gOutline] in F. split; [|split; [auto|exists (gIds s); reflexivity]].
      rewrite EO, EN, textAt_mid, serial_mid in F. destruct F as [F1 F2]. rewrite EO. apply serial_mid. split; [|exact F2]. unfold contourText in F1. destruct ch; [|exact F1]. inversion F1; subst. constructor; first [assumption|exact I].
    + intros (F & (OP & C) & _). rewrite C. destruct (gContour s) as [n|]; [|congruence]. destruct IC as [_ (o1 & tag & at' & ch & o2 & EO & EN)]. eexists. split; [reflexivity|]. cbn [gOutline]. rewrite EO, EN, textAt_mid. rewrite EO in F. apply serial_mid in F as [F1 F2]. apply serial_mid. split; [|exact F2].
      unfold contourText. destruct ch; [|exact F1]. inversion F1; subst. constructor; assumption.
  - unfold penComponent.
    assert (CA : forall a, componentAttrs R ro true transformationInfo tr = Ok a <-> Forall isNum (firstn 6 tr) /\ a = transAttrs R ro transformationInfo tr).
    { intro a. rewrite componentAttrs_iff. change (length transformationInfo) with 6. assert (Q : Forall (fun v => is_number v = true) (firstn 6 tr) <-> Forall isNum (firstn 6 tr)) by (split; intro F; (eapply Forall_impl; [|exact F]; intros v; apply number_iff)). rewrite Q. reflexivity. }
    split.
    + intros (s' & E & F). apply bind_Ok in E as (a & Ea & E). apply CA in Ea as [N ->]. apply bind_Ok in E as ([at' ids'] & Ei & E). apply penIdentifier_iff in Ei as [-> Sq]. apply Ok_inj in E. subst s'. cbn [gOutline] in F. apply Forall_app in F as [F F1]. apply idsSeq_one in Sq as [Fr G].
      split; [exact F|]. split; [|eauto]. split; [|auto]. inversion F1 as [|? ? F2 _]; subst. apply (componentElem_serial b tr (theId i)) in F2; assumption.
    + intros (F & (X & N & G) & ids' & Fr). assert (Sq : idsSeq [theId i] (gIds s) ids') by (apply idsSeq_one; auto). assert (Ea := proj2 (CA _) (conj N eq_refl)). rewrite Ea. cbn [bind].
      assert (Y : penIdentifier 2 true (theId i) (gIds s) = Ok (idAttr (theId i), ids')) by (apply penIdentifier_iff; auto). rewrite Y. cbn [bind]. eexists. split; [reflexivity|]. cbn [gOutline]. apply Forall_app. split; [exact F|].
      constructor; [|constructor]. apply (componentElem_serial b tr (theId i)); assumption.
Qed.
Lemma run_inv cs : forall pre s s', inv pre s -> foldM (penStep R ro 2 true) s cs = Ok s' -> inv (pre ++ cs) s' /\ fresh (map callId cs) (gIds s) (gIds s').
Proof.
  induction cs as [|c cs IH]; intros pre s s' IV E; cbn [foldM] in E.
  - apply Ok_inj in E. subst s'. rewrite app_nil_r. split; [exact IV|reflexivity].
  - apply bind_Ok in E as (s1 & E1 & E). destruct (step_inv _ _ _ _ IV E1) as [IV1 F1]. destruct (IH _ _ _ IV1 E) as [IV2 F2]. rewrite <- app_assoc in IV2. split; [exact IV2|]. change (map callId (c :: cs)) with ([callId c] ++ map callId cs). apply fresh_app. eauto.
Qed.
Lemma fresh_fun l : forall ids a b, fresh l ids a -> fresh l ids b -> a = b.
Proof. induction l as [|[i|] l IH]; cbn [fresh]; intros ids a b A B; [congruence| |eauto]. destruct A as [_ A], B as [_ B]. eauto. Qed.
Lemma run_iff cs : forall pre s, inv pre s ->
  ((exists s', foldM (penStep R ro 2 true) s cs = Ok s' /\ Forall serial (gOutline s')) <->
   Forall serial (gOutline s) /\ (forall a c b, cs = a ++ c :: b -> allowed (pre ++ a) c) /\ exists ids', fresh (map callId cs) (gIds s) ids').
Proof.
  induction cs as [|c cs IH]; intros pre s IV; cbn [foldM].
  - split.
    + intros (s' & E & F). apply Ok_inj in E. subst s'. split; [exact F|]. split; [intros [|? ?] c b Q; discriminate Q|exists (gIds s); reflexivity].
    + intros (F & _). eauto.
  - split.
    + intros (s' & E & F). apply bind_Ok in E as (s1 & E1 & E). destruct (step_inv _ _ _ _ IV E1) as [IV1 F1].
      destruct (proj1 (IH _ _ IV1) (ex_intro _ s' (conj E F))) as (G1 & G2 & ids' & G3). destruct (proj1 (step_iff _ _ c IV) (ex_intro _ s1 (conj E1 G1))) as (H1 & H2 & _).
      split; [exact H1|]. split.
      * intros a d b Q. destruct a as [|x a]; cbn [app] in Q; injection Q as -> ->; [rewrite app_nil_r; exact H2|]. specialize (G2 a d b eq_refl). rewrite <- app_assoc in G2. exact G2.
      * exists ids'. change (map callId (c :: cs)) with ([callId c] ++ map callId cs). apply fresh_app. eauto.
    + intros (F & L & ids' & Fr). change (map callId (c :: cs)) with ([callId c] ++ map callId cs) in Fr. apply fresh_app in Fr as (ids1 & Fr1 & Fr2).
      assert (Al : allowed pre c) by (specialize (L [] c cs eq_refl); rewrite app_nil_r in L; exact L).
      destruct (proj2 (step_iff _ _ c IV)) as (s1 & E1 & S1); [eauto|]. destruct (step_inv _ _ _ _ IV E1) as [IV1 F1]. rewrite E1. cbn [bind]. apply (proj2 (IH _ _ IV1)). split; [exact S1|]. split.
      * intros a d b Q. rewrite <- app_assoc. apply (L (c :: a) d b). rewrite Q. reflexivity.
      * exists ids'. rewrite (fresh_fun _ _ _ _ F1 Fr1). exact Fr2.
Qed.
Lemma inv_new ids : inv [] (newPen ids).
Proof. constructor; try reflexivity. constructor. Qed.
Lemma pen_iff cs ids : (exists s', foldM (penStep R ro 2 true) (newPen ids) cs = Ok s' /\ Forall serial (gOutline s')) <-> legal cs /\ exists ids', fresh (map callId cs) ids ids'.
Proof.
  rewrite (run_iff cs [] (newPen ids) (inv_new ids)). cbn [newPen gOutline gIds app]. unfold legal. split; [tauto|]. intros [H1 H2]. split; [constructor|]. auto.
Qed.

(** ** The whole glyph *)
Definition outlineElem (s : gpen) : elem :=
  Elem (u "outline") [] (match gOutline s with [] => Some (XS (u (String (Ascii.ascii_of_nat 10) "  "))) | _ => None end) (gOutline s) None.
Lemma outlineElem_serial s : serial (outlineElem s) <-> Forall serial (gOutline s).
Proof.
  unfold outlineElem. split; intro H; [inversion H; assumption|]. constructor; try assumption; try exact I; [apply xml_lit; reflexivity|apply Forall_nil|]. destruct (gOutline s); [apply xml_lit; reflexivity|exact I].
Qed.
Lemma outlineElem_tidy s : Forall tidy (gOutline s) -> tidy (outlineElem s).
Proof. intro H. constructor; [|exact H]. destruct (gOutline s); [left; reflexivity|right; reflexivity]. Qed.
Lemma one_serial e : Forall serial [e] <-> serial e.
Proof. split; intro H; [inversion H; assumption|repeat constructor; assumption]. Qed.
Lemma outline2_iff g draw ids : (exists l, writeOutline T R ro g draw 2 true ids = Ok l /\ Forall serial l) <->
  let cs := match draw with Some cs => cs | None => [] end in legal cs /\ exists ids', fresh (map callId cs) ids ids'.
Proof.
  unfold writeOutline. destruct draw as [cs|]; cbv zeta.
  - rewrite <- pen_iff. split.
    + intros (l & E & F). apply bind_Ok in E as (s1 & E1 & E). cbn [Z.eqb Pos.eqb andb bind] in E. apply Ok_inj in E. subst l. exists s1. split; [exact E1|]. apply outlineElem_serial, one_serial. exact F.
    + intros (s1 & E1 & F). rewrite E1. cbn [Z.eqb Pos.eqb andb bind]. eexists. split; [reflexivity|]. apply one_serial, (outlineElem_serial s1). exact F.
  - split; [intros _|intros _; exists []; split; [reflexivity|constructor]]. split; [intros [|? ?] c b Q; discriminate Q|exists ids; reflexivity].
Qed.
Lemma outline_tidy g draw v ids l : writeOutline T R ro g draw v true ids = Ok l -> Forall tidy l.
Proof.
  unfold writeOutline. destruct draw as [cs|]; intro E; [|apply Ok_inj in E; subst l; constructor]. apply bind_Ok in E as (s1 & E1 & E). apply bind_Ok in E as (s2 & E2 & E). apply Ok_inj in E. subst l.
  destruct (run_inv _ _ _ _ (inv_new ids) E1) as [IV1 _]. constructor; [|constructor]. apply (outlineElem_tidy s2). destruct (_ && _); [|apply Ok_inj in E2; subst s2; apply IV1].
  apply bind_Ok in E2 as (cs2 & _ & E2). destruct (run_inv _ _ _ _ IV1 E2) as [IV2 _]. apply IV2.
Qed.
Lemma anchorCalls_good a : goodAnchor T a -> anchorCalls a = Ok (anchorPath a).
Proof.
  intros (K & X & Y & N & _). unfold anchorCalls, anchorPath, at_ in *. pose proof (onlyKeys_dict _ _ K) as D. rewrite D, (num_has _ _ D X), (num_has _ _ D Y). cbn [negb].
  destruct N as [N|(s & N)]; rewrite N; reflexivity.
Qed.
Lemma anchorsFormat1_iff v cs : keysOnce v -> (anchorsFormat1 T v true = Ok cs <-> exists al, v = PList al /\ Forall (goodAnchor T) al /\ NoDup (identifiersOf al) /\ cs = flat_map anchorPath al).
Proof.
  intro KO. unfold anchorsFormat1. cbn [negb orb].
  assert (M : forall al, Forall (goodAnchor T) al -> mapM anchorCalls al = Ok (map anchorPath al)).
  { intros al F. induction F as [|a al Ha F IH]; [reflexivity|]. cbn [mapM map]. rewrite (anchorCalls_good a Ha). cbn [bind]. rewrite IH. reflexivity. }
  pose proof (proj2 (C95_lists T v [] KO)) as V. split.
  - intro E. destruct (fst (anchorsValidator T v [])); [|discriminate E]. destruct (proj1 V eq_refl) as (al & -> & F & ND & _). cbn [iterate bind] in E. rewrite (M al F) in E. cbn [bind] in E. apply Ok_inj in E. subst cs. exists al. rewrite <- flat_map_concat_map. auto.
  - intros (al & -> & F & ND & ->). assert (X : fst (anchorsValidator T (PList al) []) = true) by (apply V; exists al; repeat split; auto). rewrite X. cbn [iterate bind]. rewrite (M al F). cbn [bind]. rewrite <- flat_map_concat_map. reflexivity.
Qed.
Lemma anchorPath_ids al : somes (map callId (flat_map anchorPath al)) = [].
Proof. induction al as [|a al IH]; [reflexivity|]. cbn [flat_map]. rewrite map_app. cbn [map anchorPath callId theId pkw app]. exact IH. Qed.
Lemma legal_name cs al a : legal (cs ++ flat_map anchorPath al) -> In a al -> xmlAt ["name"] a.
Proof.
  intros L J k s [<-|[]] E. apply in_split in J as (l1 & l2 & ->). rewrite flat_map_app in L. cbn [flat_map anchorPath app] in L.

  rewrite E in L. set (p := mkPoint _ _ _ _ _) in L.
  assert (Al : allowed (cs ++ flat_map anchorPath l1 ++ [PBegin None]) (PAdd p)) by (apply (L _ _ (PEnd :: flat_map anchorPath l2)); rewrite <- !app_assoc; reflexivity).
  destruct Al as (_ & _ & _ & _ & _ & _ & _ & N & _). apply N. reflexivity.
Qed.
Lemma outline1_iff g draw : keysOnce (attr g "anchors") -> ((exists l, writeOutline T R ro g draw 1 true [] = Ok l /\ Forall serial l) <->
  forall cs, draw = Some cs -> NoDup (penIds cs) /\
    exists al, anchorsOf T ["name"] (attr g "anchors") al /\ NoDup (identifiersOf al) /\ legal (cs ++ flat_map anchorPath al)).
Proof.
  intro KO. unfold writeOutline. destruct draw as [cs|]; [|split; [intros _ cs Q; discriminate Q|intros _; exists []; split; [reflexivity|constructor]]].
  rewrite at_getattr. cbn [Z.eqb Pos.eqb andb].
  assert (Q : (forall cs0, Some cs = Some cs0 -> NoDup (penIds cs0) /\ exists al, anchorsOf T ["name"] (attr g "anchors") al /\ NoDup (identifiersOf al) /\ legal (cs0 ++ flat_map anchorPath al)) <->
    NoDup (penIds cs) /\ exists al, anchorsOf T ["name"] (attr g "anchors") al /\ NoDup (identifiersOf al) /\ legal (cs ++ flat_map anchorPath al)).
  { split; [intro H; apply H; reflexivity|]. intros H cs0 E. injection E as <-. exact H. }
  rewrite Q. clear Q.
  assert (FR : forall al, (exists ids', fresh (map callId (cs ++ flat_map anchorPath al)) [] ids') <-> NoDup (penIds cs)).
  { intro al. rewrite penIds_somes. assert (S : somes (map callId (cs ++ flat_map anchorPath al)) = somes (map callId cs)) by (rewrite map_app; unfold somes; rewrite flat_map_app; fold (somes (map callId (flat_map anchorPath al))); rewrite anchorPath_ids, app_nil_r; reflexivity).
    split; [intros (ids' & F); apply fresh_iff in F; rewrite S in F; apply F|]. intro N. eexists. apply fresh_iff. split; [reflexivity|]. rewrite S. split; [exact N|intros i _ []]. }
  unfold anchorsOf, falsy. destruct (truthy (attr g "anchors")) eqn:Tr.
  - split.
    + intros (l & E & F). apply bind_Ok in E as (s1 & E1 & E). apply bind_Ok in E as (s2 & E2 & E). apply bind_Ok in E2 as (ca & Ea & E2). apply Ok_inj in E. subst l. apply one_serial in F. apply (outlineElem_serial s2) in F.
      apply anchorsFormat1_iff in Ea as (al & EA & G & ND & ->); [|exact KO].
      assert (X : foldM (penStep R ro 2 true) (newPen []) (cs ++ flat_map anchorPath al) = Ok s2) by (rewrite foldM_app', E1; exact E2).
      destruct (proj1 (pen_iff _ _) (ex_intro _ s2 (conj X F))) as [L Fr]. split; [apply (FR al); exact Fr|]. exists al. split; [|auto]. right. split; [reflexivity|]. split; [exact EA|]. rewrite Forall_forall in *. intros a J. split; [auto|]. eapply legal_name; eassumption.
    + intros (N & al & [[H _]|(_ & EA & G)] & ND & L); [discriminate H|]. apply (FR al) in N. destruct (proj2 (pen_iff _ _) (conj L N)) as (s2 & X & F). rewrite foldM_app' in X. apply bind_Ok in X as (s1 & E1 & E2). rewrite E1. cbn [bind].
      assert (Ea : anchorsFormat1 T (attr g "anchors") true = Ok (flat_map anchorPath al)) by (apply anchorsFormat1_iff; [exact KO|]; exists al; split; [exact EA|]; split; [eapply Forall_impl; [|exact G]; intros a H; apply H|auto]).
      rewrite Ea. cbn [bind]. rewrite E2. cbn [bind]. eexists. split; [reflexivity|]. apply one_serial, (outlineElem_serial s2). exact F.
  - split.
    + intros (l & E & F). apply bind_Ok in E as (s1 & E1 & E). cbn [bind] in E. apply Ok_inj in E. subst l. apply one_serial in F. apply (outlineElem_serial s1) in F. destruct (proj1 (pen_iff _ _) (ex_intro _ s1 (conj E1 F))) as [L Fr].
      split; [apply (FR []); cbn [flat_map]; rewrite app_nil_r; exact Fr|]. exists []. split; [left; auto|]. split; [constructor|]. cbn [flat_map]. rewrite app_nil_r. exact L.
    + intros (N & al & [[_ ->]|[H _]] & ND & L); [|discriminate H]. apply (FR []) in N. cbn [flat_map] in *. rewrite app_nil_r in *. destruct (proj2 (pen_iff _ _) (conj L N)) as (s1 & E1 & F). rewrite E1. cbn [bind]. eexists. split; [reflexivity|]. apply one_serial, (outlineElem_serial s1). exact F.
Qed.
Lemma name_iff name : (exists n, (check (is_str name) else GlifLibError; check (negb (py_eq name (PStr []))) else GlifLibError; attrStr name) = Ok n /\ xml n) <-> exists s, name = PStr s /\ s <> [] /\ xml s.
Proof.
  destruct name; cbn [is_str]; try (split; [intros (n1 & E & _); discriminate E|intros (s1 & E & _); discriminate E]). cbn [py_eq attrStr]. split.
  - intros (n & E & X). destruct (eqb_spec s []) as [N|N]; [discriminate E|]. cbn [negb] in E. apply Ok_inj in E. subst n. eauto.
  - intros (s0 & E & N & X). injection E as <-. apply eqb_neq in N. rewrite N. cbn [negb]. eauto.
Qed.
Lemma glyph_serial n v l : (v = 1 \/ v = 2)%Z -> (serial (Elem (u "glyph") [(u "name", n); (u "format", str_of_Z v)] None l None) <-> xml n /\ Forall serial l).
Proof.
  intro V. split; intro H.
  - inversion H as [? ? ? ? ? A B C D E]; subst. inversion B as [|? ? [_ B1] _]; subst. auto.
  - destruct H as [H1 H2]. constructor; try assumption; try exact I; [apply xml_lit; reflexivity|]. constructor; [split; [apply xml_lit; reflexivity|exact H1]|]. constructor; [|constructor]. split; [apply xml_lit; reflexivity|]. apply xml_ascii, strZ_ascii.
Qed.
Lemma bytes_iff name g draw v : (forall root, writeGlyphTree T R ro name g draw v true = Ok root -> tidy root) ->
  ((exists b, writeGlyphBytes T R ro name g draw v true = Ok b) <-> exists root, writeGlyphTree T R ro name g draw v true = Ok root /\ serial root).
Proof.
  intro TD. unfold writeGlyphBytes. split.
  - intros (b & E). apply bind_Ok in E as (root & Er & E). apply bind_Ok in E as (t & Et & _). exists root. split; [exact Er|]. apply (tostring_iff T root (TD root Er)). eauto.
  - intros (root & Er & S). apply (tostring_iff T root (TD root Er)) in S as (t & Et). rewrite Er. cbn [bind]. rewrite Et. cbn [bind]. eauto.
Qed.
Lemma tree_tidy name g draw v root : (v = 1 \/ v = 2)%Z -> writeGlyphTree T R ro name g draw v true = Ok root -> tidy root.
Proof.
  intros V E. unfold writeGlyphTree in E. destruct (negb true || is_str name); [|discriminate E]. destruct (negb (true && _)); [|discriminate E].
  apply bind_Ok in E as (n & _ & E). apply bind_Ok in E as (l1 & E1 & E). apply bind_Ok in E as (l2 & E2 & E). apply bind_Ok in E as (l3 & E3 & E). apply bind_Ok in E as (l4 & E4 & E).
  apply bind_Ok in E as ([l5 i5] & E5 & E). apply bind_Ok in E as ([l6 i6] & E6 & E). apply bind_Ok in E as (l7 & E7 & E). apply bind_Ok in E as (l8 & E8 & E). apply Ok_inj in E. subst root.
  constructor; [right; reflexivity|]. rewrite !Forall_app.
  split; [eapply advance_tidy; exact E1|]. split; [eapply unicodes_tidy; exact E2|]. split; [eapply note_tidy; exact E3|].
  split; [|split; [|split; [|split; [eapply outline_tidy; exact E7|eapply lib_tidy; exact E8]]]].
  - destruct V as [-> | ->]; [unfold writeImage in E4; cbn [Z.leb Z.compare Pos.compare Pos.compare_cont andb negb] in E4; apply Ok_inj in E4; subst l4; constructor|eapply image_tidy; exact E4].
  - unfold writeGuidelines in E5. destruct (negb (_ && _)); [apply Ok_inj in E5; injection E5 as <- _; constructor|]. destruct (negb true || _); [|discriminate E5]. apply bind_Ok in E5 as (l & _ & E5). revert E5. clear. generalize (@nil str) as ids. revert l5 i5.
    induction l as [|x l IH]; intros l5 i5 ids E; cbn [writeLoop] in E; [apply Ok_inj in E; injection E as <- _; constructor|]. apply bind_Ok in E as ([e i1] & Ee & E). apply bind_Ok in E as ([t i2] & Et & E). apply Ok_inj in E. injection E as <- _.
    constructor; [|eapply IH; exact Et]. apply writeGuideline_inv in Ee as (-> & _). apply tidy_sub.
  - unfold writeAnchors in E6. destruct (negb (_ && _)); [apply Ok_inj in E6; injection E6 as <- _; constructor|]. destruct (negb true || fst (anchorsValidator T _ [])) eqn:AV; [|discriminate E6]. apply bind_Ok in E6 as (l & El & E6).
    cbn [negb orb] in AV. destruct (anchorsValidator T (getattr g (u "anchors")) []) as [b ids] eqn:AE. cbn [fst] in AV. subst b. apply C44_anchors_unique in AE as (al & Q & F & _). rewrite Q in El. cbn [iterate] in El. apply Ok_inj in El. subst l. revert E6 F. clear. revert l6 i6 i5.
    induction al as [|x l IH]; intros l6 i6 ids E F; cbn [writeLoop] in E; [apply Ok_inj in E; injection E as <- _; constructor|]. apply bind_Ok in E as ([e i1] & Ee & E). apply bind_Ok in E as ([t i2] & Et & E). apply Ok_inj in E. injection E as <- _.
    inversion F as [|? ? F1 F2]; subst. constructor; [|eapply IH; eassumption]. apply (writeAnchor_inv T) in Ee as (-> & _); [apply tidy_sub|exact F1].
Qed.
Lemma tree2_iff name g draw : (forall k v, get k g = Some v -> keysOnce v) ->
  ((exists root, writeGlyphTree T R ro name g draw 2 true = Ok root /\ serial root) <-> goodGlif2 T name g draw).
Proof.
  intro KO. assert (KA : forall k, keysOnce (attr g k)) by (intro k; unfold PropGlif.attr; destruct (get (u k) g) eqn:E; [eapply KO; exact E|exact I]).
  unfold goodGlif2. split.
  - intros (root & E & S). unfold writeGlyphTree in E. cbn [negb orb andb] in E.
    destruct (is_str name) eqn:E01; [|discriminate E]. destruct (negb (py_eq name (PStr []))) eqn:E02; [|discriminate E].
    apply bind_Ok in E as (n & E0 & E). apply bind_Ok in E as (l1 & E1 & E). apply bind_Ok in E as (l2 & E2 & E). apply bind_Ok in E as (l3 & E3 & E). apply bind_Ok in E as (l4 & E4 & E).
    apply bind_Ok in E as ([l5 i5] & E5 & E). apply bind_Ok in E as ([l6 i6] & E6 & E). apply bind_Ok in E as (l7 & E7 & E). apply bind_Ok in E as (l8 & E8 & E). apply Ok_inj in E. subst root.
    apply glyph_serial in S as [Sn S]; [|right; reflexivity]. rewrite !Forall_app in S. destruct S as (S1 & S2 & S3 & S4 & S5 & S6 & S7 & S8).
    destruct (proj1 (advance_iff g) (ex_intro _ l1 (conj E1 S1))) as [W H].
    destruct (proj1 (guidelines_iff g l5 i5 (KA "guidelines")) (conj E5 S5)) as (gs & G1 & _ & G2). destruct (proj1 (anchors_iff g l6 i5 i6 (KA "anchors")) (conj E6 S6)) as (al & A1 & _ & A2).
    destruct (proj1 (outline2_iff g draw i6) (ex_intro _ l7 (conj E7 S7))) as (LG & ids & P2).
    split; [constructor|split].
    + apply name_iff. exists n. rewrite E01, E02. auto.
    + exact W.
    + exact H.
    + apply unicodes_iff. eauto.
    + apply note_iff. eauto.
    + apply lib_iff. eauto.
    + apply image_iff; [apply KA|eauto].
    + exists gs, al. split; [exact G1|]. split; [exact A1|]. split; [exact LG|]. rewrite !ids_somes, penIds_somes. unfold somes. rewrite <- !flat_map_app.
      assert (F : fresh (map gid gs ++ map gid al ++ map callId (match draw with Some cs => cs | None => [] end)) [] ids) by (apply fresh_app; exists i5; split; [exact G2|]; apply fresh_app; exists i6; auto).
      apply fresh_iff in F. apply F.
  - intros ([NM W H UN NT LB] & IM & gs & al & G1 & A1 & LG & ND).
    rewrite !ids_somes, penIds_somes in ND. unfold somes in ND. rewrite <- !flat_map_app in ND.
    assert (F : exists ids, fresh (map gid gs ++ map gid al ++ map callId (match draw with Some cs => cs | None => [] end)) [] ids) by (eexists; apply fresh_iff; split; [reflexivity|]; split; [exact ND|intros i _ []]).
    destruct F as (ids & F). apply fresh_app in F as (i5 & F5 & F). apply fresh_app in F as (i6 & F6 & F).
    apply name_iff in NM as (n & E0 & Sn). apply lib_iff in LB as (l8 & E8 & S8). apply note_iff in NT as (l3 & E3 & S3). apply unicodes_iff in UN as (l2 & E2 & S2).
    destruct (proj2 (advance_iff g) (conj W H)) as (l1 & E1 & S1). apply image_iff in IM as (l4 & E4 & S4); [|apply KA].
    destruct (proj2 (guidelines_iff g _ i5 (KA "guidelines")) (ex_intro _ gs (conj G1 (conj eq_refl F5)))) as [E5 S5].
    destruct (proj2 (anchors_iff g _ i5 i6 (KA "anchors")) (ex_intro _ al (conj A1 (conj eq_refl F6)))) as [E6 S6].
    destruct (proj2 (outline2_iff g draw i6) (conj LG (ex_intro _ ids F))) as (l7 & E7 & S7).
    destruct (is_str name) eqn:E01; [|discriminate E0]. destruct (negb (py_eq name (PStr []))) eqn:E02; [|discriminate E0].
    unfold writeGlyphTree. cbn [negb orb andb]. rewrite E01, E02, E0. cbn [bind]. rewrite E1. cbn [bind]. rewrite E2. cbn [bind]. rewrite E3. cbn [bind]. rewrite E4. cbn [bind]. rewrite E5. cbn [bind]. rewrite E6. cbn [bind]. rewrite E7. cbn [bind]. rewrite E8. cbn [bind].
    eexists. split; [reflexivity|]. apply glyph_serial; [right; reflexivity|]. split; [exact Sn|]. rewrite !Forall_app. repeat (split; [assumption|]). assumption.
Qed.
Lemma tree1_iff name g draw : (forall k v, get k g = Some v -> keysOnce v) ->
  ((exists root, writeGlyphTree T R ro name g draw 1 true = Ok root /\ serial root) <-> goodGlif1 T name g draw).
Proof.
  intro KO. assert (KA : forall k, keysOnce (attr g k)) by (intro k; unfold PropGlif.attr; destruct (get (u k) g) eqn:E; [eapply KO; exact E|exact I]).
  unfold goodGlif1. rewrite <- (outline1_iff g draw (KA "anchors")). unfold writeGlyphTree.
  change (writeImage T R ro g 1 true) with (Ok (@nil elem)). change (writeGuidelines T R ro g 1 true []) with (Ok (@nil elem, @nil str)).
  cbn [negb orb andb bind]. split.
  - intros (root & E & S). destruct (is_str name) eqn:E01; [|discriminate E]. destruct (negb (py_eq name (PStr []))) eqn:E02; [|discriminate E].
    apply bind_Ok in E as (n & E0 & E). apply bind_Ok in E as (l1 & E1 & E). apply bind_Ok in E as (l2 & E2 & E). apply bind_Ok in E as (l3 & E3 & E). cbn [bind] in E. change (writeAnchors T R ro g 1 true []) with (Ok (@nil elem, @nil str)) in E. cbn [bind] in E.
    apply bind_Ok in E as (l7 & E7 & E). apply bind_Ok in E as (l8 & E8 & E). apply Ok_inj in E. subst root.
    apply glyph_serial in S as [Sn S]; [|left; reflexivity]. cbn [app] in S. rewrite !Forall_app in S. destruct S as (S1 & S2 & S3 & S7 & S8).
    destruct (proj1 (advance_iff g) (ex_intro _ l1 (conj E1 S1))) as [W H].
    split; [constructor|eauto].
    + apply name_iff. exists n. rewrite E01, E02. auto.
    + exact W.
    + exact H.
    + apply unicodes_iff. eauto.
    + apply note_iff. eauto.
    + apply lib_iff. eauto.
  - intros ([NM W H UN NT LB] & l7 & E7 & S7).
    apply name_iff in NM as (n & E0 & Sn). apply lib_iff in LB as (l8 & E8 & S8). apply note_iff in NT as (l3 & E3 & S3). apply unicodes_iff in UN as (l2 & E2 & S2).
    destruct (proj2 (advance_iff g) (conj W H)) as (l1 & E1 & S1).
    destruct (is_str name) eqn:E01; [|discriminate E0]. destruct (negb (py_eq name (PStr []))) eqn:E02; [|discriminate E0].
    rewrite E0. cbn [bind]. rewrite E1. cbn [bind]. rewrite E2. cbn [bind]. rewrite E3. cbn [bind]. change (writeAnchors T R ro g 1 true []) with (Ok (@nil elem, @nil str)). cbn [bind]. rewrite E7. cbn [bind]. rewrite E8. cbn [bind].
    eexists. split; [reflexivity|]. apply glyph_serial; [left; reflexivity|]. split; [exact Sn|]. cbn [app]. rewrite !Forall_app. repeat (split; [assumption|]). assumption.
Qed.
End Writer.

(** * C103 *)
Theorem C103_writer : forall T R ro name g draw,
  (forall f, xml (R f)) -> (forall k v, get k g = Some v -> keysOnce v) ->
  ((exists b, writeGlyphBytes T R ro name g draw 2 true = Ok b) <-> goodGlif2 T name g draw) /\
  ((exists b, writeGlyphBytes T R ro name g draw 1 true = Ok b) <-> goodGlif1 T name g draw).
Proof.
  intros T R ro name g draw RX KO. split.
  - rewrite bytes_iff by (intros root; apply (tree_tidy T R ro); right; reflexivity). apply tree2_iff; assumption.
  - rewrite bytes_iff by (intros root; apply (tree_tidy T R ro); left; reflexivity). apply tree1_iff; assumption.
Qed.
Print Assumptions C103_writer.
Definition toyX (f : spec_float) : str := u "0.5".
Definition str1 (s : string) : pyval := PStr (u s).
Definition dict1 (l : list (string * pyval)) : pyval := PDict (map (fun '(k, x) => (str1 k, x)) l).
Definition glyph1 (l : list (string * pyval)) : list (str * pyval) := map (fun '(k, x) => (u k, x)) l.
Definition pt (x y : Z) (t : option string) (i : option string) : gcall := PAdd (mkPoint (Some (PInt x, PInt y)) (option_map u t) false None (option_map (fun s => Some (u s)) i)).
Definition caseAttrs : list (string * pyval) :=
  [("width", PInt 500); ("unicodes", PList [PInt 65]); ("note", str1 "a note"); ("image", dict1 [("fileName", str1 "a.png"); ("xScale", PInt 2)]);
   ("guidelines", PList [dict1 [("x", PInt 1); ("identifier", str1 "g")]]); ("anchors", PList [dict1 [("x", PInt 1); ("y", PInt 2); ("name", str1 "top")]]);
   ("lib", dict1 [("k", PList [PBytes [0%N]; PTuple []])])].
Definition caseDraw : list gcall :=
  [PBegin (Some (Some (u "c"))); pt 0 0 (Some "line") None; pt 1 1 None None; pt 2 1 None (Some "p"); pt 3 0 (Some "curve") None; PEnd; PComponent (u "b") [PInt 2] None].
Definition taken (v : Z) (name : pyval) (l : list (string * pyval)) (draw : list gcall) : bool :=
  match writeGlyphBytes asciiText toyX (fun _ => []) name (glyph1 l) (Some draw) v true with Ok _ => true | Err _ => false end.
Definition refused2 : list (list (string * pyval) * list gcall) :=
  [([("width", str1 "5")], []); ([("unicodes", PList [str1 "A"])], []); ([("note", PInt 5)], []); ([("note", PStr [65; 1; 65]%N)], []);
   ([("image", dict1 [("xScale", PInt 2)])], []); ([("image", dict1 [("fileName", PStr [2%N])])], []); ([("guidelines", dict1 [("x", PInt 1)])], []);
   ([("anchors", PList [dict1 [("x", PInt 1)]])], []); ([("lib", PList [PInt 1])], []); ([("lib", dict1 [("k", PNone)])], []); ([("lib", dict1 [("k", PInt (2 ^ 64))])], []);
   ([("lib", PDict [(PInt 1, PInt 1)])], []); ([("guidelines", PList [dict1 [("x", PInt 1); ("identifier", str1 "g")]])], [PBegin (Some (Some (u "g"))); PEnd]);
   ([], [pt 0 0 None None]); ([], [PEnd]); ([], [PBegin None; pt 0 0 (Some "line") None; pt 0 0 (Some "move") None; PEnd]);
   ([], [PBegin None; pt 0 0 None None; pt 0 0 (Some "line") None; PEnd]); ([], [PBegin None; pt 0 0 None None; pt 0 0 None None; pt 0 0 None None; pt 0 0 (Some "curve") None; PEnd]);
   ([], [PBegin None; pt 0 0 (Some "move") None; pt 0 0 None None; PEnd]); ([], [PComponent (u "b") [str1 "2"] None]); ([], [PComponent [3%N] [] None]);
   ([], [PBegin (Some (Some []))]); ([], [PBegin (Some (Some (u "i"))); PEnd; PBegin (Some (Some (u "i"))); PEnd])].
Example C103_case :
  (forall f, xml (toyX f)) /\ goodGlif2 asciiText (str1 "A") (glyph1 caseAttrs) (Some caseDraw) /\ goodGlif1 asciiText (str1 "A") (glyph1 caseAttrs) (Some caseDraw) /\
  forallb (fun '(l, d) => negb (taken 2 (str1 "A") l d)) refused2 = true /\
  taken 2 (str1 "") [] [] = false /\ taken 2 (PInt 5) [] [] = false /\ taken 2 (str1 "A") [] [] = true /\
  taken 1 (str1 "A") [("guidelines", PInt 5); ("image", PInt 5)] [] = true /\ taken 1 (str1 "A") [("anchors", PInt 5)] [] = false /\
  taken 2 (str1 "A") [("unicodes", PBytes [65%N]); ("width", PBool true)] [PBegin None; pt 0 0 (Some "spline") None] = true.
Proof.
  assert (X : forall f, xml (toyX f)) by (intro f; apply xml_lit; reflexivity).
  assert (K : forall k v, get k (glyph1 caseAttrs) = Some v -> keysOnce v).
  { intros k v H. apply get_In in H. repeat destruct H as [H|H]; try contradiction; injection H as _ <-; repeat constructor; intro Q; repeat destruct Q as [Q|Q]; (discriminate Q || contradiction). }
  split; [exact X|]. split; [apply (proj1 (C103_writer asciiText toyX (fun _ => []) _ _ _ X K)); eexists; vm_compute; reflexivity|].
  split; [apply (proj2 (C103_writer asciiText toyX (fun _ => []) _ _ _ X K)); eexists; vm_compute; reflexivity|]. vm_compute. repeat split.
Qed.
