(** A written GLIF 1 is read back: the elements common to both formats as in GLIF
    2, the outline without identifiers, and the anchors as contours of one point. *)
From Coq Require Import String NArith ZArith Bool Lia List Permutation.
From Coq.Floats Require Import SpecFloat.
From Verif Require Import Base PyVal PyText FloatRepr Xml FS Ufo UfoProofs PropUfoFiles Plist PlistProofs PropPlist Etree EtreeProofs PropEtree PlistFiles Validators PointPen PropPointPen Glif GlifProofs GlifOutline GlifElements GlifRead GlifFiles GlifNotes GlifAccepted.
Import ListNotations.
Local Open Scope string_scope.
Local Open Scope list_scope.

Local Notation isNum := GlifProofs.isNum.
Local Notation walk := Plist.walk.
Local Notation draws := Glif.draws.

Section Format1.
Variable T : pytext.
Hypothesis LT : pytext_laws T.
Variable R : spec_float -> str.
Hypothesis LR : repr_laws T R.
Variable ro : pyval -> str.

(** ** Contours and components *)
Lemma somes_nil l : somes l = [] <-> Forall (fun o => o = None) l.
Proof.
  induction l as [|[i|] l IH]; cbn; [split; [constructor|reflexivity]| |].
  - split; [discriminate|]. intro H. inversion H; discriminate.
  - unfold somes in IH. rewrite IH. split; [intro H; constructor; [reflexivity|exact H]|intro H; inversion H; assumption].
Qed.
Lemma massagePoint_12 idx p : numeric p -> pid p = None -> massagePoint T true pointAttributes1 idx (pointElem R ro p) = massagePoint T true pointAttributes2 idx (pointElem R ro p).
Proof.
  intros (x & y & E & _) I. assert (A : forall al, al = pointAttributes1 \/ al = pointAttributes2 -> forallb (fun a => mem a al) (map fst (eattrib (pointElem R ro p))) = true).
  { unfold pointElem. rewrite E, I. cbn [sub eattrib]. intros al [->| ->]; destruct (segType p), (psmooth p), (pname p); reflexivity. }
  unfold massagePoint. rewrite !A by auto. reflexivity.
Qed.
Lemma massageLoop_12 pts : Forall numeric pts -> Forall (fun o => o = None) (map pid pts) -> forall idx,
  massageLoop T true pointAttributes1 idx (map (pointElem R ro) pts) = massageLoop T true pointAttributes2 idx (map (pointElem R ro) pts).
Proof.
  induction 1 as [|p pts N F IH]; intros I idx; [reflexivity|]. cbn [map] in I. inversion I; subst. cbn [map massageLoop]. rewrite massagePoint_12, IH by assumption. reflexivity.
Qed.
Lemma leniency_id pts : rContour pts -> leniency (map massaged pts) = map massaged pts.
Proof.
  intros (_ & _ & O). destruct (leniency_spec (map massaged pts)) as [E|(offs & E & F & G & NE & H)]; [exact E|].
  rewrite mtype_massaged in H. destruct (map segType pts) as [|t ts] eqn:Et; [discriminate H|]. injection H as ->. cbn [offsOk] in O. destruct O as (O & _ & _). specialize (O (or_introl eq_refl)).
  rewrite <- Et, <- (mtype_massaged pts), E, map_app in O.
  assert (X : forall a b n, endCount n (a ++ b) = endCount (endCount n a) b) by (induction a as [|[?|] a IH]; intros b n; cbn [app endCount]; auto).
  rewrite X, G, endCount_none in O by exact F. destruct offs; [|discriminate O]. rewrite app_nil_r in E. symmetry. exact E.
Qed.
Lemma contour1_written pts : Forall numeric pts -> Forall (fun o => o = None) (map pid pts) -> rContour pts ->
  exists cs, contour1 T true (contourElem R ro None pts) = Ok cs /\ map asPassed cs = gcallsOf (GContour None (map passed pts)).
Proof.
  intros N I C. exists (PBegin None :: map pointCall1 (map massaged pts) ++ [PEnd]). split.
  - unfold contour1. destruct (contourElem_attr R ro None pts) as (_ & _ & E & _). rewrite E. cbn [contourElem idAttr eattrib length Nat.eqb negb orb].
    assert (M : match map (pointElem R ro) pts with [] => Ok [] | _ => massage T true pointAttributes1 true (contourElem R ro None pts) end = Ok (map massaged pts)).
    { destruct pts as [|p pts]; [reflexivity|]. cbn [map]. apply massage_iff. exists (map massaged (p :: pts)). rewrite leniency_id by exact C. split; [|split; [reflexivity|]].
      - rewrite E. rewrite massageLoop_12 by assumption. apply (massageLoop_written T LT R LR ro (p :: pts) 0 _ N). split; [|reflexivity]. split; apply C.
      - change (massaged p :: map massaged pts) with (map massaged (p :: pts)). rewrite mtype_massaged. apply C. }
    rewrite M. reflexivity.
  - cbn [map asPassed callsOf]. f_equal. rewrite map_app. f_equal. rewrite !map_map. apply map_ext_in. intros p J. rewrite Forall_forall in N, I. destruct (N p J) as (x & y & E & _). assert (Pi : pid p = None) by (apply I; apply in_map; exact J).
    unfold massaged, pointCall1, passed. cbn [asPassed mx my mtype msmooth mname pc ptype psmooth pname pkw theId]. rewrite E, Pi. reflexivity.
Qed.
Lemma component1_written b tr : Forall isNum (firstn 6 tr) -> component1 T true (componentElem R ro b tr None) = Ok [PComponent b (dflts transformationInfo tr) None].
Proof.
  intro N. unfold component1. rewrite (component_readTransformation T LT R LR ro b tr None N). cbn [bind]. change (echildren (componentElem R ro b tr None)) with (@nil elem).
  assert (A : forallb (fun a => mem a componentAttributes1) (map fst (eattrib (componentElem R ro b tr None))) = true).
  { apply forallb_forall. intros k I. unfold componentElem in I. cbn [sub eattrib map fst idAttr] in I. rewrite app_nil_r in I. destruct I as [<-|I]; [reflexivity|].
    apply transAttrs_keys in I. revert k I. apply Forall_forall. repeat constructor; vm_compute; reflexivity. }
  rewrite A. assert (B : eget (u "base") (componentElem R ro b tr None) = Some b) by reflexivity. unfold has. fold (eget (u "base") (componentElem R ro b tr None)). rewrite B. reflexivity.
Qed.
(** ** Anchors in the outline *)
(** a contour the reader takes for an anchor *)
Definition anchorLike (i : gitem) : bool :=
  match i with
  | Contour _ _ _ _ [p] => eqb (segType p) (Some sMove) && match pname p with Some _ => true | None => false end
  | _ => false
  end.
Definition anchorDict (x y : pyval) (name : str) : pyval := PDict [(PStr (u "x"), x); (PStr (u "y"), y); (PStr (u "name"), PStr name)].
Definition anchorOf (i : gitem) : pyval :=
  match i with
  | Contour _ _ _ _ [p] => match pc p, pname p with Some (x, y), Some n => anchorDict x y n | _, _ => PNone end
  | _ => PNone
  end.
Lemma buildAnchor1_written p : numeric p -> buildAnchor1 T true (pointElem R ro p) =
  Ok (if anchorLike (GContour None [p]) then Some (anchorOf (GContour None [p])) else None).
Proof.
  intro N. destruct (pointElem_get R ro p N) as (G1 & G2 & G3 & _ & G5 & _). destruct N as (x & y & E & Nx & Ny). unfold buildAnchor1, has. fold (eget (u "x") (pointElem R ro p)) (eget (u "y") (pointElem R ro p)). rewrite G1, G2, G3, G5, E.
  cbn [anchorLike anchorOf]. rewrite E. destruct (eqb (segType p) (Some sMove)); [|reflexivity]. cbn [negb andb orb]. destruct (pname p) as [n|]; [|reflexivity]. rewrite !(number_repr T LT R LR ro) by assumption. reflexivity.
Qed.
Lemma buildAnchor1_shape v e f : shape e f -> buildAnchor1 T v f = buildAnchor1 T v e.
Proof. intro S. unfold buildAnchor1, eget. destruct (shape_parts _ _ S) as (_ & -> & _). reflexivity. Qed.
Lemma contour1_shape v e f : shape e f -> contour1 T v f = contour1 T v e.
Proof. intro S. unfold contour1. rewrite (massage_shape T _ _ _ _ _ S). destruct (shape_parts _ _ S) as (A & B & C). rewrite B. destruct C; reflexivity. Qed.
Lemma component1_shape v e f : shape e f -> component1 T v f = component1 T v e.
Proof.
  intro S. unfold component1. rewrite (readTransformation_shape T _ _ S). destruct (shape_parts _ _ S) as (A & B & C). apply Forall2_len in C. unfold eget. rewrite B, C. reflexivity.
Qed.
Lemma outlineLoop1_shape pen v l m : Forall2 shape l m -> outlineLoop1 T pen v m = outlineLoop1 T pen v l.
Proof.
  induction 1 as [|e f l m H _ IH]; cbn [outlineLoop1]; [reflexivity|]. rewrite (contour1_shape v _ _ H), (component1_shape v _ _ H), IH. destruct (shape_parts _ _ H) as (-> & _ & C).
  destruct C as [|p q ps qs P [|? ? ? ? ? Q]]; try reflexivity. rewrite (buildAnchor1_shape v _ _ P). destruct (shape_parts _ _ P) as (-> & _). reflexivity.
Qed.
Lemma outlineLoop1_written g : Forall numericItem g -> Forall rItem' g -> somes (flat_map itemIds g) = [] ->
  exists cs, outlineLoop1 T true true (map (itemElem R ro) g) = Ok (map anchorOf (filter anchorLike g), cs) /\
    map asPassed cs = gdrawing (map passedItem (filter (fun i => negb (anchorLike i)) g)).
Proof.
  induction g as [|i g IH]; intros N Ri Id; [exists []; split; reflexivity|]. inversion N as [|? ? N1 N2]; subst. inversion Ri as [|? ? R1 R2]; subst.
  cbn [flat_map] in Id. rewrite somes_app in Id. apply app_eq_nil in Id as [I1 I2]. apply somes_nil in I1. destruct (IH N2 R2 I2) as (cs & E & D). cbn [map outlineLoop1].
  destruct i as [ident pts|b tr ident]; cbn [itemElem itemIds] in *; inversion I1; subst ident.
  - change (etag (contourElem R ro None pts)) with (u "contour"). rewrite eqb_refl. change (echildren (contourElem R ro None pts)) with (map (pointElem R ro) pts).
    assert (B : match map (pointElem R ro) pts with [p] => if eqb (etag p) (u "point") then buildAnchor1 T true p else Ok None | _ => Ok None end
      = Ok (if anchorLike (GContour None pts) then Some (anchorOf (GContour None pts)) else None)).
    { destruct pts as [|p [|q pts]]; try reflexivity. cbn [map]. change (etag (pointElem R ro p)) with (u "point"). rewrite eqb_refl. cbv iota. apply buildAnchor1_written. inversion N1; assumption. }
    rewrite B. cbn [bind]. destruct (anchorLike (GContour None pts)) eqn:A.
    + rewrite E. cbn [bind filter]. rewrite A. cbn [negb map]. exists cs. split; [reflexivity|exact D].
    + destruct (contour1_written pts N1 ltac:(assumption) R1) as (c & Ec & Dc). rewrite Ec. cbn [bind]. rewrite E. cbn [bind filter]. rewrite A. cbn [negb map]. exists (c ++ cs). split; [reflexivity|]. rewrite map_app, D, Dc. reflexivity.
  - change (etag (componentElem R ro b tr None)) with (u "component"). change (eqb (u "component") (u "contour")) with false. rewrite eqb_refl. cbv iota. rewrite (component1_written b tr N1). cbn [bind]. rewrite E. cbn [bind filter anchorLike negb map].
    eexists. split; [reflexivity|]. rewrite map_app, D. reflexivity.
Qed.
(** the contour drawn for an anchor *)
Definition anchorItem (a : pyval) : gitem :=
  GContour None [mkPoint (Some (vget (u "x") a, vget (u "y") a)) (Some sMove) false (match vget (u "name") a with PStr s => Some s | _ => None end) (Some None)].
Lemma anchorCalls_item a cs : anchorValidator T a = true -> anchorCalls a = Ok cs -> map asPassed cs = gcallsOf (anchorItem a).
Proof.
  intros V H. unfold anchorCalls in H. destruct (is_dict a); [|discriminate H]. destruct (vhas (u "x") a); [|discriminate H]. destruct (vhas (u "y") a); [|discriminate H]. apply bind_Ok in H as (n & Hn & H). apply Ok_inj in H. subst cs. unfold anchorItem.
  destruct (vget (u "name") a); cbn in Hn; inversion Hn; reflexivity.
Qed.
Lemma anchorItem_ok a : anchorValidator T a = true -> numsOk anchorNums a -> numericItem (anchorItem a) /\ rItem' (anchorItem a).
Proof.
  intros V N. destruct (anchor_xy T a V) as [X Y]. assert (Nx : isNum (vget (u "x") a)) by (destruct (N (u "x") (or_introl eq_refl)) as [E|E]; [rewrite E in X; discriminate X|exact E]).
  assert (Ny : isNum (vget (u "y") a)) by (destruct (N (u "y") (or_intror (or_introl eq_refl))) as [E|E]; [rewrite E in Y; discriminate Y|exact E]).
  assert (Q : numeric (mkPoint (Some (vget (u "x") a, vget (u "y") a)) (Some sMove) false (match vget (u "name") a with PStr s => Some s | _ => None end) (Some (@None str)))) by (eexists; eexists; split; [reflexivity|split; assumption]).
  split; [constructor; [exact Q|constructor]|]. split; [|split].
  - constructor; [|constructor]. split; [exact Q|]. split; [right; left; reflexivity|discriminate].
  - cbn [map movesOk]. split; [discriminate|constructor].
  - match goal with |- context [map segType ?l] => change (map segType l) with [Some sMove] end. cbn [endCount offsOk]. split; [reflexivity|]. split; [lia|exact I].
Qed.

(** ** The elements *)
Notation E1 := (element1 T true true true).
Notation E2 := (element2 T true true true).
Definition commonTags : list str := [u "advance"; u "unicode"; u "note"; u "lib"].
Lemma foldM_12 l : Forall (fun e => mem (etag e) commonTags = true) l -> forall s, foldM E1 s l = foldM E2 s l.
Proof.
  induction 1 as [|e l M F IH]; intro s; [reflexivity|]. cbn [foldM].
  assert (E : E1 s e = E2 s e).
  { apply mem_In in M. destruct e as [tag ? ? ? ?]. cbn [etag] in M. unfold element1, element2, commonElement. cbn [etag]. destruct M as [<-|[<-|[<-|[<-|[]]]]]; reflexivity. }
  rewrite E. destruct (E2 s e); cbn [bind]; [apply IH|reflexivity].
Qed.
Lemma like_tags l m tags : Forall2 (like T) l m -> Forall (fun e => mem (etag e) tags = true) l -> Forall (fun e => mem (etag e) tags = true) m.
Proof. induction 1 as [|e f l m L F IH]; intro H; inversion H; subst; constructor; [|auto]. apply like_parts in L as (_ & E & _). rewrite E. assumption. Qed.
Definition drawn1 (g : list (str * pyval)) (draw : option (list gitem)) : list gitem :=
  match draw with Some items => items ++ map anchorItem (itemsOf' (getattr g (u "anchors"))) | None => [] end.
Record readable1 (g : list (str * pyval)) (draw : option (list gitem)) : Prop := {
  rd1_width : numOrNone (getattr g (u "width"));
  rd1_height : numOrNone (getattr g (u "height"));
  rd1_anchors : Forall (numsOk anchorNums) (itemsOf' (getattr g (u "anchors")));
  rd1_draw : match draw with Some items => Forall numericItem items /\ Forall rItem' items /\ somes (flat_map itemIds items) = [] | None => True end;
  rd1_lib : truthy (getattr g (u "lib")) = true -> plistable (getattr g (u "lib")) }.
Record readBack1 (name : str) (g : list (str * pyval)) (draw : option (list gitem)) (r : greading) : Prop := {
  r1_calls : map asPassed (rcalls r) = gdrawing (map passedItem (filter (fun i => negb (anchorLike i)) (drawn1 g draw)));
  r1_name : get (u "name") (rattrs r) = Some (PStr name);
  r1_width : get (u "width") (rattrs r) = if zeroLike (getattr g (u "width")) && zeroLike (getattr g (u "height")) then None else Some (advOf (getattr g (u "width")));
  r1_height : get (u "height") (rattrs r) = if zeroLike (getattr g (u "width")) && zeroLike (getattr g (u "height")) then None else Some (advOf (getattr g (u "height")));
  r1_unicodes : get (u "unicodes") (rattrs r) = nonEmpty (map PInt (nub [] (codesOf (getattr g (u "unicodes")))));
  r1_note : get (u "note") (rattrs r) = match getattr g (u "note") with PStr (c :: s) => Some (PStr (noteLines T (10%N :: strip (isSpace T) (c :: s) ++ [10%N]))) | _ => None end;
  r1_image : get (u "image") (rattrs r) = None;
  r1_guidelines : get (u "guidelines") (rattrs r) = None;
  r1_anchors : get (u "anchors") (rattrs r) = nonEmpty (map anchorOf (filter anchorLike (drawn1 g draw)));
  r1_lib : match get (u "lib") (rattrs r) with Some w => truthy (getattr g (u "lib")) = true /\ psame (getattr g (u "lib")) w | None => truthy (getattr g (u "lib")) = false end }.
(** what the pen makes of the outline and the anchors *)
Lemma outline1_written g items ids l : writeOutline T R ro g (Some (gdrawing items)) 1 true ids = Ok l -> Forall (numsOk anchorNums) (itemsOf' (getattr g (u "anchors"))) ->
  Forall numericItem items -> Forall rItem' items -> somes (flat_map itemIds items) = [] ->
  let all := drawn1 g (Some items) in
  l = [Elem (u "outline") [] (match map (itemElem R ro) all with [] => Some (XS (u (String (Ascii.ascii_of_nat 10) "  "))) | _ => None end) (map (itemElem R ro) all) None] /\
  Forall numericItem all /\ Forall rItem' all /\ somes (flat_map itemIds all) = [] /\ Forall (fun a => anchorValidator T a = true) (itemsOf' (getattr g (u "anchors"))).
Proof.
  intros W Na N Ri Id all. unfold writeOutline in W. apply bind_Ok in W as (s & W1 & W). cbn [Z.eqb Pos.eqb andb] in W.
  apply (pen_drawing R ro items) in W1 as (ids1 & Wi & Is & ->). cbn [gOutline app] in W.
  set (an := itemsOf' (getattr g (u "anchors"))) in *.
  assert (X : Forall (fun a => anchorValidator T a = true) an /\ exists s2, l = [Elem (u "outline") [] (match gOutline s2 with [] => Some (XS (u (String (Ascii.ascii_of_nat 10) "  "))) | _ => None end) (gOutline s2) None] /\ gOutline s2 = map (itemElem R ro) all).
  { destruct (truthy (getattr g (u "anchors"))) eqn:Tr.
    - apply bind_Ok in W as (s2 & W2 & W). apply bind_Ok in W2 as (cs & Wc & W2). unfold anchorsFormat1 in Wc. cbn [negb orb] in Wc. destruct (anchorsValidator T (getattr g (u "anchors")) []) as [ok x] eqn:V. cbn [fst] in Wc. destruct ok; [|discriminate Wc].
      apply uniq_fst in V as (al & E & V). subst an. unfold all, drawn1. rewrite E in *. cbn [iterate itemsOf' bind] in *. apply bind_Ok in Wc as (ll & Wl & Wc). apply Ok_inj in Wc. subst cs. split; [exact V|]. exists s2. split; [apply Ok_inj in W; symmetry; exact W|].
      assert (C : map asPassed (concat ll) = gdrawing (map anchorItem al)).
      { apply mapM_Forall2 in Wl. clear - V Wl. induction Wl as [|a c al ll A F IH]; [reflexivity|]. inversion V; subst. cbn [concat map drawing flat_map]. rewrite map_app, (anchorCalls_item a c) by assumption. f_equal. apply IH. assumption. }
      rewrite <- (asPassed_fold R ro true), C in W2. apply (pen_drawing R ro) in W2 as (ids2 & _ & _ & ->). cbn [gOutline]. rewrite map_app. reflexivity.
    - assert (E : an = []) by (subst an; destruct (getattr g (u "anchors")) as [| | | | | | |[|]| | |]; reflexivity || discriminate Tr). cbn [bind] in W. rewrite E. split; [constructor|]. exists (mkGpen (map (itemElem R ro) items) None 0 [] ids1).
      apply Ok_inj in W. subst l. cbn [gOutline]. unfold all, drawn1. fold an. rewrite E. cbn [map]. rewrite app_nil_r. split; reflexivity. }
  destruct X as (V & s2 & -> & E). rewrite E. split; [reflexivity|].
  assert (A : Forall numericItem (map anchorItem an) /\ Forall rItem' (map anchorItem an)).
  { rewrite !Forall_map. split; apply Forall_forall; intros a I; rewrite Forall_forall in V, Na; apply anchorItem_ok; auto. }
  split; [apply Forall_app; split; [exact N|apply A]|]. split; [apply Forall_app; split; [exact Ri|apply A]|]. split; [|exact V].
  unfold all, drawn1. fold an. rewrite flat_map_app, somes_app, Id. cbn [app]. clear. induction an as [|a an IH]; [reflexivity|exact IH].
Qed.
Lemma anchorOf_valid i : numericItem i -> anchorLike i = true -> anchorValidator T (anchorOf i) = true /\ gid (anchorOf i) = None.
Proof.
  destruct i as [ident [|p [|q pts]]|]; cbn [anchorLike]; try discriminate. intros N A. cbn [numericItem] in N. inversion N as [|? ? (x & y & E & Nx & Ny) _]; subst. cbn [anchorOf]. rewrite E. destruct (pname p) as [n|]; [|rewrite andb_false_r in A; discriminate A].
  destruct Nx as [(z & ->)|(f & -> & _)], Ny as [(z' & ->)|(f' & -> & _)]; split; reflexivity.
Qed.
Lemma outline_read1 g draw l l' a im li no us gs an ids r : writeOutline T R ro g (option_map gdrawing draw) 1 true [] = Ok l -> Forall2 (like T) l l' -> readable1 g draw ->
  exists o cs, foldM E1 (mkG a im false li no us gs an ids r) l' = Ok (mkG a im o li no us gs an ids (optSet (u "anchors") (nonEmpty (map anchorOf (filter anchorLike (drawn1 g draw)))) (draws cs r))) /\
    map asPassed cs = gdrawing (map passedItem (filter (fun i => negb (anchorLike i)) (drawn1 g draw))).
Proof.
  intros W F [_ _ Na Hd _]. destruct draw as [items|]; cbn [option_map] in W.
  - destruct Hd as (N & Ri & Id). apply outline1_written in W; try assumption. cbv zeta in W. set (all := drawn1 g (Some items)) in *. destruct W as (-> & N' & R' & I' & _).
    set (tx := match map (itemElem R ro) all with [] => _ | _ => _ end) in F. apply F2_one in F as (f & -> & L).
    assert (B : blankText T (etextOf f) = true /\ etag f = u "outline" /\ eattrib f = [] /\ Forall2 shape (map (itemElem R ro) all) (echildren f)).
    { pose proof (like_shape T _ _ L) as Sh. destruct (shape_parts _ _ Sh) as (A1 & A2 & A3). cbn [etag eattrib echildren] in A1, A2, A3. split; [|auto]. subst tx. clearbody all. destruct all as [|i0 all].
      - inversion L; subst. cbn [etextOf normText]. apply white_blank; [exact LT|]. repeat (constructor; [first [left; reflexivity|right; reflexivity]|]). constructor.
      - inversion L; subst. cbn [etextOf]. assumption. }
    destruct B as (B1 & B2 & B3 & B4). destruct (outlineLoop1_written all N' R' I') as (cs & E & D). exists true, cs. split; [|exact D]. cbn [foldM]. unfold element1. rewrite B2, eqb_refl. unfold outlineOk. rewrite B1, B3. cbn [soutline negb orb andb length Nat.eqb].
    unfold withRead, buildOutline1. cbn [seenOutline sread]. rewrite (outlineLoop1_shape true true _ _ B4), E. cbn [bind].
    assert (V : Forall (fun v => anchorValidator T v = true) (map anchorOf (filter anchorLike all)) /\ somes (map gid (map anchorOf (filter anchorLike all))) = []).
    { clear - N'. induction N' as [|i all N F IH]; [split; [constructor|reflexivity]|]. cbn [filter]. destruct (anchorLike i) eqn:A; [|exact IH]. destruct (anchorOf_valid i N A) as [V G]. cbn [map]. split; [constructor; [exact V|apply IH]|]. rewrite G. apply IH. }
    destruct V as [V G]. destruct (map anchorOf (filter anchorLike all)) as [|a0 al]; [reflexivity|]. unfold anchorsValidator.
    rewrite (proj2 (uniqueLoop_iff (anchorValidator T) (a0 :: al) [] []) (conj V (proj2 (fresh_start _ _) (conj (f_equal (@rev str) (eq_sym G)) (eq_ind_r (@NoDup str) (NoDup_nil str) G))))). reflexivity.
  - apply Ok_inj in W. subst l. inversion F; subst. exists false, []. split; [|reflexivity]. cbn [foldM drawn1 filter map nonEmpty optSet]. unfold draws. rewrite app_nil_r. destruct r; reflexivity.
Qed.
Lemma common_tags {A} (f : A -> elem) tag l : mem tag commonTags = true -> (forall x, etag (f x) = tag) -> Forall (fun e => mem (etag e) commonTags = true) (map f l).
Proof. intros M E. apply Forall_map. apply Forall_forall. intros x _. rewrite E. exact M. Qed.
Theorem tree_round1 name g draw root f vs : writeGlyphTree T R ro (PStr name) g (option_map gdrawing draw) 1 true = Ok root -> readable1 g draw -> like T root f -> mem 1%Z vs = true ->
  exists r, readGlyphTree T true true vs true f = Ok r /\ readBack1 name g draw r.
Proof.
  intros W Rd L Mv. assert (Rd' := Rd). destruct Rd' as [Hw Hh Ha Hd Hl]. unfold writeGlyphTree in W. cbn [is_str negb orb andb py_eq] in W. destruct (eqb_spec name (@nil N)) as [->|Nn]; cbn [negb] in W; [discriminate W|].
  cbn [attrStr bind] in W. apply bind_Ok in W as (adv & Wadv & W). apply bind_Ok in W as (uni & Wuni & W). apply bind_Ok in W as (note & Wnote & W). apply bind_Ok in W as (image & Wimage & W).
  apply bind_Ok in W as ((gl & ids1) & Wgl & W). apply bind_Ok in W as ((al & ids2) & Wal & W). apply bind_Ok in W as (outl & Wout & W). apply bind_Ok in W as (lib & Wlib & W). apply Ok_inj in W. subst root.
  apply Ok_inj in Wimage. subst image. apply Ok_inj in Wgl. injection Wgl as <- <-. apply Ok_inj in Wal. injection Wal as <- <-. cbn [app] in L.
  apply like_parts in L as (F & _ & At). cbn [echildren eattrib] in F, At.
  apply Forall2_app_inv_l in F as (adv' & x1 & Fadv & F & E1'). apply Forall2_app_inv_l in F as (uni' & x2 & Funi & F & E2'). apply Forall2_app_inv_l in F as (note' & x3 & Fnote & F & E3).
  apply Forall2_app_inv_l in F as (out' & lib' & Fout & Flib & E7). subst x1 x2 x3.
  set (r0 := setattr (u "name") (PStr name) (mkReading [] [])).
  set (us := nub [] (codesOf (getattr g (u "unicodes")))).
  assert (Tadv : Forall (fun e => mem (etag e) commonTags = true) adv) by (apply writeAdvance_inv in Wadv; subst adv; destruct (_ && _); repeat constructor).
  assert (Tnote : Forall (fun e => mem (etag e) commonTags = true) note).
  { unfold writeNote in Wnote. destruct (negb (truthy _)); [apply Ok_inj in Wnote; subst; constructor|]. destruct (negb true || is_str _); [|discriminate Wnote]. destruct (getattr g (u "note")); try discriminate Wnote. apply Ok_inj in Wnote. subst note. repeat constructor. }
  assert (Tlib : Forall (fun e => mem (etag e) commonTags = true) lib).
  { unfold writeLib in Wlib. destruct (negb (truthy _)); [apply Ok_inj in Wlib; subst; constructor|]. apply bind_Ok in Wlib as (ok & _ & Wl). destruct ok; [|discriminate Wl]. destruct (is_dict _); [|discriminate Wl]. apply bind_Ok in Wl as (e & _ & Wl). apply Ok_inj in Wl. subst lib. repeat constructor. }
  apply (writeUnicodes_inv ro) in Wuni. subst uni. fold us in Funi.
  assert (Tuni : Forall (fun e => mem (etag e) commonTags = true) (map unicodeElem us)) by (apply (common_tags unicodeElem (u "unicode")); reflexivity).
  destruct (advance_read T LT R LR ro g adv adv' false false false false [] [] [] [] r0 Wadv Hw Hh Fadv) as (b1 & S1).
  set (r1 := setAdvance _ _ r0) in S1.
  pose proof (unicodes_read T LT us uni' b1 false false false false [] [] [] [] r1 Funi) as S2. cbn [app] in S2. replace (nub [] us) with us in S2 by (subst us; symmetry; apply nub_nub).
  destruct (note_read T g note note' b1 false false false us [] [] [] r1 Wnote Fnote) as (b3 & S3). set (r3 := setNote T _ r1) in S3.
  destruct (outline_read1 g draw outl out' b1 false false b3 us [] [] [] r3 Wout Fout Rd) as (b7 & cs & S7 & Dc).
  set (r7 := optSet _ _ (draws cs r3)) in S7.
  destruct (lib_read T LT R LR g lib lib' b1 false b7 b3 us [] [] [] r7 Wlib Flib Hl) as (b8 & ol & S8 & Ol). set (r8 := match ol with Some w => _ | None => r7 end) in S8.
  rewrite <- foldM_12 in S1, S2, S3, S8 by (eapply like_tags; eassumption).
  set (r9 := optSet (u "unicodes") (nonEmpty (map PInt us)) r8). exists r9. split.
  - unfold readGlyphTree, eget. rewrite At. change (get (u "format") [(u "name", name); (u "format", str_of_Z 1)]) with (Some (str_of_Z 1)). cbv iota. rewrite (parseInt_str_of_Z T 1 LT). cbn [negb orb]. rewrite Mv.
    unfold readFormat1, readName, eget. rewrite At. change (get (u "name") [(u "name", name); (u "format", str_of_Z 1)]) with (Some name).
    destruct name as [|c name]; [contradiction|]. cbn [bind]. fold r0. unfold startState. rewrite E1'. rewrite foldM_app', S1. cbn [bind]. rewrite foldM_app', S2. cbn [bind]. rewrite foldM_app', S3. cbn [bind]. rewrite foldM_app', S7. cbn [bind]. rewrite S8. cbn [bind].
    rewrite setUnicodes_opt. reflexivity.
  - assert (A1 : r1 = optSet (u "height") (if zeroLike (getattr g (u "width")) && zeroLike (getattr g (u "height")) then None else Some (advOf (getattr g (u "height"))))
                       (optSet (u "width") (if zeroLike (getattr g (u "width")) && zeroLike (getattr g (u "height")) then None else Some (advOf (getattr g (u "width")))) r0)).
    { subst r1. unfold setAdvance. destruct (zeroLike _ && zeroLike _); reflexivity. }
    assert (A3 : r3 = optSet (u "note") (match getattr g (u "note") with PStr (c :: s) => Some (PStr (noteLines T (10%N :: strip (isSpace T) (c :: s) ++ [10%N]))) | _ => None end) r1).
    { subst r3. unfold setNote. destruct (getattr g (u "note")) as [| | | |[|]| | | | | |]; reflexivity. }
    assert (A8 : r8 = optSet (u "lib") ol r7) by (subst r8; destruct ol; reflexivity).
    set (al := nonEmpty (map anchorOf (filter anchorLike (drawn1 g draw)))) in *.
    assert (A7 : rattrs r7 = rattrs (optSet (u "anchors") al r3)) by (subst r7; unfold al; destruct (nonEmpty _); reflexivity).
    assert (Cc : rcalls r9 = cs).
    { subst r9. rewrite !optSet_calls, A8, optSet_calls. subst r7. rewrite optSet_calls. cbn [draws rcalls]. rewrite A3, optSet_calls, A1, !optSet_calls. reflexivity. }
    clearbody r1 r3 r7 r8.
    constructor; [rewrite Cc; exact Dc|..]; subst r9; rewrite ?optSet_same; repeat (rewrite optSet_other by reflexivity; rewrite ?optSet_same).
    all: rewrite ?A8; rewrite ?optSet_same; rewrite ?optSet_other by reflexivity; rewrite ?A7; rewrite ?optSet_same; rewrite ?optSet_other by reflexivity; rewrite ?A3; rewrite ?optSet_same; rewrite ?optSet_other by reflexivity; rewrite ?A1; repeat (rewrite ?optSet_same; rewrite ?optSet_other by reflexivity).
    all: try reflexivity.
    + destruct (zeroLike _ && zeroLike _); reflexivity.
    + destruct (zeroLike _ && zeroLike _); reflexivity.
    + fold us. destruct us; reflexivity.
    + destruct (getattr g (u "note")) as [| | | |[|]| | | | | |]; reflexivity.
    + fold al. destruct al; reflexivity.
    + destruct ol; exact Ol.
Qed.
(** ** Files *)
Lemma glyph_fine1 name g draw root : writeGlyphTree T R ro (PStr name) g (option_map gdrawing draw) 1 true = Ok root -> readable1 g draw -> cleanGlyph name g draw ->
  fine root /\ etag root = u "glyph" /\ etextOf root = None /\ etail root = None.
Proof.
  intros W [Hw Hh Ha Hd Hl] [Cn Cno Ci Cg Ca Cd Cl]. unfold writeGlyphTree in W. cbn [is_str negb orb andb py_eq] in W. destruct (eqb_spec name (@nil N)) as [->|Nn]; cbn [negb] in W; [discriminate W|].
  cbn [attrStr bind] in W. apply bind_Ok in W as (adv & Wadv & W). apply bind_Ok in W as (uni & Wuni & W). apply bind_Ok in W as (note & Wnote & W). apply bind_Ok in W as (image & Wimage & W).
  apply bind_Ok in W as ((gl & ids1) & Wgl & W). apply bind_Ok in W as ((al & ids2) & Wal & W). apply bind_Ok in W as (outl & Wout & W). apply bind_Ok in W as (lib & Wlib & W). apply Ok_inj in W. subst root.
  apply Ok_inj in Wimage. subst image. apply Ok_inj in Wgl. injection Wgl as <- <-. apply Ok_inj in Wal. injection Wal as <- <-. cbn [app].
  assert (Fo : Forall fine outl).
  { destruct draw as [items|]; cbn [option_map] in Wout; [|apply Ok_inj in Wout; subst; constructor]. destruct Hd as (N & Ri & Id). apply outline1_written in Wout; try assumption. cbv zeta in Wout. set (all := drawn1 g (Some items)) in *. destruct Wout as (-> & N' & R' & I' & V).
    assert (Cl' : Forall itemClean all).
    { apply Forall_app. split; [exact Cd|]. apply Forall_map. apply Forall_forall. intros a I. cbn. constructor; [|constructor]. unfold pointClean. cbn [pname]. destruct (vget (u "name") a) eqn:E; try exact Logic.I. rewrite Forall_forall in Ca. eapply (Ca a I (u "name")); [left; reflexivity|exact E]. }
    assert (F : Forall fine (map (itemElem R ro) all)).
    { apply Forall_forall. intros e J. apply in_map_iff in J as (i & <- & J). rewrite Forall_forall in N', R', Cl'. apply (item_fine T R LR ro); auto. intros s I. exfalso. apply somes_nil in I'. rewrite Forall_forall in I'. assert (X : In (Some s) (flat_map itemIds all)) by (apply in_flat_map; exists i; auto). apply I' in X. discriminate X. }
    clearbody all. constructor; [|constructor]. split.
    + constructor; try reflexivity; try constructor; [destruct all; [|exact I]; apply ascii_ok; apply lit_ascii; reflexivity|]. eapply Forall_impl; [|exact F]. intros e H. apply H.
    + destruct all as [|i0 all]; [constructor|]. constructor; [discriminate|]. eapply Forall_impl; [|exact F]. intros e H. apply H. }
  assert (F : Forall fine (adv ++ uni ++ note ++ outl ++ lib)).
  { rewrite !Forall_app. repeat split; [eapply advance_fine; eassumption|rewrite (writeUnicodes_inv ro _ _ Wuni); apply unicodes_fine|eapply note_fine; eassumption|exact Fo|eapply lib_fine; eassumption]. }
  split; [|repeat split; reflexivity]. split.
  - constructor; try reflexivity; try exact I; [apply litNoDup; reflexivity| |eapply Forall_impl; [|exact F]; intros e H; apply H].
    constructor; [split; [apply goodKey_name; reflexivity|exact Cn]|]. constructor; [|constructor]. split; [apply goodKey_name; reflexivity|]. apply ascii_val. apply strZ_ascii.
  - destruct (adv ++ uni ++ note ++ outl ++ lib) as [|e l]; [constructor|]. constructor; [discriminate|]. eapply Forall_impl; [|exact F]. intros e' H. apply H.
Qed.
Theorem file_parsed1 name g draw root : writeGlyphTree T R ro (PStr name) g (option_map gdrawing draw) 1 true = Ok root -> readable1 g draw -> cleanGlyph name g draw ->
  exists b f, writeGlyphBytes T R ro (PStr name) g (option_map gdrawing draw) 1 true = Ok b /\ like T root f /\ glifTree T b = Ok f.
Proof.
  intros W Rd Cl. destruct (glyph_fine1 _ _ _ _ W Rd Cl) as (F & Tg & Tx & Tl). destruct (tree_bytes T LT root F Tg Tx Tl) as (b & f & Eb & Lk & Gt).
  exists (xmlDeclaration ++ [10%N] ++ b), f. split; [|auto]. unfold writeGlyphBytes. rewrite W. cbn [bind]. rewrite Eb. reflexivity.
Qed.
Theorem file_round1 name g draw b vs : writeGlyphBytes T R ro (PStr name) g (option_map gdrawing draw) 1 true = Ok b -> readable1 g draw -> cleanGlyph name g draw -> mem 1%Z vs = true ->
  exists r, readGlyphBytes T true true vs true b = Ok r /\ readBack1 name g draw r.
Proof.
  intros W Rd Cl Mv. assert (W' := W). unfold writeGlyphBytes in W'. apply bind_Ok in W' as (root & Wt & _). destruct (file_parsed1 _ _ _ _ Wt Rd Cl) as (b' & f & Wb & Lk & Gt). rewrite W in Wb. injection Wb as <-.
  unfold readGlyphBytes. rewrite Gt. cbn [bind]. eapply tree_round1; eassumption.
Qed.
End Format1.
