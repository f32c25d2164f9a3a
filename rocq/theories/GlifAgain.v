(** Every glyph with valid data is written as GLIF 2; what has been read can be
    written and read again. *)
From Coq Require Import String NArith ZArith Bool Lia List Permutation.
From Coq.Floats Require Import SpecFloat.
From Verif Require Import Base PyVal PyText FloatRepr Xml FS Ufo UfoProofs PropUfoFiles Plist PlistProofs PropPlist Etree EtreeProofs PropEtree PlistFiles Validators PointPen PropPointPen Glif GlifProofs GlifOutline GlifElements GlifRead GlifFiles GlifNotes GlifAccepted.
Import ListNotations.
Local Open Scope string_scope.
Local Open Scope list_scope.

Local Notation isNum := GlifProofs.isNum.
Local Notation walk := Plist.walk.
Local Notation draws := Glif.draws.

Section Again.
Variable T : pytext.
Hypothesis LT : pytext_laws T.
Variable R : spec_float -> str.
Hypothesis LR : repr_laws T R.
Variable ro : pyval -> str.

(** ** The writer accepts valid data *)
Definition absent (v : pyval) : Prop := truthy v = false.
Record valid2 (g : list (str * pyval)) (items : option (list gitem)) : Prop := {
  vd_width : getattr g (u "width") = PNone \/ is_number (getattr g (u "width")) = true;
  vd_height : getattr g (u "height") = PNone \/ is_number (getattr g (u "height")) = true;
  vd_unicodes : absent (getattr g (u "unicodes")) \/ exists zs, getattr g (u "unicodes") = PList (map PInt zs);
  vd_note : absent (getattr g (u "note")) \/ is_str (getattr g (u "note")) = true;
  vd_image : absent (getattr g (u "image")) \/ imageValidator T (getattr g (u "image")) = true;
  vd_guidelines : absent (getattr g (u "guidelines")) \/ exists l, getattr g (u "guidelines") = PList l /\ Forall (fun v => guidelineValidator T v = true) l;
  vd_anchors : absent (getattr g (u "anchors")) \/ exists l, getattr g (u "anchors") = PList l /\ Forall (fun v => anchorValidator T v = true) l;
  vd_items : match items with Some l => Forall wItem l /\ (forall i, In i (somes (flat_map itemIds l)) -> identifierOk i = true) | None => True end;
  vd_ids : NoDup (somes (map gid (itemsOf' (getattr g (u "guidelines"))) ++ map gid (itemsOf' (getattr g (u "anchors"))) ++ match items with Some l => flat_map itemIds l | None => [] end));
  vd_lib : absent (getattr g (u "lib")) \/ (glyphLibValidator T (getattr g (u "lib")) = Ok true /\ plistable (getattr g (u "lib"))) }.
Lemma generic_str v proto k rq : genericDictValidator v proto = true -> get k proto = Some (TStr, rq) -> strOrNone (vget k v).
Proof. intros G P. destruct (generic_vget _ _ _ _ _ G P) as [[E _]|I]; [left; exact E|]. destruct (vget k v); try discriminate I. right. eauto. Qed.
Lemma optAttr_total k v : strOrNone v -> exists a, optAttr k v = Ok a.
Proof. intros [->|[s ->]]; eexists; reflexivity. Qed.
Lemma writeIdentifier_total v ids ids' : strOrNone v -> fresh [match v with PStr s => Some s | _ => None end] ids ids' -> exists a, writeIdentifier true v ids = Ok (a, ids').
Proof.
  intros [->|[s ->]]; cbn [fresh]; intro F; [subst; eexists; reflexivity|]. destruct F as [N ->]. unfold writeIdentifier. cbn [is_none attrStr bind andb]. rewrite (proj2 (mem_nIn s ids) N). eexists. reflexivity.
Qed.
Lemma writeGuideline_total v ids ids' : guidelineValidator T v = true -> fresh [gid v] ids ids' -> exists e, writeGuideline R ro true v ids = Ok (e, ids').
Proof.
  unfold guidelineValidator. destruct (genericDictValidator v guidelineProto) eqn:G; [|discriminate]. intros _ F. unfold writeGuideline. rewrite (generic_dict _ _ G).
  destruct (optAttr_total (u "name") _ (generic_str v _ (u "name") false G eq_refl)) as (a & ->). destruct (optAttr_total (u "color") _ (generic_str v _ (u "color") false G eq_refl)) as (b & ->).
  destruct (writeIdentifier_total _ ids ids' (generic_str v _ (u "identifier") false G eq_refl) F) as (c & ->). cbn [bind]. eexists. reflexivity.
Qed.
Lemma vget_vhas k v : vget k v <> PNone -> vhas k v = true.
Proof. unfold vget, vhas. destruct (dget k (items v)); [reflexivity|contradiction]. Qed.
Lemma writeAnchor_total v ids ids' : anchorValidator T v = true -> fresh [gid v] ids ids' -> exists e, writeAnchor R ro true v ids = Ok (e, ids').
Proof.
  intros V F. destruct (anchor_xy T v V) as [Nx Ny]. revert V. unfold anchorValidator. destruct (genericDictValidator v anchorProto) eqn:G; [|discriminate]. intros _. unfold writeAnchor. rewrite (generic_dict _ _ G).
  rewrite !vget_vhas by (intro X; rewrite X in *; discriminate).
  destruct (optAttr_total (u "name") _ (generic_str v _ (u "name") false G eq_refl)) as (a & ->). destruct (optAttr_total (u "color") _ (generic_str v _ (u "color") false G eq_refl)) as (b & ->).
  destruct (writeIdentifier_total _ ids ids' (generic_str v _ (u "identifier") false G eq_refl) F) as (c & ->). cbn [bind]. eexists. reflexivity.
Qed.
Lemma writeLoop_total w l : (forall v ids ids', In v l -> fresh [gid v] ids ids' -> exists e, w v ids = Ok (e, ids')) -> forall ids ids', fresh (map gid l) ids ids' -> exists es, writeLoop w l ids = Ok (es, ids').
Proof.
  induction l as [|v l IH]; intros W ids ids' F; cbn [writeLoop map] in *; [cbn in F; subst; eexists; reflexivity|]. apply (fresh_app [gid v]) in F as (ids1 & F1 & F2).
  destruct (W v ids ids1 (or_introl eq_refl) F1) as (e & ->). cbn [bind]. destruct (IH (fun v' a b I => W v' a b (or_intror I)) _ _ F2) as (es & ->). cbn [bind]. eexists. reflexivity.
Qed.
Lemma unicodesLoop_total zs : forall seen, exists l, unicodesLoop true (map PInt zs) seen = Ok l.
Proof.
  induction zs as [|z zs IH]; intro seen; cbn [map unicodesLoop]; [eexists; reflexivity|]. cbn [is_int hashable negb orb formatHex bind]. destruct (existsb _ seen); [apply IH|]. destruct (IH (PInt z :: seen)) as (l & ->). cbn [bind]. eexists. reflexivity.
Qed.
Lemma fresh_sub_none l ids ids' : fresh l ids ids' -> somes l = [] -> ids' = ids.
Proof. intros F E. apply fresh_iff in F as (-> & _). rewrite E. reflexivity. Qed.
Lemma nodup_parts (a b c : list str) : NoDup (a ++ b ++ c) -> NoDup b.
Proof. intro N. induction a as [|x a IH]; [|inversion N; auto]. cbn [app] in N. induction b as [|x b IH]; [constructor|]. cbn [app] in N. inversion N as [|? ? H1 H2]; subst. constructor; [|apply IH; exact H2]. intro I. apply H1. apply in_or_app. left. exact I. Qed.
Theorem written2 name g items : name <> [] -> valid2 g items -> exists root, writeGlyphTree T R ro (PStr name) g (option_map gdrawing items) 2 true = Ok root.
Proof.
  intros Nn [Vw Vh Vu Vn Vi Vg Va Vd Vids Vl]. unfold writeGlyphTree. cbn [is_str negb orb andb py_eq]. destruct (eqb_spec name (@nil N)) as [E|_]; [contradiction|]. cbn [negb attrStr bind].
  assert (Adv : forall v, v = PNone \/ is_number v = true -> exists w, advanceNumber true v = Ok w).
  { intros v [->|H]; [eexists; reflexivity|]. unfold advanceNumber. destruct (is_none v); [eexists; reflexivity|]. rewrite H. cbn [negb orb]. destruct (py_eq v (PInt 0)); eexists; reflexivity. }
  assert (A1 : exists l, writeAdvance R ro g true = Ok l).
  { unfold writeAdvance. destruct (Adv _ Vw) as (w & ->). destruct (Adv _ Vh) as (h & ->). cbn [bind]. clear. destruct (_ ++ _); eexists; reflexivity. }
  destruct A1 as (adv & ->). cbn [bind].
  assert (A2 : exists l, writeUnicodes g true = Ok l).
  { unfold writeUnicodes. destruct Vu as [A|(zs & ->)]; [rewrite A; eexists; reflexivity|]. destruct (truthy _); [|eexists; reflexivity]. cbn [negb andb is_int iterate bind]. apply unicodesLoop_total. }
  destruct A2 as (us & ->). cbn [bind].
  assert (A3 : exists l, writeNote T g true = Ok l).
  { unfold writeNote. destruct Vn as [A|S]; [rewrite A; eexists; reflexivity|]. destruct (truthy _); [|eexists; reflexivity]. rewrite S. cbn [negb orb]. destruct (getattr g (u "note")); try discriminate S. eexists. reflexivity. }
  destruct A3 as (no & ->). cbn [bind].
  assert (A4 : exists l, writeImage T R ro g 2 true = Ok l).
  { unfold writeImage. cbn [Z.leb Z.compare Pos.compare Pos.compare_cont andb]. destruct Vi as [A|V]; [rewrite A; eexists; reflexivity|]. destruct (truthy _); [|eexists; reflexivity]. rewrite V. cbn [negb orb]. revert V. unfold imageValidator. destruct (genericDictValidator (getattr g (u "image")) imageProto) eqn:G; [|discriminate]. intros _.
    rewrite (generic_dict _ _ G). destruct (generic_vget _ _ (u "fileName") TStr true G eq_refl) as [[_ X]|I]; [discriminate X|]. rewrite vget_vhas by (intro X; rewrite X in I; discriminate I). destruct (vget (u "fileName") (getattr g (u "image"))); try discriminate I. cbn [attrStr bind].
    destruct (optAttr_total (u "color") _ (generic_str _ _ (u "color") false G eq_refl)) as (c & ->). cbn [bind]. eexists. reflexivity. }
  destruct A4 as (im & ->). cbn [bind].
  assert (Fr : exists ids1 ids2 ids3, fresh (map gid (itemsOf' (getattr g (u "guidelines")))) [] ids1 /\ fresh (map gid (itemsOf' (getattr g (u "anchors")))) ids1 ids2 /\ fresh (match items with Some l => flat_map itemIds l | None => [] end) ids2 ids3).
  { assert (X := proj2 (fresh_start _ _) (conj eq_refl Vids)). apply fresh_app in X as (i1 & X1 & X). apply fresh_app in X as (i2 & X2 & X). eauto 6. }
  destruct Fr as (ids1 & ids2 & ids3 & F1 & F2 & F3).
  assert (A5 : exists l, writeGuidelines T R ro g 2 true [] = Ok (l, ids1)).
  { unfold writeGuidelines. cbn [Z.leb Z.compare Pos.compare Pos.compare_cont andb]. destruct Vg as [A|(l & E & V)].
    - rewrite A. exists []. cbn [negb]. f_equal. f_equal. symmetry. eapply fresh_sub_none; [exact F1|]. unfold absent in A. destruct (getattr g (u "guidelines")); try reflexivity. destruct l; [reflexivity|discriminate A].
    - rewrite E in *. cbn [itemsOf'] in F1. destruct (truthy (PList l)) eqn:Tr; cbn [negb]; [|destruct l; [|discriminate Tr]; cbn in F1; subst; eexists; reflexivity]. cbn [guidelinesValidator orb]. rewrite (proj2 (uniqueLoop_iff (guidelineValidator T) l [] ids1) (conj V F1)). cbn [fst iterate bind].
      apply writeLoop_total; [|exact F1]. intros v a b I. apply writeGuideline_total. rewrite Forall_forall in V. auto. }
  destruct A5 as (gl & ->). cbn [bind].
  assert (A6 : exists l, writeAnchors T R ro g 2 true ids1 = Ok (l, ids2)).
  { unfold writeAnchors. cbn [Z.leb Z.compare Pos.compare Pos.compare_cont andb]. destruct Va as [A|(l & E & V)].
    - rewrite A. exists []. cbn [negb]. f_equal. f_equal. symmetry. eapply fresh_sub_none; [exact F2|]. unfold absent in A. destruct (getattr g (u "anchors")); try reflexivity. destruct l; [reflexivity|discriminate A].
    - rewrite E in *. cbn [itemsOf'] in F2. destruct (truthy (PList l)) eqn:Tr; cbn [negb]; [|destruct l; [|discriminate Tr]; cbn in F2; subst; eexists; reflexivity]. cbn [anchorsValidator orb].
      assert (Vids' : NoDup (somes (map gid l))) by (rewrite !somes_app in Vids; cbn [itemsOf'] in Vids; eapply nodup_parts; exact Vids).
      rewrite (proj2 (uniqueLoop_iff (anchorValidator T) l [] _) (conj V (proj2 (fresh_start _ _) (conj eq_refl Vids')))). cbn [fst iterate bind].
      apply writeLoop_total; [|exact F2]. intros v a b I. apply writeAnchor_total. rewrite Forall_forall in V. auto. }
  destruct A6 as (al & ->). cbn [bind].
  assert (A7 : exists l, writeOutline T R ro g (option_map gdrawing items) 2 true ids2 = Ok l).
  { unfold writeOutline. destruct items as [items|]; cbn [option_map]; [|eexists; reflexivity]. destruct Vd as [Wi Oki]. unfold newPen. rewrite (proj2 (pen_drawing R ro items [] ids2 _) (ex_intro _ ids3 (conj Wi (conj (proj2 (idsSeq_fresh _ _ _) (conj F3 Oki)) eq_refl)))). cbn [bind Z.eqb Pos.eqb andb]. eexists. reflexivity. }
  destruct A7 as (ou & ->). cbn [bind].
  assert (A8 : exists l, writeLib T R g true = Ok l).
  { unfold writeLib. destruct Vl as [A|[V P]]; [rewrite A; eexists; reflexivity|]. destruct (truthy _); [|eexists; reflexivity]. cbn [negb]. rewrite V. cbn [bind]. assert (D : is_dict (getattr g (u "lib")) = true) by (revert V; unfold glyphLibValidator; destruct (is_dict _); [reflexivity|discriminate]). rewrite D.
    unfold totree. destruct (mk_total R _ P true true 2) as (e & ->). cbn [bind]. eexists. reflexivity. }
  destruct A8 as (li & ->). cbn [bind]. eexists. reflexivity.
Qed.

(** ** What has been read is valid *)
Lemma writeGlyphTree_passed name g cs cs' : map asPassed cs = map asPassed cs' ->
  writeGlyphTree T R ro name g (Some cs) 2 true = writeGlyphTree T R ro name g (Some cs') 2 true.
Proof.
  intro E. assert (O : forall ids, writeOutline T R ro g (Some cs) 2 true ids = writeOutline T R ro g (Some cs') 2 true ids) by (intro ids; unfold writeOutline; rewrite <- (asPassed_fold R ro true cs), <- (asPassed_fold R ro true cs'), E; reflexivity).
  assert (B : forall A B (r : res A) (f h : A -> res B), (forall x, f x = h x) -> bind r f = bind r h) by (intros A B [x|] f h H; cbn; auto).
  unfold writeGlyphTree. destruct (negb true || is_str name); [|reflexivity]. destruct (negb (true && py_eq name (PStr []))); [|reflexivity].
  do 5 (apply B; intro). apply B. intros [gl ids1]. apply B. intros [al ids2]. rewrite O. reflexivity.
Qed.
Lemma or_attr g k (P : pyval -> Prop) : (forall v, get k g = Some v -> P v) -> getattr g k = PNone \/ P (getattr g k).
Proof. intro H. unfold getattr. destruct (get k g) as [v|]; [right; apply H; reflexivity|left; reflexivity]. Qed.
Lemma accepted_valid r items : accepted T r items -> (truthy (getattr (rattrs r) (u "lib")) = true -> plistable (getattr (rattrs r) (u "lib"))) -> valid2 (rattrs r) (Some items).
Proof.
  intros [Ac Ai Ap An Aw Ah Au Ano Aim Ag Aa Al Aid Aok] P. constructor.
  - destruct (or_attr _ _ _ Aw) as [E|N]; [left; exact E|right; apply isNum_number in N; exact N].
  - destruct (or_attr _ _ _ Ah) as [E|N]; [left; exact E|right; apply isNum_number in N; exact N].
  - destruct (or_attr _ _ _ Au) as [E|(zs & E & _)]; [left; rewrite E; reflexivity|right; eauto].
  - destruct (or_attr _ _ _ Ano) as [E|(s & E)]; [left; rewrite E; reflexivity|right; rewrite E; reflexivity].
  - destruct (or_attr _ _ _ Aim) as [E|(V & _)]; [left; rewrite E; reflexivity|right; exact V].
  - destruct (or_attr _ _ _ Ag) as [E|(l & E & _ & _ & V)]; [left; rewrite E; reflexivity|right; eauto].
  - destruct (or_attr _ _ _ Aa) as [E|(l & E & _ & _ & V)]; [left; rewrite E; reflexivity|right; eauto].
  - split; [|exact Aok]. eapply Forall_impl; [|exact Ai]. intros i. apply rItem_wItem.
  - rewrite !somes_app in *. eapply Permutation_NoDup; [|exact Aid]. rewrite (Permutation_app_comm (somes (flat_map itemIds items))). rewrite <- app_assoc. reflexivity.
  - destruct (or_attr _ _ _ Al) as [E|V]; [left; rewrite E; reflexivity|]. destruct (truthy (getattr (rattrs r) (u "lib"))) eqn:Tr; [right; auto|left; exact Tr].
Qed.
Lemma accepted_readable r items : accepted T r items -> (truthy (getattr (rattrs r) (u "lib")) = true -> plistable (getattr (rattrs r) (u "lib"))) -> readable2 (rattrs r) (Some items).
Proof.
  intros [Ac Ai Ap An Aw Ah Au Ano Aim Ag Aa Al Aid Aok] P. constructor; try assumption.
  - exact (or_attr _ _ _ Aw).
  - exact (or_attr _ _ _ Ah).
  - intros k I Vh. destruct (or_attr _ _ _ Aim) as [E|(_ & _ & N)]; [rewrite E in Vh; discriminate Vh|apply N; exact I].
  - destruct (or_attr _ _ _ Ag) as [->|(l & -> & _ & L & _)]; [constructor|]. cbn [itemsOf']. eapply Forall_impl; [|exact L]. intros v [H _]. exact H.
  - destruct (or_attr _ _ _ Aa) as [->|(l & -> & _ & L & _)]; [constructor|]. cbn [itemsOf']. eapply Forall_impl; [|exact L]. intros v [H _]. exact H.
  - split; (eapply Forall_impl; [|exact Ai]); intros i; [apply rItem_numeric|apply rItem_rItem'].
Qed.
Lemma passed_items items : Forall isPassed items -> Forall rItem items ->
  Forall2 (fun a b => match a, b with
    | Contour _ _ _ i p, Contour _ _ _ i' p' => i = i' /\ p = p'
    | Component _ _ _ b t i, Component _ _ _ b' t' i' => b = b' /\ i = i' /\ Forall2 (fun v w => v = w \/ py_eq v w = true) t t'
    | _, _ => False end) items (map passedItem items).
Proof.
  intros P F. induction P as [|i items P _ IH]; [constructor|]. inversion F as [|? ? Fi F']; subst. cbn [map]. constructor; [|auto]. destruct i as [ident pts|b tr ident]; cbn [passedItem isPassed rItem] in *; [rewrite P; auto|]. split; [reflexivity|]. split; [reflexivity|].
  destruct Fi as [L N]. clear - L. assert (G : forall info t, length t = length info -> Forall2 (fun v w => v = w \/ py_eq v w = true) t (dflts info t)).
  { induction info as [|[k d] info IH]; intros [|v t] L'; try discriminate L'; cbn [dflts]; constructor; [|apply IH; cbn in L'; lia]. unfold dflt. destruct (py_eq v (PInt d)) eqn:E; auto. }
  apply G. exact L.
Qed.
End Again.
