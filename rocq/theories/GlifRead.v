(** Reading what the validated GLIF 2 writer has written, element by element. *)
From Coq Require Import String NArith ZArith Bool Lia List Permutation.
From Coq.Floats Require Import SpecFloat.
From Verif Require Import Base PyVal PyText FloatRepr Xml FS Ufo UfoProofs PropUfoFiles Plist PlistProofs PropPlist Etree EtreeProofs PropEtree PlistFiles Validators PointPen PropPointPen Glif GlifProofs GlifOutline GlifElements.
Import ListNotations.
Local Open Scope string_scope.
Local Open Scope list_scope.

Local Notation walk := Plist.walk.
Local Notation isNum := GlifProofs.isNum.
Local Notation draws := Glif.draws.

Section Read.
Variable T : pytext.
Hypothesis LT : pytext_laws T.
Variable R : spec_float -> str.
Hypothesis LR : repr_laws T R.
Variable ro : pyval -> str.
Notation repr := (reprOf R ro).
Notation E2 := (element2 T true true true).

Lemma like_leaf_inv tag at' f : like T (sub tag at') f -> exists t, f = Elem tag at' None [] t.
Proof. unfold sub. intro H. inversion H as [|? ? ? ? ? ? ? NE]; subst; [eexists; reflexivity|contradiction]. Qed.

Lemma F2_one e l' : Forall2 (like T) [e] l' -> exists f, l' = [f] /\ like T e f.
Proof. intro F. inversion F as [|x f l0 l1 L F']. inversion F'. subst. eauto. Qed.
Lemma F2_cons e l l' : Forall2 (like T) (e :: l) l' -> exists f l1, l' = f :: l1 /\ like T e f /\ Forall2 (like T) l l1.
Proof. intro F. inversion F as [|x f l0 l1 L F']. subst. eauto. Qed.

(** ** Advance *)
Definition zeroLike (v : pyval) : bool := is_none v || py_eq v (PInt 0).
Definition advOf (v : pyval) : pyval := if zeroLike v then PInt 0 else v.
Definition setAdvance (w h : pyval) (r : greading) : greading :=
  if zeroLike w && zeroLike h then r else setattr (u "height") (advOf h) (setattr (u "width") (advOf w) r).
Lemma advanceNumber_inv v v' : advanceNumber true v = Ok v' -> v' = if zeroLike v then PNone else v.
Proof.
  unfold advanceNumber, zeroLike. destruct (is_none v); cbn [orb negb]; [intro H; inversion H; reflexivity|]. destruct (is_number v); [|discriminate]. destruct (py_eq v (PInt 0)); intro H; inversion H; reflexivity.
Qed.
Definition advAttr (k : string) (v : pyval) : str * option str := (u k, if zeroLike v then None else Some (repr v)).
Lemma writeAdvance_inv g l : writeAdvance R ro g true = Ok l ->
  l = if zeroLike (getattr g (u "width")) && zeroLike (getattr g (u "height")) then []
      else [sub (u "advance") (present [advAttr "height" (getattr g (u "height")); advAttr "width" (getattr g (u "width"))])].
Proof.
  unfold writeAdvance. intro H. apply bind_Ok in H as (w & Hw & H). apply bind_Ok in H as (h & Hh & H). apply advanceNumber_inv in Hw, Hh. unfold optRepr, present, advAttr in *. cbn [flat_map fst snd app] in *.
  assert (Z : forall v, zeroLike v = false -> is_none v = false) by (intro v; unfold zeroLike; destruct (is_none v); [discriminate|reflexivity]).
  destruct (zeroLike (getattr g (u "width"))) eqn:Zw; destruct (zeroLike (getattr g (u "height"))) eqn:Zh; subst w h; cbn [is_none app] in H; rewrite ?(Z _ Zw), ?(Z _ Zh) in H; cbn [app andb] in *; apply Ok_inj in H; subst l; reflexivity.
Qed.
Lemma adv_number v : numOrNone v -> numberOr T 0 (if zeroLike v then None else Some (repr v)) = Ok (advOf v).
Proof.
  intros N. unfold advOf. destruct (zeroLike v) eqn:Z; [reflexivity|]. destruct N as [->|N]; [discriminate Z|]. cbn [numberOr]. apply number_repr; assumption.
Qed.
Lemma advance_read g l l' im ou li no us gs an ids r : writeAdvance R ro g true = Ok l -> numOrNone (getattr g (u "width")) -> numOrNone (getattr g (u "height")) -> Forall2 (like T) l l' ->
  exists a, foldM E2 (mkG false im ou li no us gs an ids r) l' = Ok (mkG a im ou li no us gs an ids (setAdvance (getattr g (u "width")) (getattr g (u "height")) r)).
Proof.
  intros W N1 N2 F. apply writeAdvance_inv in W. unfold setAdvance. destruct (zeroLike (getattr g (u "width")) && zeroLike (getattr g (u "height"))).
  - subst l. inversion F; subst. exists false. reflexivity.
  - subst l. remember (present [advAttr "height" (getattr g (u "height")); advAttr "width" (getattr g (u "width"))]) as at' eqn:Ea. apply F2_one in F as (f & -> & L). apply like_leaf_inv in L as (t & ->). exists true. cbn [foldM bind]. unfold element2. cbn [etag].
    change (eqb (u "advance") (u "outline")) with false. cbv iota. cbn [negb]. unfold commonElement. cbn [etag]. rewrite eqb_refl. cbn [sadvance andb negb]. unfold withRead, readAdvance.
    unfold eget. cbn [eattrib]. rewrite Ea. rewrite (present_get _ (u "width") (snd (advAttr "width" (getattr g (u "width"))))) by (try (apply litNoDup; reflexivity); right; left; reflexivity).
    rewrite (present_get _ (u "height") (snd (advAttr "height" (getattr g (u "height"))))) by (try (apply litNoDup; reflexivity); left; reflexivity).
    cbn [advAttr snd]. rewrite !adv_number by assumption. reflexivity.
Qed.

(** ** Unicodes *)
Definition codeOf (v : pyval) : Z := match v with PInt z => z | PBool true => 1 | _ => 0 end.
(** without the elements that occur before *)
Fixpoint nub (seen : list Z) (l : list Z) : list Z :=
  match l with [] => [] | z :: r => if mem z seen then nub seen r else z :: nub (z :: seen) r end.
Lemma codes_eq a b : is_int a = true -> is_int b = true -> py_eq a b = eqb (codeOf a) (codeOf b).
Proof.
  intros Ia Ib. assert (E : num a = Some (Fin (codeOf a) 0) /\ num b = Some (Fin (codeOf b) 0)).
  { destruct a as [|[]| | | | | | | | |]; try discriminate Ia; destruct b as [|[]| | | | | | | | |]; try discriminate Ib; split; reflexivity. }
  destruct E as [Ea Eb]. assert (P : py_eq a b = num_eq a b) by (destruct a; try discriminate Ia; reflexivity). rewrite P. unfold num_eq, num_cmp. rewrite Ea, Eb. cbn [ext_compare].
  generalize (codeOf a), (codeOf b). intros x y. destruct (eqb_spec x y) as [->|N].
  - cbn. rewrite Z.compare_refl. reflexivity.
  - destruct (_ ?= _)%Z eqn:C; try reflexivity. apply Z.compare_eq in C. cbn in C. lia.
Qed.
Lemma seen_mem c seen : is_int c = true -> Forall (fun v => is_int v = true) seen -> existsb (py_eq c) seen = mem (codeOf c) (map codeOf seen).
Proof.
  intros Ic F. induction F as [|v seen Iv F IH]; [reflexivity|]. cbn [existsb map]. change (mem (codeOf c) (codeOf v :: map codeOf seen)) with (eqb (codeOf c) (codeOf v) || mem (codeOf c) (map codeOf seen)).
  rewrite IH, codes_eq by assumption. reflexivity.
Qed.
Definition unicodeElem (z : Z) : elem := sub (u "unicode") [(u "hex", hex04 z)].
Lemma unicodesLoop_inv codes : forall seen l, Forall (fun v => is_int v = true) seen -> unicodesLoop true codes seen = Ok l ->
  Forall (fun v => is_int v = true) codes /\ l = map unicodeElem (nub (map codeOf seen) (map codeOf codes)).
Proof.
  induction codes as [|c codes IH]; intros seen l Fs; cbn [unicodesLoop map nub].
  - intro H. inversion H. split; [constructor|reflexivity].
  - cbn [negb orb]. destruct (is_int c) eqn:Ic; [|discriminate]. destruct (hashable c); [|discriminate]. rewrite (seen_mem c seen Ic Fs).
    destruct (mem (codeOf c) (map codeOf seen)) eqn:M.
    + intro H. destruct (IH seen l Fs H) as [A ->]. split; [constructor; assumption|]. reflexivity.
    + intro H. apply bind_Ok in H as (h & Hh & H). apply bind_Ok in H as (t & Ht & H). apply Ok_inj in H. subst l. destruct (IH (c :: seen) t) as [A ->]; [constructor; assumption|exact Ht|]. split; [constructor; assumption|].
      cbn [map]. f_equal. unfold unicodeElem. do 3 f_equal. destruct c as [|b| | | | | | | | |]; try discriminate Ic; inversion Hh; [destruct b|]; reflexivity.
Qed.
(** the code points of the glyph object *)
Definition codesOf (v : pyval) : list Z :=
  if negb (truthy v) then [] else if is_int v then [codeOf v] else match iterate v with Ok l => map codeOf l | Err _ => [] end.
Lemma writeUnicodes_inv g l : writeUnicodes g true = Ok l -> l = map unicodeElem (nub [] (codesOf (getattr g (u "unicodes")))).
Proof.
  unfold writeUnicodes, codesOf. destruct (truthy (getattr g (u "unicodes"))); cbn [negb]; [|intro H; inversion H; reflexivity]. cbn [andb]. destruct (is_int (getattr g (u "unicodes"))) eqn:I.
  - cbn [iterate bind]. intro H. apply (unicodesLoop_inv [_] []) in H as [_ ->]; [reflexivity|constructor].
  - destruct (iterate (getattr g (u "unicodes"))) as [c|]; cbn [bind]; [|discriminate]. intro H. apply (unicodesLoop_inv c []) in H as [_ ->]; [reflexivity|constructor].
Qed.
Lemma unicodes_read zs : forall l' a im ou li no us gs an ids r, Forall2 (like T) (map unicodeElem zs) l' ->
  foldM E2 (mkG a im ou li no us gs an ids r) l' = Ok (mkG a im ou li no (us ++ nub us zs) gs an ids r).
Proof.
  assert (P : forall zs s s', (forall z, mem z s = mem z s') -> nub s zs = nub s' zs).
  { clear. induction zs as [|z zs IH]; intros s s' H; cbn [nub]; [reflexivity|]. rewrite H. destruct (mem z s'); [apply IH; exact H|]. f_equal. apply IH. intro x. change (mem x (z :: s)) with (eqb x z || mem x s). change (mem x (z :: s')) with (eqb x z || mem x s'). rewrite H. reflexivity. }
  induction zs as [|z zs IH]; intros l' a im ou li no us gs an ids r F; cbn [map] in F; inversion F as [|? f ? l0 L F']; subst; cbn [foldM nub].
  - rewrite app_nil_r. reflexivity.
  - apply like_leaf_inv in L as (t & ->). 
    assert (S : E2 (mkG a im ou li no us gs an ids r) (Elem (u "unicode") [(u "hex", hex04 z)] None [] t) = Ok (mkG a im ou li no (if mem z us then us else us ++ [z]) gs an ids r)).
    { unfold element2, commonElement. cbn [etag]. change (eqb (u "unicode") (u "outline")) with false. change (eqb (u "unicode") (u "advance")) with false. rewrite eqb_refl. cbn [negb]. cbv iota. cbn [sunicodes]. unfold readUnicode, eget. cbn [eattrib get]. rewrite eqb_refl, (parseHex_hex04 T LT). reflexivity. }
    rewrite S. cbn [bind]. rewrite IH by exact F'. destruct (mem z us); [reflexivity|]. rewrite <- app_assoc. cbn [app]. do 4 f_equal. apply P.
    intro x. change (mem x (z :: us)) with (eqb x z || mem x us). destruct (mem_spec x (us ++ [z])) as [I|I]; rewrite in_app_iff in I; cbn [In] in I; destruct (eqb_spec x z); destruct (mem_spec x us); cbn [orb]; first [reflexivity|exfalso; intuition congruence].
Qed.
Lemma nub_nub zs : forall s, nub s (nub s zs) = nub s zs.
Proof.
  assert (P : forall zs s z, ~ In z zs -> nub (z :: s) zs = nub s zs).
  { clear. assert (Q : forall zs s s' z, ~ In z zs -> (forall x, x <> z -> mem x s' = mem x s) -> nub s' zs = nub s zs).
    { induction zs as [|y zs IH]; intros s s' z N H; cbn [nub]; [reflexivity|]. rewrite H by (intros ->; apply N; left; reflexivity). assert (N' : ~ In z zs) by (intro; apply N; right; assumption). destruct (mem y s); [eapply IH; eassumption|]. f_equal. apply (IH _ _ z N').
      intros x Nx. change (mem x (y :: s')) with (eqb x y || mem x s'). change (mem x (y :: s)) with (eqb x y || mem x s). rewrite H by exact Nx. reflexivity. }
    intros zs s z N. apply (Q zs s (z :: s) z N). intros x Nx. change (mem x (z :: s)) with (eqb x z || mem x s). rewrite (proj2 (eqb_neq x z)) by exact Nx. reflexivity. }
  induction zs as [|z zs IH]; intro s; cbn [nub]; [reflexivity|]. destruct (mem z s) eqn:M; [apply IH|]. cbn [nub]. rewrite M, IH. reflexivity.
Qed.
(** ** Note *)
Definition setNote (v : pyval) (r : greading) : greading :=
  match v with PStr (c :: s) => setattr (u "note") (PStr (noteLines T (10%N :: strip (isSpace T) (c :: s) ++ [10%N]))) r | _ => r end.
Lemma note_read g l l' a im ou li us gs an ids r : writeNote T g true = Ok l -> Forall2 (like T) l l' ->
  exists n, foldM E2 (mkG a im ou li false us gs an ids r) l' = Ok (mkG a im ou li n us gs an ids (setNote (getattr g (u "note")) r)).
Proof.
  unfold writeNote. intros W F. destruct (truthy (getattr g (u "note"))) eqn:Tr; cbn [negb orb] in W.
  - destruct (getattr g (u "note")) as [| | | |s| | | | | |]; try discriminate W. cbn [is_str] in W. apply Ok_inj in W. subst l. destruct s as [|c s]; [discriminate Tr|].
    cbn [setNote]. remember (strip (isSpace T) (c :: s)) as ss. apply F2_one in F as (f & -> & L).
    inversion L. subst. exists true. reflexivity.
  - apply Ok_inj in W. subst l. inversion F; subst. exists false. cbn [foldM]. do 2 f_equal. destruct (getattr g (u "note")) as [| | | |[|]| | | | | |]; try reflexivity. discriminate Tr.
Qed.

(** ** Image *)
Definition imageLike (image d : pyval) : Prop := forall k, vget k d = imageEntry image k.
Lemma image_step g l l' a ou li no us gs an ids r : writeImage T R ro g 2 true = Ok l -> Forall2 (like T) l l' ->
  (forall k, In k (map fst transformationInfo) -> vhas k (getattr g (u "image")) = true -> isNum (vget k (getattr g (u "image")))) ->
  exists i o, foldM E2 (mkG a false ou li no us gs an ids r) l' = Ok (mkG a i ou li no us gs an ids (match o with Some d => setattr (u "image") (toPDict d) r | None => r end)) /\
    match o with Some d => truthy (getattr g (u "image")) = true /\ imageLike (getattr g (u "image")) (toPDict d) | None => truthy (getattr g (u "image")) = false end.
Proof.
  intros W F N. apply writeImage_inv in W as [[Tr ->]|(Tr & V & ->)].
  - inversion F; subst. exists false, None. split; [reflexivity|exact Tr].
  - remember (present (imageAttrs R ro (getattr g (u "image")))) as at' eqn:Ea. apply F2_one in F as (f & -> & L). apply like_leaf_inv in L as (t & ->).
    destruct (image_read T LT R LR ro (getattr g (u "image")) (Elem (u "image") at' None [] t) V Ea N) as (d & Ed & Vd & Vl).
    exists true, (Some d). split; [|split; [exact Tr|exact Vd]]. cbn [foldM]. unfold element2, commonElement. cbn [etag].
    change (eqb (u "image") (u "outline")) with false. change (eqb (u "image") (u "advance")) with false. change (eqb (u "image") (u "unicode")) with false. change (eqb (u "image") (u "note")) with false.
    change (eqb (u "image") (u "lib")) with false. change (eqb (u "image") (u "guideline")) with false. change (eqb (u "image") (u "anchor")) with false. rewrite eqb_refl. cbn [negb simage andb echildren length Nat.eqb orb]. cbv iota.
    unfold withRead, readImage. cbn [sread seenImage]. rewrite Ed. cbn [bind]. rewrite Vl. reflexivity.
Qed.

(** ** Guidelines and anchors *)
Definition itemsOf' (v : pyval) : list pyval := match v with PList l => l | _ => [] end.
Definition numsOk (nums : list str) (g : pyval) : Prop := forall k, In k nums -> numOrNone (vget k g).
Lemma guidelines_loop gl : forall ids ids' l l' a im ou li no us gs an ids0 r, writeLoop (writeGuideline R ro true) gl ids = Ok (l, ids') -> Forall2 (like T) l l' ->
  Forall (fun g => guidelineValidator T g = true) gl -> Forall (numsOk guideNums) gl ->
  exists gl', foldM E2 (mkG a im ou li no us gs an ids0 r) l' = Ok (mkG a im ou li no us (gs ++ gl') an ids0 r) /\ Forall2 sameEntries gl gl' /\ Forall (fun g => guidelineValidator T g = true) gl' /\ fresh (map gid gl) ids ids'.
Proof.
  induction gl as [|g gl IH]; intros ids ids' l l' a im ou li no us gs an ids0 r W F V N; cbn [writeLoop] in W.
  - apply Ok_inj in W. injection W as <- <-. inversion F; subst. exists []. rewrite app_nil_r. repeat split; constructor.
  - apply bind_Ok in W as ((e & ids1) & W1 & W). apply bind_Ok in W as ((t & ids2) & W2 & W). apply Ok_inj in W. injection W as <- <-. apply writeGuideline_inv in W1 as (-> & Ss & Fr1).
    inversion V as [|? ? V1 V2]; subst. inversion N as [|? ? N1 N2]; subst. remember (present (map (numAttr R ro g) guideNums ++ map (strAttr g) itemStrs)) as at' eqn:Ea. apply F2_cons in F as (f & l0 & -> & L & F'). apply like_leaf_inv in L as (tl & ->).
    destruct (guideline_read T LT R LR ro g (Elem (u "guideline") at' None [] tl) V1 Ea N1 Ss) as (d & Ed & Sd & Vd).
    destruct (IH _ _ _ _ a im ou li no us (gs ++ [toPDict d]) an ids0 r W2 F' V2 N2) as (gl' & E & S & Vl & Fr). exists (toPDict d :: gl'). split; [|split; [constructor; assumption|split; [constructor; assumption|]]].
    + cbn [foldM]. assert (St : E2 (mkG a im ou li no us gs an ids0 r) (Elem (u "guideline") at' None [] tl) = Ok (mkG a im ou li no us (gs ++ [toPDict d]) an ids0 r)).
      { unfold element2, commonElement. cbn [etag]. change (eqb (u "guideline") (u "outline")) with false. change (eqb (u "guideline") (u "advance")) with false. change (eqb (u "guideline") (u "unicode")) with false. change (eqb (u "guideline") (u "note")) with false.
        change (eqb (u "guideline") (u "lib")) with false. rewrite eqb_refl. cbn [negb echildren length Nat.eqb orb]. cbv iota. rewrite Ed. reflexivity. }
      rewrite St. cbn [bind]. rewrite E, <- app_assoc. reflexivity.
    + cbn [map]. change (gid g :: map gid gl) with ([gid g] ++ map gid gl). apply fresh_app. exists ids1. split; assumption.
Qed.
Lemma anchors_loop gl : forall ids ids' l l' a im ou li no us gs an ids0 r, writeLoop (writeAnchor R ro true) gl ids = Ok (l, ids') -> Forall2 (like T) l l' ->
  Forall (fun g => anchorValidator T g = true) gl -> Forall (numsOk anchorNums) gl ->
  exists gl', foldM E2 (mkG a im ou li no us gs an ids0 r) l' = Ok (mkG a im ou li no us gs (an ++ gl') ids0 r) /\ Forall2 sameEntries gl gl' /\ Forall (fun g => anchorValidator T g = true) gl' /\ fresh (map gid gl) ids ids'.
Proof.
  induction gl as [|g gl IH]; intros ids ids' l l' a im ou li no us gs an ids0 r W F V N; cbn [writeLoop] in W.
  - apply Ok_inj in W. injection W as <- <-. inversion F; subst. exists []. rewrite app_nil_r. repeat split; constructor.
  - apply bind_Ok in W as ((e & ids1) & W1 & W). apply bind_Ok in W as ((t & ids2) & W2 & W). apply Ok_inj in W. injection W as <- <-. inversion V as [|? ? V1 V2]; subst. apply (writeAnchor_inv T R ro) in W1 as (-> & Ss & Fr1); [|exact V1].
    inversion N as [|? ? N1 N2]; subst. remember (present (map (numAttr R ro g) anchorNums ++ map (strAttr g) itemStrs)) as at' eqn:Ea. apply F2_cons in F as (f & l0 & -> & L & F'). apply like_leaf_inv in L as (tl & ->).
    destruct (anchor_read T LT R LR ro g (Elem (u "anchor") at' None [] tl) V1 Ea N1 Ss) as (d & Ed & Sd & Vd).
    destruct (IH _ _ _ _ a im ou li no us gs (an ++ [toPDict d]) ids0 r W2 F' V2 N2) as (gl' & E & S & Vl & Fr). exists (toPDict d :: gl'). split; [|split; [constructor; assumption|split; [constructor; assumption|]]].
    + cbn [foldM]. assert (St : E2 (mkG a im ou li no us gs an ids0 r) (Elem (u "anchor") at' None [] tl) = Ok (mkG a im ou li no us gs (an ++ [toPDict d]) ids0 r)).
      { unfold element2, commonElement. cbn [etag]. change (eqb (u "anchor") (u "outline")) with false. change (eqb (u "anchor") (u "advance")) with false. change (eqb (u "anchor") (u "unicode")) with false. change (eqb (u "anchor") (u "note")) with false.
        change (eqb (u "anchor") (u "lib")) with false. change (eqb (u "anchor") (u "guideline")) with false. rewrite eqb_refl. cbn [negb echildren length Nat.eqb orb]. cbv iota. rewrite Ed. reflexivity. }
      rewrite St. cbn [bind]. rewrite E, <- app_assoc. reflexivity.
    + cbn [map]. change (gid g :: map gid gl) with ([gid g] ++ map gid gl). apply fresh_app. exists ids1. split; assumption.
Qed.
Lemma uniq_fst V v ids ok : (match v with PList l => uniqueLoop V l ids | _ => (false, ids) end) = (true, ok) -> exists l, v = PList l /\ Forall (fun g => V g = true) l.
Proof. intro H. destruct v; try discriminate H. apply uniqueLoop_iff in H as [H _]. exists l. split; [reflexivity|exact H]. Qed.
Lemma guidelines_read g ids ids' l l' a im ou li no us gs an ids0 r : writeGuidelines T R ro g 2 true ids = Ok (l, ids') -> Forall2 (like T) l l' ->
  Forall (numsOk guideNums) (itemsOf' (getattr g (u "guidelines"))) ->
  exists gl', foldM E2 (mkG a im ou li no us gs an ids0 r) l' = Ok (mkG a im ou li no us (gs ++ gl') an ids0 r) /\ Forall2 sameEntries (itemsOf' (getattr g (u "guidelines"))) gl' /\
    Forall (fun g => guidelineValidator T g = true) gl' /\ fresh (map gid (itemsOf' (getattr g (u "guidelines")))) ids ids'.
Proof.
  unfold writeGuidelines. cbn [Z.leb Z.compare Pos.compare Pos.compare_cont andb]. intros W F N. destruct (truthy (getattr g (u "guidelines"))) eqn:Tr; cbn [negb orb] in W.
  - destruct (guidelinesValidator T (getattr g (u "guidelines")) []) as [ok x] eqn:V. cbn [fst] in W. destruct ok; [|discriminate W]. apply uniq_fst in V as (gl & E & V). rewrite E in *. cbn [iterate bind itemsOf'] in *. eapply guidelines_loop; eassumption.
  - apply Ok_inj in W. injection W as <- <-. assert (E : itemsOf' (getattr g (u "guidelines")) = []) by (destruct (getattr g (u "guidelines")) as [| | | | | | |[|]| | |]; reflexivity || discriminate Tr). rewrite E.
    inversion F; subst. exists []. rewrite app_nil_r. repeat split; constructor.
Qed.
Lemma anchors_read g ids ids' l l' a im ou li no us gs an ids0 r : writeAnchors T R ro g 2 true ids = Ok (l, ids') -> Forall2 (like T) l l' ->
  Forall (numsOk anchorNums) (itemsOf' (getattr g (u "anchors"))) ->
  exists gl', foldM E2 (mkG a im ou li no us gs an ids0 r) l' = Ok (mkG a im ou li no us gs (an ++ gl') ids0 r) /\ Forall2 sameEntries (itemsOf' (getattr g (u "anchors"))) gl' /\
    Forall (fun g => anchorValidator T g = true) gl' /\ fresh (map gid (itemsOf' (getattr g (u "anchors")))) ids ids'.
Proof.
  unfold writeAnchors. cbn [Z.leb Z.compare Pos.compare Pos.compare_cont andb]. intros W F N. destruct (truthy (getattr g (u "anchors"))) eqn:Tr; cbn [negb orb] in W.
  - destruct (anchorsValidator T (getattr g (u "anchors")) []) as [ok x] eqn:V. cbn [fst] in W. destruct ok; [|discriminate W]. apply uniq_fst in V as (gl & E & V). rewrite E in *. cbn [iterate bind itemsOf'] in *. eapply anchors_loop; eassumption.
  - apply Ok_inj in W. injection W as <- <-. assert (E : itemsOf' (getattr g (u "anchors")) = []) by (destruct (getattr g (u "anchors")) as [| | | | | | |[|]| | |]; reflexivity || discriminate Tr). rewrite E.
    inversion F; subst. exists []. rewrite app_nil_r. repeat split; constructor.
Qed.
(** ** Outline *)
Lemma like_parts e f : like T e f -> Forall2 (like T) (echildren e) (echildren f) /\ etag f = etag e /\ eattrib f = eattrib e.
Proof. intro H. destruct H as [|tag at' text' ch ch' t1 t2 NE B F]; cbn; auto. Qed.
Lemma Forall2_impl' {A B} (P Q : A -> B -> Prop) l m : (forall x y, P x y -> Q x y) -> Forall2 P l m -> Forall2 Q l m.
Proof. intros H F. induction F; constructor; auto. Qed.
Definition drawn (draw : option (list gitem)) : list (option str) := match draw with Some items => flat_map itemIds items | None => [] end.
Lemma outline_read g draw ids l l' a im li no us gs an r : writeOutline T R ro g (option_map gdrawing draw) 2 true ids = Ok l -> Forall2 (like T) l l' ->
  match draw with Some items => Forall numericItem items /\ Forall rItem' items | None => True end ->
  exists o ids', fresh (drawn draw) ids ids' /\ (forall i, In i (somes (drawn draw)) -> identifierOk i = true) /\
    foldM E2 (mkG a im false li no us gs an [] r) l' = Ok (mkG a im o li no us gs an (rev (somes (drawn draw))) (draws (match draw with Some items => gdrawing (map passedItem items) | None => [] end) r)).
Proof.
  unfold writeOutline. destruct draw as [items|]; cbn [option_map drawn].
  - intros W F [N Ri]. apply bind_Ok in W as (s & W1 & W). cbn [Z.eqb Pos.eqb andb] in W. cbn [bind] in W. apply Ok_inj in W. subst l.
    apply (pen_drawing R ro items) in W1 as (ids' & Wi & Is & ->). cbn [gOutline app] in F. set (tx := match map (itemElem R ro) items with [] => _ | _ => _ end) in F.
    apply F2_one in F as (f & -> & L).
    apply idsSeq_fresh in Is as [Fr Ok']. exists true, ids'. split; [exact Fr|]. split; [exact Ok'|].
    assert (Fr0 : idsSeq (flat_map itemIds items) [] (rev (somes (flat_map itemIds items)))).
    { apply idsSeq_fresh. split; [|exact Ok']. apply fresh_iff. apply fresh_iff in Fr as (_ & ND & _). rewrite app_nil_r. split; [reflexivity|]. split; [exact ND|]. intros i _ []. }
    assert (B : blankText T (etextOf f) = true /\ etag f = u "outline" /\ eattrib f = [] /\ Forall2 shape (map (itemElem R ro) items) (echildren f)).
    { pose proof (like_shape T _ _ L) as Sh. destruct (shape_parts _ _ Sh) as (A1 & A2 & A3). cbn [etag eattrib echildren] in A1, A2, A3. split; [|auto]. subst tx. destruct items as [|i0 items].
      - inversion L; subst. cbn [etextOf normText]. apply white_blank; [exact LT|]. repeat (constructor; [first [left; reflexivity|right; reflexivity]|]). constructor.
      - inversion L; subst. cbn [etextOf]. assumption. }
    destruct B as (B1 & B2 & B3 & B4). cbn [foldM]. unfold element2. rewrite B2, eqb_refl. unfold outlineOk. rewrite B1, B3. cbn [soutline negb orb andb length Nat.eqb]. cbn [sids seenOutline].
    rewrite (outlineLoop2_shape T true _ _ B4). rewrite (proj2 (outlineLoop2_written T LT R LR ro items [] (gdrawing (map passedItem items)) (rev (somes (flat_map itemIds items))) N)) by auto. reflexivity.
  - intros W F _. apply Ok_inj in W. subst l. inversion F; subst. exists false, ids. split; [reflexivity|]. split; [intros i []|]. cbn [foldM somes flat_map rev]. unfold draws. rewrite app_nil_r. destruct r; reflexivity.
Qed.

(** ** Lib *)
Lemma color_psame v w : psame v w -> colorValidator T v = true -> colorValidator T w = true.
Proof. intros S V. destruct v; try discriminate V. apply psame_str in S. subst w. exact V. Qed.
Lemma glyphLib_keys d : glyphLibValidator T (PDict d) = Ok true <-> Forall (fun kv => exists k, fst kv = PStr k /\ (k = u "public.markColor" -> colorValidator T (snd kv) = true)) d.
Proof.
  unfold glyphLibValidator. cbn [is_dict negb items]. induction d as [|[k v] d IH]; cbn [allM]; [split; [constructor|reflexivity]|]. split.
  - intro H. apply bind_Ok in H as (b & Hb & H). destruct b; [|discriminate H]. constructor; [|apply IH; exact H]. cbn [fst snd]. destruct k as [| | | |k| | | |[|? [|]]| |]; try discriminate Hb.
    exists k. split; [reflexivity|]. intros ->. rewrite eqb_refl in Hb. inversion Hb. reflexivity.
  - intro F. inversion F as [|? ? (k' & Ek & C) F']; subst. cbn [fst snd] in Ek, C. subst k. destruct (eqb_spec k' (u "public.markColor")) as [E|_]; [rewrite (C E)|]; cbn [bind]; apply IH; exact F'.
Qed.
Lemma glyphLib_psame v w : psame v w -> glyphLibValidator T v = Ok true -> glyphLibValidator T w = Ok true.
Proof.
  intros S V. destruct v as [| | | | | | | | |d|]; try discriminate V. apply glyphLib_keys in V. destruct (psame_entries _ _ S) as (e & e' & -> & P & F). apply glyphLib_keys.
  eapply Permutation_Forall; [exact P|]. clear P S. induction F as [|[k x] [k' y] d e1 [E Ps] F IH]; constructor.
  - inversion V as [|? ? (k0 & Ek & C) V']; subst. cbn [fst snd] in *. subst. exists k0. split; [reflexivity|]. intro Hk. eapply color_psame; [exact Ps|]. apply C. exact Hk.
  - apply IH. inversion V; assumption.
Qed.
Lemma lib_read g l l' a im ou no us gs an ids r : writeLib T R g true = Ok l -> Forall2 (like T) l l' -> (truthy (getattr g (u "lib")) = true -> plistable (getattr g (u "lib"))) ->
  exists b o, foldM E2 (mkG a im ou false no us gs an ids r) l' = Ok (mkG a im ou b no us gs an ids (match o with Some w => setattr (u "lib") w r | None => r end)) /\
    match o with Some w => truthy (getattr g (u "lib")) = true /\ psame (getattr g (u "lib")) w | None => truthy (getattr g (u "lib")) = false end.
Proof.
  unfold writeLib. intros W F P. destruct (truthy (getattr g (u "lib"))) eqn:Tr; cbn [negb] in W.
  - apply bind_Ok in W as (ok & V & W). destruct ok; [|discriminate W]. destruct (is_dict (getattr g (u "lib"))); [|discriminate W]. apply bind_Ok in W as (e & E & W). apply Ok_inj in W. subst l.
    apply F2_one in F as (f & -> & L). inversion L as [|? ? text' ? ch' ? t2 NE B F]; subst. apply F2_one in F as (fe & -> & Le).
    destruct (read_root T R LT LR (getattr g (u "lib")) true true 2 e (walk fe) (P eq_refl)) as (w & Rw & Sw); [exact E|apply (like_trace T); exact Le|].
    exists true, (Some w). split; [|split; [reflexivity|exact Sw]]. cbn [foldM]. unfold element2, commonElement. cbn [etag].
    change (eqb (u "lib") (u "outline")) with false. change (eqb (u "lib") (u "advance")) with false. change (eqb (u "lib") (u "unicode")) with false. change (eqb (u "lib") (u "note")) with false. rewrite eqb_refl.
    cbn [negb slib andb]. cbv iota. unfold withRead, readLib. cbn [echildren sread seenLib]. unfold fromtree. rewrite Rw. cbn [bind]. rewrite (glyphLib_psame _ _ Sw V). reflexivity.
  - apply Ok_inj in W. subst l. inversion F; subst. exists false, None. split; [reflexivity|reflexivity].
Qed.

(** ** The whole glyph *)
Definition optSet (k : str) (o : option pyval) (r : greading) : greading := match o with Some v => setattr k v r | None => r end.
Lemma optSet_same k o r : get k (rattrs (optSet k o r)) = match o with Some v => Some v | None => get k (rattrs r) end.
Proof. destruct o; [cbn; apply get_set_same|reflexivity]. Qed.
Lemma optSet_other k k' o r : eqb k k' = false -> get k (rattrs (optSet k' o r)) = get k (rattrs r).
Proof. intro N. destruct o; [cbn; apply get_set_other; apply eqb_neq; exact N|reflexivity]. Qed.
Lemma optSet_calls k o r : rcalls (optSet k o r) = rcalls r.
Proof. destruct o; reflexivity. Qed.
Definition nonEmpty (l : list pyval) : option pyval := match l with [] => None | _ => Some (PList l) end.
Record readBack (name : str) (g : list (str * pyval)) (draw : option (list gitem)) (r : greading) : Prop := {
  rb_calls : rcalls r = match draw with Some items => gdrawing (map passedItem items) | None => [] end;
  rb_name : get (u "name") (rattrs r) = Some (PStr name);
  rb_width : get (u "width") (rattrs r) = if zeroLike (getattr g (u "width")) && zeroLike (getattr g (u "height")) then None else Some (advOf (getattr g (u "width")));
  rb_height : get (u "height") (rattrs r) = if zeroLike (getattr g (u "width")) && zeroLike (getattr g (u "height")) then None else Some (advOf (getattr g (u "height")));
  rb_unicodes : get (u "unicodes") (rattrs r) = nonEmpty (map PInt (nub [] (codesOf (getattr g (u "unicodes")))));
  rb_note : get (u "note") (rattrs r) = match getattr g (u "note") with PStr (c :: s) => Some (PStr (noteLines T (10%N :: strip (isSpace T) (c :: s) ++ [10%N]))) | _ => None end;
  rb_image : match get (u "image") (rattrs r) with Some d => truthy (getattr g (u "image")) = true /\ imageLike (getattr g (u "image")) d | None => truthy (getattr g (u "image")) = false end;
  rb_guidelines : exists gl, get (u "guidelines") (rattrs r) = nonEmpty gl /\ Forall2 sameEntries (itemsOf' (getattr g (u "guidelines"))) gl;
  rb_anchors : exists al, get (u "anchors") (rattrs r) = nonEmpty al /\ Forall2 sameEntries (itemsOf' (getattr g (u "anchors"))) al;
  rb_lib : match get (u "lib") (rattrs r) with Some w => truthy (getattr g (u "lib")) = true /\ psame (getattr g (u "lib")) w | None => truthy (getattr g (u "lib")) = false end }.
(** what is asked of the glyph beyond being accepted by the writer *)
Record readable2 (g : list (str * pyval)) (draw : option (list gitem)) : Prop := {
  rd_width : numOrNone (getattr g (u "width"));
  rd_height : numOrNone (getattr g (u "height"));
  rd_image : forall k, In k (map fst transformationInfo) -> vhas k (getattr g (u "image")) = true -> isNum (vget k (getattr g (u "image")));
  rd_guidelines : Forall (numsOk guideNums) (itemsOf' (getattr g (u "guidelines")));
  rd_anchors : Forall (numsOk anchorNums) (itemsOf' (getattr g (u "anchors")));
  rd_draw : match draw with Some items => Forall numericItem items /\ Forall rItem' items | None => True end;
  rd_lib : truthy (getattr g (u "lib")) = true -> plistable (getattr g (u "lib")) }.
Lemma gid_same v w : sameEntries v w -> gid w = gid v.
Proof. intro S. unfold gid. rewrite S. reflexivity. Qed.
Lemma gids_same l m : Forall2 sameEntries l m -> map gid m = map gid l.
Proof. induction 1 as [|v w l m S F IH]; cbn [map]; [reflexivity|]. rewrite IH, (gid_same _ _ S). reflexivity. Qed.
Lemma somes_app l m : somes (l ++ m) = somes l ++ somes m.
Proof. apply flat_map_app. Qed.
Lemma fresh_start l ids' : fresh l [] ids' <-> ids' = rev (somes l) /\ NoDup (somes l).
Proof. rewrite fresh_iff, app_nil_r. split; [tauto|]. intros [A B]. repeat split; auto. Qed.
Lemma setUnicodes_opt s r : setUnicodes s r = optSet (u "unicodes") (nonEmpty (map PInt (sunicodes s))) r.
Proof. unfold setUnicodes. destruct (sunicodes s); reflexivity. Qed.
Theorem tree_round name g draw root f : writeGlyphTree T R ro (PStr name) g (option_map gdrawing draw) 2 true = Ok root -> readable2 g draw -> like T root f ->
  exists r, readGlyphTree T true true [1%Z; 2%Z] true f = Ok r /\ readBack name g draw r.
Proof.
  intros W [Hw Hh Hi Hg Ha Hd Hl] L. unfold writeGlyphTree in W. cbn [is_str negb orb andb py_eq] in W. destruct (eqb_spec name (@nil N)) as [->|Nn]; cbn [negb] in W; [discriminate W|].
  cbn [attrStr bind] in W. apply bind_Ok in W as (adv & Wadv & W). apply bind_Ok in W as (uni & Wuni & W). apply bind_Ok in W as (note & Wnote & W). apply bind_Ok in W as (image & Wimage & W).
  apply bind_Ok in W as ((gl & ids1) & Wgl & W). apply bind_Ok in W as ((al & ids2) & Wal & W). apply bind_Ok in W as (outl & Wout & W). apply bind_Ok in W as (lib & Wlib & W). apply Ok_inj in W. subst root.
  apply like_parts in L as (F & _ & At). cbn [echildren eattrib] in F, At.
  apply Forall2_app_inv_l in F as (adv' & x1 & Fadv & F & E1). apply Forall2_app_inv_l in F as (uni' & x2 & Funi & F & E2'). apply Forall2_app_inv_l in F as (note' & x3 & Fnote & F & E3). apply Forall2_app_inv_l in F as (image' & x4 & Fimage & F & E4).
  apply Forall2_app_inv_l in F as (gl' & x5 & Fgl & F & E5). apply Forall2_app_inv_l in F as (al' & x6 & Fal & F & E6). apply Forall2_app_inv_l in F as (out' & lib' & Fout & Flib & E7). subst x1 x2 x3 x4 x5 x6.
  set (r0 := setattr (u "name") (PStr name) (mkReading [] [])).
  set (us := nub [] (codesOf (getattr g (u "unicodes")))).
  apply writeUnicodes_inv in Wuni. subst uni. fold us in Funi.
  destruct (advance_read g adv adv' false false false false [] [] [] [] r0 Wadv Hw Hh Fadv) as (b1 & S1).
  set (r1 := setAdvance _ _ r0) in S1.
  pose proof (unicodes_read us uni' b1 false false false false [] [] [] [] r1 Funi) as S2. cbn [app] in S2. replace (nub [] us) with us in S2 by (subst us; symmetry; apply nub_nub).
  destruct (note_read g note note' b1 false false false us [] [] [] r1 Wnote Fnote) as (b3 & S3). set (r3 := setNote _ r1) in S3.
  destruct (image_step g image image' b1 false false b3 us [] [] [] r3 Wimage Fimage Hi) as (b4 & oi & S4 & Oi).
  set (r4 := match oi with Some d => _ | None => r3 end) in S4.
  destruct (guidelines_read g [] ids1 gl gl' b1 b4 false false b3 us [] [] [] r4 Wgl Fgl Hg) as (gs & S5 & Sg & Vg & Fr1). cbn [app] in S5.
  destruct (anchors_read g ids1 ids2 al al' b1 b4 false false b3 us gs [] [] r4 Wal Fal Ha) as (an & S6 & Sa & Va & Fr2). cbn [app] in S6.
  destruct (outline_read g draw ids2 outl out' b1 b4 false b3 us gs an r4 Wout Fout Hd) as (b7 & ids3 & Fr3 & Iok & S7).
  set (r7 := draws _ r4) in S7. set (oids := rev (somes (drawn draw))) in S7.
  destruct (lib_read g lib lib' b1 b4 b7 b3 us gs an oids r7 Wlib Flib Hl) as (b8 & ol & S8 & Ol). set (r8 := match ol with Some w => _ | None => r7 end) in S8.
  (* identifiers *)
  assert (ND : NoDup (somes (drawn draw) ++ somes (map gid gs) ++ somes (map gid an))).
  { rewrite (gids_same _ _ Sg), (gids_same _ _ Sa).
    assert (X : fresh ((map gid (itemsOf' (getattr g (u "guidelines"))) ++ map gid (itemsOf' (getattr g (u "anchors")))) ++ drawn draw) [] ids3) by (apply fresh_app; exists ids2; split; [apply fresh_app; exists ids1; auto|exact Fr3]).
    apply fresh_start in X as [_ X]. rewrite !somes_app in X. eapply Permutation_NoDup; [|exact X]. apply Permutation_app_comm. }
  assert (X : exists idsG, fresh (map gid gs) oids idsG /\ exists idsA, fresh (map gid an) idsG idsA).
  { assert (X : fresh (drawn draw ++ map gid gs ++ map gid an) [] (rev (somes (drawn draw ++ map gid gs ++ map gid an)))) by (apply fresh_start; split; [reflexivity|rewrite !somes_app; exact ND]).
    apply fresh_app in X as (i1 & X1 & X). apply fresh_start in X1 as [-> _]. apply fresh_app in X as (i2 & X2 & X3). exists i2. split; [exact X2|eauto]. }
  destruct X as (idsG & XG & idsA & XA).
  set (r9 := optSet (u "unicodes") (nonEmpty (map PInt us)) r8).
  set (r10 := optSet (u "guidelines") (nonEmpty gs) r9). set (r11 := optSet (u "anchors") (nonEmpty an) r10).
  exists r11. split.
  - unfold readGlyphTree, eget. rewrite At. change (get (u "format") [(u "name", name); (u "format", str_of_Z 2)]) with (Some (str_of_Z 2)). cbv iota. rewrite (parseInt_str_of_Z T 2 LT). cbn [negb orb].
    change (mem 2%Z [1%Z; 2%Z]) with true. cbv iota. unfold readFormat2, readName, eget. rewrite At. change (get (u "name") [(u "name", name); (u "format", str_of_Z 2)]) with (Some name).
    destruct name as [|c name]; [contradiction|]. cbn [bind]. fold r0. unfold startState. rewrite E1. rewrite foldM_app', S1. cbn [bind]. rewrite foldM_app', S2. cbn [bind]. rewrite foldM_app', S3. cbn [bind]. rewrite foldM_app', S4. cbn [bind]. rewrite foldM_app', S5. cbn [bind]. rewrite foldM_app', S6. cbn [bind]. rewrite foldM_app', S7. cbn [bind]. rewrite S8. cbn [bind].
    rewrite setUnicodes_opt. cbn [sunicodes sguidelines sanchors sids sread]. fold r9.
    match goal with |- bind ?X _ = _ => assert (EG : X = Ok (r10, idsG)) end.
    { unfold guidelinesValidator. subst r10. destruct gs as [|g0 gs]; [cbn in XG; subst idsG; reflexivity|]. rewrite (proj2 (uniqueLoop_iff (guidelineValidator T) (g0 :: gs) oids idsG) (conj Vg XG)). reflexivity. }
    rewrite EG. cbn [bind]. unfold anchorsValidator. subst r11. destruct an as [|a0 an]; [reflexivity|]. rewrite (proj2 (uniqueLoop_iff (anchorValidator T) (a0 :: an) idsG idsA) (conj Va XA)). reflexivity.
  - assert (A1 : r1 = optSet (u "height") (if zeroLike (getattr g (u "width")) && zeroLike (getattr g (u "height")) then None else Some (advOf (getattr g (u "height"))))
                       (optSet (u "width") (if zeroLike (getattr g (u "width")) && zeroLike (getattr g (u "height")) then None else Some (advOf (getattr g (u "width")))) r0)).
    { subst r1. unfold setAdvance. destruct (zeroLike _ && zeroLike _); reflexivity. }
    assert (A3 : r3 = optSet (u "note") (match getattr g (u "note") with PStr (c :: s) => Some (PStr (noteLines T (10%N :: strip (isSpace T) (c :: s) ++ [10%N]))) | _ => None end) r1).
    { subst r3. unfold setNote. destruct (getattr g (u "note")) as [| | | |[|]| | | | | |]; reflexivity. }
    assert (A4 : r4 = optSet (u "image") (option_map toPDict oi) r3) by (subst r4; destruct oi; reflexivity).
    assert (A8 : r8 = optSet (u "lib") ol r7) by (subst r8; destruct ol; reflexivity).
    assert (A7 : rattrs r7 = rattrs r4) by reflexivity.
    assert (Cc : rcalls r11 = match draw with Some items => gdrawing (map passedItem items) | None => [] end).
    { subst r11 r10 r9. rewrite !optSet_calls, A8, optSet_calls. subst r7. cbn [draws rcalls]. rewrite A4, optSet_calls, A3, optSet_calls, A1, !optSet_calls. reflexivity. }
    clearbody r1 r3 r4 r7 r8.
    constructor; try exact Cc; subst r11 r10 r9; rewrite ?optSet_same; repeat (rewrite optSet_other by reflexivity; rewrite ?optSet_same).
    all: rewrite ?A8; rewrite ?optSet_same; rewrite ?optSet_other by reflexivity; rewrite ?A7; rewrite ?A4; rewrite ?optSet_same; rewrite ?optSet_other by reflexivity; rewrite ?A3; rewrite ?optSet_same; rewrite ?optSet_other by reflexivity; rewrite ?A1; repeat (rewrite ?optSet_same; rewrite ?optSet_other by reflexivity).
    all: try reflexivity.
    + destruct (zeroLike _ && zeroLike _); reflexivity.
    + destruct (zeroLike _ && zeroLike _); reflexivity.
    + fold us. destruct us; reflexivity.
    + destruct (getattr g (u "note")) as [| | | |[|]| | | | | |]; reflexivity.
    + destruct oi; exact Oi.
    + exists gs. split; [destruct gs; reflexivity|exact Sg].
    + exists an. split; [destruct an; reflexivity|exact Sa].
    + destruct ol; exact Ol.
Qed.
End Read.
