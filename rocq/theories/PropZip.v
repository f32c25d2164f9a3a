(** Property C89: UFOs in zip archives. *)
From Coq Require Import String NArith ZArith Bool Lia List.
From Coq.Floats Require Import SpecFloat.
From Verif Require Import Base Filenames PyVal PyText FloatRepr Kerning FS FSProofs Ufo UfoProofs PlistFiles Zip ZipProofs.
Import ListNotations.
Local Open Scope string_scope.
Local Open Scope list_scope.

(** an archive and a package with the same UFO, or two paths with nothing there *)
Definition sameUfo (p q : place) : Prop :=
  p = Nothing /\ q = Nothing \/ exists a t, p = Archive a /\ q = Folder t /\ good a /\ readerRoot p = Ok t.
(** the creator can be written to metainfo.plist *)
Definition creatorOk (C : codec) (s : session) : Prop :=
  exists b, dumps C (PDict [(PStr (u "creator"), screator s); (PStr (u "formatVersion"), PInt (sversion s))]) = Ok b.
Definition sessionOk (C : codec) (s : session) : Prop := creatorOk C s /\ Forall methodOk (smethods s).

Lemma rootDir_name p : eqb (rootDir p) (u "__MACOSX") = false.
Proof.
  apply eqb_neq. unfold rootDir. intro E. apply (f_equal (@rev N)) in E. rewrite rev_app_distr in E. vm_compute in E. discriminate E.
Qed.
Lemma rootOf_new p t : good t -> rootOf (Dir [(rootDir p, t)]) = Ok t.
Proof.
  intros (_ & es & ->). unfold rootOf, rootDirs. cbn [entries filter]. rewrite rootDir_name. reflexivity.
Qed.
Lemma good_new p t : good t -> good (Dir [(rootDir p, t)]).
Proof. intros (W & _). apply good_dir; [constructor; [intros []|constructor]|constructor; [exact W|constructor]]. Qed.
Lemma rootOf_good a t : good a -> rootOf a = Ok t -> good t.
Proof.
  intros (W & es & ->) R. unfold rootOf, rootDirs in R. cbn [entries] in R.
  destruct (filter _ es) as [|[k n] [|]] eqn:F; try discriminate R. injection R as <-.
  assert (X : In (k, n) (filter (fun '(k, n) => match n with Dir _ => true | File _ => false end && negb (eqb k (u "__MACOSX"))) es)) by (rewrite F; left; reflexivity).
  apply filter_In in X as (X & Y). inversion W as [|? _ A]; subst. rewrite Forall_forall in A. specialize (A _ X). cbn [snd] in A.
  split; [exact A|]. destruct n; [discriminate Y|eauto].
Qed.

Section Sessions.
Variable C : codec.
Variable T : pytext.
Variable lower : str -> str.

Lemma methods_same ms : forall p w w', Forall methodOk ms -> zipped w = true -> zipped w' = false -> wconf w = wconf w' -> ustate w = ustate w' -> shut w = false ->
  good (tree (ustate w)) ->
  exists st xs, runMethods C lower ms p w = (p, mkOpen (wconf w) true st false, xs) /\
    runMethods C lower ms (Folder (tree (ustate w'))) w' = (Folder (tree st), mkOpen (wconf w) false st (shut w'), xs) /\ good (tree st).
Proof.
  induction ms as [|m ms IH]; intros p w w' Hm Z Z' Ec Es Sh G.
  - exists (ustate w), []. destruct w as [cw zw sw hw], w' as [cw' zw' sw' hw']. cbn [wconf zipped ustate shut runMethods] in *. subst. auto.
  - inversion Hm as [|? ? Om Oms]; subst. cbn [runMethods]. unfold onOpen at 1 2. rewrite <- Ec, <- Es, Z, Z'.
    pose proof (keeps_method C lower m (wconf w) Om (ustate w) G) as K. destruct (wcall C lower m (wconf w) (ustate w)) as [st r]. cbn [fst] in K.
    destruct (IH p (mkOpen (wconf w) true st (shut w)) (mkOpen (wconf w) false st (shut w')) Oms eq_refl eq_refl eq_refl eq_refl Sh K) as (st' & xs & E & E' & G').
    exists st', (r :: xs). cbn [wconf ustate shut] in E, E'. rewrite E, E'. auto.
Qed.

Lemma init_fresh c v : mem (ver c) supported = true -> hp c = false ->
  (exists b, dumps C (PDict [(PStr (u "creator"), creator c); (PStr (u "formatVersion"), PInt (ver c))]) = Ok b) ->
  exists st, initWriter C T c v (mkUst (Dir []) [] [] None) = (st, Ok tt).
Proof.
  intros V H (b & D). unfold initWriter. rewrite V, H.
  destruct (writePlist_total C false nMetainfo (PDict [(PStr (u "creator"), creator c); (PStr (u "formatVersion"), PInt (ver c))]) (mkUst (Dir []) [] [] None) b) as (st & E);
    [exists []; reflexivity|discriminate|exact D|].
  exists st. unfold mbind, ret, getTree, setLayers. cbn [tree existsAt find get fst snd log remap]. unfold writeMetaInfo. rewrite H. exact E.
Qed.

(** ** C89 *)
(** A session on an archive has the same results as on a package, and leaves the
    same files for a reader. *)
Lemma session_same path path' s p q : sessionOk C s -> sameUfo p q ->
  exists p' q' xs, runSession C T lower path (AEnum ZIP) s p = (p', xs) /\ runSession C T lower path' (AEnum PACKAGE) s q = (q', xs) /\ sameUfo p' q'.
Proof.
  intros (Co & Om) S. unfold runSession, openWriter. destruct (mem (sversion s) supported) eqn:V; cbn [negb];
    [|exists p, q, [Err UFOLibError]; auto].
  destruct S as [(-> & ->)|(a & t & -> & -> & Ga & R)].
  - cbn [destOf structureOf bind structure_eqb]. 
    destruct (init_fresh (mkCfg (sversion s) false (screator s)) (svalidate s) V eq_refl Co) as (st & E).
    pose proof (keeps_init C T (mkCfg (sversion s) false (screator s)) (svalidate s) (mkUst (Dir []) [] [] None) good_empty) as K.
    rewrite E in *. cbn [fst] in K.
    destruct (methods_same (smethods s) Nothing (mkOpen (mkCfg (sversion s) false (screator s)) true st false) (mkOpen (mkCfg (sversion s) false (screator s)) false st false) Om eq_refl eq_refl eq_refl eq_refl eq_refl K)
      as (st' & xs & E1 & E2 & G'). cbn [ustate wconf shut] in E1, E2. rewrite E1, E2. unfold closeWriter. cbn [zipped wconf hp shut ustate].
    eexists _, _, _. split; [reflexivity|]. split; [reflexivity|]. right. eexists _, _. split; [reflexivity|]. split; [reflexivity|].
    split; [apply good_new; exact G'|]. exact (rootOf_new path (tree st') G').
  - unfold readerRoot in R. cbn [destOf sniff bind] in R. cbn [destOf structureOf sniff toEnum structure_eqb bind]. rewrite (copyFs_good a Ga). cbn [bind]. rewrite R. pose proof (rootOf_good a t Ga R) as G.
    destruct (initWriter C T (mkCfg (sversion s) true (screator s)) (svalidate s) (mkUst t [] [] None)) as [st [[]|e]] eqn:E.
    + pose proof (keeps_init C T (mkCfg (sversion s) true (screator s)) (svalidate s) (mkUst t [] [] None) G) as K. rewrite E in K. cbn [fst] in K.
      destruct (methods_same (smethods s) (Archive a) (mkOpen (mkCfg (sversion s) true (screator s)) true st false) (mkOpen (mkCfg (sversion s) true (screator s)) false st false) Om eq_refl eq_refl eq_refl eq_refl eq_refl K)
        as (st' & xs & E1 & E2 & G'). cbn [ustate wconf shut] in E1, E2. rewrite E1, E2. unfold closeWriter. cbn [zipped wconf hp shut ustate].
      rewrite (copyFs_good _ G').
      eexists _, _, _. split; [reflexivity|]. split; [reflexivity|]. right. eexists _, _. split; [reflexivity|]. split; [reflexivity|].
      split; [apply good_new; exact G'|]. exact (rootOf_new path (tree st') G').
    + apply initWriter_err in E as (E & _); [|reflexivity]. cbn [tree] in E. eexists _, _, _. split; [reflexivity|]. split; [reflexivity|].
      right. exists a, t. rewrite E. auto.
Qed.
Theorem C89_like_package : forall path path' ss p q, Forall (sessionOk C) ss -> sameUfo p q ->
  exists p' q' xs, runSessions C T lower path (AEnum ZIP) ss p = (p', xs) /\ runSessions C T lower path' (AEnum PACKAGE) ss q = (q', xs) /\
    readerRoot p' = readerRoot q' /\ sameUfo p' q'.
Proof.
  intros path path' ss. induction ss as [|s ss IH]; intros p q Os S.
  - exists p, q, []. split; [reflexivity|]. split; [reflexivity|]. split; [|exact S]. destruct S as [(-> & ->)|(a & t & -> & -> & _ & R)]; [reflexivity|exact R].
  - inversion Os as [|? ? O1 O2]; subst. destruct (session_same path path' s p q O1 S) as (p1 & q1 & xs & E1 & E2 & S1).
    destruct (IH p1 q1 O2 S1) as (p' & q' & ys & E3 & E4 & R & S'). exists p', q', (xs :: ys). cbn [runSessions]. rewrite E1, E2, E3, E4. auto.
Qed.
(** Until close(), whatever is done and whatever raises, the archive (or the empty
    place) is as it was; close() puts the files of the writer there. *)
Theorem C89_until_close : forall path a version creator validate p p' w,
  openWriter C T a version creator validate p = (p', Ok w) -> zipped w = true -> (forall arch, p = Archive arch -> good arch) ->
  p' = p /\
  forall ms p'' w' xs, Forall methodOk ms -> runMethods C lower ms p w = (p'', w', xs) ->
    p'' = p /\ exists q w'', closeWriter path p'' w' = (q, w'', Ok tt) /\ readerRoot q = Ok (tree (ustate w')).
Proof.
  intros path a version creator validate p p' w O Z Ga.
  unfold openWriter in O. destruct (negb (mem version supported)); [inversion O|].
  destruct (structureOf a (destOf p)) as [[zip x]|e]; [|inversion O]. destruct zip.
  2: { destruct (initWriter C T _ validate _) as [st [[]|e]]; inversion O; subst; discriminate Z. }
  destruct (match p with Archive t => do t' <- copyFs t; rootOf t' | _ => Ok (Dir []) end) as [t|e] eqn:Et; [|inversion O].
  assert (G : good t).
  { destruct p as [|f|ar|b]; try (injection Et as <-; exact good_empty). rewrite (copyFs_good ar (Ga ar eq_refl)) in Et. cbn [bind] in Et. exact (rootOf_good ar t (Ga ar eq_refl) Et). }
  set (c := mkCfg version (match p with Nothing => false | _ => true end) creator) in *.
  pose proof (keeps_init C T c validate (mkUst t [] [] None) G) as K.
  destruct (initWriter C T c validate (mkUst t [] [] None)) as [st [[]|e]]; [|inversion O]. cbn [fst] in K. injection O as <- <-. split; [reflexivity|].
  intros ms p'' w' xs Om R.
  destruct (methods_same ms p (mkOpen c true st false) (mkOpen c false st false) Om eq_refl eq_refl eq_refl eq_refl eq_refl K) as (st' & ys & E1 & _ & G').
  rewrite E1 in R. injection R as <- <- <-. split; [reflexivity|]. cbn [wconf ustate].
  unfold closeWriter. cbn [zipped wconf shut ustate hp]. destruct (hp c).
  - rewrite (copyFs_good _ G'). eexists _, _. split; [reflexivity|]. exact (rootOf_new path (tree st') G').
  - eexists _, _. split; [reflexivity|]. exact (rootOf_new path (tree st') G').
Qed.
(** a constructor that raises leaves an archive as it was *)
Theorem C89_refused : forall a version creator validate arch p' e,
  openWriter C T a version creator validate (Archive arch) = (p', Err e) -> p' = Archive arch.
Proof.
  intros a version creator validate arch p' e O. unfold openWriter in O. destruct (negb (mem version supported)); [inversion O; reflexivity|].
  destruct (structureOf a (destOf (Archive arch))) as [[zip x]|e'] eqn:S; [|inversion O; reflexivity].
  assert (Z : zip = true).
  { unfold structureOf in S. cbn [destOf sniff bind] in S. destruct a as [|s|s]; [inversion S; reflexivity|..]; (destruct (toEnum _) as [s'|] eqn:Es; [|discriminate S]); (destruct s'; [inversion S; reflexivity|discriminate S]). }
  subst zip. destruct (do t' <- copyFs arch; rootOf t') as [t|e''] eqn:Et; [|inversion O; reflexivity].
  destruct (initWriter C T _ validate _) as [st [[]|e'']]; inversion O; reflexivity.
Qed.
End Sessions.
Print Assumptions C89_like_package.
Print Assumptions C89_until_close.
Print Assumptions C89_refused.

(** Closing twice destroys an archive that existed before, for example when close()
    is called inside a with statement. *)
Definition zipC : codec := plistCodec toyText toyRepr.
Definition zipCase : list session :=
  [mkSession 2 (PStr (u "me")) true [WFeatures (PStr (u "# a")) true; WInfo (PDict [])];
   mkSession 3 (PStr (u "me")) true [WGetGlyphSet None true true; WBytes (u "data/x/y") (u "z"); WFeatures (PInt 3) true; WRemove (u "none") false true; WLayerContents None true];
   mkSession 2 (PStr (u "me")) true [];
   mkSession 3 (PStr (u "me")) true [WImage (u "a.png") (u "no") true; WLayerContents None true; WFeatures (PStr []) true]].
Theorem C89_close_twice_refuted : exists path p p1 w p2 w2 p3 w3,
  openWriter zipC toyText ANone 3 (PStr (u "me")) true p = (p1, Ok w) /\
  closeWriter path p1 w = (p2, w2, Ok tt) /\ readerRoot p2 = Ok (tree (ustate w)) /\
  closeWriter path p2 w2 = (p3, w3, Err FSError) /\ readerRoot p3 = Ok (Dir []).
Proof.
  exists (u "/home/font.ufoz").
  set (p := fst (runSession zipC toyText ascii_lower (u "/home/font.ufoz") (AEnum ZIP) (mkSession 3 (PStr (u "me")) true [WBytes (u "data/x") (u "z"); WGetGlyphSet None true true; WLayerContents None true]) Nothing)).
  exists p. destruct (openWriter zipC toyText ANone 3 (PStr (u "me")) true p) as [p1 [w|e]] eqn:E; [|vm_compute in E; discriminate E].
  exists p1, w. vm_compute in E. injection E as <- <-.
  eexists _, _, _, _. split; [reflexivity|]. split; [vm_compute; reflexivity|]. split; [vm_compute; reflexivity|]. split; [vm_compute; reflexivity|]. vm_compute. reflexivity.
Qed.
Print Assumptions C89_close_twice_refuted.
Example C89_case :
  let z := runSessions zipC toyText ascii_lower (u "dir/My.Font.ufoz") (AEnum ZIP) zipCase Nothing in
  let f := runSessions zipC toyText ascii_lower (u "dir/My.Font.ufo") (AEnum PACKAGE) zipCase Nothing in
  snd z = snd f /\ readerRoot (fst z) = readerRoot (fst f) /\
  snd z = [[Ok tt; Ok tt; Ok tt; Ok tt]; [Ok tt; Ok tt; Ok tt; Err UFOLibError; Err UFOLibError; Ok tt; Ok tt]; [Err UFOLibError]; [Ok tt; Err UFOLibError; Ok tt; Ok tt; Ok tt]] /\
  match fst z with
  | Archive (Dir [(r, t)]) => r = u "My.Font.ufo" /\ fileAt t [u "data"; u "x"; u "y"] = Some (u "z") /\ isfile t [u "layercontents.plist"] = true /\ existsAt t [u "features.fea"] = false
  | _ => False
  end.
Proof. vm_compute. repeat split. Qed.
