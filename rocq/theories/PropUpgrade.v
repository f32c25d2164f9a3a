(** C101: changing a UFO 1 or UFO 2 in place with a writer for UFO 3.  The writer
    writes metainfo.plist for UFO 3 when it is opened; all other files stay as
    they are until they are written. *)
From Coq Require Import String NArith ZArith Bool Lia List Permutation.
From Coq.Floats Require Import SpecFloat.
From Verif Require Import Base PyVal PyText FloatRepr LowerLaws Filenames FilenamesProofs PropFilenames GlyphSet GlyphSetProofs NamesApart PropGlyphSet.
From Verif Require Import Xml FS FSProofs Validators PropValidators Ufo UfoProofs PropUfo PropUfoFiles Plist PropPlist Etree EtreeProofs PlistFiles PropPlistLoaded PointPen PropPointPen Glif GlifProofs GlifOutline GlifElements GlifAccepted GlifAgain PropGlif PropSession PropLayers FontInfo FontInfoProofs PropFontInfo PropInfoFile Kerning Font FontProofs FontLayers FontData PropFont FontAccepts PropAccepts SaveAs PropSaveAs PropEditing.
Import ListNotations.
Local Open Scope string_scope.
Local Open Scope list_scope.
Local Notation dict_ok := Base.dict_ok.
Local Notation find := FS.find.
Local Notation fileAt := FS.fileAt.

(** ** What the client does first *)
(** the parts that are stored differently in UFO 3, as they have been read *)
Definition rewriting (f : ufont) : list faction := [AInfo (uInfo f); AGroups (uGroups f); AKerning (uKerning f); ALib (uLib f); AFeatures (uFeatures f)].
(** texts and values of these parts are kept by plistlib *)
Record cleanParts (f : ufont) : Prop := {
  cp_info : forall x v, setTo (uInfo f) x v -> plistFaithful v;
  cp_groups : plistFaithful (groupsVal (uGroups f));
  cp_kerning : forall a b v, In (a, b, v) (uKerning f) -> textOk a /\ textOk b /\ plistFaithful v;
  cp_lib : plistFaithful (PDict (uLib f)) }.
(** An older UFO: one directory with glyphs; nothing with a name that only UFO 3 gives
    a meaning, except for a data directory. *)
Record tidyOld (T : pytext) (lower : str -> str) (named : str -> str -> Prop) (t : node) : Prop := {
  to_tree : wf t;
  to_glyphs : tidyLayer T lower named (find t [u "glyphs"]);
  to_others : forall x, ownDir x -> find t [x] <> None -> x = u "glyphs";
  to_images : find t [u "images"] = None;
  to_layers : find t [u "layercontents.plist"] = None;
  to_data : match find t [u "data"] with
            | None => True
            | Some (File _) => False
            | Some (Dir ds) => (forall p, fileAt (Dir ds) p <> None -> Forall plainName p) /\
                forall q, q <> [] -> isdir (Dir ds) q = true -> exists r, fileAt (Dir ds) (q ++ r) <> None
            end }.

(** ** Glyphs of older UFOs *)
Lemma older_glyph T v b r : (v < 3)%Z -> gsReadBytes T v true true true b = Ok r -> gsReadBytes T 3 true true true b = Ok r.
Proof.
  intros V E. unfold gsReadBytes, readGlyphBytes in *. destruct (glifTree T b) as [e|]; [|discriminate E]. cbn [bind] in *. unfold readGlyphTree, readVersions in *. destruct (Z.ltb_spec v 3); [|lia]. change (3 <? 3)%Z with false.
  destruct (eget (u "format") e) as [s|]; [|discriminate E]. destruct (parseInt T s) as [z|]; [|discriminate E]. cbn [negb orb] in *. destruct (mem z [1%Z]) eqn:M; [|discriminate E]. apply mem_In in M. destruct M as [M|[]]. subst z. exact E.
Qed.
Lemma older_glyphs T v w l gl : (v < 3)%Z -> mapM (fun g => do r <- readGlyphOf T v (fun f => f) g w; Ok (g, r)) l = Ok gl -> mapM (fun g => do r <- readGlyphOf T 3 (fun f => f) g w; Ok (g, r)) l = Ok gl.
Proof.
  intro V. revert gl. induction l as [|g l IH]; intros gl E; cbn [mapM] in *; [exact E|]. apply bind_Ok in E as (y & Ey & E). apply bind_Ok in E as (ys & Eys & E). rewrite (IH _ Eys).
  apply bind_Ok in Ey as (r & Er & Ey). assert (X : readGlyphOf T 3 (fun f => f) g w = Ok r).
  { unfold readGlyphOf in *. apply bind_Ok in Er as (b & Eb & Er). rewrite Eb. cbn [bind]. eapply older_glyph; eassumption. }
  rewrite X. cbn [bind]. apply Ok_inj in Ey. subst y. cbn [bind]. exact E.
Qed.

Lemma foldM_both {A B} (f : A -> B -> res A) l l' s s1 s2 : foldM f s l = Ok s1 -> foldM f s1 l' = Ok s2 -> foldM f s (l ++ l') = Ok s2.
Proof. revert s. induction l as [|a l IH]; intros s E E'; cbn [app foldM] in *; [apply Ok_inj in E; subst s1; exact E'|]. apply bind_Ok in E as (s3 & E3 & E). rewrite E3. cbn [bind]. apply IH; assumption. Qed.

(** ** The parts are rewritten *)
Section Upgrade.
Variable T : pytext.
Variable R : spec_float -> str.
Variable ro : pyval -> str.
Variable lower : str -> str.
Variable toFileName : str -> list (str * str) -> res str.
Hypothesis LT : pytext_laws T.
Hypothesis LR : repr_laws T R.
Hypothesis keeps : lower_keeps lower.
Hypothesis LL : lower_laws lower.
Variable ok : str -> Prop.
Variable named P : str -> str -> Prop.
Hypothesis fresh_names : forall n e f, ok n -> (forall g, In g (keys e) -> exists m, m <> n /\ P m g) -> toFileName n e = Ok f ->
  P n f /\ ~ In (lower f) (map lower (keys e)) /\ f <> contentsName.
Hypothesis ok_text : forall n, ok n -> textOk n.
Hypothesis P_text : forall n f, P n f -> textOk f.
Hypothesis P_file : forall n f, P n f -> glyphFile f.
Hypothesis total_names : forall n e, n <> [] -> fewNames e -> exists f, toFileName n e = Ok f.
Hypothesis P_named : forall n f, textOk n -> textOk f -> glyphFile f -> named n f -> P n f.
Notation C := (plistCodec T R).
Notation factOn := (factOn T R ro lower toFileName).
Definition parts : list str := [nFontinfo; nGroups; nKerning; nLib; nFeatures].

Definition partsKept (es es' : list (str * node)) : Prop := forall y, ~ In y parts -> get y es' = get y es.
Lemma kept_touch x es es1 es' : In x parts -> partsKept es es1 -> (forall y, y <> x -> get y es' = get y es1) -> partsKept es es'.
Proof. intros I K F y N. rewrite F; [apply K; exact N|]. intros ->. contradiction. Qed.
Lemma rewritten c es w f : fontLoaded T f -> cleanParts f -> tree w = Dir es -> (forall y, In y parts -> FontAccepts.fileAt y es) ->
  exists w' es', foldM factOn (mkFst (mkCfg 3 true (PStr c)) w []) (rewriting f) = Ok (mkFst (mkCfg 3 true (PStr c)) w' []) /\ layers w' = layers w /\ tree w' = Dir es' /\ partsKept es es' /\
    readsInfo T R (uInfo f) (Dir es') /\ readsGroups T R (uGroups f) (Dir es') /\ readsKerning T R (uKerning f) (Dir es') /\ readsLib T R (uLib f) (Dir es') /\ readFeatures (Dir es') = Ok (uFeatures f).
Proof.
  intros [F1 F2 [F3 F3'] F4 F5 _ _ _ _ _ _] [C1 C2 C3 C4] E Fs. set (cf := mkCfg 3 true (PStr c)).
  pose proof (fun s es a => parts_total T R ro lower toFileName LT LR ok (foundFont f) [] s es a) as Tot. cbn [rewriting foldM].
  
  destruct (Tot (mkFst cf w []) es (AInfo (uInfo f)) eq_refl E Fs C1 F1) as (s1 & E1). rewrite E1. cbn [bind]. rewrite fact_Info in E1. destruct F1 as (d & W). rewrite W in E1. cbn [bind] in E1. apply onWriter_inv in E1 as (w1 & E1 & ->).
  destruct (info_step T R LT LR _ _ _ _ _ C1 W E1) as [[L1 T1] I1]. destruct (T1 es E) as (es1 & Et1 & K1). cbn [writer cfg sets] in *.
  assert (Fs1 : forall y, In y parts -> FontAccepts.fileAt y es1).
  { intros y Iy. destruct (eqb_spec y nFontinfo) as [->|N]; [|intros ds G; rewrite K1 in G by exact N; exact (Fs y Iy ds G)]. destruct (I1 (fun l => l)) as (v & d' & Er & _). unfold readInfoFile in Er. apply bind_Ok in Er as (w0 & Er & _). rewrite Et1 in Er. eapply getPlist_file. exact Er. }
  (* groups *)
  assert (A2 : allowedIn ok (foundFont f) (AGroups (uGroups f))) by (split; [right; left; reflexivity|exact C2]).
  destruct (Tot (mkFst cf w1 []) es1 (AGroups (uGroups f)) eq_refl Et1 Fs1 A2 F2) as (s2 & E2). rewrite E2. cbn [bind]. rewrite fact_Groups in E2. apply onWriter_inv in E2 as (w2 & E2 & ->).
  destruct (groups_done T R LT LR cf _ es1 w1 w2 eq_refl Et1 (or_intror (or_introl eq_refl)) C2 E2) as [[L2 T2] I2]. destruct (T2 es1 Et1) as (es2 & Et2 & K2). cbn [writer cfg sets] in *.
  assert (Fs2 : forall y, In y parts -> FontAccepts.fileAt y es2).
  { intros y Iy. destruct (eqb_spec y nGroups) as [->|N]; [|intros ds G; rewrite K2 in G by exact N; exact (Fs1 y Iy ds G)]. destruct I2 as (v & Er & _). specialize (Er (fun _ _ => Err TypeError) None). unfold readGroups, readGroupsRaw in Er. change (3 <? 3)%Z with false in Er. cbv iota in Er. cbn [snd] in Er. apply bind_Ok in Er as (w0 & Er & _). rewrite Et2 in Er. eapply getPlist_file. exact Er. }
  (* kerning *)
  pose proof (nested_faithful (uKerning f) F3 C3) as N3.
  assert (A3 : allowedIn ok (foundFont f) (AKerning (uKerning f))) by (split; [right; left; reflexivity|split; assumption]).
  destruct (Tot (mkFst cf w2 []) es2 (AKerning (uKerning f)) eq_refl Et2 Fs2 A3 F3') as (s3 & E3). rewrite E3. cbn [bind]. rewrite fact_Kerning in E3. apply onWriter_inv in E3 as (w3 & E3 & ->).
  destruct (kerning_done T R LT LR cf _ es2 w2 w3 eq_refl Et2 (or_intror (or_introl eq_refl)) F3 N3 E3) as [[L3 T3] I3]. destruct (T3 es2 Et2) as (es3 & Et3 & K3). cbn [writer cfg sets] in *.
  assert (Fs3 : forall y, In y parts -> FontAccepts.fileAt y es3).
  { intros y Iy. destruct (eqb_spec y nKerning) as [->|N]; [|intros ds G; rewrite K3 in G by exact N; exact (Fs2 y Iy ds G)]. destruct I3 as (v & Er & _). specialize (Er (fun _ _ => Err TypeError) None). unfold readKerning, readKerningRaw in Er. change (3 <? 3)%Z with false in Er. cbv iota in Er. cbn [snd] in Er. apply bind_Ok in Er as (w0 & Er & _). rewrite Et3 in Er. eapply getPlist_file. exact Er. }
  (* lib *)
  assert (A4 : allowedIn ok (foundFont f) (ALib (uLib f))) by (split; [right; left; reflexivity|exact C4]).
  destruct (Tot (mkFst cf w3 []) es3 (ALib (uLib f)) eq_refl Et3 Fs3 A4 F4) as (s4 & E4). rewrite E4. cbn [bind]. rewrite fact_Lib in E4. apply onWriter_inv in E4 as (w4 & E4 & ->).
  destruct (lib_done T R LT LR cf _ es3 w3 w4 eq_refl Et3 (or_intror (or_introl eq_refl)) C4 E4) as [[L4 T4] I4]. destruct (T4 es3 Et3) as (es4 & Et4 & K4). cbn [writer cfg sets] in *.
  assert (Fs4 : forall y, In y parts -> FontAccepts.fileAt y es4).
  { intros y Iy. destruct (eqb_spec y nLib) as [->|N]; [|intros ds G; rewrite K4 in G by exact N; exact (Fs3 y Iy ds G)]. destruct I4 as (v & Er & _). unfold Ufo.readLib in Er. apply bind_Ok in Er as (w0 & Er & _). rewrite Et4 in Er. eapply getPlist_file. exact Er. }
  (* features *)
  assert (A5 : allowedIn ok (foundFont f) (AFeatures (uFeatures f))) by (right; left; reflexivity).
  destruct (Tot (mkFst cf w4 []) es4 (AFeatures (uFeatures f)) eq_refl Et4 Fs4 A5 F5) as (s5 & E5). rewrite E5. cbn [bind]. rewrite fact_Features in E5. apply onWriter_inv in E5 as (w5 & E5 & ->).
  destruct (features_done cf _ es4 w4 w5 eq_refl Et4 (or_intror (or_introl eq_refl)) E5) as [[L5 T5] I5]. destruct (T5 es4 Et4) as (es5 & Et5 & K5). cbn [writer cfg sets] in *.
  exists w5, es5. split; [reflexivity|]. split; [congruence|]. split; [exact Et5|]. split.
  { apply (kept_touch nFeatures _ es4); [cbn; tauto| |exact K5]. apply (kept_touch nLib _ es3); [cbn; tauto| |exact K4]. apply (kept_touch nKerning _ es2); [cbn; tauto| |exact K3]. apply (kept_touch nGroups _ es1); [cbn; tauto| |exact K2]. apply (kept_touch nFontinfo _ es); [cbn; tauto| |exact K1]. intros y _. reflexivity. }
  rewrite Et1 in I1. rewrite Et2 in I2. rewrite Et3 in I3. rewrite Et4 in I4. rewrite Et5 in I5. split; [|split; [|split; [|split]]].
  - eapply info_frame; [|exact I1]. rewrite !find_top, K5, K4, K3, K2 by discriminate. reflexivity.
  - eapply groups_frame; [|exact I2]. rewrite !find_top, K5, K4, K3 by discriminate. reflexivity.
  - eapply kerning_frame; [|exact I3]. rewrite !find_top, K5, K4 by discriminate. reflexivity.
  - eapply lib_frame; [|exact I4]. rewrite !find_top, K5 by discriminate. reflexivity.
  - exact I5.
Qed.

(** *** Opening *)
Lemma older_opened c es v : textOk c -> readMetaInfo C (Dir es) true = Ok v -> (v < 3)%Z -> find (Dir es) [nGlyphs] <> None ->
  exists w b, initWriter C T (mkCfg 3 true (PStr c)) true (mkUst (Dir es) [] [] None) = (w, Ok tt) /\ tree w = Dir (set nMetainfo (File b) es) /\ layers w = [(nDefault, nGlyphs)] /\ readMetaInfo C (tree w) true = Ok 3%Z.
Proof using LT LR fresh_names ok_text P_text P_file.
  intros Tc Rm V Fg. unfold initWriter. cbn [ver hp]. change (mem 3%Z supported) with true. cbv iota. unfold mbind, ret, getTree, lift. cbn [tree]. unfold readMetaInfo in Rm.
  destruct (getPlist C (Dir es) nMetainfo None) as [mv|] eqn:Gp; [|discriminate Rm]. pose proof (getPlist_file _ _ _ _ _ _ Gp) as Fi. cbn [bind] in Rm. destruct mv as [| | | | | | | | |d|]; try discriminate Rm. cbn [is_dict negb andb] in Rm.
  unfold vget. cbn [items]. destruct (dget (u "formatVersion") d) as [fv|]; [|discriminate Rm].
  assert (Pv : pyInt T fv = Ok v /\ mem v supported = true).
  { destruct fv as [|bb|z| | | | | | | |]; try discriminate Rm; cbn [andb negb pyInt] in *.
    - destruct bb; cbn in Rm |- *; (discriminate Rm || (apply Ok_inj in Rm; subst v; split; reflexivity)).
    - destruct (mem z supported) eqn:M; [|discriminate Rm]. apply Ok_inj in Rm. subst v. auto. }
  destruct Pv as [-> ->]. destruct (Z.ltb_spec 3 v) as [X|_]; [exfalso; clear - V X; lia|]. destruct (Z.leb_spec 3 v) as [X|_]; [exfalso; clear - V X; lia|]. cbv iota beta. unfold existsAt. destruct (find (Dir es) [nGlyphs]) as [n|]; [|congruence]. unfold setLayers. cbn [tree].
  set (w0 := mkUst _ _ _ _). assert (X : exists w, writeMetaInfo C (mkCfg 3 true (PStr c)) w0 = (w, Ok tt)).
  { unfold writeMetaInfo. cbn [ver hp creator]. exact (writePlist_total T R LT LR true w0 es nMetainfo _ eq_refl Fi (meta_faithful lower toFileName ok P fresh_names ok_text P_text P_file c Tc)). }
  destruct X as (w & X). destruct (meta_written T R lower toFileName LT LR ok P fresh_names ok_text P_text P_file (mkCfg 3 true (PStr c)) c w0 w es eq_refl eq_refl Tc eq_refl X) as (b & X1 & X2 & X3). exists w, b. split; [exact X|]. split; [exact X1|]. split; [exact X2|exact X3].
Qed.
Lemma upgraded_opened c p p' t f v : textOk c -> readMetaInfo C t true = Ok v -> (v < 3)%Z -> loadUfo T R p p' t = Ok f -> cleanParts f -> tidyOld T lower named t ->
  exists s, editing T R ro lower toFileName (PStr c) t (rewriting f) = Ok s /\ finv T R lower P noneSaved (foundFont f) s /\ opens [] s /\ restKept t (tree (writer s)).
Proof.
  intros Tc Rm V E Cl [W Tg To Ti Tl Td]. pose proof (loaded T LT R LR p p' t f E) as Fl. unfold loadUfo in E. rewrite Rm in E. cbn [bind] in E.
  apply bind_Ok in E as (ri & Eri & E). apply bind_Ok in E as (info & Ei & E). destruct (readGroups _ _ _ _ _ _) as [cache g0] eqn:Eg0. apply bind_Ok in E as (g & Eg & E). apply bind_Ok in E as (gr & Egr & E). apply bind_Ok in E as (k & Ek & E). apply bind_Ok in E as (ke & Eke & E). apply bind_Ok in E as (lib & El & E). apply bind_Ok in E as (fe & Ef & E).
  apply bind_Ok in E as (ims & Eims & E). apply bind_Ok in E as (im & Eim & E). apply bind_Ok in E as (dt & Edt & E). apply bind_Ok in E as (names & En & E). apply bind_Ok in E as (df & Ed & E). apply bind_Ok in E as (ly & Ely & E). apply Ok_inj in E.
  assert (exists es, t = Dir es) as (es & ->) by (unfold readMetaInfo in Rm; apply bind_Ok in Rm as (mv & Em & _); destruct (plist_file T R _ _ _ Em) as (b & X); eapply find_root; exact X).
  assert (Er : readLayersR C v (Dir es) true = Ok [(nDefault, nGlyphs)]) by (unfold readLayersR; destruct (Z.ltb_spec v 3); [reflexivity|lia]).
  unfold getLayerNames in En. rewrite Er in En. cbn [bind map fst] in En. apply Ok_inj in En. subst names. unfold getDefaultLayerName in Ed. rewrite Er in Ed. cbn [bind] in Ed. vm_compute in Ed. apply Ok_inj in Ed. change (nDefault = df) in Ed. subst df.
  unfold getImageDirectoryListing in Eims. destruct (Z.ltb_spec v 3) as [_|X]; [|exfalso; lia]. apply Ok_inj in Eims. subst ims. cbn [mapM] in Eim. apply Ok_inj in Eim. subst im.
  cbn [mapM] in Ely. apply bind_Ok in Ely as (y & Ey & Ely). apply Ok_inj in Ely. cbn [mapM] in Ely. subst ly. pose proof (loaded_layer T LT R LR _ _ _ _ Ey) as [Yn _]. destruct y as [n0 [gl li]]. cbn [fst] in Yn. subst n0.
  unfold loadLayer in Ey. apply bind_Ok in Ey as ([nd w0] & Eo & Ey). apply bind_Ok in Ey as (gl' & Egl & Ey). apply bind_Ok in Ey as (li0 & Eli & Ey). apply bind_Ok in Ey as (li' & Eas & Ey). apply Ok_inj in Ey. injection Ey as -> ->.
  pose proof (openLayer_ok T R _ _ _ _ _ Eo) as Eos. unfold openLayerOf, getGlyphSetR in Eo. cbn [bind] in Eo. rewrite Er in Eo. cbn [bind] in Eo. change (get nDefault [(nDefault, nGlyphs)]) with (Some nGlyphs) in Eo. cbv iota in Eo. rewrite (components_plain nGlyphs) in Eo by (apply plain_check; reflexivity). cbn [bind] in Eo.
  destruct Tg as (fs & bb & Ff & Tdy). change (u "glyphs") with nGlyphs in Ff. rewrite Ff in Eo. destruct (openGlyphSet _ _ _) as [cts|]; [|discriminate Eo]. cbn [bind] in Eo. rewrite (components_plain nGlyphs) in Eo by (apply plain_check; reflexivity). cbn [bind] in Eo. rewrite Ff in Eo. destruct (openSet _ _ (filesIn (Dir fs))) as [w1 [[]|]] eqn:Eos'; [|discriminate Eo]. apply Ok_inj in Eo. injection Eo as <- ->.
  destruct (found_closed T R LT LR lower named P (Dir fs) w0 gl P_named (find_wf _ W _ _ Ff)) as (dd & X & Dd & Cld); [exists fs, bb; split; [reflexivity|exact Tdy]|exact Eos|eapply older_glyphs; eassumption|].
  assert (Li : infoRead T R li (Dir fs)) by (eapply found_layer_info; [exact LR|exact Eli|]; destruct (asInner li0) as [li1|]; [|discriminate Eas]; apply Ok_inj in Eas; f_equal; exact Eas).
  destruct (older_opened c es v Tc Rm V) as (w & b & Ew & Tr & Ll & Rm'); [rewrite Ff; discriminate|].
  assert (Ge : forall x, x <> nMetainfo -> get x (set nMetainfo (File b) es) = get x es) by (intros x N; apply get_set_other; exact N).
  assert (No : forall d, ownDir d -> d <> nMetainfo) by (intros d O ->; apply (own_not_fixed _ O); left; reflexivity).
  assert (Fs : forall y, In y parts -> FontAccepts.fileAt y (set nMetainfo (File b) es)).
  { intros y Iy. assert (Ny : y <> nMetainfo) by (intros ->; vm_compute in Iy; intuition discriminate). intros ds G. rewrite Ge in G by exact Ny. revert ds G. change (FontAccepts.fileAt y es).
    assert (Up : FontAccepts.fileAt nGroups es /\ FontAccepts.fileAt nKerning es).
    { unfold readGroups in Eg0. destruct (Z.ltb_spec v 3) as [_|X']; [|exfalso; lia]. unfold upConvert in Eg0. unfold readGroupsRaw, readKerningRaw in Eg0.
      destruct (getPlist C (Dir es) nGroups _) as [rg|] eqn:Rg; [|cbn in Eg0; injection Eg0 as _ Eg0; rewrite <- Eg0 in Eg; discriminate Eg].
      destruct (true && negb (rawGroupsOk rg)); [cbn in Eg0; injection Eg0 as _ Eg0; rewrite <- Eg0 in Eg; discriminate Eg|].
      destruct (getPlist C (Dir es) nKerning _) as [rk|] eqn:Rk; [|cbn in Eg0; injection Eg0 as _ Eg0; rewrite <- Eg0 in Eg; discriminate Eg].
      split; eapply getPlist_file; eassumption. }
    destruct Iy as [<-|[<-|[<-|[<-|[<-|[]]]]]].
    - unfold readInfoFile in Eri. apply bind_Ok in Eri as (q & Q & _). eapply getPlist_file. exact Q.
    - apply Up.
    - apply Up.
    - unfold Ufo.readLib in El. apply bind_Ok in El as (q & Q & _). eapply getPlist_file. exact Q.
    - intros ds G. unfold readFeatures, getbytes in Ef. rewrite find_top, G in Ef. discriminate Ef. }
  subst f. set (f := mkUfont _ _ _ _ _ _ _ _ _) in *.
  destruct (rewritten c _ w f Fl Cl Tr Fs) as (w' & es' & E & L' & Et' & K' & I1 & I2 & I3 & I4 & I5).
  exists (mkFst (mkCfg 3 true (PStr c)) w' []). split; [unfold editing, opened; rewrite Ew; exact E|].
  assert (Gx : forall x, ~ In x parts -> x <> nMetainfo -> get x es' = get x es) by (intros x N1 N2; rewrite K' by exact N1; apply Ge; exact N2).
  assert (Np : forall d, ownDir d -> ~ In d parts) by (intros d O I; apply (own_not_fixed _ O); revert I; unfold parts, fixedNames; cbn; tauto).
  assert (Gg : get nGlyphs es' = Some (Dir fs)) by (rewrite Gx; [rewrite <- find_top; exact Ff|apply Np; left; reflexivity|discriminate]).
  assert (Og : ownDir nGlyphs) by (left; reflexivity).
  rewrite Ll in L'. split; [|split].
  - split; cbn [cfg writer fPrev foundFont]; try reflexivity; [exists c; split; [reflexivity|exact Tc]|]. exists es'. split; [exact Et'|]. split; [|split].
    + split; cbn [foundFont fInfo fGroups fKerning fLib fFeatures]; try assumption. rewrite Tr in Rm'. rewrite <- Rm'. apply meta_frame. rewrite !find_top. apply K'. vm_compute. intuition discriminate.
    + split; cbn [foundFont fImages fData].
      * rewrite Gx by (try discriminate; vm_compute; intuition discriminate). rewrite <- find_top. change nImages with (u "images"). rewrite Ti. split; [constructor|]. split; [discriminate|reflexivity].
      * rewrite Gx by (try discriminate; vm_compute; intuition discriminate). rewrite <- (find_top es). eapply found_data; eassumption.
    + assert (GL : forall n d, get n (layers w') = Some d -> n = nDefault /\ d = nGlyphs).
      { intros n d G. rewrite L' in G. cbn [get] in G. destruct (eqb_spec n nDefault) as [->|]; [|discriminate G]. injection G as <-. auto. }
      assert (G0 : get nDefault (layers w') = Some nGlyphs) by (rewrite L'; reflexivity).
      split; cbn [writer sets foundFont fLayers fDefault].
      * split.
        -- split; [rewrite L'; constructor; [intros []|constructor]|]. split; [intros n d G; apply GL in G as [_ ->]; exact Og|]. intros n k' d e N G G'. apply GL in G as [-> ->], G' as [-> ->]. congruence.
        -- intros n d G. apply GL in G as [-> ->]. split; [split; [discriminate|reflexivity]|]. split; [apply components_plain, plain_check; reflexivity|]. rewrite Et'. unfold isdir. rewrite find_top, Gg. reflexivity.
      * intros n d G. apply GL in G as [-> ->]. split; apply text_check; reflexivity.
      * intros x Ox N. rewrite Gx in N by (apply Np + apply No; exact Ox). rewrite <- (find_top es) in N. apply To in N; [|exact Ox]. subst x. exists nDefault. exact G0.
      * unfold Base.dict_ok, keys. rewrite foundLayer_fst. constructor; [intros []|constructor].
      * constructor.
      * intro n. rewrite L'. cbn [f uLayers map foundLayer get]. destruct (eqb n nDefault); split; intro Z; (discriminate Z || reflexivity).
      * intros n N. cbn in N. congruence.
      * intro n. cbn [f uDefault]. split; [intro Z; injection Z as <-; exact G0|]. intro G. apply GL in G as [-> _]. reflexivity.
      * intros n d L G GLl. apply GL in G as [-> ->]. cbn [f uLayers map foundLayer get] in GLl. rewrite eqb_refl in GLl. injection GLl as <-.
        exists dd. rewrite Gg, <- X. split; [reflexivity|]. split; [intros p0 g1 Y; discriminate Y|]. split; [|intros []]. cbn [get option_map lGlyphs lInfo]. split; [exact Dd|]. split; [|exact Cld]. rewrite <- X. exact Li.
  - split; cbn [sets writer]; [intro n; cbn; split; [congruence|intros []]|]. intros ds Z. rewrite Et', find_top, Gx in Z by (try discriminate; vm_compute; intuition discriminate). rewrite <- find_top in Z. change nLayercontents with (u "layercontents.plist") in Z. rewrite Tl in Z. discriminate Z.
  - cbn [writer]. intros es0 E0. injection E0 as <-. exists es'. split; [exact Et'|]. intros y [N _]. apply Gx; [intro I; apply N; revert I; unfold parts, fixedNames; cbn; tauto|intros ->; apply N; left; reflexivity].
Qed.
Theorem upgraded c p p' t f v l order dn : textOk c -> readMetaInfo C t true = Ok v -> (v < 3)%Z -> loadUfo T R p p' t = Ok f -> cleanParts f -> tidyOld T lower named t ->
  allowedAll ok (foundFont f) l -> acceptedAll T R ro (foundFont f) [] l -> let m := fold_left fremember l (foundFont f) in
  NoDup order -> (forall n, In n order <-> get n (fLayers m) <> None) -> fDefault m = Some dn ->
  exists s s', editing T R ro lower toFileName (PStr c) t (rewriting f ++ l) = Ok s /\ save T R lower toFileName order s = Ok s' /\ readsFont T R m order dn (tree (writer s')) /\
    forall y, foreign y -> find (tree (writer s')) [y] = find t [y].
Proof.
  intros Tc Rm V Lo Cl Td Al Ac m Nd Or Fd. destruct (upgraded_opened c p p' t f v Tc Rm V Lo Cl Td) as (s0 & E0 & I0 & O0 & K0).
  destruct (session_total T R ro lower toFileName LT LR keeps LL ok P fresh_names total_names ok_text P_text P_file l _ _ _ I0 O0 Al Ac) as (s & E & I & Op).
  destruct (save_total T R lower toFileName LT LR ok P fresh_names ok_text P_text P_file _ _ _ _ I Op Or) as (s' & Es & _). exists s, s'. split.
  { unfold editing in *. apply bind_Ok in E0 as (s1 & E1 & E0). rewrite E1. exact (foldM_both _ _ _ _ _ _ E0 E). }
  split; [exact Es|]. split.
  2:{ pose proof (rest_session T R ro lower toFileName LT LR keeps ok P fresh_names ok_text P_text P_file l _ _ _ I0 Al E) as K1. pose proof (rest_save T R lower toFileName _ _ _ (inv_setsIn T R lower P _ _ _ I) Es) as K2. pose proof (rest_trans _ _ _ (rest_trans _ _ _ K0 K1) K2) as K3. intros y Fy.
    assert (exists es, t = Dir es) as (es & ->) by (unfold readMetaInfo in Rm; apply bind_Ok in Rm as (mv & Em & _); destruct (plist_file T R _ _ _ Em) as (b & X); eapply find_root; exact X).
    destruct (K3 es eq_refl) as (es' & -> & Fr). rewrite !find_top. apply Fr. exact Fy. }
  destruct (save_step T R lower toFileName LT LR ok P fresh_names ok_text P_text P_file _ _ _ _ I Es) as [J K]. destruct K as (nds & K1 & K2 & K3 & _); [exact Nd|unfold m in Fd; rewrite Fd; discriminate|]. eapply saved_read; eassumption.
Qed.
(** *** Before the first save *)
Theorem abandoned c t v : textOk c -> readMetaInfo C t true = Ok v -> (v < 3)%Z -> find t [u "glyphs"] <> None -> find t [u "layercontents.plist"] = None ->
  exists s, opened T R (mkCfg 3 true (PStr c)) t = Ok s /\ readMetaInfo C (tree (writer s)) true = Ok 3%Z /\ forall validate, getLayerNames C 3 (tree (writer s)) validate = Err UFOLibError.
Proof using LT LR fresh_names ok_text P_text P_file.
  intros Tc Rm V Fg Fl. assert (exists es, t = Dir es) as (es & ->) by (unfold readMetaInfo in Rm; apply bind_Ok in Rm as (mv & Em & _); destruct (plist_file T R _ _ _ Em) as (b & X); eapply find_root; exact X).
  destruct (older_opened c es v Tc Rm V Fg) as (w & b & Ew & Tr & _ & Rm'). exists (mkFst (mkCfg 3 true (PStr c)) w []). split; [unfold opened; rewrite Ew; reflexivity|]. split; [exact Rm'|]. intro validate.
  cbn [writer]. unfold getLayerNames, readLayersR. change (3 <? 3)%Z with false. cbv iota. unfold getPlist, getbytes. rewrite Tr, find_top, get_set_other by discriminate. rewrite <- find_top. change nLayercontents with (u "layercontents.plist"). rewrite Fl. reflexivity.
Qed.
End Upgrade.

(** ** C101 *)
(** [t]: a UFO 1 or UFO 2 that the reader loads completely (as [f], with info, groups
    and kerning in terms of UFO 3).  A writer for UFO 3 opened on it accepts the parts
    that are rewritten and every history of valid actions; after saving, the UFO 3
    holds what the older reader has read, with the changes. *)
Theorem C101_upgrade_partial : forall T R ro lower toFileName, pytext_laws T -> repr_laws T R -> lower_keeps lower -> lower_laws lower ->
  case_fresh (fun f => f) lower toFileName -> good_names textOk toFileName -> (forall n e f, toFileName n e = Ok f -> glyphFile f) ->
  (forall n e, n <> [] -> fewNames e -> exists f, toFileName n e = Ok f) ->
  forall creator p p' t f v l order default, textOk creator ->
  readMetaInfo (plistCodec T R) t true = Ok v -> (v < 3)%Z -> loadUfo T R p p' t = Ok f -> cleanParts f -> tidyOld T lower (fun _ _ => True) t ->
  allowedAll textOk (foundFont f) l -> acceptedAll T R ro (foundFont f) [] l ->
  let m := fold_left fremember l (foundFont f) in
  NoDup order -> (forall n, In n order <-> get n (fLayers m) <> None) -> fDefault m = Some default ->
  exists s s', editing T R ro lower toFileName (PStr creator) t (rewriting f ++ l) = Ok s /\ save T R lower toFileName order s = Ok s' /\ readsFont T R m order default (tree (writer s')) /\
    forall y, foreign y -> find (tree (writer s')) [y] = find t [y].
Proof.
  intros T R ro lower tf LT LR K LL CF GN GF Tot c p p' t f v l order dn Tc Rm V Lo Cl Td Al Ac m Nd Or Fd.
  apply (upgraded T R ro lower tf LT LR K LL textOk (fun _ _ => True) (fun _ f => textOk f /\ glyphFile f)) with (p := p) (p' := p') (v := v); try assumption; try tauto.
  intros n e f0 On _ E. split; [split; [exact (GN _ _ _ On E)|exact (GF _ _ _ E)]|]. apply (CF _ _ _ E).
Qed.
Print Assumptions C101_upgrade_partial.
Theorem C101_careful_partial : forall T R ro lower, pytext_laws T -> repr_laws T R -> lower_keeps lower -> lower_laws lower ->
  forall creator p p' t f v l order default, textOk creator ->
  readMetaInfo (plistCodec T R) t true = Ok v -> (v < 3)%Z -> loadUfo T R p p' t = Ok f -> cleanParts f -> tidyOld T lower (fun _ _ => True) t ->
  allowedAll textOk (foundFont f) l -> acceptedAll T R ro (foundFont f) [] l ->
  let m := fold_left fremember l (foundFont f) in
  NoDup order -> (forall n, In n order <-> get n (fLayers m) <> None) -> fDefault m = Some default ->
  exists s s', editing T R ro lower (carefulFileName lower) (PStr creator) t (rewriting f ++ l) = Ok s /\ save T R lower (carefulFileName lower) order s = Ok s' /\ readsFont T R m order default (tree (writer s')) /\
    forall y, foreign y -> find (tree (writer s')) [y] = find t [y].
Proof.
  intros T R ro lower LT LR K LL. apply C101_upgrade_partial; try assumption.
  - apply C08_careful_function. intros f g ->. reflexivity.
  - apply careful_names_text.
  - intros n e f E. eapply glif_file. exact E.
  - intros n e. apply careful_total. exact LL.
Qed.
Print Assumptions C101_careful_partial.
(** with the default file name function, for names that are apart (C08); the files that
    are found have the names that it would give *)
Theorem C101_apart_names_partial : forall T R ro lower S, pytext_laws T -> repr_laws T R -> lower_keeps lower -> lower_laws lower -> lower_stable lower -> apart_names lower S ->
  forall creator p p' t f v l order default, textOk creator ->
  readMetaInfo (plistCodec T R) t true = Ok v -> (v < 3)%Z -> loadUfo T R p p' t = Ok f -> cleanParts f -> tidyOld T lower (fun n f => S n /\ ownFile lower n f) t ->
  allowedAll (fun n => S n /\ textOk n) (foundFont f) l -> acceptedAll T R ro (foundFont f) [] l ->
  let m := fold_left fremember l (foundFont f) in
  NoDup order -> (forall n, In n order <-> get n (fLayers m) <> None) -> fDefault m = Some default ->
  exists s s', editing T R ro lower (defaultFileName lower) (PStr creator) t (rewriting f ++ l) = Ok s /\ save T R lower (defaultFileName lower) order s = Ok s' /\ readsFont T R m order default (tree (writer s')) /\
    forall y, foreign y -> find (tree (writer s')) [y] = find t [y].
Proof.
  intros T R ro lower S LT LR K LL L A c p p' t f v l order dn Tc Rm V Lo Cl Td Al Ac m Nd Or Fd.
  apply (upgraded T R ro lower (defaultFileName lower) LT LR K LL (fun n => S n /\ textOk n) (fun n f => S n /\ ownFile lower n f) (fun n f => (((S n /\ textOk n) /\ ownFile lower n f) /\ textOk f) /\ glyphFile f)) with (p := p) (p' := p') (v := v); try assumption; try tauto.
  - intros n e f0 On Pe E. assert (CO : case_only (fun f => f) lower) by (intros a b ->; reflexivity).
    destruct (fresh_apart (fun f => f) lower textOk (fun n => S n /\ textOk n) L CO (default_names_text lower) (apart_sub lower S _ (fun n H => proj1 H) A) (fun n H => proj2 H) n e f0 On) as (H1 & H2 & H3); [|exact E|].
    + intros g Ig. destruct (Pe g Ig) as (k & Nk & H1 & _). eauto.
    + split; [split; [exact H1|eapply glif_file; exact E]|auto].
  - intros n e. apply default_total. exact LL.
Qed.
Print Assumptions C101_apart_names_partial.
(** Until it is saved for the first time, no reader finds the layers: every older UFO
    on which a writer is opened and then abandoned is lost as UFO 3. *)
Theorem C101_abandoned_refuted : forall T R, pytext_laws T -> repr_laws T R -> forall creator t v, textOk creator ->
  readMetaInfo (plistCodec T R) t true = Ok v -> (v < 3)%Z -> find t [u "glyphs"] <> None -> find t [u "layercontents.plist"] = None ->
  exists s, opened T R (mkCfg 3 true (PStr creator)) t = Ok s /\ readMetaInfo (plistCodec T R) (tree (writer s)) true = Ok 3%Z /\
    forall validate, getLayerNames (plistCodec T R) 3 (tree (writer s)) validate = Err UFOLibError.
Proof.
  intros T R LT LR c t v. apply abandoned with (lower := fun f => f) (toFileName := fun _ _ => Err TypeError) (ok := textOk) (P := fun (_ f : str) => textOk f /\ glyphFile f); try tauto; try assumption. intros n e f _ _ X. discriminate X.
Qed.
Print Assumptions C101_abandoned_refuted.

(** ** Cases *)
Definition oldGlyphs : list (str * node) := [
  (u "contents.plist", File (doc "<dict><key>A</key><string>A_.glif</string><key>b</key><string>other</string></dict>"));
  (u "A_.glif", File (u "<glyph name=""A"" format=""1""><advance width=""500""/></glyph>"));
  (u "other", File (u "<glyph name=""b"" format=""1""><unicode hex=""61""/></glyph>"))].
Definition oldTree (version info : string) : node := Dir [
  (u "README", File [1; 2]%N);
  (u "metainfo.plist", File (doc ("<dict><key>formatVersion</key><integer>" ++ version ++ "</integer><key>creator</key><string>x</string></dict>")));
  (u "fontinfo.plist", File (doc ("<dict>" ++ info ++ "</dict>")));
  (u "groups.plist", File (doc "<dict><key>@MMK_L_A</key><array><string>A</string></array></dict>"));
  (u "kerning.plist", File (doc "<dict><key>@MMK_L_A</key><dict><key>b</key><integer>-7</integer></dict></dict>"));
  (u "features.fea", File (u "feature"));
  (u "glyphs", Dir oldGlyphs)].
Definition oldInfo : string := "<key>openTypeOS2WinDescent</key><integer>-200</integer>".
Definition upgradeSession : list faction := [ALayer None true; AGlyph (u "public.default") (u "c") [] None None; ALayer (Some (u "back")) false].
Definition upgradeOrder : list str := [u "public.default"; u "back"].
Definition upgradedTree (t : node) (l : list faction) (order : list str) : res node := editedTree t (rewriting (loadedOf t) ++ l) order.
Definition kernedBy (f : ufont) : list (str * list pyval) * list (str * str * pyval) := (uGroups f, uKerning f).
Definition newGroups : list (str * list pyval) * list (str * str * pyval) :=
  ([(u "@MMK_L_A", [PStr (u "A")]); (u "public.kern1.A", [PStr (u "A")])], [((u "public.kern1.A", u "b"), PInt (-7))]).
Example C101_case :
  match upgradedTree (oldTree "2" oldInfo) upgradeSession upgradeOrder with
  | Ok t =>
    let f := loadedOf t in
    readMetaInfo (plistCodec toyText toyRepr) t true = Ok 3%Z /\ uInfo f = [(u "openTypeOS2WinDescent", PInt 200)] /\ kernedBy f = newGroups /\ uFeatures f = u "feature" /\
    find t [u "README"] = Some (File [1; 2]%N) /\ find t [u "glyphs"; u "other"] = find (oldTree "2" oldInfo) [u "glyphs"; u "other"] /\
    map (fun l => (fst l, map fst (fst (snd l)))) (uLayers f) = [(u "public.default", [u "A"; u "b"; u "c"]); (u "back", [])]
  | Err _ => False
  end.
Proof. vm_compute. repeat split. Qed.
(** UFO 1: names of attributes, and the kerning groups are found by their use *)
Example C101_case_1 :
  match upgradedTree (oldTree "1" "<key>fontStyle</key><integer>1</integer>") [] [u "public.default"] with
  | Ok t => readMetaInfo (plistCodec toyText toyRepr) t true = Ok 3%Z /\ uInfo (loadedOf t) = [(u "styleMapStyleName", PStr (u "italic"))] /\ kernedBy (loadedOf t) = newGroups
  | Err _ => False
  end.
Proof. vm_compute. repeat split. Qed.
(** The hypotheses hold. *)
Lemma clean_parts f : cleanUfo f -> cleanParts f.
Proof. intros [C1 C2 C3 C4 _ _ _ _ _]. split; assumption. Qed.
Lemma old_tidy v i : tidyOld toyText ascii_lower (fun _ _ => True) (oldTree v i).
Proof.
  split.
  - unfold oldTree, oldGlyphs. repeat first [apply wf_file|apply wf_dir; [unfold Base.dict_ok, keys; cbn [map fst]; repeat (constructor; [vm_compute; intuition discriminate|]); constructor|]|apply Forall_nil|apply Forall_cons; cbn [snd]].
  - eexists _, _. split; [reflexivity|]. split; [|split; [left; reflexivity|]].
    + intros x m [J|[J|[J|[]]]]; apply pair_equal_spec in J as [_ <-]; eexists; reflexivity.
    + intros e H. assert (e = [(u "A", u "A_.glif"); (u "b", u "other")]) as ->. { apply entries_inv. vm_compute in H. apply Ok_inj in H. injection H as H. symmetry. exact H. } clear H. split.
      * intros g f [J|[J|[]]]; injection J as <- <-; (split; [apply text_check; reflexivity|]); (split; [apply text_check; reflexivity|]); (split; [vm_compute; intuition discriminate|exact Logic.I]).
      * intros g f g' f' [J|[J|[]]] [J'|[J'|[]]] N; injection J as <- <-; injection J' as <- <-; try congruence; vm_compute; discriminate.
  - intros x O N. unfold oldTree in N. rewrite find_top in N. apply ownDir_check in O.
    match type of N with get _ ?es <> None => assert (I : In x (keys es)) by (destruct (in_dec eq_decide x (keys es)) as [I|I]; [exact I|]; exfalso; apply N, get_None; exact I) end.
    cbn [keys map fst] in I. destruct I as [<-|[<-|[<-|[<-|[<-|[<-|[<-|[]]]]]]]]; try discriminate O. reflexivity.
  - reflexivity.
  - reflexivity.
  - exact Logic.I.
Qed.
Lemma old_plain i : refless (u i) = true -> forallb (fun b => refless b) (allFiles (oldTree "2" i)) = true -> plainDocuments (oldTree "2" i).
Proof. intros _ H b e I _. apply allFiles_in in I. apply refless_ok. revert b I. apply forallb_forall. exact H. Qed.
Definition oldFont : ufont := loadedOf (oldTree "2" oldInfo).
Lemma old_loaded : loadUfo toyText toyRepr (fun l => l) (fun l => l) (oldTree "2" oldInfo) = Ok oldFont.
Proof. vm_compute. reflexivity. Qed.
Lemma old_clean : cleanParts oldFont.
Proof.
  apply clean_parts. eapply (plain_clean toyText toyText_laws toyRepr toyRepr_laws); [|clear|exact old_loaded].
  - apply old_plain; vm_compute; reflexivity.
  - set (f := oldFont). vm_compute in f. constructor; unfold f; cbn [uInfo uGroups uKerning uLib uImages uData uLayers].
    + intros x v G. apply get_In in G. destruct G as [G|[]]. injection G as _ <-. apply small_ints. reflexivity.
    + apply small_ints. reflexivity.
    + intros p v [G|[]]. injection G as _ <-. apply small_ints. reflexivity.
    + apply small_ints. reflexivity.
    + intros n b [].
    + intros p b [].
    + unfold fewNames. cbn [length]. vm_compute. reflexivity.
    + intros n gl li [G|[]]; apply pair_equal_spec in G as [_ G]; apply pair_equal_spec in G as [<- <-]; (split; [vm_compute; reflexivity|]). intros x v [].
    + intros n gl li g r [G|[]] I; apply pair_equal_spec in G as [_ G]; apply pair_equal_spec in G as [<- <-]. destruct I as [I|[I|[]]]; apply pair_equal_spec in I as [<- <-]; (split; [discriminate|]); (split; [intros [I|[]]; discriminate I|]); apply small_ints; reflexivity.
Qed.
Lemma upgrade_allowed : allowedAll textOk (foundFont oldFont) upgradeSession.
Proof.
  set (m := foundFont oldFont). vm_compute in m. cbn [upgradeSession allowedAll]. repeat match goal with |- _ /\ _ => split | |- True => exact Logic.I end; cbn [allowedIn]; repeat match goal with |- _ /\ _ => split | |- True => exact Logic.I end.
  - apply text_check. reflexivity.
  - left. split; [reflexivity|]. apply storable_empty, text_val. reflexivity.
  - split; [discriminate|]. intro E. discriminate E.
  - apply text_check. reflexivity.
Qed.
Lemma upgrade_accepted : acceptedAll toyText toyRepr roCase (foundFont oldFont) [] upgradeSession.
Proof.
  assert (V : forall (A : Type) (r : res A) , isOk r = true -> exists x, r = Ok x) by (intros A [x|e] H; [eauto|discriminate H]).
  assert (G : forall n g items fv, isOk (gsWriteBytes toyText toyRepr roCase 3 (PStr n) g (option_map gdrawing items) fv true) = true -> exists b, gsWriteBytes toyText toyRepr roCase 3 (PStr n) g (option_map gdrawing items) fv true = Ok b) by (intros; apply V; assumption).
  set (m := foundFont oldFont). vm_compute in m. cbn [upgradeSession acceptedAll]. repeat match goal with |- _ /\ _ => split | |- True => exact Logic.I end; cbn [acceptedIn].
  - split; [right; reflexivity|]. right. split; [vm_compute; discriminate|]. split; [intros []|reflexivity].
  - split; [vm_compute; tauto|]. split; [eexists; split; [vm_compute; reflexivity|vm_compute; reflexivity]|]. split; [discriminate|]. apply G. vm_compute. reflexivity.
  - split; [left; discriminate|]. left. split; [reflexivity|]. split; [vm_compute; reflexivity|discriminate].
Qed.
Definition upgradeFont : font := fold_left fremember upgradeSession (foundFont oldFont).
Example C101_hypotheses : exists s s', editing toyText toyRepr roCase ascii_lower (carefulFileName ascii_lower) (PStr (u "me")) (oldTree "2" oldInfo) (rewriting oldFont ++ upgradeSession) = Ok s
  /\ save toyText toyRepr ascii_lower (carefulFileName ascii_lower) upgradeOrder s = Ok s'
  /\ readsFont toyText toyRepr upgradeFont upgradeOrder (u "public.default") (tree (writer s')) /\ forall y, foreign y -> find (tree (writer s')) [y] = find (oldTree "2" oldInfo) [y].
Proof.
  apply C101_careful_partial with (p := fun l => l) (p' := fun l => l) (v := 2%Z).
  - exact toyText_laws.
  - exact toyRepr_laws.
  - apply ascii_keeps.
  - apply ascii_lower_laws.
  - apply text_check. reflexivity.
  - vm_compute. reflexivity.
  - reflexivity.
  - exact old_loaded.
  - exact old_clean.
  - apply old_tidy.
  - exact upgrade_allowed.
  - exact upgrade_accepted.
  - constructor; [intros [X|[]]; discriminate X|]. constructor; [intros []|constructor].
  - intro n. refine (proj1 (two_names n (u "public.default") (u "back") _ _)). vm_compute. reflexivity.
  - vm_compute. reflexivity.
Qed.
(** Without rewriting the parts it is false.  The info of the UFO 2 is refused ... *)
Theorem C101_info_refuted : exists t f t', readMetaInfo (plistCodec toyText toyRepr) t true = Ok 2%Z /\ loadUfo toyText toyRepr (fun l => l) (fun l => l) t = Ok f /\ cleanParts f /\ tidyOld toyText ascii_lower (fun _ _ => True) t /\
  editedTree t [] [u "public.default"] = Ok t' /\ forall p p', loadUfo toyText toyRepr p p' t' = Err UFOLibError.
Proof.
  exists (oldTree "2" oldInfo), oldFont. eexists. split; [vm_compute; reflexivity|]. split; [exact old_loaded|]. split; [exact old_clean|]. split; [apply old_tidy|]. split; [vm_compute; reflexivity|]. intros p p'. vm_compute. reflexivity.
Qed.
Print Assumptions C101_info_refuted.
(** ... and the groups of a UFO 2 are no kerning groups of the UFO 3. *)
Theorem C101_kerning_refuted : exists t f t' f', readMetaInfo (plistCodec toyText toyRepr) t true = Ok 2%Z /\ loadUfo toyText toyRepr (fun l => l) (fun l => l) t = Ok f /\ tidyOld toyText ascii_lower (fun _ _ => True) t /\
  editedTree t [] [u "public.default"] = Ok t' /\ loadUfo toyText toyRepr (fun l => l) (fun l => l) t' = Ok f' /\
  kernedBy f = newGroups /\ kernedBy f' = ([(u "@MMK_L_A", [PStr (u "A")])], [((u "@MMK_L_A", u "b"), PInt (-7))]).
Proof.
  exists (oldTree "2" ""). eexists _, _, _. split; [vm_compute; reflexivity|]. split; [vm_compute; reflexivity|]. split; [apply old_tidy|]. split; [vm_compute; reflexivity|]. split; [vm_compute; reflexivity|]. split; vm_compute; reflexivity.
Qed.
Print Assumptions C101_kerning_refuted.
