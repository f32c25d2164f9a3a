(** C98: changing a UFO 3 in place.  [tidy]: what the UFO has to be like; it need
    not have been written by ufoLib. *)
From Coq Require Import String NArith ZArith Bool Lia List Permutation.
From Coq.Floats Require Import SpecFloat.
From Verif Require Import Base PyVal PyText FloatRepr LowerLaws Filenames FilenamesProofs PropFilenames GlyphSet GlyphSetProofs NamesApart PropGlyphSet.
From Verif Require Import Xml FS FSProofs Validators PropValidators Ufo UfoProofs PropUfo PropUfoFiles Plist PropPlist Etree EtreeProofs PlistFiles PropPlistLoaded PointPen PropPointPen Glif GlifProofs GlifOutline GlifElements GlifAccepted GlifAgain PropGlif PropSession PropLayers FontInfo FontInfoProofs PropFontInfo PropInfoFile Kerning Font FontProofs FontLayers FontData PropFont FontAccepts PropAccepts SaveAs PropSaveAs.
Import ListNotations.
Local Open Scope string_scope.
Local Open Scope list_scope.
Local Notation dict_ok := Base.dict_ok.
Local Notation find := FS.find.
Local Notation fileAt := FS.fileAt.

(** ** What is found *)
(** the font that a UFO holds, with its glyphs as they are read *)
Definition foundGlyph (r : greading) : stored := (rattrs r, Some (regroup (rcalls r)), Some 0%Z).
Definition foundLayer (l : str * (list (str * greading) * list (str * pyval))) : str * layerMem :=
  let '(n, (glyphs, info)) := l in (n, mkLayer (map (fun '(g, r) => (g, foundGlyph r)) glyphs) info true).
Definition foundFont (f : ufont) : font :=
  mkFont (uInfo f) (uGroups f) (uKerning f) (uLib f) (uFeatures f) (uImages f) (uData f) (map foundLayer (uLayers f)) (Some (uDefault f)) true.

(** a directory with files only, and a contents.plist whose texts are kept by
    plistlib and whose file names are plain and differ in more than case *)
Definition tidyLayer (T : pytext) (lower : str -> str) (named : str -> str -> Prop) (n : option node) : Prop :=
  exists fs b, n = Some (Dir fs) /\ (forall x m, In (x, m) fs -> exists b, m = File b) /\ In (u "contents.plist", File b) fs /\
  forall e, plistLoads T b = Ok (PDict (map (fun '(g, f) => (PStr g, PStr f)) e)) ->
    (forall g f, In (g, f) e -> textOk g /\ textOk f /\ glyphFile f /\ named g f) /\
    forall g f g' f', In (g, f) e -> In (g', f') e -> g <> g' -> lower f <> lower f'.
Record tidy (T : pytext) (R : spec_float -> str) (lower : str -> str) (named : str -> str -> Prop) (t : node) : Prop := {
  (** names in a directory are distinct *)
  td_tree : wf t;
  (** the listed layers *)
  td_layers : forall l n d, readLayersR (plistCodec T R) 3 t true = Ok l -> In (n, d) l -> textOk n /\ textOk d /\ plainName d /\ tidyLayer T lower named (find t [d]);
  td_apart : forall l n d n' d', readLayersR (plistCodec T R) 3 t true = Ok l -> In (n, d) l -> In (n', d') l -> n <> n' -> lower d <> lower d';
  (** there are no others *)
  td_others : forall l x, readLayersR (plistCodec T R) 3 t true = Ok l -> ownDir x -> find t [x] <> None -> In x (map snd l);
  (** images are PNG files, directly in the directory *)
  td_images : match find t [u "images"] with
              | None => True
              | Some (File _) => False
              | Some (Dir fs) => forall x m, In (x, m) fs -> plainName x /\ exists b, m = File b /\ pngValidator b = true
              end;
  (** no empty directories in the data directory *)
  td_data : match find t [u "data"] with
            | None => True
            | Some (File _) => False
            | Some (Dir ds) => (forall p, fileAt (Dir ds) p <> None -> Forall plainName p) /\
                forall q, q <> [] -> isdir (Dir ds) q = true -> exists r, fileAt (Dir ds) (q ++ r) <> None
            end }.

(** a file or directory of the UFO that ufoLib does not know: its name is none of those
    of the specification, neither "glyphs" nor does it begin with "glyphs." *)
Definition foreign (y : str) : Prop := ~ In y fixedNames /\ ~ ownDir y.

(** ** Values that have been read *)
Lemma data_refl P v : plistData P v -> psame v v.
Proof.
  revert v. apply (data_ind' P (fun v => psame v v)).
  - intros v C _. constructor. exact C.
  - intros l _ H. apply ps_list. induction H; constructor; assumption.
  - intros m _ _ H. eapply ps_dict; [apply Permutation_refl|]. induction H as [|[k x] m H F IH]; cbn [map]; constructor; [split; [reflexivity|exact H]|exact IH].
Qed.
Section Found.
Variable T : pytext.
Variable R : spec_float -> str.
Hypothesis LT : pytext_laws T.
Hypothesis LR : repr_laws T R.
Notation C := (plistCodec T R).
Lemma plist_shape t x d v : getPlist C t x d = Ok v -> (d = Some v) \/ v = PNone \/ plistShape v.
Proof.
  unfold getPlist. intro E. destruct (getbytes t [x]) as [b|[]]; try discriminate E.
  - destruct (loads C b) as [w|] eqn:L; [|discriminate E]. apply Ok_inj in E. subst w. right. exact (C93_shape T R b v LR L).
  - destruct d; [|discriminate E]. apply Ok_inj in E. subst. auto.
Qed.
Lemma empty_shape : plistShape (PDict []).
Proof. apply (pd_dict (fun _ => True) []); constructor. Qed.
Lemma dict_shape t x v : getPlist C t x (Some (PDict [])) = Ok v -> is_dict v = true -> plistShape v.
Proof. intros E D. destruct (plist_shape _ _ _ _ E) as [X|[->|X]]; [injection X as <-; apply empty_shape|discriminate D|exact X]. Qed.
Lemma shape_get a (l : list (pyval * pyval)) x : plistShape (PDict l) -> In (PStr a, x) l -> plistShape x.
Proof. intros S I. inversion S as [| | | | | | |m N F]; subst. apply in_map_iff in I as ([k y] & E & I). injection E as <- <-. rewrite Forall_forall in F. apply (F _ I). Qed.

Lemma found_info t v p i : readInfoFile C t true = Ok v -> readInfo T p 3 true v = Ok i -> readsInfo T R i t.
Proof.
  intros Ev Ei perm. exists v, i. split; [exact Ev|]. assert (D : is_dict v = true) by (unfold readInfo in Ei; destruct (is_dict v); [reflexivity|discriminate Ei]).
  assert (S : plistShape v).
  { unfold readInfoFile in Ev. apply bind_Ok in Ev as (w & Ew & Ev). eapply dict_shape; [|exact D]. rewrite Ew. f_equal. destruct (true && negb (is_dict w)); [discriminate Ev|]. apply Ok_inj in Ev. exact Ev. }
  assert (Rp : forall q, readInfo T q 3 true v = validateInfoVersion3Data T (collect (fontInfoAttributesVersion3 T) v [])) by (intro q; unfold readInfo; rewrite D; reflexivity).
  rewrite Rp in Ei. rewrite Rp. split; [exact Ei|]. clear Rp.
  assert (NA : NoDup (fontInfoAttributesVersion3 T)) by (apply nodup_dec; vm_compute; reflexivity).
  set (c := collect (fontInfoAttributesVersion3 T) v []) in *.
  assert (G : forall a, get a c = if mem a (fontInfoAttributesVersion3 T) then (if is_none (vget a v) then None else Some (vget a v)) else None).
  { intro a. unfold c. apply collect_get; [intros []|exact NA|intros k _ []]. }
  assert (Dc : dict_ok c) by (apply collect_keys; constructor). clearbody c. apply validate_3 in Ei as [-> _]; [|exact Dc].
  assert (Same : forall a x, get a c = Some x -> In a (fontInfoAttributesVersion3 T) /\ x <> PNone /\ psame x x).
  { intros a x Ga. rewrite G in Ga. destruct (mem_spec a (fontInfoAttributesVersion3 T)) as [I|I]; [|discriminate Ga]. destruct (is_none (vget a v)) eqn:N; [discriminate Ga|]. injection Ga as <-. split; [exact I|]. split; [intro X; rewrite X in N; discriminate N|].
    destruct v as [| | | | | | | | |l|]; try discriminate D. unfold vget in *. cbn [items] in *. destruct (dget a l) as [x|] eqn:Gl; [|discriminate N]. apply (data_refl (fun _ => True)). eapply shape_get; [exact S|]. apply dget_In. exact Gl. }
  split.
  - intros a x _ [Ga _]. exists x. split; [exact Ga|apply (Same _ _ Ga)].
  - intros a x Ga. destruct (Same a x Ga) as (I & N & P). split; [exact I|]. exists x. split; [split; assumption|exact P].
Qed.
Lemma groups_list d g : plistShape (PDict d) -> asGroups d = Some g -> groupsVal g = PDict d.
Proof.
  intros S E. unfold groupsVal. f_equal. inversion S as [| | | | | | |m _ F]; subst. clear S. revert g E. induction F as [|[k v] m [_ F] _ IH]; intros g E; cbn [map asGroups] in *; [injection E as <-; reflexivity|].
  destruct (is_seq v) eqn:Sv; [|discriminate E]. destruct (asGroups _) as [g'|]; [|discriminate E]. injection E as <-. cbn [map]. rewrite (IH _ eq_refl). f_equal. f_equal. cbn [snd] in F. inversion F; subst; try discriminate Sv. reflexivity.
Qed.
Lemma found_groups t conv cache g gr : snd (readGroups C conv 3 t cache true) = Ok g -> asGroups (items g) = Some gr -> readsGroups T R gr t.
Proof.
  intros E A. unfold readGroups in E. change (3 <? 3)%Z with false in E. cbv iota in E. cbn [snd] in E. exists g.
  split; [intros conv' cache'; unfold readGroups; change (3 <? 3)%Z with false; cbv iota; cbn [snd]; exact E|].
  apply bind_Ok in E as (w & Ew & E). cbn [andb] in E. destruct (groupsValidator w) eqn:V; [|discriminate E]. apply Ok_inj in E. subst w. unfold readGroupsRaw in Ew. destruct g as [| | | | | | | | |d|]; try discriminate V. pose proof (dict_shape _ _ _ Ew eq_refl) as S.
  cbn [items] in A. rewrite (groups_list d gr S A). eapply data_refl. exact S.
Qed.
Lemma found_kerning t conv cache k ke : snd (readKerning C conv 3 t cache true) = Ok k -> asKerning (items k) = Some ke -> readsKerning T R ke t.
Proof.
  intros E A. exists ke. split; [|apply Permutation_refl]. unfold readKerning in *. change (3 <? 3)%Z with false in *. cbv iota in *. cbn [snd] in *. intros conv' cache'. clear conv' cache'. rewrite E. f_equal.
  apply bind_Ok in E as (w & _ & E). destruct (negb (true && negb (kerningValidator w))); [|discriminate E]. destruct w as [| | | | | | | | |d|]; try discriminate E. destruct (asNested _); [|discriminate E]. apply Ok_inj in E. rewrite <- E in *. rewrite asKerning_pairs in A. injection A as ->. reflexivity.
Qed.
Lemma found_lib t w : Ufo.readLib C t true = Ok w -> readsLib T R (items w) t.
Proof.
  intro E. exists w. split; [exact E|]. unfold Ufo.readLib in E. apply bind_Ok in E as (v & Ev & E). cbn [andb] in E. destruct (fontLibValidator v) eqn:V; [|discriminate E]. apply Ok_inj in E. subst w. destruct v as [| | | | | | | | |d|]; try discriminate V. cbn [items]. apply (data_refl (fun _ => True)). eapply dict_shape; [exact Ev|reflexivity].
Qed.
Lemma found_glyph v n b r : gsReadBytes T v true true true b = Ok r -> readsAs (isSpace T) 0 n (rattrs r) (Some (regroup (rcalls r))) r.
Proof.
  intro E. split; [discriminate|]. split; [discriminate|]. intros _. split; [reflexivity|]. eexists. split; [reflexivity|]. unfold gsReadBytes, readGlyphBytes in E. apply bind_Ok in E as (f & _ & E). destruct (readFormat_accepted T R LR true true _ f r eq_refl eq_refl E) as (items & Ac).
  unfold regroup. rewrite (ac_calls _ _ _ Ac), grouped_drawing. reflexivity.
Qed.

(** *** Images and data *)
Lemma mapM_keys {K} (f : K -> res bytes) l ys : mapM (fun k => do b <- f k; Ok (k, b)) l = Ok ys -> map fst ys = l /\ forall k b, In (k, b) ys -> f k = Ok b.
Proof.
  intro E. split; [eapply mapM_pairs_fst; [|exact E]; intros x y H; apply bind_Ok in H as (q & _ & H); apply Ok_inj in H; rewrite <- H; reflexivity|].
  intros k b I. destruct (mapM_In _ _ _ _ E I) as (x & _ & X). apply bind_Ok in X as (y & X & Y). apply Ok_inj, pair_equal_spec in Y as [-> ->]. exact X.
Qed.
Lemma find_wf t : wf t -> forall p n, find t p = Some n -> wf n.
Proof.
  intros W p. revert t W. induction p as [|c p IH]; intros t W n E; [destruct t; injection E as <-; exact W|]. destruct t as [b|es]; [discriminate E|]. cbn [FS.find] in E. destruct (get c es) as [m|] eqn:G; [|discriminate E]. inversion W as [|? D F]; subst. rewrite Forall_forall in F. apply get_In in G. exact (IH m (F _ G) n E).
Qed.
Lemma found_images t il im : wf t -> match find t [u "images"] with None => True | Some (File _) => False | Some (Dir fs) => forall x m, In (x, m) fs -> plainName x /\ exists b, m = File b /\ pngValidator b = true end ->
  getImageDirectoryListing 3 t true = Ok il -> mapM (fun f => do b <- Ufo.readImage 3 t f true; Ok (f, b)) il = Ok im -> imagesIn im (find t [nImages]).
Proof.
  intros W Td El Em. apply mapM_keys in Em as [Ek Ev]. unfold getImageDirectoryListing in El. change (3 <? 3)%Z with false in El. cbv iota in El. change (u "images") with nImages in Td. destruct (find t [nImages]) as [[|fs]|] eqn:E; [destruct Td| |].
  - pose proof (find_wf t W _ _ E) as Wf. inversion Wf as [|? D _]; subst. apply Ok_inj in El.
    assert (Fl : filter (fun '(_, n) => match n with Dir _ => false | File b => negb true || pngValidator b end) fs = fs).
    { clear -Td. induction fs as [|[x m] fs IH]; [reflexivity|]. cbn [filter]. destruct (Td x m (or_introl eq_refl)) as (_ & b & -> & V). rewrite V. cbn [negb orb]. f_equal. apply IH. intros y n I. apply Td. right. exact I. }
    rewrite Fl in El. symmetry in El. assert (Di : dict_ok im) by (unfold Base.dict_ok, keys; rewrite El; exact D).
    assert (G : forall f, get f fs = option_map File (get f im)).
    { intro f. destruct (get f im) as [b|] eqn:Gi; cbn [option_map].
      - apply get_In in Gi. specialize (Ev _ _ Gi). assert (If : In f (map fst fs)) by (rewrite <- El; apply in_map_iff; exists (f, b); auto). apply in_map_iff in If as ([f' m] & Ef & If). cbn [fst] in Ef. subst f'.
        destruct (Td _ _ If) as (Pf & b' & -> & V). unfold Ufo.readImage in Ev. change (3 <? 3)%Z with false in Ev. cbv iota in Ev. rewrite E, (components_plain _ Pf) in Ev. cbn [bind] in Ev. unfold getbytes in Ev. rewrite find_top in Ev. apply (In_get _ _ _ D) in If. rewrite If in *. rewrite V in Ev. cbn [andb negb] in Ev. apply Ok_inj in Ev. congruence.
      - apply get_None. intro I. apply get_None in Gi. apply Gi. unfold keys. rewrite El. exact I. }
    split; [exact Di|]. split; [|split; [exact D|exact G]]. intros f b Gf. specialize (G f). rewrite Gf in G. cbn [option_map] in G. apply get_In in G. destruct (Td _ _ G) as (Pf & b' & X & V). injection X as <-. auto.
  - apply Ok_inj in El. rewrite <- El in Ek. destruct im; [|discriminate Ek]. split; [constructor|]. split; [discriminate|reflexivity].
Qed.
Lemma found_data t dt : wf t -> match find t [u "data"] with None => True | Some (File _) => False | Some (Dir ds) => (forall p, fileAt (Dir ds) p <> None -> Forall plainName p) /\ forall q, q <> [] -> isdir (Dir ds) q = true -> exists r, fileAt (Dir ds) (q ++ r) <> None end ->
  mapM (fun p => do o <- readBytesFromPath t (dataPath p); do b <- orTypeError o; Ok (p, b)) (getDataDirectoryListing t) = Ok dt -> dataIn dt (find t [nData]).
Proof.
  intros W Td Em. assert (Em' : mapM (fun p => do b <- (do o <- readBytesFromPath t (dataPath p); orTypeError o); Ok (p, b)) (getDataDirectoryListing t) = Ok dt).
  { rewrite <- Em. clear. induction (getDataDirectoryListing t) as [|p l IH]; [reflexivity|]. cbn [mapM]. rewrite IH. destruct (readBytesFromPath t (dataPath p)) as [[o|]|]; reflexivity. }
  clear Em. apply mapM_keys in Em' as [Ek Ev]. change (u "data") with nData in Td. unfold getDataDirectoryListing in Ek. destruct (find t [nData]) as [[|ds]|] eqn:E; [destruct Td| |].
  - pose proof (find_wf t W _ _ E) as Wd. destruct Td as [Tp Te]. assert (Di : dict_ok dt) by (unfold Base.dict_ok, keys; rewrite Ek; apply walk_nodup; exact Wd).
    assert (G : forall p, fileAt (Dir ds) p = get p dt).
    { intro p. destruct (get p dt) as [b|] eqn:Gp.
      - apply get_In in Gp. specialize (Ev _ _ Gp). assert (Ip : In p (walkFiles (Dir ds))) by (rewrite <- Ek; apply in_map_iff; exists (p, b); auto). apply walk_spec in Ip; [|exact Wd]. pose proof (Tp _ Ip) as Fp. unfold readBytesFromPath in Ev. rewrite (dataPath_components p Fp) in Ev. cbn [bind] in Ev. unfold getbytes in Ev.
        assert (X : find t (nData :: p) = find (Dir ds) p) by (change (nData :: p) with ([nData] ++ p); rewrite find_app, E; reflexivity). rewrite X in Ev. unfold FS.fileAt. destruct (find (Dir ds) p) as [[y|]|]; try discriminate Ev. cbn [bind orTypeError] in Ev. apply Ok_inj in Ev. congruence.
      - destruct (fileAt (Dir ds) p) as [b|] eqn:F; [|reflexivity]. exfalso. apply get_None in Gp. apply Gp. unfold keys. rewrite Ek. apply walk_all. rewrite F. discriminate. }
    split; [exact Di|]. split.
    + intros p b Gp. rewrite <- G in Gp. split; [intros ->; discriminate Gp|apply Tp; rewrite Gp; discriminate].
    + split; [exact Wd|]. split; [exact G|]. intros q Nq Iq. destruct (Te q Nq Iq) as (r & F). exists r. rewrite G in F. destruct (get (q ++ r) dt) as [b|]; [eauto|contradiction F; reflexivity].
  - cbn in Ek. destruct dt; [|discriminate Ek]. split; [constructor|]. split; [discriminate|reflexivity].
Qed.

(** *** Layers *)
Lemma files_only fs : (forall x m, In (x, m) fs -> exists b, m = File b) -> fs = files (filesIn (Dir fs)).
Proof.
  intro H. unfold filesIn. cbn [entries]. induction fs as [|[x m] fs IH]; [reflexivity|]. destruct (H x m (or_introl eq_refl)) as (b & ->). cbn [flat_map app files map]. f_equal. apply IH. intros y n I. apply (H y n). right. exact I.
Qed.
Lemma get_filesIn fs : (forall x m, In (x, m) fs -> exists b, m = File b) -> keys (filesIn (Dir fs)) = keys fs /\ forall f, get f fs = option_map File (get f (filesIn (Dir fs))).
Proof.
  intro H. pose proof (files_only fs H) as E. split; [rewrite E at 2; unfold keys, files; rewrite map_map; apply map_ext; intros []; reflexivity|]. intro f. rewrite E at 1. apply get_files.
Qed.
Lemma found_layer_info n l info : readLayerInfo C T n true = Ok l -> asInner l = Some info -> infoRead T R info n.
Proof.
  intros El Ei. exists l. split; [exact El|]. unfold readLayerInfo in El. apply bind_Ok in El as (d & Ed & El). destruct d as [| | | | | | | | |d|]; try discriminate El. destruct (layerInfoOk T d) eqn:O; [|discriminate El]. apply Ok_inj in El. subst d.
  pose proof (dict_shape _ _ _ Ed eq_refl) as S.
  assert (K : forall k v, In (k, v) l -> exists a, k = PStr a) by (intros k v I; inversion S as [| | | | | | |m N F]; subst; apply in_map_iff in I as ([a x] & X & _); injection X as <- <-; eauto).
  destruct (asInner_total l K) as (i & Ei' & _ & Gi). assert (i = info) as -> by congruence. split; [|split; [exact K|]].
  - inversion S as [| | | | | | |m N F]; subst. rewrite map_map. replace (map (fun x : str * pyval => fst (let '(k, x0) := x in (PStr k, x0))) m) with (map PStr (map fst m)) by (rewrite map_map; apply map_ext; intros []; reflexivity).
    apply FinFun.Injective_map_NoDup; [intros a b X; congruence|exact N].
  - intro a. unfold storedInfo. rewrite Gi. destruct (dget a l) as [w|] eqn:G; [|exact Logic.I]. apply dget_In in G. pose proof (shape_get _ _ _ S G) as Sw. unfold layerInfoOk in O. rewrite forallb_forall in O. specialize (O _ G). cbv beta iota in O.
    assert (Pw : psame w w) by (apply (data_refl (fun _ => True)); exact Sw).
    destruct (eqb_spec a (u "color")) as [->|Nc].
    + destruct w; try exact Pw. discriminate O.
    + destruct (eqb_spec a (u "lib")) as [->|Nl]; [|discriminate O]. destruct w as [| | | | | | | | |dw|]; try discriminate O. cbn [andb truthy]. destruct dw; [split; reflexivity|exact Pw].
Qed.
Lemma found_closed lower (named P : str -> str -> Prop) n w gl :
  (forall g f, textOk g -> textOk f -> glyphFile f -> named g f -> P g f) ->
  wf n -> tidyLayer T lower named (Some n) -> openSet (fun f => f) (contentsLoads T) (filesIn n) = (w, Ok tt) ->
  mapM (fun g => do r <- readGlyphOf T 3 (fun f => f) g w; Ok (g, r)) (keys (contents (gs w))) = Ok gl ->
  exists dd, n = Dir (files dd) /\ dict_ok dd /\ closed T lower P (map (fun '(g, r) => (g, foundGlyph r)) gl) dd.
Proof.
  intros HP W (fs & b & En & Fo & Ic & Tc) Eo Eg. injection En as ->. destruct (get_filesIn fs Fo) as [Kf Gf]. inversion W as [|? D _]; subst. set (dd := filesIn (Dir fs)) in *. exists dd. split; [f_equal; apply files_only; exact Fo|].
  assert (Dd : dict_ok dd) by (unfold Base.dict_ok; rewrite Kf; exact D). split; [exact Dd|].
  apply (In_get _ _ _ D) in Ic. change (u "contents.plist") with contentsName in Ic. rewrite Gf in Ic. destruct (get contentsName dd) as [b'|] eqn:Gc; [|discriminate Ic]. injection Ic as ->.
  split; [congruence|]. exists w. split; [exact Eo|].
  destruct (openSet_spec (fun f => f) lower _ _ _ (contents_codec_laws T R LT LR) _ _ Eo) as (Ed & _ & _ & c & Dc & Ec & Dk & _ & Hf). pose proof Dc as Dc'. unfold diskContents in Dc'. rewrite Gc in Dc'.
  destruct (loads_entries T R LR b c Dc') as (e & Le & De & Ge). destruct (Tc e Le) as [T1 T2].
  assert (Ie : forall g f, get g c = Some f -> In (g, f) e) by (intros g f G; apply get_In; rewrite Ge; exact G).
  assert (Om : okMap (fun f => f) lower textOk P c).
  { split.
    - intros g g' f f' G G' L. destruct (eqb_spec g g') as [|N]; [assumption|]. exfalso. apply (T2 g f g' f' (Ie _ _ G) (Ie _ _ G') N L).
    - intros g f G. destruct (T1 g f (Ie _ _ G)) as (A1 & A2 & A3 & A4). split; [apply HP; assumption|]. split; [apply A3|exact A1]. }
  assert (Ew : w = mkWorld (mkGset c None None (has contentsName dd)) dd []).
  { pose proof (openSet_ok (fun f => f) (contentsLoads T) dd c Dc Hf) as X. rewrite Eo in X. injection X as X. exact X. }
  subst w. cbn [gs contents] in *. set (bytesOf := fun f : str => match get f dd with Some x => x | None => [] end).
  split; [|split; [exact Dd|]].
  - split; [split; [exact Dk|split; discriminate]|]. split; [exact Om|]. split; [discriminate|]. intros c' X. cbn [dir] in X. rewrite Dc in X. apply Ok_inj in X. subst c'. exact Om.
  - assert (Fg : map fst gl = keys c) by (eapply mapM_pairs_fst; [|exact Eg]; intros x y H; apply bind_Ok in H as (r & _ & H); apply Ok_inj in H; rewrite <- H; reflexivity).
    split; [unfold Base.dict_ok; rewrite (keys_map foundGlyph); unfold keys at 1; rewrite Fg; exact Dk|].
    exists (map (fun '(g, f) => (g, bytesOf f)) c). split; [unfold Base.dict_ok; rewrite (keys_map bytesOf); exact Dk|]. split.
    + intro g. cbn [gs contents dir]. rewrite (get_map bytesOf). destruct (get g c) as [f|] eqn:G; [|reflexivity]. cbn [option_map]. exists (bytesOf f). split; [reflexivity|]. specialize (Hf g f (get_In _ _ _ G)). unfold has in Hf. unfold bytesOf. destruct (get f dd); [reflexivity|discriminate Hf].
    + intro g. rewrite (get_map foundGlyph). destruct (get g gl) as [r|] eqn:G; cbn [option_map foundGlyph heldAs].
      * apply get_In in G. destruct (mapM_In _ _ _ _ Eg G) as (g' & Ig & X). apply bind_Ok in X as (r' & X & Y). apply Ok_inj, pair_equal_spec in Y as [-> ->]. unfold readGlyphOf in X. rewrite fetch_eq in X. unfold fileOf in X. cbn [gs contents dir] in X. rewrite (get_map bytesOf).
        destruct (get g c) as [f|]; [|discriminate X]. cbn [option_map]. unfold bytesOf. destruct (get f dd) as [x|]; [|discriminate X]. cbn [bind] in X. exists x, r. split; [reflexivity|]. split; [exact X|]. eapply found_glyph. exact X.
      * rewrite (get_map bytesOf). apply get_None in G. unfold keys in G. rewrite Fg in G. apply get_None in G. rewrite G. reflexivity.
Qed.
End Found.

(** ** The invariant holds *)
Section Edit.
Variable T : pytext.
Variable R : spec_float -> str.
Variable ro : pyval -> str.
Variable lower : str -> str.
Variable toFileName : str -> list (str * str) -> res str.
Hypothesis LT : pytext_laws T.
Hypothesis LR : repr_laws T R.
Hypothesis keeps : lower_keeps lower.
Hypothesis LL : lower_laws lower.
Variable ok : str -> Prop.
Variable named P : str -> str -> Prop.
Hypothesis fresh_names : forall n e f, ok n -> (forall g, In g (keys e) -> exists m, m <> n /\ P m g) -> toFileName n e = Ok f ->
  P n f /\ ~ In (lower f) (map lower (keys e)) /\ f <> contentsName.
Hypothesis ok_text : forall n, ok n -> textOk n.
Hypothesis P_text : forall n f, P n f -> textOk f.
Hypothesis P_file : forall n f, P n f -> glyphFile f.
Hypothesis total_names : forall n e, n <> [] -> fewNames e -> exists f, toFileName n e = Ok f.
Hypothesis P_named : forall n f, textOk n -> textOk f -> glyphFile f -> named n f -> P n f.
Notation C := (plistCodec T R).

Lemma get_foundLayer n ly : get n (map foundLayer ly) = match get n ly with Some (glyphs, info) => Some (mkLayer (map (fun '(g, r) => (g, foundGlyph r)) glyphs) info true) | None => None end.
Proof. induction ly as [|[k [gl li]] ly IH]; [reflexivity|]. cbn [map foundLayer get]. destruct (eqb n k); [reflexivity|exact IH]. Qed.
Lemma foundLayer_fst ly : map fst (map foundLayer ly) = map fst ly.
Proof. rewrite map_map. apply map_ext. intros [n [gl li]]. reflexivity. Qed.
Lemma find_root t x n : find t [x] = Some n -> exists es, t = Dir es.
Proof. destruct t as [|es]; [discriminate|eauto]. Qed.
Lemma plist_file t x v : getPlist C t x None = Ok v -> exists b, find t [x] = Some (File b).
Proof. unfold getPlist, getbytes. destruct (find t [x]) as [[b|]|]; [eauto|discriminate|discriminate]. Qed.
Lemma read_layers t nds : readLayersR C 3 t true = Ok nds -> (exists there, documentedLayers there nds) /\ readLayersW C t true = Ok (fold_left (fun l '(n, d) => set n d l) nds []).
Proof.
  intro E. unfold readLayersR in E. change (3 <? 3)%Z with false in E. cbv iota in E. unfold readLayersW. destruct (getPlist C t nLayercontents None) as [raw|]; [|discriminate E]. cbn [bind] in *. destruct (layersValid t raw) as [okv|] eqn:V; [|discriminate E]. cbn [bind] in *.
  destruct okv; [|discriminate E]. unfold layersValid in V. apply C30_layer_contents_rule in V as (ps & -> & D). cbn [elems] in *. rewrite asPairs_lists in *. apply Ok_inj in E. subst ps. split; [eexists; exact D|reflexivity].
Qed.
Lemma default_In l n : defaultName l = Ok n -> In (n, u "glyphs") l.
Proof. induction l as [|[k d] l IH]; cbn [defaultName]; [discriminate|]. destruct (eqb_spec d nGlyphs) as [->|]; [intro E; injection E as <-; left; reflexivity|right; auto]. Qed.
Lemma snd_unique (nds : list (str * str)) : NoDup (map snd nds) -> forall n n' d, In (n, d) nds -> In (n', d) nds -> n = n'.
Proof.
  induction nds as [|[k e] nds IH]; intros N n n' d I I'; [destruct I|]. cbn [map snd] in N. inversion N as [|? ? N1 N2]; subst. destruct I as [I|I], I' as [I'|I'].
  - congruence.
  - injection I as -> ->. exfalso. apply N1. apply in_map_iff. exists (n', d). auto.
  - injection I' as -> ->. exfalso. apply N1. apply in_map_iff. exists (n, d). auto.
  - eapply IH; eassumption.
Qed.
Definition restKept (t t' : node) : Prop := forall es, t = Dir es -> exists es', t' = Dir es' /\ forall y, foreign y -> get y es' = get y es.
Lemma rest_refl t : restKept t t.
Proof. intros es E. exists es. auto. Qed.
Lemma rest_trans a b c : restKept a b -> restKept b c -> restKept a c.
Proof. intros A B es E. destruct (A es E) as (es1 & E1 & F1). destruct (B es1 E1) as (es2 & E2 & F2). exists es2. split; [exact E2|]. intros y Y. rewrite (F2 y Y). apply F1. exact Y. Qed.
Lemma rest_touches x s w : touches x s w -> In x fixedNames -> restKept (tree s) (tree w).
Proof. intros [_ H] I es E. destruct (H es E) as (es' & E' & F). exists es'. split; [exact E'|]. intros y [N _]. apply F. intros ->. contradiction. Qed.
Lemma rest_entry x t es es' : In x fixedNames \/ ownDir x -> t = Dir es' -> (forall y, y <> x -> get y es' = get y es) -> restKept (Dir es) t.
Proof. intros I E F es0 E0. injection E0 as <-. exists es'. split; [exact E|]. intros y [N N']. apply F. intros ->. destruct I; contradiction. Qed.
Lemma found_opened c p p' t f : textOk c -> readMetaInfo C t true = Ok 3%Z -> loadUfo T R p p' t = Ok f -> tidy T R lower named t ->
  exists s, opened T R (mkCfg 3 true (PStr c)) t = Ok s /\ finv T R lower P noneSaved (foundFont f) s /\ opens [] s /\ restKept t (tree (writer s)).
Proof.
  intros Tc Rm E [W Tl Ta To Ti Td]. pose proof (loaded T LT R LR p p' t f E) as Fl. unfold loadUfo in E. rewrite Rm in E. cbn [bind] in E.
  apply bind_Ok in E as (ri & Eri & E). apply bind_Ok in E as (info & Ei & E). pose proof (found_groups T R LR t (convPy p') None) as Fg. destruct (readGroups _ _ _ _ _ _) as [cache g0]. cbn [snd] in Fg. apply bind_Ok in E as (g & Eg & E). apply bind_Ok in E as (gr & Egr & E). apply bind_Ok in E as (k & Ek & E). apply bind_Ok in E as (ke & Eke & E). apply bind_Ok in E as (lib & El & E). apply bind_Ok in E as (fe & Ef & E).
  apply bind_Ok in E as (ims & Eims & E). apply bind_Ok in E as (im & Eim & E). apply bind_Ok in E as (dt & Edt & E). apply bind_Ok in E as (names & En & E). apply bind_Ok in E as (df & Ed & E). apply bind_Ok in E as (ly & Ely & E). apply Ok_inj in E. subst f.
  unfold getLayerNames in En. apply bind_Ok in En as (nds & Er & En). apply Ok_inj in En. subst names.
  assert (exists es, t = Dir es) as (es & ->) by (unfold readMetaInfo in Rm; apply bind_Ok in Rm as (mv & Em & _); destruct (plist_file _ _ _ Em) as (b & X); eapply find_root; exact X).
  assert (Ep : exists b, find (Dir es) [nLayercontents] = Some (File b)) by (unfold readLayersR in Er; change (3 <? 3)%Z with false in Er; cbv iota in Er; apply bind_Ok in Er as (raw & X & _); eapply plist_file; exact X).
  assert (TL := fun n d => Tl nds n d Er). assert (TA := fun n d n' d' => Ta nds n d n' d' Er). assert (TO := fun x => To nds x Er). clear Tl Ta To.
  destruct (read_layers _ _ Er) as [(there & N1 & N2 & _ & Doc) Rw]. destruct (loaded_layers T R 3 (Dir es) nds df Er Ed) as (_ & L2 & L3).
  unfold getDefaultLayerName in Ed. rewrite Er in Ed. cbn [bind] in Ed. apply default_In in Ed.
  destruct (init_total T R lower toFileName LT LR ok P fresh_names ok_text P_text P_file (mkCfg 3 true (PStr c)) c es _ eq_refl eq_refl eq_refl Tc Rm Rw) as (w & b0 & Ew & _).
  destruct (init_again T R lower toFileName LT LR ok P fresh_names ok_text P_text P_file (mkCfg 3 true (PStr c)) c es w _ eq_refl eq_refl eq_refl Tc Rm Rw Ew) as (b & Tr & Ll & Rm').
  exists (mkFst (mkCfg 3 true (PStr c)) w []). split; [unfold opened; rewrite Ew; reflexivity|].
  destruct (fold_set_get nds N1) as [Dl Gl]. set (l := fold_left _ nds []) in *.
  assert (Ge : forall x, x <> nMetainfo -> get x (set nMetainfo (File b) es) = get x es) by (intros x N; apply get_set_other; exact N).
  assert (No : forall d, ownDir d -> d <> nMetainfo) by (intros d O ->; apply (own_not_fixed _ O); left; reflexivity).
  assert (Ln : map fst ly = map fst nds) by (eapply mapM_pairs_fst; [|exact Ely]; intros x y H; apply (loaded_layer T LT R LR) in H; apply H).
  assert (Own : forall n d, In (n, d) nds -> ownDir d) by (intros n d I; destruct (Doc n d I) as (_ & _ & X & _); exact X).
  split.
  - split; cbn [cfg writer fPrev foundFont]; try reflexivity; [exists c; split; [reflexivity|exact Tc]|]. exists (set nMetainfo (File b) es). split; [exact Tr|]. split; [|split].
    + rewrite Tr in Rm'. split; cbn [foundFont fInfo fGroups fKerning fLib fFeatures uInfo uGroups uKerning uLib uFeatures].
      * exact Rm'.
      * eapply info_frame; [rewrite !find_top; apply Ge; discriminate|]. eapply found_info; eassumption.
      * eapply groups_frame; [rewrite !find_top; apply Ge; discriminate|]. eapply Fg; [exact Eg|]. destruct (asGroups (items g)); [apply Ok_inj in Egr; congruence|discriminate Egr].
      * eapply kerning_frame; [rewrite !find_top; apply Ge; discriminate|]. eapply found_kerning; [exact Ek|]. destruct (asKerning (items k)); [apply Ok_inj in Eke; congruence|discriminate Eke].
      * eapply lib_frame; [rewrite !find_top; apply Ge; discriminate|]. apply (found_lib T R LR). exact El.
      * rewrite (features_frame (Dir es)); [exact Ef|]. rewrite !find_top. apply Ge. discriminate.
    + split; cbn [foundFont fImages fData uImages uData]; rewrite Ge by discriminate; rewrite <- (find_top es); [eapply found_images; eassumption|eapply found_data; eassumption].
    + split; cbn [writer sets foundFont fLayers fDefault uLayers uDefault]; rewrite ?Ll.
      * split; rewrite Ll.
        -- split; [exact Dl|]. split; [intros n d G; apply Gl in G; eapply Own; exact G|]. intros n k' d e N G G'. apply Gl in G, G'. exact (TA _ _ _ _ G G' N).
        -- intros n d G. apply Gl in G. destruct (TL n d G) as (_ & _ & Pd & fs & bb & Ff & _). split; [|split; [apply components_plain; exact Pd|]].
           ++ destruct (Doc n d G) as (Nn & _ & _ & Pub). split; [exact Nn|]. intro X. rewrite (Pub X). reflexivity.
           ++ rewrite Tr. unfold isdir. rewrite find_top in *. rewrite Ge by (apply No; eapply Own; exact G). rewrite Ff. reflexivity.
      * intros n d G. apply Gl in G. destruct (TL n d G) as (A1 & A2 & _). auto.
      * intros x Ox N. rewrite Ge in N by (apply No; exact Ox). rewrite <- (find_top es) in N. apply TO in N; [|exact Ox]. apply in_map_iff in N as ([n d] & X & I). cbn [snd] in X. subst d. exists n. apply Gl. exact I.
      * unfold Base.dict_ok, keys. rewrite foundLayer_fst, Ln. exact N1.
      * constructor.
      * intro n. assert (X : get n (map foundLayer ly) = None <-> ~ In n (map fst nds)) by (rewrite get_None; unfold keys; rewrite foundLayer_fst, Ln; reflexivity). rewrite X, get_None. clear X. split; intros Y I; apply Y.
        -- apply in_map_iff in I as ([n' d] & Z & I). cbn [fst] in Z. subst n'. apply Gl in I. apply has_In. unfold has. rewrite I. reflexivity.
        -- apply has_In in I. unfold has in I. destruct (get n l) as [d|] eqn:G; [|discriminate I]. apply Gl in G. apply in_map_iff. exists (n, d). auto.
      * intros n N. cbn in N. congruence.
      * intro n. rewrite Gl. split; [intro X; injection X as <-; exact Ed|]. intro I. f_equal. eapply snd_unique; [exact N2|exact Ed|exact I].
      * intros n d L G GL. apply Gl in G. rewrite get_foundLayer in GL. destruct (get n ly) as [[gl li]|] eqn:Gy; [|discriminate GL]. injection GL as <-. destruct (TL n d G) as (_ & _ & Pd & Tdy).
        apply get_In in Gy. destruct (mapM_In _ _ _ _ Ely Gy) as (n' & _ & X). pose proof X as X'. apply (loaded_layer T LT R LR) in X' as [X' _]. cbn [fst] in X'. subst n'.
        unfold loadLayer in X. apply bind_Ok in X as ([nd w0] & Eo & X). apply bind_Ok in X as (gl' & Egl & X). apply bind_Ok in X as (li0 & Eli & X). apply bind_Ok in X as (li' & Eas & X). apply Ok_inj in X. injection X as -> ->.
        pose proof (openLayer_ok T R _ _ _ _ _ Eo) as Eos. unfold openLayerOf, getGlyphSetR in Eo. cbn [bind] in Eo. rewrite Er in Eo. cbn [bind] in Eo. rewrite (In_get n d nds N1 G), (components_plain _ Pd) in Eo. cbn [bind] in Eo.
        destruct Tdy as (fs & bb & Ff & Tdy). rewrite Ff in Eo. destruct (openGlyphSet _ _ _) as [cts|]; [|discriminate Eo]. cbn [bind] in Eo. rewrite (components_plain _ Pd) in Eo. cbn [bind] in Eo. rewrite Ff in Eo. destruct (openSet _ _ (filesIn (Dir fs))) as [w1 [[]|]] eqn:Eos'; [|discriminate Eo]. apply Ok_inj in Eo. injection Eo as <- ->.
        destruct (found_closed T R LT LR lower named P (Dir fs) w0 gl P_named (find_wf _ W _ _ Ff)) as (dd & X & Dd & Cl); [exists fs, bb; split; [reflexivity|exact Tdy]|exact Eos|exact Egl|].
        exists dd. rewrite Ge by (apply No; eapply Own; exact G). rewrite <- (find_top es), Ff, <- X. split; [reflexivity|]. split; [intros p0 g1 Y; discriminate Y|]. split; [|intros []]. cbn [get option_map lGlyphs lInfo]. split; [exact Dd|]. split; [|exact Cl].
        rewrite <- X. eapply found_layer_info; [exact LR|exact Eli|]. destruct (asInner li0) as [li1|]; [|discriminate Eas]. apply Ok_inj in Eas. f_equal. exact Eas.
  - split; [|cbn [writer]; eapply (rest_entry nMetainfo); [left; cbn; tauto|exact Tr|exact Ge]]. split; cbn [sets writer]; [intro n; cbn; split; [congruence|intros []]|]. intros ds X. rewrite Tr, find_top, Ge in X by discriminate. destruct Ep as (bl & Ep). rewrite find_top in Ep. congruence.
Qed.
(** *** What ufoLib does not know is left alone *)
Lemma rest_plain m s a s' : finv T R lower P noneSaved m s -> allowedIn ok m a -> factOn T R ro lower toFileName s a = Ok s' ->
  match a with AInfo _ | AGroups _ | AKerning _ | ALib _ | AFeatures _ | AImage _ _ | ARemoveImage _ | AData _ _ | ARemoveData _ => True | _ => False end ->
  restKept (tree (writer s)) (tree (writer s')).
Proof.
  intros [V1 V2 V3 (es & E & [P1 P2 P3 P4 P5 P6] & Im & Ly)] Al H K. destruct a; try contradiction K; cbn [allowedIn] in Al.
  all: rewrite ?fact_Info, ?fact_Groups, ?fact_Kerning, ?fact_Lib, ?fact_Features, ?fact_Image, ?fact_RemoveImage, ?fact_Data, ?fact_RemoveData in H.
  - destruct (writeInfo T 3 true info) as [d|] eqn:W; [|discriminate H]. cbn [bind] in H. apply onWriter_inv in H as (w & H & ->). cbn [writer]. eapply rest_touches; [eapply (info_step T R LT LR _ _ _ _ _ Al W H)|cbn; tauto].
  - apply onWriter_inv in H as (w & H & ->). cbn [writer]. destruct Al as [Em F]. rewrite <- V2 in Em. rewrite <- E in P3. eapply rest_touches; [eapply (groups_step T R LT LR _ _ _ _ _ _ V1 E Em F P3 H)|cbn; tauto].
  - apply onWriter_inv in H as (w & H & ->). cbn [writer]. destruct Al as (Em & Dk & F). rewrite <- V2 in Em. rewrite <- E in P4. eapply rest_touches; [eapply (kerning_step T R LT LR _ _ _ _ _ _ V1 E Em Dk F P4 H)|cbn; tauto].
  - apply onWriter_inv in H as (w & H & ->). cbn [writer]. destruct Al as [Em F]. rewrite <- V2 in Em. rewrite <- E in P5. eapply rest_touches; [eapply (lib_step T R LT LR _ _ _ _ _ _ V1 E Em F P5 H)|cbn; tauto].
  - apply onWriter_inv in H as (w & H & ->). cbn [writer]. rewrite <- V2 in Al. rewrite <- E in P6. eapply rest_touches; [eapply (features_step _ _ _ _ _ _ V1 E Al P6 H)|cbn; tauto].
  - apply onWriter_inv in H as (w & H & ->). cbn [writer]. unfold Ufo.writeImage in H. rewrite V1 in H. change (3 <? 3)%Z with false in H. cbv iota in H. destruct (pngValidator data); [|discriminate H]. cbn [negb andb] in H.
    destruct (writeImage_es _ _ _ _ _ _ Al E H) as (El & ies & Hi & es' & E' & Gi & Fr). rewrite E. eapply (rest_entry nImages); [left; cbn; tauto|exact E'|exact Fr].
  - apply onWriter_inv in H as (w & H & ->). cbn [writer]. unfold removeImage in H. rewrite V1 in H. change (3 <? 3)%Z with false in H. cbv iota in H.
    assert (Nd : forall ies ds, get nImages es = Some (Dir ies) -> get fileName ies <> Some (Dir ds)).
    { intros ies ds G. destruct Im as [(_ & _ & Hm) _]. rewrite G in Hm. destruct Hm as [_ Hm]. rewrite Hm. destruct (get fileName (fImages m)); discriminate. }
    destruct (removeImage_es _ _ _ _ Al E Nd H) as (El & ies & b & G0 & Gf & es' & E' & Fr & Gi). rewrite E. eapply (rest_entry nImages); [left; cbn; tauto|exact E'|exact Fr].
  - apply onWriter_inv in H as (w & H & ->). cbn [writer]. destruct Al as [Np Fp]. destruct (data_write _ _ _ _ _ _ _ Np Fp E (proj2 Im) H) as (El & es' & E' & Fr & D). rewrite E. eapply (rest_entry nData); [left; cbn; tauto|exact E'|exact Fr].
  - apply onWriter_inv in H as (w & H & ->). cbn [writer]. destruct Al as [Np Fp]. destruct (data_remove _ _ _ _ _ Np Fp E (proj2 Im) H) as (El & es' & E' & Fr & D). rewrite E. eapply (rest_entry nData); [left; cbn; tauto|exact E'|exact Fr].
Qed.
(** the glyph sets are in the directories of layers *)
Definition setsIn (s : fstate) : Prop := forall n p g, get n (sets s) = Some (p, g) -> exists d, p = [d] /\ ownDir d.
Lemma inv_setsIn sv m s : finv T R lower P sv m s -> setsIn s.
Proof.
  intros [_ _ _ (es & E & _ & _ & Ly)] n p g G. pose proof Ly as [A1 A2 A3 A4 A5 A6 A7 A8 A9]. destruct (get n (layers (writer s))) as [d|] eqn:Gl; [|exfalso; apply (A7 n); [congruence|exact Gl]].
  destruct (layer_get _ _ _ _ _ _ _ _ _ _ Ly Gl) as (L & GL). destruct (A9 _ _ _ Gl GL) as (dd & _ & B & _). exists d. split; [eapply B; exact G|]. destruct A1 as [(_ & O & _) _]. eapply O. exact Gl.
Qed.
Lemma rest_onLayer layer f s s' : setsIn s -> onLayer layer f s = Ok s' -> setsIn s' /\ restKept (tree (writer s)) (tree (writer s')).
Proof.
  intros J H. unfold onLayer in H. destruct (get layer (sets s)) as [[p g]|] eqn:Gs; [|discriminate H]. destruct (J _ _ _ Gs) as (d & -> & Od).
  destruct (find (tree (writer s)) [d]) as [n|] eqn:Fd; [|discriminate H]. destruct (f g n) as [[g' n']|]; [|discriminate H]. cbn [bind] in H. destruct (tree (writer s)) as [b|es] eqn:E; [discriminate Fd|]. cbn [put] in H. apply Ok_inj in H. subst s'. split; cbn [sets writer tree].
  - intros n0 p g0 G. cbn [sets] in G. rewrite get_set in G. destruct (eqb n0 layer); [injection G as <- <-; exists d; split; [reflexivity|exact Od]|eapply J; exact G].
  - eapply (rest_entry d); [right; exact Od|reflexivity|]. intros y N. apply get_set_other. exact N.
Qed.
Lemma rest_saveSets l : forall s s', setsIn s -> foldM (fun s n => onLayer n (glyphCall T R lower toFileName CWriteContents) s) s l = Ok s' -> setsIn s' /\ restKept (tree (writer s)) (tree (writer s')).
Proof.
  induction l as [|n l IH]; intros s s' J H; cbn [foldM] in H; [apply Ok_inj in H; subst; split; [exact J|apply rest_refl]|].
  apply bind_Ok in H as (s1 & H1 & H). apply rest_onLayer in H1 as [J1 K1]; [|exact J]. destruct (IH _ _ J1 H) as [J2 K2]. split; [exact J2|]. eapply rest_trans; eassumption.
Qed.
Lemma rest_save order s s' : setsIn s -> save T R lower toFileName order s = Ok s' -> restKept (tree (writer s)) (tree (writer s')).
Proof.
  intros J H. unfold save in H. apply bind_Ok in H as (s1 & H1 & H). apply rest_saveSets in H1 as [J1 K1]; [|exact J]. eapply rest_trans; [exact K1|]. apply onWriter_inv in H as (w & H & ->). cbn [writer].
  apply (rest_touches nLayercontents); [|cbn; tauto]. unfold writeLayerContents in H. destruct (ver (cfg s1) <? 3)%Z; [injection H as ->; apply touches_refl|]. unfold mbind at 1, getLayers in H. destruct (true && _); [discriminate H|]. unfold mbind at 1, lift in H. destruct (mapM _ _); [|discriminate H]. eapply writePlist_touches. exact H.
Qed.
Lemma rest_movedir es old d t : ownDir old -> ownDir d -> movedir (Dir es) [old] [d] = (t, None) -> restKept (Dir es) t.
Proof.
  intros Oo Od H. unfold movedir, makedir in H. rewrite find_top in H.
  assert (X : forall es1, (forall y, y <> d -> get y es1 = get y es) ->
    match find (Dir es1) [old], find (Dir es1) [d] with
    | None, _ | _, None => (Dir es1, Some ResourceNotFound)
    | Some (File _), _ => (Dir es1, Some DirectoryExpected)
    | Some s, Some d0 => match merge s d0 with None => (Dir es1, Some FileExpected) | Some m => match put [d] m (Dir es1) with Some t2 => (cut [old] t2, None) | None => (Dir es1, Some ResourceNotFound) end end
    end = (t, None) -> restKept (Dir es) t).
  { clear H. intros es1 F H. destruct (find (Dir es1) [old]) as [[b0|o0]|]; [destruct (find (Dir es1) [d]); discriminate H| |discriminate H]. destruct (find (Dir es1) [d]) as [n|]; [|discriminate H]. destruct (merge _ n) as [mm|]; [|discriminate H]. cbn [put cut] in H. apply (f_equal fst) in H. cbn [fst] in H.
    intros es0 E0. injection E0 as <-. eexists. split; [symmetry; exact H|]. intros y [_ Ny]. rewrite get_filter_name. destruct (eqb_spec old y) as [->|]; [contradiction|]. assert (y <> d) by (intros ->; contradiction). rewrite get_set_other by assumption. apply F. assumption. }
  destruct (get d es) as [[b|ds]|]; [discriminate H|exact (X es (fun y _ => eq_refl) H)|]. cbn [put] in H. apply (X (set d (Dir []) es)); [intros y N; apply get_set_other; exact N|exact H].
Qed.
Lemma rest_step m s a s' : finv T R lower P noneSaved m s -> allowedIn ok m a -> factOn T R ro lower toFileName s a = Ok s' -> restKept (tree (writer s)) (tree (writer s')).
Proof.
  intros I Al H. pose proof I as [V1 V2 V3 (es & E & Pl & Im & Ly)]. pose proof Ly as [A1 A2 A3 A4 A5 A6 A7 A8 A9]. pose proof A1 as [Lyd Fi]. pose proof Lyd as (Dl & Own & Apart).
  destruct a; try (eapply rest_plain; [exact I|exact Al|exact H|exact Logic.I]).
  - rewrite fact_Layer in H. pose proof (key_eq _ _ _ _ _ _ _ _ name Ly) as Ek. unfold getLayer in H. change (layerKey name s) with (resolved name (layers (writer s))) in H. rewrite <- Ek in H.
    unfold onWriter in H. destruct (getGlyphSet C lower (cfg s) name defaultLayer true (writer s)) as [w [r|e]] eqn:Eg; [|discriminate H]. cbn [bind] in H. cbn [sets writer cfg] in H.
    assert (Ew : tree (writer s') = tree w) by (destruct (has (fKey m name) (sets s)); [apply Ok_inj in H; subst s'; reflexivity|]; destruct (components (fst r)) as [p|]; [|discriminate H]; cbn [bind] in H; destruct (find (tree w) p); [|discriminate H]; destruct (openSet _ _ _) as [w0 [x|]]; [|discriminate H]; apply Ok_inj in H; subst s'; reflexivity). rewrite Ew. clear H Ew s'.
    assert (Nn : name <> None \/ defaultLayer = true).
    { destruct name; [left; discriminate|]. destruct defaultLayer; [right; reflexivity|]. unfold getGlyphSet in Eg. rewrite V1 in Eg. cbn in Eg. discriminate Eg. }
    rewrite (getGlyphSet_3 C lower _ _ _ _ _ V1 Nn), <- Ek in Eg. apply get3_spec in Eg; [|exact Dl]. destruct Eg as [[_ Eg]|(d & cs & s1 & Ch & Hc & Mk & Tr & El & Def)]; [destruct (Eg r eq_refl)|].
    assert (Cd : components d = Ok [d] /\ ownDir d).
    { destruct Ch as [G|[G Ch]]; [split; [apply (Fi _ _ G)|eapply Own; exact G]|]. unfold chosen in Ch. destruct defaultLayer; [destruct Ch as [-> _]; split; [apply glyphs_components|left; reflexivity]|].
      split; [eapply newDirectory_components; exact Ch|apply newDirectory_fresh in Ch as [(r0 & -> & _) _]; right; eauto]. }
    destruct Cd as [Cd Od]. rewrite Cd in Hc. injection Hc as <-. apply (makedir_es es d _ _ E) in Mk. rewrite <- Tr in Mk. rewrite E. destruct Mk as [(ds & _ & ->)|[_ ->]]; [apply rest_refl|]. eapply (rest_entry d); [right; exact Od|reflexivity|]. intros y N. apply get_set_other. exact N.
  - rewrite fact_Glyph in H. eapply rest_onLayer; [eapply inv_setsIn; exact I|exact H].
  - rewrite fact_Call in H. eapply rest_onLayer; [eapply inv_setsIn; exact I|exact H].
  - rewrite fact_LayerInfo in H. eapply rest_onLayer; [eapply inv_setsIn; exact I|exact H].
  - rewrite fact_Delete in H. destruct (onWriter_ (fun c => deleteGlyphSet c (Some layer)) s) as [s1|] eqn:H1; [|discriminate H]. apply Ok_inj in H. subst s'. apply onWriter_inv in H1 as (w & H & ->). cbn [cfg writer sets].
    apply (delete_ok _ _ _ _ es V1 E) in H.
    2:{ intros d G. destruct (Fi _ _ G) as (_ & Cd & _). split; [exact Cd|]. destruct (layer_get _ _ _ _ _ _ _ _ _ _ Ly G) as (L & GL). destruct (A9 _ _ _ G GL) as (dd & B1 & _). eauto. }
    destruct H as (d & G & El & Tr). rewrite E. eapply (rest_entry d); [right; eapply Own; exact G|exact Tr|]. intros y N. rewrite get_filter_name. destruct (eqb_spec d y); [congruence|reflexivity].
  - rewrite fact_Rename in H. destruct (if has layer (sets s) then _ else Ok s) as [s1|] eqn:H1; [|discriminate H]. cbn [bind] in H.
    assert (X : finv T R lower P (fun n => n = layer) m s1 /\ restKept (tree (writer s)) (tree (writer s1))).
    { destruct (has layer (sets s)) eqn:Hs.
      - split; [|eapply rest_onLayer; [eapply inv_setsIn; exact I|exact H1]]. eapply inv_weaken; [|eapply close_step; [exact LT|exact LR|exact fresh_names|exact ok_text|exact P_text|exact P_file|exact I|exact H1]]. cbn beta. tauto.
      - apply Ok_inj in H1. subst s1. split; [|apply rest_refl]. eapply all_closed; [exact I|]. intros n -> N. unfold has in Hs. destruct (get layer (sets s)); [discriminate Hs|congruence]. }
    destruct X as [I1 K1]. eapply rest_trans; [exact K1|]. clear K1 H1. destruct (onWriter_ (fun c => renameGlyphSet lower c (Some layer) (Some newName) defaultLayer) s1) as [s2|] eqn:H2; [|discriminate H]. apply Ok_inj in H. subst s'. apply onWriter_inv in H2 as (w & H & ->). cbn [cfg writer sets].
    clear V1 V2 V3 Pl Im Ly A1 A2 A3 A4 A5 A6 A7 A8 A9 Lyd Fi Dl Own Apart E es. pose proof I1 as [V1 V2 V3 (es & E & Pl & Im & Ly)]. pose proof (iFits _ _ _ _ _ _ _ _ Ly) as A1. pose proof A1 as [Lyd Fi]. pose proof Lyd as (Dl & Own & Apart).
    assert (Sf : safeCall (CRename (Some layer) (Some newName) defaultLayer) (layers (writer s1))).
    { cbn [safeCall]. destruct defaultLayer; [|exact Logic.I]. intros Eq n N X. injection Eq as ->. destruct Al as (_ & _ & Al). apply (iDefault _ _ _ _ _ _ _ _ Ly) in X. destruct (Al eq_refl eq_refl) as [Y|Y]; congruence. }
    assert (Fw : fits lower w) by (eapply (fits_call C lower (cfg s1) (CRename (Some layer) (Some newName) defaultLayer) (writer s1) w keeps V1 A1 Sf); [apply Al|exact H]).
    apply rename_ok in H; [|exact V1]. destruct H as [(En & -> & _)|(old & d & Go & Rn & El & src & dst & Cs & Cd & Mv)]; [apply rest_refl|].
    destruct Fw as [(_ & Ow & _) Fw]. rewrite El in Fw, Ow. destruct (Fw newName d (get_set_same _ _ _)) as (_ & Cd' & _). rewrite Cd' in Cd. injection Cd as <-. destruct (Fi _ _ Go) as (_ & Co & _). rewrite Co in Cs. injection Cs as <-. rewrite E in *.
    eapply rest_movedir; [eapply Own; exact Go|eapply Ow; apply get_set_same|exact Mv].
  - rewrite fact_Save in H. eapply rest_save; [eapply inv_setsIn; exact I|exact H].
  - rewrite fact_Reopen in H. apply bind_Ok in H as (s1 & Sv & H). eapply rest_trans; [eapply rest_save; [eapply inv_setsIn; exact I|exact Sv]|]. destruct Al as [Nd Df].
    destruct (save_step T R lower toFileName LT LR ok P fresh_names ok_text P_text P_file _ _ _ _ I Sv) as [J K]. destruct (K Nd Df) as (nds & Ek & In_ & _ & Rw). destruct J as [W1 W2 (cr & W3 & W4) (es1 & E1 & Pl1 & _)]. rewrite E1 in H, Rw |- *.
    unfold opened in H. destruct (initWriter C T _ true _) as [w [[]|e]] eqn:Ei; [|discriminate H]. apply Ok_inj in H. subst s'. cbn [writer].
    destruct (init_again T R lower toFileName LT LR ok P fresh_names ok_text P_text P_file (mkCfg 3 true (creator (cfg s1))) cr es1 w _ eq_refl eq_refl W3 W4 (rMeta _ _ _ _ Pl1) Rw Ei) as (b & Tr & _).
    eapply (rest_entry nMetainfo); [left; cbn; tauto|exact Tr|]. intros y N. apply get_set_other. exact N.
Qed.
Lemma rest_session l : forall m s s', finv T R lower P noneSaved m s -> allowedAll ok m l -> foldM (factOn T R ro lower toFileName) s l = Ok s' -> restKept (tree (writer s)) (tree (writer s')).
Proof.
  induction l as [|a l IH]; intros m s s' I Al H; cbn [foldM] in H; [apply Ok_inj in H; subst; apply rest_refl|]. destruct Al as [Al As]. apply bind_Ok in H as (s1 & H1 & H).
  eapply rest_trans; [eapply rest_step; [exact I|exact Al|exact H1]|]. eapply IH; [|exact As|exact H]. eapply any_step; eassumption.
Qed.
(** ** The session *)
Theorem edited c p p' t f l order dn : textOk c -> readMetaInfo C t true = Ok 3%Z -> loadUfo T R p p' t = Ok f -> tidy T R lower named t ->
  allowedAll ok (foundFont f) l -> acceptedAll T R ro (foundFont f) [] l -> let m := fold_left fremember l (foundFont f) in
  NoDup order -> (forall n, In n order <-> get n (fLayers m) <> None) -> fDefault m = Some dn ->
  exists s s', editing T R ro lower toFileName (PStr c) t l = Ok s /\ save T R lower toFileName order s = Ok s' /\ readsFont T R m order dn (tree (writer s')) /\
    forall y, foreign y -> find (tree (writer s')) [y] = find t [y].
Proof.
  intros Tc Rm Lo Td Al Ac m Nd Or Fd. destruct (found_opened c p p' t f Tc Rm Lo Td) as (s0 & E0 & I0 & O0 & K0).
  destruct (session_total T R ro lower toFileName LT LR keeps LL ok P fresh_names total_names ok_text P_text P_file l _ _ _ I0 O0 Al Ac) as (s & E & I & Op).
  destruct (save_total T R lower toFileName LT LR ok P fresh_names ok_text P_text P_file _ _ _ _ I Op Or) as (s' & Es & _). exists s, s'. split; [unfold editing; rewrite E0; exact E|]. split; [exact Es|]. split.
  2:{ pose proof (rest_session _ _ _ _ I0 Al E) as K1. pose proof (rest_save _ _ _ (inv_setsIn _ _ _ I) Es) as K2. pose proof (rest_trans _ _ _ (rest_trans _ _ _ K0 K1) K2) as K3. intros y Fy.
    assert (exists es, t = Dir es) as (es & ->) by (unfold readMetaInfo in Rm; apply bind_Ok in Rm as (mv & Em & _); destruct (plist_file _ _ _ Em) as (b & X); eapply find_root; exact X).
    destruct (K3 es eq_refl) as (es' & -> & Fr). rewrite !find_top. apply Fr. exact Fy. }
  destruct (save_step T R lower toFileName LT LR ok P fresh_names ok_text P_text P_file _ _ _ _ I Es) as [J K]. destruct K as (nds & K1 & K2 & K3 & _); [exact Nd|unfold m in Fd; rewrite Fd; discriminate|]. eapply saved_read; eassumption.
Qed.
End Edit.

(** ** C98 *)
(** [t]: a UFO 3 that the reader loads completely (as [f]) and that is [tidy].  A
    writer opened on it accepts every history of valid actions, and after saving the
    UFO holds what was found with the changes, and the files that ufoLib does not know. *)
Theorem C98_in_place_partial : forall T R ro lower toFileName, pytext_laws T -> repr_laws T R -> lower_keeps lower -> lower_laws lower ->
  case_fresh (fun f => f) lower toFileName -> good_names textOk toFileName -> (forall n e f, toFileName n e = Ok f -> glyphFile f) ->
  (forall n e, n <> [] -> fewNames e -> exists f, toFileName n e = Ok f) ->
  forall creator p p' t f l order default, textOk creator ->
  readMetaInfo (plistCodec T R) t true = Ok 3%Z -> loadUfo T R p p' t = Ok f -> tidy T R lower (fun _ _ => True) t ->
  allowedAll textOk (foundFont f) l -> acceptedAll T R ro (foundFont f) [] l ->
  let m := fold_left fremember l (foundFont f) in
  NoDup order -> (forall n, In n order <-> get n (fLayers m) <> None) -> fDefault m = Some default ->
  exists s s', editing T R ro lower toFileName (PStr creator) t l = Ok s /\ save T R lower toFileName order s = Ok s' /\ readsFont T R m order default (tree (writer s')) /\
    forall y, foreign y -> find (tree (writer s')) [y] = find t [y].
Proof.
  intros T R ro lower tf LT LR K LL CF GN GF Tot c p p' t f l order dn Tc Rm Lo Td Al Ac m Nd Or Fd.
  apply (edited T R ro lower tf LT LR K LL textOk (fun _ _ => True) (fun _ f => textOk f /\ glyphFile f)) with (p := p) (p' := p'); try assumption; try tauto.
  intros n e f0 On _ E. split; [split; [exact (GN _ _ _ On E)|exact (GF _ _ _ E)]|]. apply (CF _ _ _ E).
Qed.
Print Assumptions C98_in_place_partial.
Theorem C98_careful_partial : forall T R ro lower, pytext_laws T -> repr_laws T R -> lower_keeps lower -> lower_laws lower ->
  forall creator p p' t f l order default, textOk creator ->
  readMetaInfo (plistCodec T R) t true = Ok 3%Z -> loadUfo T R p p' t = Ok f -> tidy T R lower (fun _ _ => True) t ->
  allowedAll textOk (foundFont f) l -> acceptedAll T R ro (foundFont f) [] l ->
  let m := fold_left fremember l (foundFont f) in
  NoDup order -> (forall n, In n order <-> get n (fLayers m) <> None) -> fDefault m = Some default ->
  exists s s', editing T R ro lower (carefulFileName lower) (PStr creator) t l = Ok s /\ save T R lower (carefulFileName lower) order s = Ok s' /\ readsFont T R m order default (tree (writer s')) /\
    forall y, foreign y -> find (tree (writer s')) [y] = find t [y].
Proof.
  intros T R ro lower LT LR K LL. apply C98_in_place_partial; try assumption.
  - apply C08_careful_function. intros f g ->. reflexivity.
  - apply careful_names_text.
  - intros n e f E. eapply glif_file. exact E.
  - intros n e. apply careful_total. exact LL.
Qed.
Print Assumptions C98_careful_partial.
(** with the default file name function, for names that are apart (C08); the files that
    are found have the names that it would give *)
Theorem C98_apart_names_partial : forall T R ro lower S, pytext_laws T -> repr_laws T R -> lower_keeps lower -> lower_laws lower -> lower_stable lower -> apart_names lower S ->
  forall creator p p' t f l order default, textOk creator ->
  readMetaInfo (plistCodec T R) t true = Ok 3%Z -> loadUfo T R p p' t = Ok f -> tidy T R lower (fun n f => S n /\ ownFile lower n f) t ->
  allowedAll (fun n => S n /\ textOk n) (foundFont f) l -> acceptedAll T R ro (foundFont f) [] l ->
  let m := fold_left fremember l (foundFont f) in
  NoDup order -> (forall n, In n order <-> get n (fLayers m) <> None) -> fDefault m = Some default ->
  exists s s', editing T R ro lower (defaultFileName lower) (PStr creator) t l = Ok s /\ save T R lower (defaultFileName lower) order s = Ok s' /\ readsFont T R m order default (tree (writer s')) /\
    forall y, foreign y -> find (tree (writer s')) [y] = find t [y].
Proof.
  intros T R ro lower S LT LR K LL L A c p p' t f l order dn Tc Rm Lo Td Al Ac m Nd Or Fd.
  apply (edited T R ro lower (defaultFileName lower) LT LR K LL (fun n => S n /\ textOk n) (fun n f => S n /\ ownFile lower n f) (fun n f => (((S n /\ textOk n) /\ ownFile lower n f) /\ textOk f) /\ glyphFile f)) with (p := p) (p' := p'); try assumption; try tauto.
  - intros n e f0 On Pe E. assert (CO : case_only (fun f => f) lower) by (intros a b ->; reflexivity).
    destruct (fresh_apart (fun f => f) lower textOk (fun n => S n /\ textOk n) L CO (default_names_text lower) (apart_sub lower S _ (fun n H => proj1 H) A) (fun n H => proj2 H) n e f0 On) as (H1 & H2 & H3); [|exact E|].
    + intros g Ig. destruct (Pe g Ig) as (k & Nk & H1 & _). eauto.
    + split; [split; [exact H1|eapply glif_file; exact E]|auto].
  - intros n e. apply default_total. exact LL.
Qed.
Print Assumptions C98_apart_names_partial.

(** ** Cases *)
(** A UFO that ufoLib has not written: names of files, layout of the documents, a GLIF of
    format 1, a file of another program. *)
Definition editLayers : string := "<array><array><string>fore</string><string>glyphs</string></array><array><string>back</string><string>glyphs.X</string></array></array>".
Definition editTree (more : list (str * node)) : node := Dir ([
  (u "README", File [1; 2]%N);
  (u "metainfo.plist", File (doc "<dict><key>formatVersion</key><integer>3</integer><key>creator</key><string>x</string></dict>"));
  (u "kerning.plist", File (doc "<dict><key>A</key><dict><key>A</key><integer>-7</integer></dict></dict>"));
  (u "lib.plist", File (doc "<dict><key>k</key><dict></dict></dict>"));
  (u "layercontents.plist", File (doc editLayers));
  (u "glyphs", Dir [
    (u "contents.plist", File (doc "<dict><key>A</key><string>some.glif</string><key>old</key><string>other</string></dict>"));
    (u "some.glif", File (u "<glyph name=""A"" format=""2""><advance width=""500""/><note>n</note></glyph>"));
    (u "other", File (u "<glyph name=""old"" format=""1""><unicode hex=""61""/></glyph>"))]);
  (u "glyphs.X", Dir [
    (u "layerinfo.plist", File (doc "<dict><key>lib</key><dict></dict></dict>"));
    (u "contents.plist", File (doc "<dict></dict>"))]);
  (u "data", Dir [(u "z", File [2]%N)])] ++ more).
Definition editSession : list faction :=
  [ALayer None true; AGlyph (u "fore") (u "b") [] None None; ACall (u "fore") (GlyphSet.CDelete (u "old")); AKerning []; ALayer (Some (u "new")) false;
   AGlyph (u "new") (u "A") [] None None; ARemoveData [u "z"]; ARename (u "back") (u "rear") false].
Definition editOrder : list str := [u "fore"; u "rear"; u "new"].
Definition loadedOf (t : node) : ufont := match loadUfo toyText toyRepr (fun l => l) (fun l => l) t with Ok f => f | Err _ => mkUfont [] [] [] [] [] [] [] [] [] end.
Definition editedTree (t : node) (l : list faction) (order : list str) : res node :=
  do s <- editing toyText toyRepr roCase ascii_lower (carefulFileName ascii_lower) (PStr (u "me")) t l;
  do s' <- save toyText toyRepr ascii_lower (carefulFileName ascii_lower) order s; Ok (tree (writer s')).
Example C98_case :
  match editedTree (editTree []) editSession editOrder with
  | Ok t =>
    let f := loadedOf t in
    find t [u "README"] = Some (File [1; 2]%N) /\ find t [u "kerning.plist"] = None /\ find t [u "data"] = None /\ find t [u "glyphs.X"] = None /\
    find t [u "lib.plist"] = find (editTree []) [u "lib.plist"] /\ find t [u "glyphs"; u "some.glif"] = find (editTree []) [u "glyphs"; u "some.glif"] /\ find t [u "glyphs"; u "other"] = None /\
    find t [u "glyphs.rear"; u "layerinfo.plist"] = find (editTree []) [u "glyphs.X"; u "layerinfo.plist"] /\
    map fst (uLayers f) = editOrder /\ uDefault f = u "fore" /\ uLib f = [(PStr (u "k"), PDict [])] /\
    map (fun l => (fst l, map fst (fst (snd l)))) (uLayers f) = [(u "fore", [u "A"; u "b"]); (u "rear", []); (u "new", [u "A"])] /\
    match get (u "fore") (uLayers f) with
    | Some (gl, _) => exists r, get (u "A") gl = Some r /\ get (u "width") (rattrs r) = Some (PInt 500) /\ get (u "note") (rattrs r) = Some (PStr (u "n"))
    | None => False
    end
  | Err _ => False
  end.
Proof. vm_compute. repeat split; repeat eexists. Qed.

(** The hypotheses hold. *)
Lemma entries_inv e c : map (fun '(g, f) => (PStr g, PStr f)) e = map (fun '(g, f) => (PStr g, PStr f)) c -> e = c.
Proof.
  revert c. induction e as [|[g f] e IH]; intros [|[g' f'] c] H; try discriminate H; [reflexivity|]. cbn [map] in H. injection H as <- <- H. f_equal. apply IH. exact H.
Qed.
Lemma ownDir_check x : ownDir x -> eqb x (u "glyphs") || eqb (firstn 7 x) (u "glyphs.") = true.
Proof. intros [->|(r & ->)]; reflexivity. Qed.
Lemma name_check n : forallb (fun c => (c =? 10) || ((32 <=? c) && (c <? 128)))%N n && (forallb (fun c => negb (eqb c slash)) n && negb (mem n [[]; u "."; u ".."])) = true -> textOk n /\ plainName n.
Proof. intro H. apply andb_prop in H as [A B]. split; [apply text_check; exact A|apply plain_check; exact B]. Qed.
Lemma edit_layers more l : readLayersR (plistCodec toyText toyRepr) 3 (editTree more) true = Ok l -> l = [(u "fore", u "glyphs"); (u "back", u "glyphs.X")].
Proof. intro H. vm_compute in H. apply Ok_inj in H. symmetry. exact H. Qed.
Lemma edit_tidy : tidy toyText toyRepr ascii_lower (fun _ _ => True) (editTree []).
Proof.
  split.
  - unfold editTree. rewrite app_nil_r. repeat first [apply wf_file|apply wf_dir; [unfold Base.dict_ok, keys; cbn [map fst]; repeat (constructor; [vm_compute; intuition discriminate|]); constructor|]|apply Forall_nil|apply Forall_cons; cbn [snd]].
  - intros l n d E I. rewrite (edit_layers _ _ E) in I. destruct I as [I|[I|[]]]; injection I as <- <-; (split; [apply text_check; reflexivity|]); (split; [apply text_check; reflexivity|]); (split; [apply plain_check; reflexivity|]).
    + eexists _, _. split; [reflexivity|]. split; [|split; [left; reflexivity|]].
      * intros x m [J|[J|[J|[]]]]; apply pair_equal_spec in J as [_ <-]; eexists; reflexivity.
      * intros e H. assert (e = [(u "A", u "some.glif"); (u "old", u "other")]) as ->. { apply entries_inv. vm_compute in H. apply Ok_inj in H. injection H as H. symmetry. exact H. } clear H. split.
        -- intros g f [J|[J|[]]]; injection J as <- <-; (split; [apply text_check; reflexivity|]); (split; [apply text_check; reflexivity|]); (split; [vm_compute; intuition discriminate|exact Logic.I]).
        -- intros g f g' f' [J|[J|[]]] [J'|[J'|[]]] N; injection J as <- <-; injection J' as <- <-; try congruence; vm_compute; discriminate.
    + eexists _, _. split; [reflexivity|]. split; [|split; [right; left; reflexivity|]].
      * intros x m [J|[J|[]]]; apply pair_equal_spec in J as [_ <-]; eexists; reflexivity.
      * intros e H. assert (e = []) as ->. { apply entries_inv. vm_compute in H. apply Ok_inj in H. injection H as H. symmetry. exact H. } split; [intros g f []|intros g f g' f' []].
  - intros l n d n' d' E I I' N. rewrite (edit_layers _ _ E) in I, I'. destruct I as [I|[I|[]]], I' as [I'|[I'|[]]]; injection I as <- <-; injection I' as <- <-; try congruence; vm_compute; discriminate.
  - intros l x E O N. rewrite (edit_layers _ _ E). unfold editTree in N. rewrite find_top in N. apply ownDir_check in O.
    match type of N with get _ ?es <> None => assert (I : In x (keys es)) by (destruct (in_dec eq_decide x (keys es)) as [I|I]; [exact I|]; exfalso; apply N, get_None; exact I) end.
    cbn [app keys map fst] in I. destruct I as [<-|[<-|[<-|[<-|[<-|[<-|[<-|[<-|[]]]]]]]]]; try discriminate O; [left; reflexivity|right; left; reflexivity].
  - exact Logic.I.
  - cbn -[u fileAt isdir]. split.
    + intros [|c p] F; [constructor|]. unfold fileAt in F. cbn [find get] in F. destruct (eqb_spec c (u "z")) as [->|N]; [|contradiction (F eq_refl)]. destruct p; [|contradiction (F eq_refl)]. constructor; [apply plain_check; reflexivity|constructor].
    + intros [|c q] Nq Dq; [congruence|]. exfalso. unfold isdir in Dq. cbn [find get] in Dq. destruct (eqb_spec c (u "z")); [|discriminate Dq]. destruct q; discriminate Dq.
Qed.
Definition editFont : font := fold_left fremember editSession (foundFont (loadedOf (editTree []))).
Lemma edit_allowed : allowedAll textOk (foundFont (loadedOf (editTree []))) editSession.
Proof.
  set (m := foundFont (loadedOf (editTree []))). vm_compute in m.
  cbn [editSession allowedAll]. repeat match goal with |- _ /\ _ => split | |- True => exact Logic.I end; cbn [allowedIn]; repeat match goal with |- _ /\ _ => split | |- True => exact Logic.I end.
  - apply text_check. reflexivity.
  - left. split; [reflexivity|]. apply storable_empty, text_val. reflexivity.
  - reflexivity.
  - discriminate.
  - right. left. reflexivity.
  - constructor.
  - apply (asDict_faithful []); [constructor|]. intros a x G. discriminate G.
  - split; [discriminate|]. intro E. discriminate E.
  - apply text_check. reflexivity.
  - apply text_check. reflexivity.
  - left. split; [reflexivity|]. apply storable_empty, text_val. reflexivity.
  - discriminate.
  - constructor; [apply plain_check; reflexivity|constructor].
  - split; [discriminate|]. intro E. discriminate E.
  - apply text_check. reflexivity.
  - discriminate.
Qed.
Lemma edit_accepted : acceptedAll toyText toyRepr roCase (foundFont (loadedOf (editTree []))) [] editSession.
Proof.
  assert (V : forall (A : Type) (r : res A) , isOk r = true -> exists x, r = Ok x) by (intros A [x|e] H; [eauto|discriminate H]).
  assert (G : forall n g items fv, isOk (gsWriteBytes toyText toyRepr roCase 3 (PStr n) g (option_map gdrawing items) fv true) = true -> exists b, gsWriteBytes toyText toyRepr roCase 3 (PStr n) g (option_map gdrawing items) fv true = Ok b) by (intros; apply V; assumption).
  set (m := foundFont (loadedOf (editTree []))). vm_compute in m.
  cbn [editSession acceptedAll]. repeat match goal with |- _ /\ _ => split | |- True => exact Logic.I end; cbn [acceptedIn].
  - split; [right; reflexivity|]. right. split; [vm_compute; discriminate|]. split; [intros []|reflexivity].
  - split; [vm_compute; tauto|]. split; [eexists; split; [vm_compute; reflexivity|vm_compute; reflexivity]|]. split; [discriminate|]. apply G. vm_compute. reflexivity.
  - split; [vm_compute; tauto|]. intros L E. vm_compute in E. injection E as <-. vm_compute. discriminate.
  - intros p v [].
  - split; [left; discriminate|]. left. split; [reflexivity|]. split; [vm_compute; reflexivity|discriminate].
  - split; [vm_compute; tauto|]. split; [eexists; split; [vm_compute; reflexivity|vm_compute; reflexivity]|]. split; [discriminate|]. apply G. vm_compute. reflexivity.
  - exists [u "z"], [2]%N. split; [vm_compute; reflexivity|]. exists []. reflexivity.
  - split; [vm_compute; discriminate|]. split; [vm_compute; reflexivity|]. right. split; [reflexivity|discriminate].
Qed.
Lemma three_names {B} (n x y z : str) (d : list (str * B)) : keys d = [x; z; y] -> (In n [x; y; z] <-> get n d <> None).
Proof.
  intro K. transitivity (In n (keys d)); [rewrite K; cbn [In]; tauto|]. split; [intros I E; apply get_None in E; contradiction|].
  intro N. destruct (in_dec eq_decide n (keys d)) as [I|I]; [exact I|]. exfalso. apply N, get_None. exact I.
Qed.
Example C98_hypotheses : exists s s', editing toyText toyRepr roCase ascii_lower (carefulFileName ascii_lower) (PStr (u "me")) (editTree []) editSession = Ok s
  /\ save toyText toyRepr ascii_lower (carefulFileName ascii_lower) editOrder s = Ok s'
  /\ readsFont toyText toyRepr editFont editOrder (u "fore") (tree (writer s')) /\ forall y, foreign y -> find (tree (writer s')) [y] = find (editTree []) [y].
Proof.
  apply C98_careful_partial with (p := fun l => l) (p' := fun l => l).
  - exact toyText_laws.
  - exact toyRepr_laws.
  - apply ascii_keeps.
  - apply ascii_lower_laws.
  - apply text_check. reflexivity.
  - vm_compute. reflexivity.
  - vm_compute. reflexivity.
  - exact edit_tidy.
  - exact edit_allowed.
  - exact edit_accepted.
  - repeat constructor; vm_compute; intuition discriminate.
  - intro n. refine (three_names n (u "fore") (u "rear") (u "new") _ _). vm_compute. reflexivity.
  - vm_compute. reflexivity.
Qed.
(** A directory of a layer that is not listed in layercontents.plist is in the way: a new
    layer is given it, with the glyphs that are in there. *)
Definition staleDir : list (str * node) :=
  [(u "glyphs.new", Dir [(u "contents.plist", File (doc "<dict><key>stale</key><string>s.glif</string></dict>")); (u "s.glif", File (u "<glyph name=""stale"" format=""2""/>"))])].
Theorem C98_unlisted_refuted : exists t l order t', let m := fold_left fremember l (foundFont (loadedOf t)) in
  isOk (loadUfo toyText toyRepr (fun l => l) (fun l => l) t) = true /\ editedTree t l order = Ok t' /\
  option_map lGlyphs (get (u "new") (fLayers m)) = Some [] /\
  exists gl li, get (u "new") (uLayers (loadedOf t')) = Some (gl, li) /\ map fst gl = [u "stale"].
Proof.
  exists (editTree staleDir), [ALayer (Some (u "new")) false], [u "fore"; u "back"; u "new"]. cbv zeta.
  destruct (editedTree (editTree staleDir) [ALayer (Some (u "new")) false] [u "fore"; u "back"; u "new"]) as [t'|e] eqn:E; [|vm_compute in E; discriminate E]. exists t'. vm_compute in E. apply Ok_inj in E. subst t'. vm_compute. repeat split. repeat eexists.
Qed.
Print Assumptions C98_unlisted_refuted.
