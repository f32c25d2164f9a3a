(** Property C88: whole fonts through files. *)
From Coq Require Import String NArith ZArith Bool Lia List Permutation.
From Coq.Floats Require Import SpecFloat.
From Verif Require Import Base PyVal PyText FloatRepr LowerLaws Filenames FilenamesProofs GlyphSet GlyphSetProofs NamesApart PropGlyphSet.
From Verif Require Import Xml FS FSProofs Validators ValidatorsProofs PropValidators Ufo UfoProofs PropUfo PropUfoFiles Plist PlistProofs PropPlist Etree EtreeProofs PropEtree PlistFiles PointPen PropPointPen Glif GlifProofs GlifOutline PropGlif PropSession PropLayers FontInfo PropFontInfo PropInfoFile Kerning KerningProofs Font FontProofs FontLayers FontData.
Import ListNotations.
Local Open Scope string_scope.
Local Open Scope list_scope.
Local Notation world := GlyphSet.world.
Local Notation mbind := Ufo.mbind.
Local Notation lift := Ufo.lift.
Local Notation ret := Ufo.ret.
Local Notation raise := Ufo.raise.
Local Notation fetch := PropGlyphSet.fetch.
Local Notation dict_ok := Base.dict_ok.
Local Notation find := FS.find.
Local Notation call := GlyphSet.call.

(** ** What a font consists of: independent of files *)
Record layerMem := mkLayer { lGlyphs : list (str * stored); lInfo : list (str * pyval); lPrev : bool }.
Record font := mkFont {
  fInfo : list (str * pyval); fGroups : list (str * list pyval); fKerning : list (str * str * pyval);
  fLib : list (pyval * pyval); fFeatures : str; fImages : list (str * bytes);
  (** the files of the data directory, by their paths below it *)
  fData : list (path * bytes);
  fLayers : list (str * layerMem); fDefault : option str;
  (** has the UFO been there when the writer was made *)
  fPrev : bool }.
Definition newFont : font := mkFont [] [] [] [] [] [] [] [] None false.
Definition onMem (layer : str) (f : layerMem -> layerMem) (m : font) : list (str * layerMem) :=
  match get layer (fLayers m) with Some L => set layer (f L) (fLayers m) | None => fLayers m end.
Definition withLayers (m : font) (l : list (str * layerMem)) (d : option str) : font :=
  mkFont (fInfo m) (fGroups m) (fKerning m) (fLib m) (fFeatures m) (fImages m) (fData m) l d (fPrev m).
Definition fKey (m : font) (name : option str) : str :=
  match name with Some n => n | None => match fDefault m with Some n => n | None => u "public.default" end end.
(** what an action does to it *)
Definition fremember (m : font) (a : faction) : font :=
  let '(mkFont i g k l f im dt ly d p) := m in
  match a with
  | AInfo i' => mkFont i' g k l f im dt ly d p
  | AGroups g' => mkFont i g' k l f im dt ly d p
  | AKerning k' => mkFont i g k' l f im dt ly d p
  | ALib l' => mkFont i g k l' f im dt ly d p
  | AFeatures f' => mkFont i g k l f' im dt ly d p
  | AImage x b => mkFont i g k l f (set x b im) dt ly d p
  | ARemoveImage x => mkFont i g k l f (del x im) dt ly d p
  | AData q b => mkFont i g k l f im (set q b dt) ly d p
  (** with everything below it, if it is a directory *)
  | ARemoveData q => mkFont i g k l f im (without q dt) ly d p
  | ALayer name df =>
    let n := fKey m name in
    withLayers m (if has n ly then ly else set n (mkLayer [] [] false) ly) (if df then Some n else d)
  | AGlyph layer n gl items fv => withLayers m (onMem layer (fun L => mkLayer (set n (gl, items, fv) (lGlyphs L)) (lInfo L) (lPrev L)) m) d
  | ACall layer c => withLayers m (onMem layer (fun L => mkLayer (match c with GlyphSet.CDelete n => del n (lGlyphs L) | _ => lGlyphs L end) (lInfo L) (lPrev L)) m) d
  | ALayerInfo layer info => withLayers m (onMem layer (fun L => mkLayer (lGlyphs L) info (lPrev L)) m) d
  | ADelete layer => withLayers m (del layer ly) (if eqb d (Some layer) then None else d)
  | ARename layer new df =>
    match get layer ly with
    | Some L => withLayers m (set new (mkLayer (lGlyphs L) (lInfo L) true) (del layer ly)) (if df then Some new else if eqb d (Some layer) then None else d)
    | None => m
    end
  | ASave _ => m
  | AReopen _ => mkFont i g k l f im dt (map (fun '(n, L) => (n, mkLayer (lGlyphs L) (lInfo L) true)) ly) d true
  end.
(** What a client has to observe.  An empty part of a font does not delete what
    was written before with the same writer, or with the same glyph set; texts and
    values have to be such that plistlib keeps them; layers have names, only the
    default layer is called "public.default"; a layer is not made the default
    layer under its own name while there is another default layer; images and
    data files have plain file names; rebuildContents is not called. *)
Definition allowedIn (ok : str -> Prop) (m : font) (a : faction) : Prop :=
  match a with
  | AInfo i => forall x v, setTo i x v -> plistFaithful v
  | AGroups g => (g <> [] \/ fPrev m = true \/ fGroups m = []) /\ plistFaithful (groupsVal g)
  | AKerning k => (k <> [] \/ fPrev m = true \/ fKerning m = []) /\ dict_ok k /\ plistFaithful (nestedVal (nest k))
  | ALib d => (d <> [] \/ fPrev m = true \/ fLib m = []) /\ plistFaithful (PDict d)
  | AFeatures t => t <> [] \/ fPrev m = true \/ fFeatures m = []
  | AImage f _ | ARemoveImage f => plainName f
  | AData q _ | ARemoveData q => q <> [] /\ Forall plainName q
  | ALayer (Some n) df => goodLayerName n df /\ textOk n
  | ALayer None _ => True
  | AGlyph _ n g items fv => ok n /\ storedAs (versionOf 3 fv) n g items
  | ACall _ c => isWriteCall c = false /\ c <> CRebuild
  | ALayerInfo layer info =>
    (forall x v, storedInfo info x = Some v -> plistFaithful v) /\
    ((exists x, storedInfo info x <> None) \/
     forall L, get layer (fLayers m) = Some L -> lPrev L = true \/ forall x, storedInfo (lInfo L) x = None)
  | ADelete _ => True
  | ARename layer new df => goodLayerName new df /\ textOk new /\ (df = true -> new = layer -> fDefault m = None \/ fDefault m = Some layer)
  | ASave _ => True
  | AReopen order => NoDup order /\ fDefault m <> None
  end.
Fixpoint allowedAll (ok : str -> Prop) (m : font) (l : list faction) : Prop :=
  match l with [] => True | a :: r => allowedIn ok m a /\ allowedAll ok (fremember m a) r end.

(** ** What is read *)
Section Reads.
Variable T : pytext.
Variable R : spec_float -> str.
Notation C := (plistCodec T R).
Definition readsInfo (i : list (str * pyval)) (t : node) : Prop :=
  forall perm, exists v d', readInfoFile C t true = Ok v /\ readInfo T perm 3 true v = Ok d' /\ sameInfo T i d'.
Definition readsGroups (g : list (str * list pyval)) (t : node) : Prop :=
  exists w, (forall conv cache, snd (readGroups C conv 3 t cache true) = Ok w) /\ psame (groupsVal g) w.
Definition readsKerning (k : list (str * str * pyval)) (t : node) : Prop :=
  exists l, (forall conv cache, snd (readKerning C conv 3 t cache true) = Ok (pairsVal l)) /\ Permutation l k.
Definition readsLib (d : list (pyval * pyval)) (t : node) : Prop := exists w, Ufo.readLib C t true = Ok w /\ psame (PDict d) w.
Definition readsImages (im : list (str * bytes)) (t : node) : Prop :=
  (exists l, getImageDirectoryListing 3 t true = Ok l /\ NoDup l /\ forall f, In f l <-> get f im <> None) /\
  forall f b, get f im = Some b -> Ufo.readImage 3 t f true = Ok b.
Definition readsData (dat : list (path * bytes)) (t : node) : Prop :=
  (NoDup (getDataDirectoryListing t) /\ forall p, In p (getDataDirectoryListing t) <-> get p dat <> None) /\
  forall p b, get p dat = Some b -> readBytesFromPath t (join [slash] (u "data" :: p)) = Ok (Some b).
Record plainRead (m : font) (t : node) : Prop := mkPlain {
  rMeta : readMetaInfo C t true = Ok 3%Z;
  rInfo : readsInfo (fInfo m) t;
  rGroups : readsGroups (fGroups m) t;
  rKerning : readsKerning (fKerning m) t;
  rLib : readsLib (fLib m) t;
  rFeatures : readFeatures t = Ok (fFeatures m) }.
(** the whole font *)
Definition readsFont (m : font) (order : list str) (default : str) (t : node) : Prop :=
  plainRead m t /\ readsImages (fImages m) t /\ readsData (fData m) t /\
  getLayerNames C 3 t true = Ok order /\ getDefaultLayerName C 3 t true = Ok default /\
  (forall n, In n order <-> get n (fLayers m) <> None) /\
  (forall n, readLayerGlyph T R t None n = readLayerGlyph T R t (Some default) n) /\
  forall layer L, get layer (fLayers m) = Some L ->
    (forall n, match get n (lGlyphs L) with
               | Some (g, items, fv) => exists r, readLayerGlyph T R t (Some layer) n = Ok r /\ readsAs (isSpace T) (versionOf 3 fv) n g items r
               | None => readLayerGlyph T R t (Some layer) n = Err KeyError
               end) /\
    (exists names, namesOfLayer T R t (Some layer) = Ok names /\ NoDup names /\ forall n, In n names <-> get n (lGlyphs L) <> None) /\
    exists l, readInfoOfLayer T R t (Some layer) = Ok l /\ readInfoAs (lInfo L) l.
End Reads.

(** ** The invariant *)
Section Font.
Variable T : pytext.
Variable R : spec_float -> str.
Variable ro : pyval -> str.
Variable lower : str -> str.
Variable toFileName : str -> list (str * str) -> res str.
Hypothesis LT : pytext_laws T.
Hypothesis LR : repr_laws T R.
Hypothesis keeps : lower_keeps lower.
Variable ok : str -> Prop.
Variable P : str -> str -> Prop.
Hypothesis fresh_names : forall n e f, ok n -> (forall g, In g (keys e) -> exists m, m <> n /\ P m g) -> toFileName n e = Ok f ->
  P n f /\ ~ In (lower f) (map lower (keys e)) /\ f <> contentsName.
Hypothesis ok_text : forall n, ok n -> textOk n.
Hypothesis P_text : forall n f, P n f -> textOk f.
Hypothesis P_file : forall n f, P n f -> glyphFile f.
Notation C := (plistCodec T R).
Notation glyphInv := (glyphInv T lower P).
Notation closed := (closed T lower P).
Notation infoRead := (infoRead T R).
Notation plainRead := (plainRead T R).
Let codec : UfoProofs.codec_laws C plistFaithful := plist_codec_laws T R LT LR.

(** *** The top level *)
Definition fixedNames : list str := [nMetainfo; nFontinfo; nLib; nGroups; nKerning; nFeatures; nLayercontents; nImages; nData].
Lemma own_not_fixed d : ownDir d -> ~ In d fixedNames.
Proof. intros [->|(r & ->)] I; vm_compute in I; repeat (destruct I as [I|I]; [discriminate I|]); exact I. Qed.
Lemma getPlist_frame t t' x d : find t' [x] = find t [x] -> getPlist C t' x d = getPlist C t x d.
Proof. intro E. unfold getPlist, getbytes. rewrite E. reflexivity. Qed.
Lemma meta_frame t t' : find t' [nMetainfo] = find t [nMetainfo] -> readMetaInfo C t' true = readMetaInfo C t true.
Proof. intro E. unfold readMetaInfo. rewrite (getPlist_frame _ _ _ _ E). reflexivity. Qed.
Lemma info_frame t t' i : find t' [nFontinfo] = find t [nFontinfo] -> readsInfo T R i t -> readsInfo T R i t'.
Proof. intros E H perm. destruct (H perm) as (v & d & H1 & H2). exists v, d. split; [|exact H2]. unfold readInfoFile in *. rewrite (getPlist_frame _ _ _ _ E). exact H1. Qed.
Lemma groups_frame t t' g : find t' [nGroups] = find t [nGroups] -> readsGroups T R g t -> readsGroups T R g t'.
Proof. intros E (w & H & S). exists w. split; [|exact S]. intros conv cache. rewrite <- (H conv cache). unfold readGroups, readGroupsRaw. change (3 <? 3)%Z with false. cbv iota. rewrite (getPlist_frame _ _ _ _ E). reflexivity. Qed.
Lemma kerning_frame t t' k : find t' [nKerning] = find t [nKerning] -> readsKerning T R k t -> readsKerning T R k t'.
Proof. intros E (w & H & S). exists w. split; [|exact S]. intros conv cache. rewrite <- (H conv cache). unfold readKerning, readKerningRaw. change (3 <? 3)%Z with false. cbv iota. rewrite (getPlist_frame _ _ _ _ E). reflexivity. Qed.
Lemma lib_frame t t' d : find t' [nLib] = find t [nLib] -> readsLib T R d t -> readsLib T R d t'.
Proof. intros E (w & H & S). exists w. split; [|exact S]. unfold Ufo.readLib in *. rewrite (getPlist_frame _ _ _ _ E). exact H. Qed.
Lemma features_frame t t' : find t' [nFeatures] = find t [nFeatures] -> readFeatures t' = readFeatures t.
Proof. intro E. unfold readFeatures, getbytes. rewrite E. reflexivity. Qed.
Lemma plain_frame m m' t t' : (forall x, In x [nMetainfo; nFontinfo; nLib; nGroups; nKerning; nFeatures] -> find t' [x] = find t [x]) ->
  fInfo m' = fInfo m -> fGroups m' = fGroups m -> fKerning m' = fKerning m -> fLib m' = fLib m -> fFeatures m' = fFeatures m -> plainRead m t -> plainRead m' t'.
Proof.
  intros E E1 E2 E3 E4 E5 [A B D F G H]. assert (I : forall x, In x [nMetainfo; nFontinfo; nLib; nGroups; nKerning; nFeatures] -> find t' [x] = find t [x]) by exact E.
  split; rewrite ?E1, ?E2, ?E3, ?E4, ?E5.
  - rewrite (meta_frame t t'); [exact A|apply I; cbn; tauto].
  - eapply info_frame; [apply I; cbn; tauto|exact B].
  - eapply groups_frame; [apply I; cbn; tauto|exact D].
  - eapply kerning_frame; [apply I; cbn; tauto|exact F].
  - eapply lib_frame; [apply I; cbn; tauto|exact G].
  - rewrite (features_frame t t'); [exact H|apply I; cbn; tauto].
Qed.
(** *** Images *)
Definition imagesIn (im : list (str * bytes)) (n : option node) : Prop :=
  dict_ok im /\ (forall f b, get f im = Some b -> plainName f /\ pngValidator b = true) /\
  match n with
  | None => im = []
  | Some (Dir ies) => dict_ok ies /\ forall f, get f ies = option_map File (get f im)
  | Some (File _) => False
  end.
Lemma images_read im t : imagesIn im (find t [nImages]) -> readsImages im t.
Proof.
  intros (Di & Png & H). unfold readsImages, getImageDirectoryListing, Ufo.readImage. change (3 <? 3)%Z with false. cbv iota.
  destruct (find t [nImages]) as [[b|ies]|]; [contradiction| |].
  - destruct H as [D H]. split.
    + eexists. split; [reflexivity|]. split.
      * apply (dict_ok_filter _ ies D).
      * intro f. rewrite in_map_iff. split.
        -- intros ([g n] & <- & I). apply filter_In in I as [I _]. cbn [fst]. apply (In_get _ _ _ D) in I. rewrite H in I. destruct (get g im); [discriminate|discriminate I].
        -- intro N. destruct (get f im) as [b|] eqn:G; [|congruence]. exists (f, File b). split; [reflexivity|]. apply filter_In. specialize (H f). rewrite G in H. split; [apply get_In; exact H|].
           cbn [negb orb]. apply (Png _ _ G).
    + intros f b G. destruct (Png _ _ G) as [Pf V]. rewrite (components_plain _ Pf). cbn [bind]. unfold getbytes. rewrite find_top, H, G. cbn [option_map]. rewrite V. reflexivity.
  - subst im. split; [|intros f b G; discriminate G]. exists []. split; [reflexivity|]. split; [constructor|]. intro f. split; [intros []|intro N; apply N; reflexivity].
Qed.

(** *** Images and data *)
Definition extras (m : font) (es : list (str * node)) : Prop := imagesIn (fImages m) (get nImages es) /\ dataIn (fData m) (get nData es).

(** *** Layers *)
Definition layerAt (L : layerMem) (o : option gset) (dd : dirT) : Prop :=
  dict_ok dd /\ infoRead (lInfo L) (Dir (files dd)) /\
  match o with
  | Some g => (lPrev L = true -> havePrev g = true) /\ glyphInv (lGlyphs L) (mkWorld g dd [])
  | None => closed (lGlyphs L) dd
  end.
(** [sv]: the layers whose contents.plist has been written *)
Record layersInv (sv : str -> Prop) (m : font) (s : fstate) (es : list (str * node)) : Prop := mkLayers {
  iFits : fits lower (writer s);
  iText : forall n d, get n (layers (writer s)) = Some d -> textOk n /\ textOk d;
  iTop : forall x, ownDir x -> get x es <> None -> exists n, get n (layers (writer s)) = Some x;
  iMem : dict_ok (fLayers m);
  iSets : dict_ok (sets s);
  iKeys : forall n, get n (layers (writer s)) = None <-> get n (fLayers m) = None;
  iOpen : forall n, get n (sets s) <> None -> get n (layers (writer s)) <> None;
  iDefault : forall n, fDefault m = Some n <-> get n (layers (writer s)) = Some (u "glyphs");
  iLayers : forall n d L, get n (layers (writer s)) = Some d -> get n (fLayers m) = Some L ->
    exists dd, get d es = Some (Dir (files dd)) /\ (forall p g, get n (sets s) = Some (p, g) -> p = [d]) /\
      layerAt L (option_map snd (get n (sets s))) dd /\ (sv n -> closed (lGlyphs L) dd) }.
Record finv (sv : str -> Prop) (m : font) (s : fstate) : Prop := mkInv {
  vVer : ver (cfg s) = 3%Z;
  vPrev : hp (cfg s) = fPrev m;
  vCreator : exists c, creator (cfg s) = PStr c /\ textOk c;
  vTree : exists es, tree (writer s) = Dir es /\ plainRead m (Dir es) /\ extras m es /\ layersInv sv m s es }.
Definition noneSaved (n : str) : Prop := False.
Lemma fits_frame s s' : layers s' = layers s -> (forall d, ownDir d -> isdir (tree s') [d] = isdir (tree s) [d]) -> fits lower s -> fits lower s'.
Proof.
  intros E F [L H]. split; [rewrite E; exact L|]. rewrite E. intros n d G. destruct (H n d G) as (H1 & H2 & H3). split; [exact H1|]. split; [exact H2|]. rewrite F; [exact H3|]. destruct L as (_ & O & _). eapply O. exact G.
Qed.
(** only fixed names have been touched *)
Lemma layers_frame sv m m' s c w es es' : tree (writer s) = Dir es -> tree w = Dir es' -> layersInv sv m s es -> fLayers m' = fLayers m -> fDefault m' = fDefault m ->
  layers w = layers (writer s) -> (forall y, ~ In y fixedNames -> get y es' = get y es) -> layersInv sv m' (mkFst c w (sets s)) es'.
Proof.
  intros Es Es' [A1 A2 A3 A4 A5 A6 A7 A8 A9] El Ed Ew Fr. split; cbn [writer sets]; rewrite ?Ew, ?El, ?Ed; try assumption.
  - eapply fits_frame; [exact Ew| |exact A1]. intros d O. rewrite Es, Es'. unfold isdir. rewrite !find_top. rewrite Fr by (apply own_not_fixed; exact O). reflexivity.
  - intros x O N. rewrite Fr in N by (apply own_not_fixed; exact O). apply A3; assumption.
  - intros n d L G GL. destruct (A9 n d L G GL) as (dd & B1 & B2). exists dd. split; [|exact B2]. rewrite Fr; [exact B1|]. apply own_not_fixed. destruct A1 as [(_ & O & _) _]. eapply O. exact G.
Qed.
(** a fixed file other than the images and the data *)
Lemma inv_touch sv m m' s w x : finv sv m s -> touches x (writer s) w -> In x fixedNames -> x <> nImages -> x <> nData -> fPrev m' = fPrev m -> fImages m' = fImages m -> fData m' = fData m -> fLayers m' = fLayers m -> fDefault m' = fDefault m ->
  (forall es es', tree (writer s) = Dir es -> tree w = Dir es' -> (forall y, y <> x -> get y es' = get y es) -> plainRead m (Dir es) -> plainRead m' (Dir es')) -> finv sv m' (mkFst (cfg s) w (sets s)).
Proof.
  intros [V1 V2 V3 (es & E & Pl & [Im Da] & Ly)] [El Et] I Ni Nd E1 E2 E2' E3 E4 H. destruct (Et es E) as (es' & E' & Fr).
  split; cbn [cfg writer]; try assumption; [congruence|]. exists es'. split; [exact E'|]. split; [eapply H; eassumption|]. split; [split; [rewrite E2, Fr by congruence; exact Im|rewrite E2', Fr by congruence; exact Da]|].
  eapply layers_frame; try eassumption. intros y Ny. apply Fr. intros ->. contradiction.
Qed.
Lemma onWriter_inv m s s' : onWriter_ m s = Ok s' -> exists w, m (cfg s) (writer s) = (w, Ok tt) /\ s' = mkFst (cfg s) w (sets s).
Proof. unfold onWriter_, onWriter. destruct (m (cfg s) (writer s)) as [w [[]|e]]; intro H; [|discriminate H]. injection H as <-. eauto. Qed.

(** *** Plain parts *)
Lemma plain_nGroups : plainName nGroups. Proof. repeat split; try (vm_compute; discriminate). vm_compute. intuition discriminate. Qed.
Lemma plain_nKerning : plainName nKerning. Proof. repeat split; try (vm_compute; discriminate). vm_compute. intuition discriminate. Qed.
Lemma plain_nLib : plainName nLib. Proof. repeat split; try (vm_compute; discriminate). vm_compute. intuition discriminate. Qed.
Lemma plain_nFeatures : plainName nFeatures. Proof. repeat split; try (vm_compute; discriminate). vm_compute. intuition discriminate. Qed.
Lemma getPlist_gone t x d : find t [x] = None -> getPlist C t x (Some d) = Ok d.
Proof. intro E. unfold getPlist, getbytes. rewrite E. reflexivity. Qed.
Lemma psame_empty : psame (PDict []) (PDict []).
Proof. eapply ps_dict; constructor. Qed.
Lemma info_step c i d s w : (forall x v, setTo i x v -> plistFaithful v) -> writeInfo T 3 true i = Ok d -> writeInfoFile C c (asDict d) s = (w, Ok tt) -> touches nFontinfo s w /\ readsInfo T R i (tree w).
Proof.
  intros F W H. split; [unfold writeInfoFile in H; eapply writePlist_touches; exact H|]. intro perm. exact (C37_file T R perm true c s w i d LT LR F W H).
Qed.
Lemma groups_done c g es s w : ver c = 3%Z -> tree s = Dir es -> (g <> [] \/ hp c = true \/ readsGroups T R [] (tree s)) -> plistFaithful (groupsVal g) ->
  writeGroups C c (groupsVal g) true s = (w, Ok tt) -> touches nGroups s w /\ readsGroups T R g (tree w).
Proof.
  intros V E Em F H. destruct g as [|x g].
  - unfold writeGroups in H. cbn in H. destruct (hp c) eqn:Hp.
    + assert (X : removePath nGroups true false s = (w, Ok tt)) by (unfold mbind, getRemap in H; destruct (remap s) as [m|]; [rewrite V in H|]; exact H). split; [apply removePath_touches; [exact plain_nGroups|exact X]|].
      pose proof (removePath_gone _ _ _ _ plain_nGroups E X) as Gn. exists (PDict []). split; [|exact psame_empty]. intros conv cache. unfold readGroups, readGroupsRaw. change (3 <? 3)%Z with false. cbv iota. cbn [snd]. rewrite getPlist_gone by exact Gn. reflexivity.
    + assert (w = s) as -> by (unfold mbind, getRemap in H; destruct (remap s) as [m|]; [rewrite V in H|]; unfold ret in H; cbn in H; congruence). split; [apply touches_refl|]. destruct Em as [Em|[Em|Em]]; [congruence|discriminate Em|exact Em].
  - assert (Rg : exists v, snd (readGroups C (fun _ _ => Err TypeError) 3 (tree w) None true) = Ok v /\ psame (groupsVal (x :: g)) v).
    { apply (C78_read_back C plistFaithful (fun _ _ => Err TypeError) c s w None codec V); [exact H|exact F|discriminate]. }
    split; [|destruct Rg as (v & R1 & R2); exists v; split; [intros conv cache; rewrite <- R1; reflexivity|exact R2]].
    assert (Val : groupsValidator (groupsVal (x :: g)) = true) by (unfold writeGroups in H; destruct (groupsValidator (groupsVal (x :: g))); [reflexivity|discriminate H]).
    pose proof (doWrite_stores C c s (WGroups (groupsVal (x :: g))) true nGroups (groupsVal (x :: g))) as W. cbn [doWrite storesAs] in W. rewrite W in H; [eapply writePlist_touches; exact H|].
    split; [intros _; exact Val|]. split; [reflexivity|]. split; [left; exact V|]. exists (x :: g). split; [reflexivity|]. split; [discriminate|reflexivity].
Qed.
Lemma kerning_done c k es s w : ver c = 3%Z -> tree s = Dir es -> (k <> [] \/ hp c = true \/ readsKerning T R [] (tree s)) -> dict_ok k -> plistFaithful (nestedVal (nest k)) ->
  writeKerning C c (pairsVal k) true s = (w, Ok tt) -> touches nKerning s w /\ readsKerning T R k (tree w).
Proof.
  intros V E Em Dk F H. destruct k as [|x k].
  - unfold writeKerning in H. cbn in H. destruct (hp c) eqn:Hp.
    + assert (X : removePath nKerning true false s = (w, Ok tt)) by (unfold mbind, getRemap in H; destruct (remap s) as [m|]; [rewrite V in H|]; exact H). split; [apply removePath_touches; [exact plain_nKerning|exact X]|].
      pose proof (removePath_gone _ _ _ _ plain_nKerning E X) as Gn. exists []. split; [|constructor]. intros conv cache. unfold readKerning, readKerningRaw. change (3 <? 3)%Z with false. cbv iota. cbn [snd]. rewrite getPlist_gone by exact Gn. reflexivity.
    + assert (w = s) as -> by (unfold mbind, getRemap in H; destruct (remap s) as [m|]; [rewrite V in H|]; unfold ret in H; cbn in H; congruence). split; [apply touches_refl|]. destruct Em as [Em|[Em|Em]]; [congruence|discriminate Em|exact Em].
  - assert (Rg : exists l, snd (readKerning C (fun _ _ => Err TypeError) 3 (tree w) None true) = Ok (pairsVal l) /\ Permutation l (x :: k)).
    { apply (C78_read_back C plistFaithful (fun _ _ => Err TypeError) c s w None codec V); [exact H|exact Dk|discriminate|exact F]. }
    split; [|destruct Rg as (v & R1 & R2); exists v; split; [intros conv cache; rewrite <- R1; reflexivity|exact R2]].
    assert (Val : kerningArgOk (pairsVal (x :: k)) = true) by (unfold writeKerning in H; destruct (kerningArgOk (pairsVal (x :: k))); [reflexivity|discriminate H]).
    destruct (nest_spec (x :: k) Dk) as [No Nl].
    assert (NEn : nest (x :: k) <> []).
    { destruct x as [[a b] x]. intro En. specialize (Nl a b). rewrite En in Nl. cbn [get klook] in Nl. rewrite eqb_refl in Nl. discriminate Nl. }
    pose proof (doWrite_stores C c s (WKerning (pairsVal (x :: k))) true nKerning (nestedVal (nest (x :: k)))) as W. cbn [doWrite storesAs] in W. rewrite W in H; [eapply writePlist_touches; exact H|].
    split; [intros _; exact Val|]. split; [reflexivity|]. split; [left; exact V|]. exists (x :: k). auto.
Qed.
Lemma lib_done c d es s w : ver c = 3%Z -> tree s = Dir es -> (d <> [] \/ hp c = true \/ readsLib T R [] (tree s)) -> plistFaithful (PDict d) ->
  Ufo.writeLib C c (PDict d) true s = (w, Ok tt) -> touches nLib s w /\ readsLib T R d (tree w).
Proof.
  intros V E Em F H. destruct d as [|x d].
  - unfold Ufo.writeLib in H. cbn in H. destruct (hp c) eqn:Hp.
    + split; [apply removePath_touches; [exact plain_nLib|exact H]|].
      pose proof (removePath_gone _ _ _ _ plain_nLib E H) as Gn. exists (PDict []). split; [|exact psame_empty]. unfold Ufo.readLib. rewrite getPlist_gone by exact Gn. reflexivity.
    + injection H as <-. split; [apply touches_refl|]. destruct Em as [Em|[Em|Em]]; [congruence|discriminate Em|exact Em].
  - split.
    + unfold Ufo.writeLib in H. destruct (true && negb _); [discriminate H|]. cbn [truthy] in H. eapply writePlist_touches; exact H.
    + apply (C78_read_back C plistFaithful (fun _ _ => Err TypeError) c s w None codec V); [exact H|exact F|discriminate].
Qed.
Lemma features_done c t es s w : ver c = 3%Z -> tree s = Dir es -> (t <> [] \/ hp c = true \/ readFeatures (tree s) = Ok []) ->
  writeFeatures c (PStr t) true s = (w, Ok tt) -> touches nFeatures s w /\ readFeatures (tree w) = Ok t.
Proof.
  intros V E Em H. unfold writeFeatures in H. rewrite V in H. cbn [Z.eqb is_str negb andb] in H. change (3 =? 1)%Z with false in H. cbv iota in H. unfold truthy in H. destruct (eqb_spec t []) as [->|N]; cbn [negb] in H.
  - destruct (hp c) eqn:Hp.
    + split; [apply removePath_touches; [exact plain_nFeatures|exact H]|].
      pose proof (removePath_gone _ _ _ _ plain_nFeatures E H) as Gn. unfold readFeatures, getbytes. rewrite Gn. reflexivity.
    + injection H as <-. split; [apply touches_refl|]. destruct Em as [Em|[Em|Em]]; [congruence|discriminate Em|exact Em].
  - unfold mbind, lift in H. destruct (utf8Encode t) as [b|] eqn:Ue; [|discriminate H]. destruct (writeBytes_es _ _ _ _ _ _ plain_nFeatures E H) as [Ly Tr]. split.
    + split; [exact Ly|]. intros es0 E0. rewrite E in E0. injection E0 as <-. exists (set nFeatures (File b) es). split; [exact Tr|]. intros y Ny. apply get_set_other. exact Ny.
    + unfold readFeatures, getbytes. rewrite Tr, find_top, get_set_same. eapply utf8_round. exact Ue.
Qed.

(** ... over what was there before *)
Lemma groups_step c g g0 es s w : ver c = 3%Z -> tree s = Dir es -> (g <> [] \/ hp c = true \/ g0 = []) -> plistFaithful (groupsVal g) -> readsGroups T R g0 (tree s) ->
  writeGroups C c (groupsVal g) true s = (w, Ok tt) -> touches nGroups s w /\ readsGroups T R g (tree w).
Proof. intros V E Em F Rd. apply (groups_done _ _ _ _ _ V E); [|exact F]. destruct Em as [Em|[Em| ->]]; auto. Qed.
Lemma kerning_step c k k0 es s w : ver c = 3%Z -> tree s = Dir es -> (k <> [] \/ hp c = true \/ k0 = []) -> dict_ok k -> plistFaithful (nestedVal (nest k)) -> readsKerning T R k0 (tree s) ->
  writeKerning C c (pairsVal k) true s = (w, Ok tt) -> touches nKerning s w /\ readsKerning T R k (tree w).
Proof. intros V E Em Dk F Rd. apply (kerning_done _ _ _ _ _ V E); [|exact Dk|exact F]. destruct Em as [Em|[Em| ->]]; auto. Qed.
Lemma lib_step c d d0 es s w : ver c = 3%Z -> tree s = Dir es -> (d <> [] \/ hp c = true \/ d0 = []) -> plistFaithful (PDict d) -> readsLib T R d0 (tree s) ->
  Ufo.writeLib C c (PDict d) true s = (w, Ok tt) -> touches nLib s w /\ readsLib T R d (tree w).
Proof. intros V E Em F Rd. apply (lib_done _ _ _ _ _ V E); [|exact F]. destruct Em as [Em|[Em| ->]]; auto. Qed.
Lemma features_step c t t0 es s w : ver c = 3%Z -> tree s = Dir es -> (t <> [] \/ hp c = true \/ t0 = []) -> readFeatures (tree s) = Ok t0 ->
  writeFeatures c (PStr t) true s = (w, Ok tt) -> touches nFeatures s w /\ readFeatures (tree w) = Ok t.
Proof. intros V E Em Rd. apply (features_done _ _ _ _ _ V E). destruct Em as [Em|[Em| ->]]; auto. Qed.

Lemma get_empty {A} (l : list (str * A)) : (forall k, get k l = None) -> l = [].
Proof. destruct l as [|[k v] l]; intro H; [reflexivity|]. specialize (H k). cbn [get] in H. rewrite eqb_refl in H. discriminate H. Qed.
Lemma image_step m s w f b sv : finv sv m s -> plainName f -> Ufo.writeImage (cfg s) f b true (writer s) = (w, Ok tt) ->
  finv sv (fremember m (AImage f b)) (mkFst (cfg s) w (sets s)).
Proof.
  intros [V1 V2 V3 (es & E & Pl & Im & Ly)] Pf H. unfold Ufo.writeImage in H. rewrite V1 in H. change (3 <? 3)%Z with false in H. cbv iota in H. destruct (pngValidator b) eqn:Png; [|discriminate H]. cbn [negb andb] in H.
  destruct (writeImage_es _ _ _ _ _ _ Pf E H) as (El & ies & Hi & es' & E' & Gi & Fr).
  destruct m as [i g k l ft im dt ly d pr]. destruct Im as [Im Da]. cbn [fremember]. split; cbn [cfg writer fPrev] in *; try assumption. exists es'. split; [exact E'|]. split; [|split].
  - eapply plain_frame; [| | | | | |exact Pl]; try reflexivity. intros x I. rewrite !find_top. apply Fr. intros ->. vm_compute in I. intuition discriminate.
  - split; [|cbn [fData] in *; rewrite Fr by discriminate; exact Da]. cbn [fImages] in *. rewrite Gi. destruct Im as (Di & Pn & Hm). split; [apply dict_ok_set; exact Di|]. split.
    + intros f' b' G. rewrite get_set in G. destruct (eqb_spec f' f) as [->|N]; [injection G as <-; auto|apply Pn; exact G].
    + destruct Hi as [[G0 ->]|G0]; rewrite G0 in Hm.
      * subst im. split; [apply dict_ok_set; constructor|]. intro f'. rewrite !get_set. destruct (eqb f' f); reflexivity.
      * destruct Hm as [D Hm]. split; [apply dict_ok_set; exact D|]. intro f'. rewrite !get_set. destruct (eqb f' f); [reflexivity|apply Hm].
  - eapply layers_frame; try eassumption; try reflexivity. intros y Ny. apply Fr. intros ->. apply Ny. vm_compute. tauto.
Qed.
Lemma removeImage_step m s w f sv : finv sv m s -> plainName f -> removeImage (cfg s) f (writer s) = (w, Ok tt) ->
  finv sv (fremember m (ARemoveImage f)) (mkFst (cfg s) w (sets s)).
Proof.
  intros [V1 V2 V3 (es & E & Pl & Im & Ly)] Pf H. unfold removeImage in H. rewrite V1 in H. change (3 <? 3)%Z with false in H. cbv iota in H.
  destruct m as [i g k l ft im dt ly d pr]. destruct Im as [Im Da]. cbn [fremember fImages] in *. destruct Im as (Di & Pn & Hm).
  assert (Nd : forall ies ds, get nImages es = Some (Dir ies) -> get f ies <> Some (Dir ds)).
  { intros ies ds G. rewrite G in Hm. destruct Hm as [_ Hm]. rewrite Hm. destruct (get f im); discriminate. }
  destruct (removeImage_es _ _ _ _ Pf E Nd H) as (El & ies & b & G0 & Gf & es' & E' & Fr & Gi). rewrite G0 in Hm. destruct Hm as [D Hm].
  split; cbn [cfg writer fPrev] in *; try assumption. exists es'. split; [exact E'|]. split; [|split].
  - eapply plain_frame; [| | | | | |exact Pl]; try reflexivity. intros x I. rewrite !find_top. apply Fr. intros ->. vm_compute in I. intuition discriminate.
  - split; [|cbn [fData] in *; rewrite Fr by discriminate; exact Da]. cbn [fImages]. rewrite Gi. split; [apply dict_ok_del; exact Di|]. 
    assert (Dl : forall x, get x (del f im) = if eqb f x then None else get x im).
    { intro x. destruct (eqb_spec f x) as [->|N]; [apply get_del_same; exact Di|apply get_del_other; congruence]. }
    split; [intros f' b' G; rewrite Dl in G; destruct (eqb f f'); [discriminate G|apply Pn; exact G]|].
    assert (Fl : forall x, get x (filter (fun e => negb (eqb f (fst e))) ies) = option_map File (get x (del f im))).
    { intro x. rewrite get_filter_name, Dl, Hm. destruct (eqb f x); reflexivity. }
    destruct (filter _ ies) as [|p q] eqn:Ef.
    + apply get_empty. intro x. specialize (Fl x). cbn [get] in Fl. destruct (get x (del f im)); [discriminate Fl|reflexivity].
    + rewrite <- Ef in *. split; [apply dict_ok_filter; exact D|exact Fl].
  - eapply layers_frame; try eassumption; try reflexivity. intros y Ny. apply Fr. intros ->. apply Ny. vm_compute. tauto.
Qed.
(** data *)
Lemma data_inv sv m m' s w es' dat : finv sv m s -> layers w = layers (writer s) -> tree w = Dir es' -> (forall es, tree (writer s) = Dir es -> forall y, y <> nData -> get y es' = get y es) ->
  dataIn dat (get nData es') -> m' = mkFont (fInfo m) (fGroups m) (fKerning m) (fLib m) (fFeatures m) (fImages m) dat (fLayers m) (fDefault m) (fPrev m) -> finv sv m' (mkFst (cfg s) w (sets s)).
Proof.
  intros [V1 V2 V3 (es & E & Pl & [Im Da] & Ly)] El E' Fr D ->. specialize (Fr es E). split; cbn [cfg writer fPrev]; try assumption. exists es'. split; [exact E'|]. split; [|split].
  - eapply plain_frame; [| | | | | |exact Pl]; try reflexivity. intros x I. rewrite !find_top. apply Fr. intros ->. vm_compute in I. intuition discriminate.
  - split; [cbn [fImages]; rewrite Fr by discriminate; exact Im|exact D].
  - eapply layers_frame; try eassumption; try reflexivity. intros y Ny. apply Fr. intros ->. apply Ny. vm_compute. tauto.
Qed.
(** the actions *)
Lemma fact_Info s info : factOn T R ro lower toFileName s (AInfo info) = (do d <- writeInfo T 3 true info; onWriter_ (fun c => writeInfoFile C c (asDict d)) s).
Proof. reflexivity. Qed.
Lemma fact_Groups s g : factOn T R ro lower toFileName s (AGroups g) = (onWriter_ (fun c => writeGroups C c (groupsVal g) true) s).
Proof. reflexivity. Qed.
Lemma fact_Kerning s k : factOn T R ro lower toFileName s (AKerning k) = (onWriter_ (fun c => writeKerning C c (pairsVal k) true) s).
Proof. reflexivity. Qed.
Lemma fact_Lib s d : factOn T R ro lower toFileName s (ALib d) = (onWriter_ (fun c => Ufo.writeLib C c (PDict d) true) s).
Proof. reflexivity. Qed.
Lemma fact_Features s text : factOn T R ro lower toFileName s (AFeatures text) = (onWriter_ (fun c => writeFeatures c (PStr text) true) s).
Proof. reflexivity. Qed.
Lemma fact_Image s f data : factOn T R ro lower toFileName s (AImage f data) = (onWriter_ (fun c => Ufo.writeImage c f data true) s).
Proof. reflexivity. Qed.
Lemma fact_RemoveImage s f : factOn T R ro lower toFileName s (ARemoveImage f) = (onWriter_ (fun c => removeImage c f) s).
Proof. reflexivity. Qed.
Lemma fact_Data s p data : factOn T R ro lower toFileName s (AData p data) = (onWriter_ (fun c => writeBytesToPath (hp c) (dataPath p) data) s).
Proof. reflexivity. Qed.
Lemma fact_RemoveData s p : factOn T R ro lower toFileName s (ARemoveData p) = (onWriter_ (fun _ => removePath (dataPath p) false true) s).
Proof. reflexivity. Qed.
Lemma fact_Layer s name df : factOn T R ro lower toFileName s (ALayer name df) = (getLayer T R lower name df s).
Proof. reflexivity. Qed.
Lemma fact_Glyph s layer n g items fv : factOn T R ro lower toFileName s (AGlyph layer n g items fv) = (onLayer layer (glyphCall T R lower toFileName (CWrite n (negb (isOk (writeVersion 3 fv))) (gsWriteBytes T R ro 3 (PStr n) g (option_map gdrawing items) fv true))) s).
Proof. reflexivity. Qed.
Lemma fact_Call s layer c : factOn T R ro lower toFileName s (ACall layer c) = (onLayer layer (glyphCall T R lower toFileName c) s).
Proof. reflexivity. Qed.
Lemma fact_LayerInfo s layer info : factOn T R ro lower toFileName s (ALayerInfo layer info) = (onLayer layer (layerInfoCall T R info) s).
Proof. reflexivity. Qed.
Lemma fact_Delete s layer : factOn T R ro lower toFileName s (ADelete layer) = (do s1 <- onWriter_ (fun c => deleteGlyphSet c (Some layer)) s;
    Ok (mkFst (cfg s1) (writer s1) (del layer (sets s1)))).
Proof. reflexivity. Qed.
Lemma fact_Rename s layer newName df : factOn T R ro lower toFileName s (ARename layer newName df) = (do s1 <- (if has layer (sets s) then onLayer layer (glyphCall T R lower toFileName CWriteContents) s else Ok s);
    do s2 <- onWriter_ (fun c => renameGlyphSet lower c (Some layer) (Some newName) df) s1;
    Ok (mkFst (cfg s2) (writer s2) (del layer (sets s2)))).
Proof. reflexivity. Qed.
Lemma fact_Save s order : factOn T R ro lower toFileName s (ASave order) = (save T R lower toFileName order s).
Proof. reflexivity. Qed.
Lemma fact_Reopen s order : factOn T R ro lower toFileName s (AReopen order) = (do s1 <- save T R lower toFileName order s; opened T R (mkCfg 3 true (creator (cfg s1))) (tree (writer s1))).
Proof. reflexivity. Qed.
Ltac framed Fr := rewrite !find_top; apply Fr; discriminate.
Lemma plain_step sv m s a s' : finv sv m s -> allowedIn ok m a -> factOn T R ro lower toFileName s a = Ok s' ->
  match a with AInfo _ | AGroups _ | AKerning _ | ALib _ | AFeatures _ | AImage _ _ | ARemoveImage _ | AData _ _ | ARemoveData _ => True | _ => False end -> finv sv (fremember m a) s'.
Proof.
  intros I Al H K. pose proof I as [V1 V2 V3 (es & E & Pl & Im & Ly)]. destruct Pl as [P1 P2 P3 P4 P5 P6]. destruct a; try contradiction K; cbn [allowedIn] in Al.
  all: rewrite ?fact_Info, ?fact_Groups, ?fact_Kerning, ?fact_Lib, ?fact_Features, ?fact_Image, ?fact_RemoveImage, ?fact_Data, ?fact_RemoveData in H.
  - destruct (writeInfo T 3 true info) as [d|] eqn:W; [|discriminate H]. cbn [bind] in H. apply onWriter_inv in H as (w & H & ->). destruct (info_step _ _ _ _ _ Al W H) as [Tc Rd].
    destruct m. eapply inv_touch; [exact I|exact Tc|vm_compute; tauto|discriminate|discriminate|reflexivity..|]. intros es1 es' E1 E' Fr Q. rewrite E' in Rd. destruct Q as [Q1 Q2 Q3 Q4 Q5 Q6]. split; [| exact Rd|..];
     [rewrite (meta_frame (Dir es1)); [exact Q1|framed Fr]|eapply groups_frame; [framed Fr|exact Q3]|eapply kerning_frame; [framed Fr|exact Q4]|eapply lib_frame; [framed Fr|exact Q5]|rewrite (features_frame (Dir es1)); [exact Q6|framed Fr]].
  - apply onWriter_inv in H as (w & H & ->). destruct Al as [Em F]. rewrite <- V2 in Em. rewrite <- E in P3. destruct (groups_step _ _ _ _ _ _ V1 E Em F P3 H) as [Tc Rd].
    destruct m. eapply inv_touch; [exact I|exact Tc|vm_compute; tauto|discriminate|discriminate|reflexivity..|]. intros es1 es' E1 E' Fr Q. rewrite E' in Rd. destruct Q as [Q1 Q2 Q3 Q4 Q5 Q6]. split; [| |exact Rd|..];
     [rewrite (meta_frame (Dir es1)); [exact Q1|framed Fr]|eapply info_frame; [framed Fr|exact Q2]|eapply kerning_frame; [framed Fr|exact Q4]|eapply lib_frame; [framed Fr|exact Q5]|rewrite (features_frame (Dir es1)); [exact Q6|framed Fr]].
  - apply onWriter_inv in H as (w & H & ->). destruct Al as (Em & Dk & F). rewrite <- V2 in Em. rewrite <- E in P4. destruct (kerning_step _ _ _ _ _ _ V1 E Em Dk F P4 H) as [Tc Rd].
    destruct m. eapply inv_touch; [exact I|exact Tc|vm_compute; tauto|discriminate|discriminate|reflexivity..|]. intros es1 es' E1 E' Fr Q. rewrite E' in Rd. destruct Q as [Q1 Q2 Q3 Q4 Q5 Q6]. split; [| | |exact Rd|..];
     [rewrite (meta_frame (Dir es1)); [exact Q1|framed Fr]|eapply info_frame; [framed Fr|exact Q2]|eapply groups_frame; [framed Fr|exact Q3]|eapply lib_frame; [framed Fr|exact Q5]|rewrite (features_frame (Dir es1)); [exact Q6|framed Fr]].
  - apply onWriter_inv in H as (w & H & ->). destruct Al as [Em F]. rewrite <- V2 in Em. rewrite <- E in P5. destruct (lib_step _ _ _ _ _ _ V1 E Em F P5 H) as [Tc Rd].
    destruct m. eapply inv_touch; [exact I|exact Tc|vm_compute; tauto|discriminate|discriminate|reflexivity..|]. intros es1 es' E1 E' Fr Q. rewrite E' in Rd. destruct Q as [Q1 Q2 Q3 Q4 Q5 Q6]. split; [| | | |exact Rd|];
     [rewrite (meta_frame (Dir es1)); [exact Q1|framed Fr]|eapply info_frame; [framed Fr|exact Q2]|eapply groups_frame; [framed Fr|exact Q3]|eapply kerning_frame; [framed Fr|exact Q4]|rewrite (features_frame (Dir es1)); [exact Q6|framed Fr]].
  - apply onWriter_inv in H as (w & H & ->). rewrite <- V2 in Al. rewrite <- E in P6. destruct (features_step _ _ _ _ _ _ V1 E Al P6 H) as [Tc Rd].
    destruct m. eapply inv_touch; [exact I|exact Tc|vm_compute; tauto|discriminate|discriminate|reflexivity..|]. intros es1 es' E1 E' Fr Q. rewrite E' in Rd. destruct Q as [Q1 Q2 Q3 Q4 Q5 Q6]. split; [..|exact Rd];
     [rewrite (meta_frame (Dir es1)); [exact Q1|framed Fr]|eapply info_frame; [framed Fr|exact Q2]|eapply groups_frame; [framed Fr|exact Q3]|eapply kerning_frame; [framed Fr|exact Q4]|eapply lib_frame; [framed Fr|exact Q5]].
  - apply onWriter_inv in H as (w & H & ->). apply image_step; assumption.
  - apply onWriter_inv in H as (w & H & ->). apply removeImage_step; assumption.
  - apply onWriter_inv in H as (w & H & ->). destruct Al as [Np Fp]. destruct (data_write _ _ _ _ _ _ _ Np Fp E (proj2 Im) H) as (El & es' & E' & Fr & D). eapply data_inv; [exact I|exact El|exact E'| |exact D|destruct m; reflexivity]. intros es0 E0. rewrite E in E0. injection E0 as <-. exact Fr.
  - apply onWriter_inv in H as (w & H & ->). destruct Al as [Np Fp]. destruct (data_remove _ _ _ _ _ Np Fp E (proj2 Im) H) as (El & es' & E' & Fr & D). eapply data_inv; [exact I|exact El|exact E'| |exact D|destruct m; reflexivity]. intros es0 E0. rewrite E in E0. injection E0 as <-. exact Fr.
Qed.

(** *** Calls of glyph sets *)
Lemma layer_get sv m s es n d : layersInv sv m s es -> get n (layers (writer s)) = Some d -> exists L, get n (fLayers m) = Some L.
Proof. intros I G. destruct (get n (fLayers m)) as [L|] eqn:E; [eauto|]. apply (iKeys _ _ _ _ I) in E. congruence. Qed.
Lemma onLayer_step (sv sv' : str -> Prop) m s s' layer f h : finv sv m s -> onLayer layer f s = Ok s' ->
  (forall n, sv' n -> n = layer \/ sv n) ->
  (forall d L g dd g' n', get layer (layers (writer s)) = Some d -> get layer (fLayers m) = Some L -> layerAt L (Some g) dd -> f g (Dir (files dd)) = Ok (g', n') ->
     exists dd', n' = Dir (files dd') /\ layerAt (h L) (Some g') dd' /\ (sv' layer -> closed (lGlyphs (h L)) dd')) ->
  finv sv' (withLayers m (onMem layer h m) (fDefault m)) s'.
Proof.
  intros [V1 V2 V3 (es & E & Pl & Im & Ly)] H Sv F. unfold onLayer in H. destruct (get layer (sets s)) as [[p g]|] eqn:Gs; [|discriminate H].
  pose proof Ly as [A1 A2 A3 A4 A5 A6 A7 A8 A9]. destruct (get layer (layers (writer s))) as [d|] eqn:Gl; [|exfalso; apply (A7 layer); [congruence|exact Gl]].
  destruct (layer_get _ _ _ _ _ _ Ly Gl) as (L & GL). destruct (A9 _ _ _ Gl GL) as (dd & B1 & B2 & B3 & B4). rewrite Gs in B2, B3. specialize (B2 _ _ eq_refl). subst p. cbn [option_map snd] in B3.
  rewrite E, find_top, B1 in H. destruct (f g (Dir (files dd))) as [[g' n']|] eqn:Ef; [|discriminate H]. cbn [bind] in H. destruct (F d L g dd g' n' eq_refl GL B3 Ef) as (dd' & -> & B3' & B4').
  cbn [put] in H. injection H as <-.
  assert (Own : forall n e, get n (layers (writer s)) = Some e -> ownDir e) by (destruct A1 as [(_ & O & _) _]; exact O).
  assert (Apart : forall n e, n <> layer -> get n (layers (writer s)) = Some e -> e <> d).
  { intros n e N G X. destruct A1 as [(_ & _ & A) _]. apply (A n layer e d N G Gl). rewrite X. reflexivity. }
  split; cbn [cfg writer withLayers fPrev]; try assumption. exists (set d (Dir (files dd')) es). split; [reflexivity|]. split; [|split].
  - eapply plain_frame; [| | | | | |exact Pl]; try reflexivity. intros x I. rewrite !find_top. apply get_set_other. intros ->. apply (own_not_fixed d (Own _ _ Gl)). vm_compute in I |- *. tauto.
  - unfold extras. cbn [withLayers fImages fData]. rewrite !get_set_other; [exact Im| |]; intro X; apply (own_not_fixed d (Own _ _ Gl)); rewrite <- X; vm_compute; tauto.
  - unfold onMem. rewrite GL. split; cbn [writer sets withLayers fLayers fDefault layers]; try assumption.
    + apply (fits_frame (writer s)); [reflexivity| |exact A1]. intros e _. cbn [tree]. rewrite E. unfold isdir. rewrite !find_top, get_set. destruct (eqb_spec e d) as [->|]; [rewrite B1; reflexivity|reflexivity].
    + intros x Ox N. rewrite get_set in N. destruct (eqb_spec x d) as [Ex|Nd]; [exists layer; rewrite Ex; exact Gl|apply A3; assumption].
    + apply dict_ok_set. exact A4.
    + apply dict_ok_set. exact A5.
    + intro n. rewrite get_set. destruct (eqb_spec n layer) as [->|N]; [rewrite Gl; split; discriminate|apply A6].
    + intros n N. rewrite get_set in N. destruct (eqb_spec n layer) as [En|Nl]; [rewrite En; congruence|apply A7; exact N].
    + intros n e M G GM. rewrite !get_set. rewrite get_set in GM. destruct (eqb_spec n layer) as [->|Nl].
      * rewrite Gl in G. injection G as <-. injection GM as <-. rewrite eqb_refl. exists dd'. split; [reflexivity|]. split; [intros p g0 X; congruence|]. split; assumption.
      * pose proof (Apart _ _ Nl G) as Ned. destruct (eqb_spec e d); [contradiction|]. destruct (A9 _ _ _ G GM) as (de & D1 & D2 & D3 & D4). exists de. split; [exact D1|]. split; [exact D2|]. split; [exact D3|].
        intro S. apply D4. destruct (Sv n S) as [X|X]; [contradiction|exact X].
Qed.
Lemma world_log m g d l l' : glyphInv m (mkWorld g d l) -> glyphInv m (mkWorld g d l').
Proof. intro H. exact H. Qed.
Lemma eta_world (w : world) l : mkWorld (gs w) (dir w) l = mkWorld (gs w) (dir w) l.
Proof. reflexivity. Qed.
(** one call *)
Lemma call_step sv m s s' layer c h : finv sv m s -> onLayer layer (glyphCall T R lower toFileName c) s = Ok s' -> okCall ok c -> c <> CRebuild ->
  (forall L, lInfo (h L) = lInfo L /\ lPrev (h L) = lPrev L) ->
  (forall L w w', glyphInv (lGlyphs L) w -> GlyphSet.exec (fun f => f) lower toFileName (contentsDumps T R) (contentsLoads T) c w = (w', Ok tt) -> glyphInv (lGlyphs (h L)) w') ->
  finv noneSaved (withLayers m (onMem layer h m) (fDefault m)) s'.
Proof.
  intros I H O Nr Hh F. eapply onLayer_step; [exact I|exact H|intros n []|]. intros d L g dd g' n' _ _ (D & Ri & Hp & G) Ef. unfold glyphCall in Ef. rewrite filesIn_files in Ef.
  destruct (GlyphSet.exec _ lower toFileName _ _ c (mkWorld g dd [])) as [w' [[]|e]] eqn:Ex; [|discriminate Ef]. injection Ef as <- <-. rewrite withFiles_files.
  pose proof (F L _ _ G Ex) as G'. exists (dir w'). split; [reflexivity|]. split; [|intros []]. destruct (Hh L) as [H1 H2]. split; [apply G'|]. rewrite H1, H2. split.
  - eapply infoRead_frame; [|exact Ri]. rewrite !find_top, !get_files. f_equal. eapply exec_info in Ex; try eassumption. apply G.
  - split; [intro Q; rewrite (exec_prev _ _ _ _ _ _ _ Ex); apply Hp; exact Q|exact G'].
Qed.

Lemma inv_weaken (sv sv' : str -> Prop) m s : (forall n, sv' n -> sv n) -> finv sv m s -> finv sv' m s.
Proof.
  intros W [V1 V2 V3 (es & E & Pl & Im & [A1 A2 A3 A4 A5 A6 A7 A8 A9])]. split; try assumption. exists es. split; [exact E|]. split; [exact Pl|]. split; [exact Im|]. split; try assumption.
  intros n d L G GL. destruct (A9 n d L G GL) as (dd & B1 & B2 & B3 & B4). exists dd. auto 10.
Qed.
Lemma glyphs_step m s a s' : finv noneSaved m s -> allowedIn ok m a -> factOn T R ro lower toFileName s a = Ok s' ->
  match a with AGlyph _ _ _ _ _ | ACall _ _ | ALayerInfo _ _ => True | _ => False end -> finv noneSaved (fremember m a) s'.
Proof.
  intros I Al H K. destruct a as [| | | | | | | | | |layer n g items fv|layer c|layer info| | | |]; try contradiction K; cbn [allowedIn] in Al; rewrite ?fact_Glyph, ?fact_Call, ?fact_LayerInfo in H.
  - destruct Al as [On St]. assert (X : finv noneSaved (withLayers m (onMem layer (fun L => mkLayer (set n (g, items, fv) (lGlyphs L)) (lInfo L) (lPrev L)) m) (fDefault m)) s'); [|destruct m; exact X].
    eapply call_step; [exact I|exact H|exact On|discriminate|intro L; split; reflexivity|]. intros L w w' G Ex. cbn [lGlyphs]. eapply glyph_write; try exact Ex; eassumption.
  - destruct Al as [Nw Nr]. assert (X : finv noneSaved (withLayers m (onMem layer (fun L => mkLayer (glyphCalled c (lGlyphs L)) (lInfo L) (lPrev L)) m) (fDefault m)) s'); [|destruct m; exact X].
    eapply call_step; [exact I|exact H|destruct c; [discriminate Nw|exact Logic.I..]|exact Nr|intro L; split; reflexivity|]. intros L w w' G Ex. cbn [lGlyphs]. eapply glyph_call; try exact Ex; eassumption.
  - destruct Al as [F Em]. assert (X : finv noneSaved (withLayers m (onMem layer (fun L => mkLayer (lGlyphs L) info (lPrev L)) m) (fDefault m)) s'); [|destruct m; exact X].
    eapply onLayer_step; [exact I|exact H|intros n []|]. intros d L g dd g' n' Gl GL (D & Ri & Hp & G) Ef. unfold layerInfoCall in Ef.
    destruct (writeLayerInfo C T 3 (havePrev g) info true (mkUst (Dir (files dd)) [] [] None)) as [s1 [[]|e]] eqn:W; [|discriminate Ef]. injection Ef as <- <-.
    assert (Em' : (exists a, storedInfo info a <> None) \/ havePrev g = true \/ forall a, storedInfo (lInfo L) a = None).
    { destruct Em as [Em|Em]; [left; exact Em|]. destruct (Em L GL) as [Q|Q]; [right; left; apply Hp; exact Q|right; right; exact Q]. }
    destruct (layerInfo_call T R LT LR info (lInfo L) _ _ _ D F Ri Em' W) as (d' & Tr & D' & Fr & Ri'). exists d'. split; [exact Tr|]. split; [|intros []]. cbn [lInfo lPrev lGlyphs]. split; [exact D'|]. split; [exact Ri'|]. split; [exact Hp|].
    eapply glyphInv_info; [exact P_file|exact G|exact D'|exact Fr].
Qed.

(** *** Layers: getGlyphSet *)
Lemma get3_result name df vr s s' r : getGlyphSet3 C lower name df vr s = (s', Ok r) -> get name (layers s') = Some (fst r).
Proof.
  unfold getGlyphSet3. unfold mbind at 1, getLayers. destruct (df && _); [discriminate|].
  assert (X : forall d, (let! cs := lift (components d) in let! _ := fsMakedir cs in let! _ := setLayers (set name d (layers s)) in let! contents := openDir C cs vr in ret (d, contents)) s = (s', Ok r) -> get name (layers s') = Some (fst r)).
  { intros d. unfold mbind, lift. destruct (components d) as [cs|]; [|discriminate]. destruct (fsMakedir cs s) as [s1 [[]|e]]; [|discriminate]. unfold setLayers. destruct (openDir C cs vr _) as [s2 r2] eqn:Eo. apply openDir_state in Eo. subst s2.
    destruct r2; [|discriminate]. intro H. injection H as <- <-. cbn [layers fst]. apply get_set_same. }
  destruct (get name (layers s)) as [d|]; [unfold mbind at 1, ret at 1; apply X|]. destruct df; [unfold mbind at 1, ret at 1; apply X|].
  unfold mbind at 1, lift at 1. destruct (newDirectory lower name (layers s)); [apply X|discriminate].
Qed.
Lemma default_text : textOk (u "public.default"). Proof. apply text_check. reflexivity. Qed.
Lemma glyphs_text : textOk (u "glyphs"). Proof. apply text_check. reflexivity. Qed.
Lemma newDirectory_text name l d : newDirectory lower name l = Ok d -> textOk name -> textOk d.
Proof. intros H N. unfold newDirectory in H. eapply userName_text; [exact H|apply text_check; reflexivity|apply text_check; reflexivity|exact N]. Qed.
Lemma key_eq sv m s es name : layersInv sv m s es -> fKey m name = resolved name (layers (writer s)).
Proof.
  intro I. destruct name as [n|]; [reflexivity|]. unfold fKey, resolved. pose proof (lastDefault_spec (layers (writer s))) as Ld. destruct I as [[(D & _) _] _ _ _ _ _ _ A8 _]. destruct (lastDefault (layers (writer s))) as [n|].
  - apply (In_get _ _ _ D) in Ld. apply A8 in Ld. rewrite Ld. reflexivity.
  - destruct (fDefault m) as [n|]; [|reflexivity]. exfalso. specialize (A8 n). destruct A8 as [A8 _]. specialize (A8 eq_refl). apply In_values in A8. exact (Ld A8).
Qed.

Lemma getLayer_step m s name df s' : finv noneSaved m s -> allowedIn ok m (ALayer name df) -> getLayer T R lower name df s = Ok s' -> finv noneSaved (fremember m (ALayer name df)) s'.
Proof.
  intros I Al H. pose proof I as [V1 V2 V3 (es & E & Pl & Im & Ly)]. pose proof (key_eq _ _ _ _ name Ly) as Ek.
  unfold getLayer in H. change (layerKey name s) with (resolved name (layers (writer s))) in H. rewrite <- Ek in H. set (key := fKey m name) in *.
  unfold onWriter in H. destruct (getGlyphSet C lower (cfg s) name df true (writer s)) as [w [r|e]] eqn:Eg; [|discriminate H]. cbn [bind] in H. cbn [sets writer cfg] in H.
  assert (Nn : name <> None \/ df = true).
  { destruct name; [left; discriminate|]. destruct df; [right; reflexivity|]. unfold getGlyphSet in Eg. rewrite V1 in Eg. cbn in Eg. discriminate Eg. }
  assert (Fw : fits lower w).
  { eapply (fits_call C lower (cfg s) (CGet name df true) (writer s) w keeps V1); [apply Ly|exact Logic.I| |].
    - cbn [namedWell]. destruct name; [apply Al|exact Logic.I].
    - cbn [doCall]. unfold mbind. rewrite Eg. reflexivity. }
  rewrite (getGlyphSet_3 C lower _ _ _ _ _ V1 Nn), <- Ek in Eg. pose proof (get3_result _ _ _ _ _ _ Eg) as Res.
  pose proof Ly as [A1 A2 A3 A4 A5 A6 A7 A8 A9]. pose proof A1 as [Lyd Fi]. pose proof Lyd as (Dl & Own & Apart).
  apply get3_spec in Eg; [|exact Dl]. destruct Eg as [[_ Eg]|(d & cs & s1 & Ch & Hc & Mk & Tr & El & Def)]; [destruct (Eg r eq_refl)|].
  assert (Cd : components d = Ok [d]).
  { destruct Ch as [G|[_ Ch]]; [apply (Fi _ _ G)|]. unfold chosen in Ch. destruct df; [destruct Ch as [-> _]; apply glyphs_components|eapply newDirectory_components; exact Ch]. }
  rewrite Cd in Hc. injection Hc as <-. rewrite El, get_set_same in Res. injection Res as Res. rewrite <- Res in H. rewrite Cd in H. cbn [bind] in H.
  apply (makedir_es es d _ _ E) in Mk. rewrite <- Tr in Mk. clear Tr s1.
  destruct Ch as [G|[G Ch]].
  - (* an existing layer *)
    destruct (layer_get _ _ _ _ _ _ Ly G) as (L & GL). destruct (A9 _ _ _ G GL) as (dd & B1 & B2 & B3 & B4). rewrite set_get_id in El by exact G.
    assert (Tr : tree w = Dir es) by (destruct Mk as [(ds & _ & X)|[X _]]; [exact X|congruence]).
    assert (Em : fremember m (ALayer name df) = m).
    { assert (X : fremember m (ALayer name df) = withLayers m (fLayers m) (fDefault m)); [|rewrite X; destruct m; reflexivity].
      assert (Hk : has key (fLayers m) = true) by (unfold has; rewrite GL; reflexivity). destruct df.
      - assert (Dk : fDefault m = Some key) by (apply A8; rewrite G; f_equal; apply Def; reflexivity). rewrite Dk. unfold key in Hk, Dk |- *. destruct m. cbn [fremember fLayers fDefault] in *. rewrite Hk. reflexivity.
      - unfold key in Hk. destruct m. cbn [fremember fLayers fDefault] in *. rewrite Hk. reflexivity. }
    rewrite Em. destruct (has key (sets s)) eqn:Hk.
    + injection H as <-. split; cbn [cfg writer]; try assumption. exists es. split; [exact Tr|]. split; [exact Pl|]. split; [exact Im|]. eapply layers_frame; try eassumption; reflexivity.
    + rewrite Tr, find_top, B1, filesIn_files in H. assert (Gs : get key (sets s) = None) by (unfold has in Hk; destruct (get key (sets s)); [discriminate Hk|reflexivity]). rewrite Gs in B3. destruct B3 as (D & Ri & Cl).
      destruct (closed_open T R lower LT LR P _ _ Cl) as (w0 & Eo & Dw & Hp & Gw). rewrite Eo in H. injection H as <-.
      split; cbn [cfg writer]; try assumption. exists es. split; [exact Tr|]. split; [exact Pl|]. split; [exact Im|].
      pose proof (layers_frame _ m m s (cfg s) w es es E Tr Ly eq_refl eq_refl El (fun y _ => eq_refl)) as [F1 F2 F3 F4 F5 F6 F7 F8 F9].
      cbn [sets writer] in *. split; cbn [sets writer]; try assumption.
      * apply dict_ok_set. exact A5.
      * intros n N. rewrite get_set in N. destruct (eqb_spec n key) as [En|Nk]; [rewrite En, El; congruence|apply F7; exact N].
      * intros n e M Gn GM. destruct (F9 n e M Gn GM) as (de & D1 & D2 & D3 & D4). rewrite get_set. destruct (eqb_spec n key) as [En|Nk]; [|exists de; auto].
        subst n. rewrite El, G in Gn. injection Gn as <-. rewrite GL in GM. injection GM as <-. exists dd. split; [exact B1|]. split; [intros p g X; congruence|]. split; [|intros []].
        cbn [option_map snd]. split; [exact D|]. split; [exact Ri|]. split; [intros _; exact Hp|]. rewrite <- Dw. exact Gw.
  - (* a new layer *)
    assert (Gs : get key (sets s) = None) by (destruct (get key (sets s)) eqn:X; [exfalso; apply (A7 key); congruence|reflexivity]).
    destruct (chosen_fresh lower keeps _ _ _ _ Lyd Ch) as [Od Fresh].
    assert (Gd : get d es = None).
    { destruct (get d es) eqn:X; [|reflexivity]. exfalso. destruct (A3 d Od) as (k0 & Y); [congruence|]. apply (Fresh k0 d); [intros ->; congruence|exact Y|reflexivity]. }
    destruct Mk as [(ds & X & _)|[_ Tr]]; [congruence|]. unfold has in H. rewrite Gs in H. rewrite Tr, find_top, get_set_same in H.
    change (filesIn (Dir [])) with (@nil (str * bytes)) in H. destruct (openSet (fun f => f) (contentsLoads T) []) as [w0 [[]|e]] eqn:Eo; [|discriminate H]. injection H as <-.
    destruct (open_new T lower P [] w0 eq_refl) as [Dw Gw]; [constructor|exact Eo|].
    assert (Gm : get key (fLayers m) = None) by (apply A6; exact G).
    assert (Em : fremember m (ALayer name df) = withLayers m (set key (mkLayer [] [] false) (fLayers m)) (if df then Some key else fDefault m)).
    { assert (Hk : has key (fLayers m) = false) by (unfold has; rewrite Gm; reflexivity). unfold key in Hk |- *. destruct m. cbn [fremember fLayers fDefault] in *. rewrite Hk. reflexivity. }
    rewrite Em. split; cbn [cfg writer withLayers fPrev]; try assumption. exists (set d (Dir []) es). split; [exact Tr|]. split; [|split].
    + eapply plain_frame; [| | | | | |exact Pl]; try reflexivity. intros x Ix. rewrite !find_top. apply get_set_other. intros ->. apply (own_not_fixed d Od). vm_compute in Ix |- *. tauto.
    + unfold extras. cbn [withLayers fImages fData]. rewrite !get_set_other; [exact Im| |]; intro X; apply (own_not_fixed d Od); rewrite <- X; vm_compute; tauto.
    + split; cbn [sets writer withLayers fLayers fDefault]; rewrite ?El.
      * exact Fw.
      * intros n e Gn. rewrite get_set in Gn. destruct (eqb_spec n key) as [En|Nk]; [|apply A2; exact Gn]. injection Gn as <-. rewrite En.
        assert (Tk : textOk key).
        { unfold key, fKey. destruct name as [n'|]; [apply Al|]. destruct (fDefault m) as [n'|]; [|exact default_text]. specialize (A8 n'). destruct A8 as [A8 _]. specialize (A8 eq_refl). apply (A2 _ _ A8). }
        split; [exact Tk|]. unfold chosen in Ch. destruct df; [destruct Ch as [-> _]; exact glyphs_text|eapply newDirectory_text; eassumption].
      * intros x Ox Nx. rewrite get_set in Nx. destruct (eqb_spec x d) as [Ex|Nd]; [exists key; rewrite Ex; apply get_set_same|]. destruct (A3 x Ox Nx) as (n & Y). exists n. rewrite get_set_other; [exact Y|]. intros ->. congruence.
      * apply dict_ok_set. exact A4.
      * apply dict_ok_set. exact A5.
      * intro n. rewrite !get_set. destruct (eqb n key); [split; discriminate|apply A6].
      * intros n N. rewrite get_set in N. rewrite get_set. destruct (eqb_spec n key) as [En|Nk]; [discriminate|apply A7; exact N].
      * intro n. rewrite get_set. unfold chosen in Ch. destruct df.
        -- destruct Ch as [-> Ch]. destruct (eqb_spec n key) as [->|Nk]; [split; reflexivity|]. split; [intro X; congruence|]. intro X. exfalso. exact (Ch n Nk X).
        -- destruct (eqb_spec n key) as [->|Nk]; [|apply A8]. apply newDirectory_fresh in Ch as [(q & -> & _) _]. split; [intro X; apply A8 in X; congruence|]. intro X. discriminate X.
      * intros n e M Gn GM. rewrite get_set in Gn. rewrite get_set in GM. rewrite !(get_set key n). destruct (eqb_spec n key) as [En|Nk].
        -- injection Gn as <-. injection GM as <-. exists []. rewrite get_set_same. split; [reflexivity|]. split; [intros p g X; congruence|]. split; [|intros []]. cbn [option_map snd lInfo lPrev lGlyphs]. split; [constructor|]. split; [apply infoRead_none; [reflexivity|intro; reflexivity]|].
           split; [discriminate|]. rewrite <- Dw. exact Gw.
        -- destruct (A9 n e M Gn GM) as (de & D1 & D2). exists de. split; [|exact D2]. rewrite get_set_other; [exact D1|]. intros ->. congruence.
Qed.

(** *** Layers: deleteGlyphSet and renameGlyphSet *)
Lemma withLayers_same m : withLayers m (fLayers m) (fDefault m) = m.
Proof. destruct m. reflexivity. Qed.
Lemma close_step (sv : str -> Prop) m s s' layer : finv sv m s -> onLayer layer (glyphCall T R lower toFileName CWriteContents) s = Ok s' -> finv (fun n => n = layer \/ sv n) m s'.
Proof.
  intros I H. assert (X : finv (fun n => n = layer \/ sv n) (withLayers m (onMem layer (fun L => L) m) (fDefault m)) s').
  { eapply onLayer_step; [exact I|exact H|tauto|]. intros d L g dd g' n' _ _ (D & Ri & Hp & G) Ef. unfold glyphCall in Ef. rewrite filesIn_files in Ef.
    destruct (GlyphSet.exec _ lower toFileName _ _ CWriteContents (mkWorld g dd [])) as [w' [[]|e]] eqn:Ex; [|discriminate Ef]. injection Ef as <- <-. rewrite withFiles_files.
    assert (W : gs w' = g /\ closed (lGlyphs L) (dir w') /\ glyphInv (lGlyphs L) w') by (eapply writeContents_closed in Ex; [exact Ex|..]; eassumption). destruct W as (Eg & Cl & G'). exists (dir w'). split; [reflexivity|]. split; [|intros _; exact Cl]. split; [apply G'|]. split.
    - eapply infoRead_frame; [|exact Ri]. rewrite !find_top, !get_files. f_equal. eapply exec_info in Ex; try eassumption; [exact Logic.I|discriminate|apply G].
    - split; [intro Q; rewrite (exec_prev _ _ _ _ _ _ _ Ex); apply Hp; exact Q|exact G']. }
  replace (onMem layer (fun L => L) m) with (fLayers m) in X; [rewrite withLayers_same in X; exact X|]. unfold onMem. destruct (get layer (fLayers m)) as [L|] eqn:E; [|reflexivity]. symmetry. apply set_get_id. exact E.
Qed.
Lemma onLayer_sets layer f s s' : onLayer layer f s = Ok s' -> get layer (sets s) <> None /\ forall n, get n (sets s') <> None -> get n (sets s) <> None.
Proof.
  unfold onLayer. destruct (get layer (sets s)) as [[p g]|] eqn:E; [|discriminate]. destruct (find _ p); [|discriminate]. destruct (f g n) as [[g' n']|]; [|discriminate]. cbn [bind]. destruct (put p n' _); [|discriminate]. intro H. injection H as <-.
  split; [discriminate|]. cbn [sets]. intros k N. rewrite get_set in N. destruct (eqb_spec k layer) as [Ek|]; [rewrite Ek; congruence|exact N].
Qed.
Lemma delete_step m s layer s' : finv noneSaved m s -> factOn T R ro lower toFileName s (ADelete layer) = Ok s' -> finv noneSaved (fremember m (ADelete layer)) s'.
Proof.
  intros I H. rewrite fact_Delete in H. destruct (onWriter_ (fun c => deleteGlyphSet c (Some layer)) s) as [s1|] eqn:H1; [|discriminate H]. injection H as <-. apply onWriter_inv in H1 as (w & H & ->). cbn [cfg writer sets].
  destruct I as [V1 V2 V3 (es & E & Pl & Im & Ly)]. pose proof Ly as [A1 A2 A3 A4 A5 A6 A7 A8 A9]. pose proof A1 as [Lyd Fi]. pose proof Lyd as (Dl & Own & Apart).
  assert (Fw : fits lower w).
  { eapply (fits_call C lower (cfg s) (CDelete (Some layer)) (writer s) w keeps V1 A1 Logic.I Logic.I). exact H. }
  apply (delete_ok _ _ _ _ es V1 E) in H.
  2:{ intros d G. destruct (Fi _ _ G) as (_ & Cd & _). split; [exact Cd|]. destruct (layer_get _ _ _ _ _ _ Ly G) as (L & GL). destruct (A9 _ _ _ G GL) as (dd & B1 & _). eauto. }
  destruct H as (d & G & El & Tr). set (es' := filter _ es) in Tr. assert (Ge : forall y, get y es' = if eqb d y then None else get y es) by (intro y; apply get_filter_name).
  assert (Od : ownDir d) by (eapply Own; exact G).
  assert (X : finv noneSaved (withLayers m (del layer (fLayers m)) (if eqb (fDefault m) (Some layer) then None else fDefault m)) (mkFst (cfg s) w (del layer (sets s)))); [|destruct m; exact X].
  split; cbn [cfg writer withLayers fPrev]; try assumption. exists es'. split; [exact Tr|]. split; [|split].
  - eapply plain_frame; [| | | | | |exact Pl]; try reflexivity. intros x Ix. rewrite !find_top, Ge. destruct (eqb_spec d x) as [->|]; [|reflexivity]. exfalso. apply (own_not_fixed x Od). vm_compute in Ix |- *. tauto.
  - unfold extras. cbn [withLayers fImages fData]. rewrite !Ge. destruct (eqb_spec d nImages) as [->|]; [exfalso; apply (own_not_fixed _ Od); vm_compute; tauto|]. destruct (eqb_spec d nData) as [->|]; [exfalso; apply (own_not_fixed _ Od); vm_compute; tauto|exact Im].
  - split; cbn [sets writer withLayers fLayers fDefault]; rewrite ?El.
    + exact Fw.
    + intros n e Gn. destruct (eqb_spec n layer) as [->|N]; [rewrite get_del_same in Gn by exact Dl; discriminate Gn|]. rewrite get_del_other in Gn by exact N. eapply A2. exact Gn.
    + intros x Ox Nx. rewrite Ge in Nx. destruct (eqb_spec d x) as [|Nd]; [congruence|]. destruct (A3 x Ox Nx) as (n & Y). exists n. rewrite get_del_other; [exact Y|]. intros ->. congruence.
    + apply dict_ok_del. exact A4.
    + apply dict_ok_del. exact A5.
    + intro n. destruct (eqb_spec n layer) as [->|N]; [rewrite !get_del_same by assumption; tauto|]. rewrite !get_del_other by exact N. apply A6.
    + intros n N. destruct (eqb_spec n layer) as [->|Nl]; [rewrite get_del_same in N by exact A5; congruence|]. rewrite get_del_other in N by exact Nl. rewrite get_del_other by exact Nl. apply A7. exact N.
    + intro n. destruct (eqb_spec (fDefault m) (Some layer)) as [Ed|Nd].
      * split; [discriminate|]. destruct (eqb_spec n layer) as [->|N]; [rewrite get_del_same by exact Dl; discriminate|]. rewrite get_del_other by exact N. intro Y. apply A8 in Y. congruence.
      * destruct (eqb_spec n layer) as [->|N]; [rewrite get_del_same by exact Dl; split; [intro Y; contradiction|discriminate]|]. rewrite get_del_other by exact N. apply A8.
    + intros n e M Gn GM. destruct (eqb_spec n layer) as [->|N]; [rewrite get_del_same in Gn by exact Dl; discriminate Gn|]. rewrite get_del_other in Gn by exact N. rewrite get_del_other in GM by exact N. rewrite get_del_other by exact N.
      destruct (A9 _ _ _ Gn GM) as (de & D1 & D2). exists de. split; [|exact D2]. rewrite Ge. destruct (eqb_spec d e) as [Ed|]; [|exact D1]. exfalso. apply (Apart n layer e d N Gn G). rewrite Ed. reflexivity.
Qed.
Lemma plain_with m l d t : plainRead m t -> plainRead (withLayers m l d) t.
Proof. intros [P1 P2 P3 P4 P5 P6]. split; assumption. Qed.
Lemma del_set {A} (k : str) (v : A) l : del k (set k v l) = del k l.
Proof. induction l as [|[k' x] l IH]; cbn [set del]; [rewrite eqb_refl; reflexivity|]. destruct (eqb_spec k k') as [->|N]; cbn [del]; [rewrite eqb_refl; reflexivity|]. destruct (eqb_spec k k'); [contradiction|]. rewrite IH. reflexivity. Qed.
(** the object of a closed layer is dropped *)
Lemma drop_inv sv m s layer : finv sv m s -> sv layer -> finv sv (withLayers m (onMem layer (fun L => mkLayer (lGlyphs L) (lInfo L) true) m) (fDefault m)) (mkFst (cfg s) (writer s) (del layer (sets s))).
Proof.
  intros [V1 V2 V3 (es & E & Pl & Im & [A1 A2 A3 A4 A5 A6 A7 A8 A9])] Sv. split; cbn [cfg writer withLayers fPrev]; try assumption. exists es. split; [exact E|]. split; [apply plain_with; exact Pl|]. split; [exact Im|].
  split; cbn [sets writer withLayers fLayers fDefault]; try assumption.
  - unfold onMem. destruct (get layer (fLayers m)); [apply dict_ok_set|]; exact A4.
  - apply dict_ok_del. exact A5.
  - intro n. rewrite A6. unfold onMem. destruct (get layer (fLayers m)) as [L|] eqn:GL; [|tauto]. rewrite get_set. destruct (eqb_spec n layer) as [->|]; [rewrite GL; split; discriminate|tauto].
  - intros n N. apply A7. destruct (eqb_spec n layer) as [->|Nl]; [rewrite get_del_same in N by exact A5; congruence|]. rewrite get_del_other in N by exact Nl. exact N.
  - intros n d M G GM. unfold onMem in GM. destruct (get layer (fLayers m)) as [L|] eqn:GL.
    + rewrite get_set in GM. destruct (eqb_spec n layer) as [->|Nl].
      * injection GM as <-. destruct (A9 _ _ _ G GL) as (dd & D1 & D2 & (D3 & D4 & _) & D5). exists dd. rewrite get_del_same by exact A5. split; [exact D1|]. split; [discriminate|]. cbn [lGlyphs lInfo]. split; [|exact D5]. split; [exact D3|]. split; [exact D4|]. apply D5. exact Sv.
      * rewrite get_del_other by exact Nl. eapply A9; eassumption.
    + destruct (eqb_spec n layer) as [->|Nl]; [congruence|]. rewrite get_del_other by exact Nl. eapply A9; eassumption.
Qed.
Lemma all_closed (sv sv' : str -> Prop) m s : finv sv m s -> (forall n, sv' n -> get n (sets s) <> None -> sv n) -> finv sv' m s.
Proof.
  intros [V1 V2 V3 (es & E & Pl & Im & [A1 A2 A3 A4 A5 A6 A7 A8 A9])] Sv. split; try assumption. exists es. split; [exact E|]. split; [exact Pl|]. split; [exact Im|]. split; try assumption.
  intros n d L G GL. destruct (A9 _ _ _ G GL) as (dd & D1 & D2 & D3 & D4). exists dd. split; [exact D1|]. split; [exact D2|]. split; [exact D3|]. intro S. destruct (get n (sets s)) as [[p g]|] eqn:Gs; [|apply D3]. apply D4. apply Sv; [exact S|congruence].
Qed.
Lemma rename_step m s layer new df s' : finv noneSaved m s -> allowedIn ok m (ARename layer new df) -> factOn T R ro lower toFileName s (ARename layer new df) = Ok s' -> finv noneSaved (fremember m (ARename layer new df)) s'.
Proof.
  intros I Al H. rewrite fact_Rename in H. destruct (if has layer (sets s) then _ else Ok s) as [s1|] eqn:H1; [|discriminate H]. cbn [bind] in H.
  assert (I1 : finv (fun n => n = layer) m s1).
  { destruct (has layer (sets s)) eqn:Hs.
    - eapply inv_weaken; [|eapply close_step; [exact I|exact H1]]. cbn beta. tauto.
    - injection H1 as <-. eapply all_closed; [exact I|]. intros n -> N. unfold has in Hs. destruct (get layer (sets s)); [discriminate Hs|congruence]. }
  clear I H1 s. destruct (onWriter_ (fun c => renameGlyphSet lower c (Some layer) (Some new) df) s1) as [s2|] eqn:H2; [|discriminate H]. injection H as <-. apply onWriter_inv in H2 as (w & H & ->). cbn [cfg writer sets].
  assert (Ds : dict_ok (sets s1)) by (destruct I1 as [_ _ _ (es & _ & _ & _ & Ly)]; apply Ly).
  apply (drop_inv _ _ _ layer) in I1; [|reflexivity]. set (m1 := withLayers m (onMem layer (fun L => mkLayer (lGlyphs L) (lInfo L) true) m) (fDefault m)) in I1.
  set (s := mkFst (cfg s1) (writer s1) (del layer (sets s1))) in I1.
  assert (Em : finv noneSaved (match get layer (fLayers m1) with
      | Some L => withLayers m1 (set new L (del layer (fLayers m1))) (if df then Some new else if eqb (fDefault m1) (Some layer) then None else fDefault m1) | None => m1 end)
      (mkFst (cfg s1) w (del layer (sets s1)))).
  { assert (Sf : safeCall (CRename (Some layer) (Some new) df) (layers (writer s1))).
    { cbn [safeCall]. destruct df; [|exact Logic.I]. intros Eq n N X. injection Eq as ->. destruct Al as (_ & _ & Al). destruct I1 as [_ _ _ (es & _ & _ & _ & [_ _ _ _ _ _ _ A8 _])]. apply A8 in X. cbn [m1 withLayers fDefault] in X. destruct (Al eq_refl eq_refl) as [Y|Y]; congruence. }
    assert (H' := H). destruct I1 as [V1 V2 V3 (es & E & Pl & Im & Ly)]. cbn [s cfg] in V1.
    assert (Fw : fits lower w).
    { eapply (fits_call C lower (cfg s1) (CRename (Some layer) (Some new) df) (writer s1) w keeps V1 (iFits _ _ _ _ Ly) Sf); [apply Al|exact H]. }
    clear H'. pose proof Ly as [A1 A2 A3 A4 A5 A6 A7 A8 A9]. cbn [s writer sets cfg] in A1, A2, A3, A5, A6, A7, A8, A9, E, V2, V3.
    pose proof A1 as [Lyd Fi]. pose proof Lyd as (Dl & Own & Apart).
    apply rename_ok in H; [|exact V1]. destruct H as [(En & -> & d & Gd & Df)|(old & d & Go & Rn & El & src & dst & Cs & Cd & Mv)].
    - subst new. destruct (layer_get _ _ _ _ _ _ Ly Gd) as (L & GL). rewrite GL. eapply (inv_weaken (fun n => n = layer)); [intros n []|].
      assert (Gx : forall n, get n (set layer L (del layer (fLayers m1))) = get n (fLayers m1)).
      { intro n. rewrite get_set. destruct (eqb_spec n layer) as [->|N]; [symmetry; exact GL|apply get_del_other; exact N]. }
      assert (Dx : (if df then Some layer else if eqb (fDefault m1) (Some layer) then None else fDefault m1) = fDefault m1).
      { destruct df; [symmetry; apply A8; rewrite Gd; f_equal; apply Df; reflexivity|]. destruct (eqb_spec (fDefault m1) (Some layer)) as [X|X]; [|reflexivity]. apply A8 in X. rewrite Gd in X. injection X as X. apply Df in X. discriminate X. }
      rewrite Dx. split; cbn [cfg writer withLayers fPrev]; try assumption. exists es. split; [exact E|]. split; [apply plain_with; exact Pl|]. split; [exact Im|]. split; cbn [writer sets withLayers fLayers fDefault]; try assumption.
      + apply dict_ok_set, dict_ok_del. exact A4.
      + intro n. rewrite Gx. apply A6.
      + intros n e M G GM. rewrite Gx in GM. eapply A9; eassumption.
    - destruct (layer_get _ _ _ _ _ _ Ly Go) as (L & GL). rewrite GL. destruct (A9 _ _ _ Go GL) as (dd & B1 & B2 & B3 & B4).
      destruct (renamed_layered lower keeps _ _ _ _ _ _ _ Lyd Go Rn Sf) as [Lyd' Nlo]. pose proof Lyd' as (Dl' & Own' & Apart').
      assert (Gnew : get new (set new d (del layer (layers (writer s1)))) = Some d) by apply get_set_same.
      assert (Od : ownDir d) by (eapply Own'; exact Gnew). assert (Nod : old <> d) by (intros ->; apply Nlo; reflexivity).
      assert (Fd : forall n e, n <> layer -> get n (layers (writer s1)) = Some e -> e <> d /\ n <> new).
      { intros n e N G. assert (Nn : n <> new).
        { intros ->. unfold renamed in Rn. destruct (eqb_spec (Some layer) (Some new)) as [X|X]; [injection X as ->; contradiction|]. destruct Rn as (_ & Rn & _). congruence. }
        split; [|exact Nn]. intros ->. apply (Apart' n new d d Nn); [rewrite get_set_other by exact Nn; rewrite get_del_other by exact N; exact G|exact Gnew|reflexivity]. }
      assert (Gde : get d es = None).
      { destruct (get d es) eqn:X; [|reflexivity]. exfalso. destruct (A3 d Od) as (k & Y); [congruence|]. destruct (eqb_spec k layer) as [Ek|N]; [rewrite Ek in Y; congruence|]. destruct (Fd _ _ N Y) as [Z _]. apply Z. reflexivity. }
      destruct (Fi _ _ Go) as (_ & Co & _). rewrite Co in Cs. injection Cs as <-.
      destruct Fw as [Fw1 Fw2]. rewrite El in Fw2. destruct (Fw2 _ _ Gnew) as (_ & Cd' & _). rewrite Cd' in Cd. injection Cd as <-. rewrite E in Mv.
      apply (movedir_es es old d (files dd)) in Mv; [|exact B1|unfold Base.dict_ok; rewrite keys_files; apply B3|exact Gde|exact Nod]. destruct Mv as (es' & Tr & M1 & M2 & M3).
      assert (Oo : ownDir old) by (eapply Own; exact Go).
      assert (Fix_ : forall x, In x fixedNames -> get x es' = get x es).
      { intros x Ix. apply M3; intros ->; [exact (own_not_fixed d Od Ix)|exact (own_not_fixed old Oo Ix)]. }
      split; cbn [cfg writer withLayers fPrev]; try assumption. exists es'. split; [exact Tr|]. split; [|split].
      + eapply plain_frame; [| | | | | |exact Pl]; try reflexivity. intros x Ix. rewrite !find_top. apply Fix_. vm_compute in Ix |- *. tauto.
      + unfold extras. cbn [withLayers fImages fData]. rewrite !Fix_; [exact Im|vm_compute; tauto..].
      + split; cbn [sets writer withLayers fLayers fDefault]; rewrite ?El.
        * split; [rewrite El; exact Lyd'|]. rewrite El. exact Fw2.
        * intros n e Gn. rewrite get_set in Gn. destruct (eqb_spec n new) as [En|N].
          -- injection Gn as <-. destruct (A2 _ _ Go) as [_ To]. rewrite En. split; [apply Al|]. unfold renamed in Rn. destruct (eqb (Some layer) (Some new)).
             ++ destruct Rn as (_ & _ & Rn). destruct df; [rewrite Rn; exact glyphs_text|eapply newDirectory_text; [exact Rn|apply Al]].
             ++ destruct Rn as (_ & _ & Rn). destruct df; [destruct Rn as [Rn _]; rewrite Rn; exact glyphs_text|eapply newDirectory_text; [exact Rn|apply Al]].
          -- destruct (eqb_spec n layer) as [El'|N']; [rewrite El', get_del_same in Gn by exact Dl; discriminate Gn|]. rewrite get_del_other in Gn by exact N'. eapply A2. exact Gn.
        * intros x Ox Nx. destruct (eqb_spec x d) as [Ex|Nd]; [exists new; rewrite Ex; exact Gnew|]. destruct (eqb_spec x old) as [Ex|No]; [congruence|]. rewrite (M3 x Nd No) in Nx. destruct (A3 x Ox Nx) as (n & Y). exists n.
          assert (N : n <> layer) by (intros ->; congruence). destruct (Fd _ _ N Y) as [_ N']. rewrite get_set_other by exact N'. rewrite get_del_other by exact N. exact Y.
        * apply dict_ok_set, dict_ok_del. exact A4.
        * exact A5.
        * intro n. rewrite !get_set. destruct (eqb_spec n new) as [|N]; [split; discriminate|]. destruct (eqb_spec n layer) as [->|N']; [rewrite !get_del_same by assumption; tauto|]. rewrite !get_del_other by exact N'. apply A6.
        * intros n N. pose proof (A7 n N) as G. destruct (get n (layers (writer s1))) as [e|] eqn:Gn; [|congruence].
          assert (Nl : n <> layer) by (intros ->; rewrite get_del_same in N by exact Ds; congruence). destruct (Fd _ _ Nl Gn) as [_ Nn]. rewrite get_set_other by exact Nn. rewrite get_del_other by exact Nl. congruence.
        * intro n. rewrite get_set.
          assert (Dg : d = u "glyphs" <-> df = true).
          { assert (Nw : newDirectory lower new (layers (writer s1)) = Ok d -> d <> u "glyphs") by (intro X; apply newDirectory_fresh in X as [(q & -> & _) _]; discriminate).
            unfold renamed in Rn. destruct (eqb (Some layer) (Some new)); destruct Rn as (_ & R2 & Rn); destruct df; try (split; intro X; [reflexivity|]; tauto); split; intro X; try discriminate X; destruct (Nw Rn X). }
          destruct (eqb_spec n new) as [->|N].
          -- destruct df; [split; [intros _; f_equal; apply Dg; reflexivity|reflexivity]|]. split; [|intro X; injection X as X; apply Dg in X; discriminate X]. intro X. exfalso.
             destruct (eqb_spec (fDefault m1) (Some layer)) as [Y|Y]; [discriminate X|]. apply A8 in X. destruct (eqb_spec new layer) as [Z|Z]; [rewrite Z in X; apply A8 in X; contradiction|]. destruct (Fd _ _ Z X) as [_ W]. apply W. reflexivity.
          -- destruct (eqb_spec n layer) as [->|N'].
             ++ rewrite get_del_same by exact Dl. split; [|discriminate]. destruct df; [congruence|]. destruct (eqb_spec (fDefault m1) (Some layer)) as [Y|Y]; [discriminate|]. intro X. contradiction.
             ++ rewrite get_del_other by exact N'. destruct df.
                ** split; [congruence|]. intro X. exfalso. destruct (Fd _ _ N' X) as [Y _]. apply Y. symmetry. apply Dg. reflexivity.
                ** rewrite <- A8. destruct (eqb_spec (fDefault m1) (Some layer)) as [Y|Y]; [split; [discriminate|congruence]|tauto].
        * intros n e M Gn GM. rewrite get_set in Gn. rewrite get_set in GM. destruct (eqb_spec n new) as [En|N].
          -- injection Gn as <-. injection GM as <-. exists dd. split; [exact M1|].
             assert (Gs : get n (del layer (sets s1)) = None).
             { destruct (get n (del layer (sets s1))) eqn:X; [|reflexivity]. exfalso. destruct (eqb_spec n layer) as [Z|Z]; [rewrite Z, get_del_same in X by exact Ds; discriminate X|].
               assert (Y : get n (layers (writer s1)) <> None) by (apply A7; congruence). destruct (get n (layers (writer s1))) as [e|] eqn:Ge; [|congruence]. destruct (Fd _ _ Z Ge) as [_ W]. contradiction. }
             rewrite Gs. split; [discriminate|]. split; [|intros []]. destruct B3 as (D1 & D2 & _). split; [exact D1|]. split; [exact D2|]. apply B4. reflexivity.
          -- destruct (eqb_spec n layer) as [Z|Z]; [rewrite Z, get_del_same in Gn by exact Dl; discriminate Gn|]. rewrite get_del_other in Gn by exact Z. rewrite get_del_other in GM by exact Z.
             destruct (A9 _ _ _ Gn GM) as (de & D1 & D2 & D3 & D4). exists de. destruct (Fd _ _ Z Gn) as [Ned _].
             assert (Neo : e <> old) by (intros ->; apply (Apart n layer old old Z Gn Go); reflexivity). rewrite (M3 e Ned Neo). split; [exact D1|]. split; [exact D2|]. split; [exact D3|]. intros []. }
  assert (X : fremember m (ARename layer new df) = match get layer (fLayers m1) with
      | Some L => withLayers m1 (set new L (del layer (fLayers m1))) (if df then Some new else if eqb (fDefault m1) (Some layer) then None else fDefault m1) | None => m1 end).
  { subst m1. clear. destruct m as [i g k l f im dt ly d p]. cbn [fremember withLayers fLayers fDefault onMem]. unfold onMem. cbn [fLayers]. destruct (get layer ly) as [L|] eqn:G; [rewrite get_set_same, del_set; reflexivity|rewrite G; reflexivity]. }
  rewrite X. exact Em.
Qed.

(** *** Saving *)
Definition allSaved (n : str) : Prop := True.
Lemma saveSets_step m s s' : finv noneSaved m s -> saveSets T R lower toFileName s = Ok s' -> finv allSaved m s'.
Proof.
  intros I H. unfold saveSets in H.
  assert (G : forall ks (sv : str -> Prop) s s', finv sv m s -> foldM (fun s n => onLayer n (glyphCall T R lower toFileName CWriteContents) s) s ks = Ok s' ->
    finv (fun n => In n ks \/ sv n) m s' /\ forall n, get n (sets s') <> None -> get n (sets s) <> None).
  { clear I H s s'. induction ks as [|k ks IH]; intros sv s s' I H; cbn [foldM] in H.
    - injection H as <-. split; [eapply inv_weaken; [|exact I]; intros n [[]|X]; exact X|auto].
    - destruct (onLayer k _ s) as [s1|] eqn:E; [|discriminate H]. cbn [bind] in H. destruct (IH _ _ _ (close_step _ _ _ _ _ I E) H) as [J K]. apply onLayer_sets in E as [_ E]. split; [|intros n N; apply E, K; exact N].
      eapply inv_weaken; [|exact J]. cbn [In]. intros n [[X|X]|X]; auto. }
  destruct (G _ _ _ _ I H) as [J K]. eapply all_closed; [exact J|]. intros n _ N. apply K in N. left. destruct (get n (sets s)) as [x|] eqn:E; [|congruence]. apply get_In in E. apply (in_map fst) in E. exact E.
Qed.
Lemma pairs_faithful l : (forall n d, In (n, d) l -> textOk n /\ textOk d) -> plistFaithful (PList (map (fun nd : str * str => PTuple [PStr (fst nd); PStr (snd nd)]) l)).
Proof.
  intro K. split.
  - constructor. apply Forall_forall. intros x I. apply in_map_iff in I as ([n d] & <- & I). repeat constructor.
  - split.
    + intros s I. inversion I as [|l' x J1 J2|l' x J1 J2|d' k x J1 J2]; subst. apply in_map_iff in J1 as ([n d] & <- & J1). cbn [fst snd] in J2. destruct (K _ _ J1) as [K1 K2].
      inversion J2 as [|l'' y M1 M2|l'' y M1 M2|]; subst. destruct M1 as [<-|[<-|[]]]; inversion M2; subst; assumption.
    + intros d' k x I J. exfalso. inversion I as [|l' y J1 J2|l' y J1 J2|]; subst. apply in_map_iff in J1 as ([n d] & <- & J1). inversion J2 as [|l'' y M1 M2|l'' y M1 M2|]; subst. destruct M1 as [<-|[<-|[]]]; inversion M2.
Qed.
Lemma save_step m s order s' : finv noneSaved m s -> save T R lower toFileName order s = Ok s' -> finv allSaved m s' /\
  (NoDup order -> fDefault m <> None -> exists nds, map fst nds = order /\ (forall n d, In (n, d) nds <-> get n (layers (writer s')) = Some d) /\
    readLayersR C 3 (tree (writer s')) true = Ok nds /\ readLayersW C (tree (writer s')) true = Ok (fold_left (fun l '(n, d) => set n d l) nds [])).
Proof.
  intros I H. unfold save in H. destruct (saveSets T R lower toFileName s) as [s1|] eqn:E; [|discriminate H]. cbn [bind] in H. apply (saveSets_step m) in E; [|exact I]. clear I s. apply onWriter_inv in H as (w & H & ->). cbn [writer].
  assert (Tc : touches nLayercontents (writer s1) w).
  { unfold writeLayerContents in H. destruct (ver (cfg s1) <? 3)%Z; [injection H as ->; apply touches_refl|]. unfold mbind at 1, getLayers in H. destruct (true && _); [discriminate H|]. unfold mbind at 1, lift in H. destruct (mapM _ _); [|discriminate H]. eapply writePlist_touches. exact H. }
  split.
  - eapply inv_touch; [exact E|exact Tc|vm_compute; tauto|discriminate|discriminate|reflexivity..|]. intros es es' Es Es' Fr Pl. eapply plain_frame; [| | | | | |exact Pl]; try reflexivity. intros x Ix. rewrite !find_top. apply Fr. intros ->. vm_compute in Ix. intuition discriminate.
  - intros Nd Df. destruct E as [V1 V2 V3 (es & Es & Pl & Im & Ly)]. pose proof Ly as [A1 A2 A3 A4 A5 A6 A7 A8 A9]. destruct Tc as [El _].
    assert (Em : map (fun n : option str => match n with Some n => n | None => u "public.default" end) (map Some order) = order) by (rewrite map_map; apply map_id).
    apply (layers_read C plistFaithful lower (cfg s1) (writer s1) w (Some (map Some order)) codec V1 A1) in H.
    + rewrite El. cbv zeta in H. rewrite Em in H. exact H.
    + intros l K. apply pairs_faithful. intros n d J. apply (A2 _ _ (K _ _ J)).
    + destruct (fDefault m) as [n|]; [|congruence]. exists n. apply A8. reflexivity.
    + cbv zeta. rewrite Em. exact Nd.
Qed.

(** *** A new writer *)
Lemma meta_faithful c : textOk c -> plistFaithful (PDict [(PStr (u "creator"), PStr c); (PStr (u "formatVersion"), PInt 3)]).
Proof.
  intro K. apply (asDict_faithful [(u "creator", PStr c); (u "formatVersion", PInt 3)]).
  - unfold Base.dict_ok. cbn. constructor; [intros [X|[]]; discriminate X|constructor; [intros []|constructor]].
  - intros a v G. cbn [get] in G. destruct (eqb_spec a (u "creator")) as [->|].
    + injection G as <-. split; [apply text_check; reflexivity|]. split; [constructor|]. split; [intros s J; inversion J; subst; exact K|intros d k x J; inversion J].
    + destruct (eqb_spec a (u "formatVersion")) as [->|]; [|discriminate G]. injection G as <-. split; [apply text_check; reflexivity|]. split; [constructor; lia|]. split; [intros s J; inversion J|intros d k x J; inversion J].
Qed.
Lemma meta_written c cr s w es : ver c = 3%Z -> creator c = PStr cr -> textOk cr -> tree s = Dir es -> writeMetaInfo C c s = (w, Ok tt) ->
  exists b, tree w = Dir (set nMetainfo (File b) es) /\ layers w = layers s /\ readMetaInfo C (tree w) true = Ok 3%Z.
Proof.
  intros V Ec Tc E H. unfold writeMetaInfo in H. rewrite V, Ec in H. apply (writePlist_es _ _ _ _ _ _ es E) in H as (b & D & Tr & El). exists b. split; [exact Tr|]. split; [exact El|]. rewrite Tr.
  destruct (UfoProofs.loads_dumps _ _ codec _ _ (meta_faithful cr Tc) D) as (v & L & S).
  apply psame_dict in S as (e & -> & _ & G & _); [|constructor; [intros [X|[]]; discriminate X|constructor; [intros []|constructor]]].
  destruct (G (u "formatVersion") (PInt 3)) as (v' & G' & S); [reflexivity|]. apply psame_int in S as ->.
  unfold readMetaInfo, getPlist, getbytes. rewrite find_top, get_set_same, L. cbn [bind is_dict negb andb]. rewrite G'. reflexivity.
Qed.
Lemma init_new c cr es w : ver c = 3%Z -> hp c = false -> creator c = PStr cr -> textOk cr -> get nGlyphs es = None -> initWriter C T c true (mkUst (Dir es) [] [] None) = (w, Ok tt) ->
  exists b, tree w = Dir (set nMetainfo (File b) es) /\ layers w = [] /\ readMetaInfo C (tree w) true = Ok 3%Z.
Proof.
  intros V Hp Ec Tc G H. unfold initWriter in H. rewrite V, Hp in H. change (mem 3%Z supported) with true in H. cbv iota in H. unfold mbind, ret, getTree in H. cbn [tree] in H. unfold existsAt in H. rewrite find_top, G in H. unfold setLayers in H. cbn [tree] in H.
  exact (meta_written c cr (mkUst (Dir es) [] [] None) w es V Ec Tc eq_refl H).
Qed.
Lemma init_again c cr es w l : ver c = 3%Z -> hp c = true -> creator c = PStr cr -> textOk cr -> readMetaInfo C (Dir es) true = Ok 3%Z -> readLayersW C (Dir es) true = Ok l ->
  initWriter C T c true (mkUst (Dir es) [] [] None) = (w, Ok tt) ->
  exists b, tree w = Dir (set nMetainfo (File b) es) /\ layers w = l /\ readMetaInfo C (tree w) true = Ok 3%Z.
Proof.
  intros V Hp Ec Tc Rm Rl H. unfold initWriter in H. rewrite V, Hp in H. change (mem 3%Z supported) with true in H. cbv iota in H. unfold mbind, ret, getTree, lift in H. cbn [tree] in H. unfold readMetaInfo in Rm.
  destruct (getPlist C (Dir es) nMetainfo None) as [v|]; [|discriminate Rm]. cbn [bind] in Rm. destruct v as [| | | | | | | | |d|]; try discriminate Rm. cbn [is_dict negb andb] in Rm.
  unfold vget in H. cbn [items] in H. destruct (dget (u "formatVersion") d) as [v|]; [|discriminate Rm].
  assert (Pv : pyInt T v = Ok 3%Z).
  { destruct v as [|bb|z| | | | | | | |]; try discriminate Rm; cbn [andb negb pyInt] in *.
    - destruct bb; cbn in Rm; discriminate Rm.
    - destruct (mem z supported); [|discriminate Rm]. exact Rm. }
  rewrite Pv in H. change (mem 3%Z supported) with true in H. change (3 <? 3)%Z with false in H. change (3 <=? 3)%Z with true in H. cbv iota beta in H. rewrite Rl in H. unfold setLayers in H. cbn [tree] in H.
  exact (meta_written c cr (mkUst (Dir es) [] l None) w es V Ec Tc eq_refl H).
Qed.
Lemma sameInfo_empty perm : exists d', readInfo T perm 3 true (PDict []) = Ok d' /\ sameInfo T [] d'.
Proof.
  assert (W : writeInfo T 3 true [] = Ok []) by (vm_compute; reflexivity).
  destruct (info_read T perm true [] [] (PDict [])) as (_ & H); [intros a v [X _]; discriminate X|exact W|apply psame_empty|exact H].
Qed.
Lemma start_step c s : textOk c -> opened T R (mkCfg 3 false (PStr c)) (Dir []) = Ok s -> finv noneSaved newFont s.
Proof.
  intros Tc H. unfold opened in H. destruct (initWriter C T _ true _) as [w [[]|e]] eqn:E; [|discriminate H]. injection H as <-.
  destruct (init_new (mkCfg 3 false (PStr c)) c [] w eq_refl eq_refl eq_refl Tc eq_refl E) as (b & Tr & El & Rm).
  split; cbn [cfg writer]; [reflexivity..|exists c; split; [reflexivity|exact Tc]|]. exists [(nMetainfo, File b)]. split; [exact Tr|]. cbn [set] in Tr. rewrite Tr in Rm. split; [|split].
  - assert (Gone : forall x, x <> nMetainfo -> find (Dir [(nMetainfo, File b)]) [x] = None) by (intros x N; rewrite find_top; cbn [get]; destruct (eqb_spec x nMetainfo); [contradiction|reflexivity]).
    split.
    + exact Rm.
    + intro perm. destruct (sameInfo_empty perm) as (d' & R1 & R2). exists (PDict []), d'. split; [|split; assumption]. unfold readInfoFile. rewrite getPlist_gone by (apply Gone; discriminate). reflexivity.
    + exists (PDict []). split; [|apply psame_empty]. intros conv cache. unfold readGroups. change (3 <? 3)%Z with false. cbv iota. unfold readGroupsRaw. rewrite getPlist_gone by (apply Gone; discriminate). reflexivity.
    + exists []. split; [|constructor]. intros conv cache. unfold readKerning. change (3 <? 3)%Z with false. cbv iota. unfold readKerningRaw. rewrite getPlist_gone by (apply Gone; discriminate). reflexivity.
    + exists (PDict []). split; [|apply psame_empty]. unfold Ufo.readLib. rewrite getPlist_gone by (apply Gone; discriminate). reflexivity.
    + unfold readFeatures, getbytes. rewrite Gone by discriminate. reflexivity.
  - split; (split; [constructor|]); (split; [intros f x G; discriminate G|reflexivity]).
  - split; cbn [writer sets newFont fLayers fDefault]; rewrite ?El.
    + split; rewrite El; [split; [constructor|split; intros n d; discriminate]|intros n d; discriminate].
    + intros n d; discriminate.
    + intros x Ox N. cbn [get] in N. destruct (eqb_spec x nMetainfo) as [Ex|]; [|congruence]. exfalso. apply (own_not_fixed _ Ox). rewrite Ex. left. reflexivity.
    + constructor.
    + constructor.
    + intro n. cbn. tauto.
    + intros n N. cbn in N. congruence.
    + intro n. cbn. split; discriminate.
    + intros n d L G. discriminate G.
Qed.

Lemma fold_set_get {A} (nds : list (str * A)) : NoDup (map fst nds) ->
  dict_ok (fold_left (fun l '(n, d) => set n d l) nds []) /\ forall n d, get n (fold_left (fun l '(n, d) => set n d l) nds []) = Some d <-> In (n, d) nds.
Proof.
  assert (G : forall nds acc, NoDup (map fst nds) -> dict_ok acc -> (forall n : str, In n (map fst nds) -> get n acc = None) ->
    dict_ok (fold_left (fun l '(n, d) => set n d l) nds acc) /\ forall n (d : A), get n (fold_left (fun l '(n, d) => set n d l) nds acc) = Some d <-> In (n, d) nds \/ get n acc = Some d).
  { clear. induction nds as [|[n d] nds IH]; intros acc N D F; cbn [fold_left]; [split; [exact D|intros n d; cbn [In]; tauto]|]. cbn [map fst] in N. inversion N as [|? ? N1 N2]; subst.
    destruct (IH (set n d acc) N2 (dict_ok_set _ _ _ D)) as [I1 I2].
    { intros k J. rewrite get_set_other; [apply F; right; exact J|]. intros ->. contradiction. }
    split; [exact I1|]. intros k e. rewrite I2, get_set. cbn [In]. destruct (eqb_spec k n) as [Ek|Nk].
    - split.
      + intros [X|X]; [left; right; exact X|]. left. left. congruence.
      + intros [[X|X]|X]; [right; congruence|left; exact X|]. rewrite Ek, (F n) in X by (left; reflexivity). discriminate X.
    - split; [intros [X|X]; auto|intros [[X|X]|X]; auto; congruence]. }
  intro N. destruct (G nds [] N) as [G1 G2]; [constructor|reflexivity|]. split; [exact G1|]. intros n d. rewrite G2. cbn [get]. split; [intros [X|X]; [exact X|discriminate X]|auto].
Qed.
Lemma get_map {A B} (f : A -> B) (n : str) l : get n (map (fun '(k, x) => (k, f x)) l) = option_map f (get n l).
Proof. induction l as [|[k x] l IH]; cbn [map get]; [reflexivity|]. destruct (eqb n k); [reflexivity|exact IH]. Qed.
Lemma keys_map {A B} (f : A -> B) (l : list (str * A)) : keys (map (fun '(k, x) => (k, f x)) l) = keys l.
Proof. unfold keys. rewrite map_map. apply map_ext. intros []. reflexivity. Qed.
Lemma reopen_step m s order s' : finv noneSaved m s -> allowedIn ok m (AReopen order) -> factOn T R ro lower toFileName s (AReopen order) = Ok s' -> finv noneSaved (fremember m (AReopen order)) s'.
Proof.
  intros I [Nd Df] H. rewrite fact_Reopen in H. destruct (save T R lower toFileName order s) as [s1|] eqn:Sv; [|discriminate H]. cbn [bind] in H. destruct (save_step _ _ _ _ I Sv) as [J K]. clear I Sv s.
  destruct (K Nd Df) as (nds & Ek & In_ & _ & Rw). clear K. destruct J as [V1 V2 (cr & V3 & V4) (es & E & Pl & Im & Ly)]. rewrite E in H, Rw.
  unfold opened in H. destruct (initWriter C T _ true _) as [w [[]|e]] eqn:Ei; [|discriminate H]. injection H as <-.
  destruct (init_again (mkCfg 3 true (creator (cfg s1))) cr es w _ eq_refl eq_refl V3 V4 (rMeta _ _ _ _ Pl) Rw Ei) as (b & Tr & El & Rm). clear Ei Rw.
  destruct (fold_set_get nds) as [Df' Gf]; [rewrite Ek; exact Nd|]. set (l := fold_left _ nds []) in *.
  assert (Gl : forall n, get n l = get n (layers (writer s1))).
  { intro n. destruct (get n l) as [d|] eqn:G; [symmetry; apply In_, Gf; exact G|]. destruct (get n (layers (writer s1))) as [d|] eqn:G'; [|reflexivity]. apply In_, Gf in G'. congruence. }
  pose proof Ly as [A1 A2 A3 A4 A5 A6 A7 A8 A9]. pose proof A1 as [(Dl & Own & Apart) Fi].
  assert (Ge : forall x, x <> nMetainfo -> get x (set nMetainfo (File b) es) = get x es) by (intros x N; apply get_set_other; exact N).
  assert (No : forall d, ownDir d -> d <> nMetainfo) by (intros d O ->; apply (own_not_fixed _ O); left; reflexivity).
  assert (X : finv noneSaved (mkFont (fInfo m) (fGroups m) (fKerning m) (fLib m) (fFeatures m) (fImages m) (fData m) (map (fun '(n, L) => (n, mkLayer (lGlyphs L) (lInfo L) true)) (fLayers m)) (fDefault m) true) (mkFst (mkCfg 3 true (creator (cfg s1))) w [])); [|destruct m; exact X].
  split; cbn [cfg writer fPrev]; try reflexivity; [exists cr; split; assumption|]. exists (set nMetainfo (File b) es). split; [exact Tr|]. split; [|split].
  - rewrite Tr in Rm. destruct Pl as [P1 P2 P3 P4 P5 P6]. split; cbn [fInfo fGroups fKerning fLib fFeatures].
    + exact Rm.
    + eapply info_frame; [|exact P2]. rewrite !find_top. apply Ge. discriminate.
    + eapply groups_frame; [|exact P3]. rewrite !find_top. apply Ge. discriminate.
    + eapply kerning_frame; [|exact P4]. rewrite !find_top. apply Ge. discriminate.
    + eapply lib_frame; [|exact P5]. rewrite !find_top. apply Ge. discriminate.
    + rewrite (features_frame (Dir es)); [exact P6|]. rewrite !find_top. apply Ge. discriminate.
  - unfold extras. cbn [fImages fData]. rewrite !Ge by discriminate. exact Im.
  - split; cbn [writer sets fLayers fDefault]; rewrite ?El.
    + split; rewrite El.
      * split; [exact Df'|]. split; [intros n d G; rewrite Gl in G; eapply Own; exact G|]. intros n k d e N G G'. rewrite Gl in G, G'. eapply Apart; eassumption.
      * intros n d G. rewrite Gl in G. destruct (Fi _ _ G) as (F1 & F2 & F3). split; [exact F1|]. split; [exact F2|]. rewrite Tr. rewrite E in F3. unfold isdir in *. rewrite find_top in *. rewrite Ge; [exact F3|]. apply No. eapply Own. exact G.
    + intros n d G. rewrite Gl in G. apply (A2 _ _ G).
    + intros x Ox N. rewrite get_set_other in N by (apply No; exact Ox). destruct (A3 x Ox N) as (n & Y). exists n. rewrite Gl. exact Y.
    + unfold Base.dict_ok. rewrite (keys_map (fun L => mkLayer (lGlyphs L) (lInfo L) true)). exact A4.
    + constructor.
    + intro n. rewrite Gl, (get_map (fun L => mkLayer (lGlyphs L) (lInfo L) true)), A6. destruct (get n (fLayers m)); cbn [option_map]; split; congruence.
    + intros n N. cbn in N. congruence.
    + intro n. rewrite Gl. apply A8.
    + intros n d L G GL. rewrite Gl in G. rewrite (get_map (fun L => mkLayer (lGlyphs L) (lInfo L) true)) in GL. destruct (get n (fLayers m)) as [L0|] eqn:GL0; [|discriminate GL]. cbn [option_map] in GL. injection GL as <-.
      destruct (A9 _ _ _ G GL0) as (dd & D1 & D2 & (D3 & D4 & _) & D5). exists dd. split; [rewrite Ge; [exact D1|apply No; eapply Own; exact G]|]. split; [intros p g Y; discriminate Y|]. split; [|intros []]. cbn [get option_map lGlyphs lInfo]. split; [exact D3|]. split; [exact D4|]. apply D5. exact Logic.I.
Qed.

(** *** The whole session *)
Lemma any_step m s a s' : finv noneSaved m s -> allowedIn ok m a -> factOn T R ro lower toFileName s a = Ok s' -> finv noneSaved (fremember m a) s'.
Proof.
  intros I Al H. destruct a; try (eapply plain_step; [exact I|exact Al|exact H|exact Logic.I]); try (eapply glyphs_step; [exact I|exact Al|exact H|exact Logic.I]).
  - rewrite fact_Layer in H. eapply getLayer_step; eassumption.
  - eapply delete_step; eassumption.
  - eapply rename_step; eassumption.
  - rewrite fact_Save in H. destruct (save_step _ _ _ _ I H) as [J _]. eapply inv_weaken; [intros n []|]. destruct m. exact J.
  - eapply reopen_step; eassumption.
Qed.
Lemma session_inv l : forall m s s', finv noneSaved m s -> allowedAll ok m l -> foldM (factOn T R ro lower toFileName) s l = Ok s' -> finv noneSaved (fold_left fremember l m) s'.
Proof.
  induction l as [|a l IH]; intros m s s' I Al H; [cbn [foldM] in H; injection H as <-; exact I|]. cbn [foldM] in H. destruct (factOn T R ro lower toFileName s a) as [s1|] eqn:E; [|discriminate H]. cbn [bind] in H. destruct Al as [A1 A2].
  cbn [fold_left]. eapply IH; [|exact A2|exact H]. eapply any_step; eassumption.
Qed.
Lemma saved_read m s nds order dn : finv allSaved m s -> NoDup order -> map fst nds = order -> (forall n d, In (n, d) nds <-> get n (layers (writer s)) = Some d) ->
  readLayersR C 3 (tree (writer s)) true = Ok nds -> fDefault m = Some dn -> readsFont T R m order dn (tree (writer s)).
Proof.
  intros [V1 V2 V3 (es & E & Pl & Im & Ly)] Nd Ek In_ Rd Fd. rewrite E in *. pose proof Ly as [A1 A2 A3 A4 A5 A6 A7 A8 A9]. pose proof A1 as [(Dl & Own & Apart) Fi].
  assert (Gd : get dn (layers (writer s)) = Some (u "glyphs")) by (apply A8; exact Fd).
  assert (Dn : getDefaultLayerName C 3 (Dir es) true = Ok dn).
  { unfold getDefaultLayerName. rewrite Rd. cbn [bind]. destruct (defaultName_In nds) as (n & En & J); [exists dn; apply In_; exact Gd|]. rewrite En. f_equal. apply In_ in J. apply A8 in J. congruence. }
  assert (Op : forall n L, get n (fLayers m) = Some L -> exists dd w, openLayer T R (Dir es) (Some n) = Ok (Dir (files dd), w) /\ openSet (fun f => f) (contentsLoads T) dd = (w, Ok tt) /\ closed (lGlyphs L) dd /\ infoRead (lInfo L) (Dir (files dd))).
  { intros n L GL. destruct (get n (layers (writer s))) as [d|] eqn:G; [|apply A6 in G; congruence]. destruct (A9 _ _ _ G GL) as (dd & D1 & D2 & (D3 & D4 & _) & D5). specialize (D5 Logic.I).
    destruct (closed_contents T R lower LT LR P P_file _ _ D5) as (v & Ev). destruct (closed_open T R lower LT LR P _ _ D5) as (w & Ew & _).
    exists dd, w. split; [|split; [exact Ew|split; assumption]]. unfold openLayer, getGlyphSetR. cbn [bind]. rewrite Rd. cbn [bind].
    assert (Gn : get n nds = Some d) by (apply In_get; [unfold Base.dict_ok, keys; rewrite Ek; exact Nd|apply In_; exact G]). rewrite Gn. destruct (Fi _ _ G) as (_ & Cd & _). rewrite Cd. cbn [bind]. rewrite find_top, D1, Ev. cbn [bind]. rewrite Cd. cbn [bind]. rewrite find_top, D1, filesIn_files, Ew. reflexivity. }
  split; [exact Pl|]. split; [apply images_read; rewrite find_top; exact (proj1 Im)|]. split; [apply data_read; rewrite find_top; exact (proj2 Im)|]. split; [unfold getLayerNames; rewrite Rd; cbn [bind]; rewrite Ek; reflexivity|]. split; [exact Dn|].
  split; [|split].
  - intro n. rewrite <- Ek. split.
    + intros J N. apply in_map_iff in J as ([k d] & Ekd & J). cbn [fst] in Ekd. subst k. apply In_ in J. apply A6 in N. congruence.
    + intro N. destruct (get n (layers (writer s))) as [d|] eqn:G; [|apply A6 in G; contradiction]. apply In_ in G. apply (in_map fst) in G. exact G.
  - intro n. unfold readLayerGlyph, openLayer, getGlyphSetR. rewrite Dn. cbn [bind]. reflexivity.
  - intros layer L GL. destruct (Op _ _ GL) as (dd & w & Eo & Ew & Cl & Ri). split.
    + intro n. unfold readLayerGlyph. rewrite Eo. cbn [bind]. eapply closed_read; eassumption.
    + split; [unfold namesOfLayer; rewrite Eo; cbn [bind]; eexists; split; [reflexivity|eapply closed_names; eassumption]|]. unfold readInfoOfLayer. rewrite Eo. cbn [bind]. exact Ri.
Qed.
Lemma font_read c l order s s' dn : textOk c -> fsession T R ro lower toFileName (PStr c) l = Ok s -> allowedAll ok newFont l -> save T R lower toFileName order s = Ok s' -> NoDup order ->
  fDefault (fold_left fremember l newFont) = Some dn -> readsFont T R (fold_left fremember l newFont) order dn (tree (writer s')).
Proof.
  intros Tc H Al Sv Nd Fd. unfold fsession in H. destruct (opened T R _ (Dir [])) as [s0|] eqn:E; [|discriminate H]. cbn [bind] in H. apply start_step in E; [|exact Tc].
  pose proof (session_inv _ _ _ _ E Al H) as I. destruct (save_step _ _ _ _ I Sv) as [J K]. destruct K as (nds & K1 & K2 & K3 & _); [exact Nd|congruence|]. eapply saved_read; eassumption.
Qed.
End Font.

(** ** C88 *)
Lemma glif_file lower name ex f : glyphNameToFileName lower name ex = Ok f -> glyphFile f.
Proof.
  intro H. unfold glyphNameToFileName in H. apply legal_result in H as (body & -> & L). cbn [app].
  assert (Last : forall s, body ++ u ".glif" = s -> firstn 5 (rev s) = rev (u ".glif")) by (intros s <-; rewrite rev_app_distr; reflexivity).
  split; [split; [|split; [|split]]|split].
  - intro I. apply in_app_or in I as [I|I]; [|vm_compute in I; intuition discriminate]. rewrite Forall_forall in L. apply (L _ I). apply mem_In. reflexivity.
  - intro E. apply Last in E. discriminate E.
  - intro E. apply Last in E. discriminate E.
  - intro E. apply Last in E. discriminate E.
  - intro E. apply Last in E. discriminate E.
  - intro E. apply Last in E. discriminate E.
Qed.
(** The whole font, after any history: every part of it that a client has written
    and not replaced or deleted since then is read, and nothing else.  The history
    may open the UFO again any number of times.  Proved for file name functions
    whose file names are new, ignoring case; the default one does not have this
    property (C08_refuted), except for names without upper-case letters.  On a
    file system that ignores case, and for clients that do other things than
    [allowedIn] says, the claim is not proved. *)
Theorem C88_fonts_partial : forall T R ro lower toFileName, pytext_laws T -> repr_laws T R -> lower_keeps lower ->
  case_fresh (fun f => f) lower toFileName -> good_names textOk toFileName -> (forall n e f, toFileName n e = Ok f -> glyphFile f) ->
  forall creator l order s s' default, textOk creator -> allowedAll textOk newFont l ->
  fsession T R ro lower toFileName (PStr creator) l = Ok s -> save T R lower toFileName order s = Ok s' -> NoDup order ->
  let m := fold_left fremember l newFont in
  fDefault m = Some default -> readsFont T R m order default (tree (writer s')).
Proof.
  intros T R ro lower tf LT LR K CF GN GF c l order s s' dn Tc Al H Sv Nd m Fd.
  eapply (font_read T R ro lower tf LT LR K textOk (fun _ f => textOk f /\ glyphFile f)); try eassumption; try tauto.
  intros n e f On _ E. split; [split; [exact (GN _ _ _ On E)|exact (GF _ _ _ E)]|]. apply (CF _ _ _ E).
Qed.
Print Assumptions C88_fonts_partial.
Theorem C88_careful : forall T R ro lower, pytext_laws T -> repr_laws T R -> lower_keeps lower ->
  forall creator l order s s' default, textOk creator -> allowedAll textOk newFont l ->
  fsession T R ro lower (carefulFileName lower) (PStr creator) l = Ok s -> save T R lower (carefulFileName lower) order s = Ok s' -> NoDup order ->
  let m := fold_left fremember l newFont in
  fDefault m = Some default -> readsFont T R m order default (tree (writer s')).
Proof.
  intros T R ro lower LT LR K. apply C88_fonts_partial; try assumption.
  - apply C08_careful_function. intros f g ->. reflexivity.
  - apply careful_names_text.
  - intros n e f E. eapply glif_file. exact E.
Qed.
Print Assumptions C88_careful.
Theorem C88_lower_case_names_partial : forall T R ro lower, pytext_laws T -> repr_laws T R -> lower_keeps lower -> lower_laws lower ->
  forall creator l order s s' default, textOk creator -> allowedAll (fun n => plainLower n /\ textOk n) newFont l ->
  fsession T R ro lower (defaultFileName lower) (PStr creator) l = Ok s -> save T R lower (defaultFileName lower) order s = Ok s' -> NoDup order ->
  let m := fold_left fremember l newFont in
  fDefault m = Some default -> readsFont T R m order default (tree (writer s')).
Proof.
  intros T R ro lower LT LR K L c l order s s' dn Tc Al H Sv Nd m Fd.
  eapply (font_read T R ro lower (defaultFileName lower) LT LR K (fun n => plainLower n /\ textOk n) (fun _ f => (plainLower f /\ textOk f) /\ glyphFile f)); try eassumption; try tauto.
  intros n e f On Pe E. assert (CO : case_only (fun f => f) lower) by (intros a b ->; reflexivity).
  destruct (fresh_lower (fun f => f) lower textOk L CO (default_names_text lower) n e f On (fun g J => let (m, H) := Pe g J in ex_intro _ m (conj (proj1 H) (proj1 (proj2 H)))) E) as (A & B & D). split; [split; [exact A|eapply glif_file; exact E]|auto].
Qed.
Print Assumptions C88_lower_case_names_partial.
(** or for names that are apart (C08), such as ASCII names without "_" *)
Theorem C88_apart_names_partial : forall T R ro lower S, pytext_laws T -> repr_laws T R -> lower_keeps lower -> lower_stable lower -> apart_names lower S ->
  forall creator l order s s' default, textOk creator -> allowedAll (fun n => S n /\ textOk n) newFont l ->
  fsession T R ro lower (defaultFileName lower) (PStr creator) l = Ok s -> save T R lower (defaultFileName lower) order s = Ok s' -> NoDup order ->
  let m := fold_left fremember l newFont in
  fDefault m = Some default -> readsFont T R m order default (tree (writer s')).
Proof.
  intros T R ro lower S LT LR K L A c l order s s' dn Tc Al H Sv Nd m Fd.
  eapply (font_read T R ro lower (defaultFileName lower) LT LR K (fun n => S n /\ textOk n) (fun n f => (((S n /\ textOk n) /\ ownFile lower n f) /\ textOk f) /\ glyphFile f)); try eassumption; try tauto.
  intros n e f On Pe E. assert (CO : case_only (fun f => f) lower) by (intros a b ->; reflexivity).
  destruct (fresh_apart (fun f => f) lower textOk (fun n => S n /\ textOk n) L CO (default_names_text lower) (apart_sub lower S _ (fun n H => proj1 H) A) (fun n H => proj2 H) n e f On) as (H1 & H2 & H3); [|exact E|].
  - intros g Ig. destruct (Pe g Ig) as (k & Nk & H1 & _). eauto.
  - split; [split; [exact H1|eapply glif_file; exact E]|auto].
Qed.
Print Assumptions C88_apart_names_partial.
(** a font with everything in it; it is opened again, a layer is renamed, one deleted *)
Definition pngCase : bytes := [137; 80; 78; 71; 13; 10; 26; 10; 1]%N.
Definition fontCase : list faction :=
  [AInfo [(u "familyName", PStr (u "F<")); (u "unitsPerEm", PInt 1000)]; AGroups [(u "public.kern1.A", [PStr (u "a")])]; AKerning [(u "a", u "b", PInt (-10))];
   ALib [(PStr (u "k"), PList [PInt 1])]; AFeatures (u "# x"); AImage (u "i.png") pngCase; AImage (u "j.png") pngCase;
   AData [u "com.x"; u "a"] [1; 2]%N; AData [u "com.x"; u "b"; u "c"] [3]%N; AData [u "d"] [4]%N; AData [u "com.x"; u "a"] [5]%N;
   ALayer None true; ALayer (Some (u "back")) false; AGlyph (u "public.default") (u "a<") glyphCase (Some itemsCase) None;
   AGlyph (u "back") (u "c") glyph1Case (Some items1Case) (Some 1%Z); AGlyph (u "back") (u "d") [] None None; ALayerInfo (u "back") [(u "color", PStr (u "1,0,0,1"))];
   AReopen [u "back"; u "public.default"];
   ARename (u "back") (u "fore") false; ALayer (Some (u "fore")) false; ACall (u "fore") (GlyphSet.CDelete (u "d")); ARemoveImage (u "i.png"); ARemoveData [u "com.x"; u "b"];
   ALayer (Some (u "x")) false; ADelete (u "x"); AInfo [(u "familyName", PStr (u "G"))]; AKerning []].
Lemma plain_check f : forallb (fun c => negb (eqb c slash)) f && negb (mem f [[]; u "."; u ".."]) = true -> plainName f.
Proof.
  intro H. apply andb_prop in H as [A B]. apply negb_true_iff in B. apply mem_nIn in B. rewrite forallb_forall in A. repeat split.
  - intro I. apply A in I. rewrite eqb_refl in I. discriminate I.
  - intros ->. apply B. left. reflexivity.
  - intros ->. apply B. right. left. reflexivity.
  - intros ->. apply B. right. right. left. reflexivity.
Qed.
Lemma str_faithful s : textOk s -> plistFaithful (PStr s).
Proof. intro K. split; [constructor|]. split; [intros t J; inversion J; subst; exact K|intros d k x J; inversion J]. Qed.
Lemma int_faithful z : (- 2 ^ 63 <= z < 2 ^ 64)%Z -> plistFaithful (PInt z).
Proof. intro K. split; [constructor; exact K|]. split; [intros t J; inversion J|intros d k x J; inversion J]. Qed.
Lemma list_faithful l : Forall plistFaithful l -> plistFaithful (PList l).
Proof.
  intro F. rewrite Forall_forall in F. split; [constructor; apply Forall_forall; intros x I; apply (F x I)|]. split.
  - intros s J. inversion J as [|? ? A B| |]; subst. apply (F _ A). exact B.
  - intros d k x J A. inversion J as [|? ? A' B| |]; subst. destruct (F _ A') as (_ & _ & Q). eapply Q; eassumption.
Qed.
Lemma fontCase_allowed : allowedAll textOk newFont fontCase.
Proof.
  assert (S : forall s, forallb (fun c => (c =? 10) || ((32 <=? c) && (c <? 128)))%N s = true -> plistFaithful (PStr s)) by (intros s E; apply str_faithful, text_check; exact E).
  assert (One : forall k v, forallb (fun c => (c =? 10) || ((32 <=? c) && (c <? 128)))%N k = true -> plistFaithful v -> plistFaithful (PDict [(PStr k, v)])).
  { intros k v E F. apply (asDict_faithful [(k, v)]); [repeat constructor; intros []|]. intros a x G. cbn [get] in G. destruct (eqb_spec a k) as [->|]; [|discriminate G]. injection G as <-. split; [apply text_check; exact E|exact F]. }
  cbn [fontCase allowedAll]. repeat match goal with |- _ /\ _ => split | |- True => exact Logic.I end; cbn [allowedIn]; repeat match goal with |- _ /\ _ => split | |- True => exact Logic.I end.
  - intros x v [G _]. cbn [get] in G. destruct (eqb x _); [injection G as <-; apply S; reflexivity|]. destruct (eqb x _); [|discriminate G]. injection G as <-. apply int_faithful. lia.
  - left. discriminate.
  - apply One; [reflexivity|]. apply list_faithful. apply Forall_cons; [apply S; reflexivity|apply Forall_nil].
  - left. discriminate.
  - repeat constructor. intros [].
  - apply One; [reflexivity|]. apply One; [reflexivity|]. apply int_faithful. lia.
  - left. discriminate.
  - apply One; [reflexivity|]. apply list_faithful. apply Forall_cons; [apply int_faithful; lia|apply Forall_nil].
  - left. discriminate.
  - apply plain_check. reflexivity.
  - apply plain_check. reflexivity.
  - discriminate.
  - repeat constructor; apply plain_check; reflexivity.
  - discriminate.
  - repeat constructor; apply plain_check; reflexivity.
  - discriminate.
  - repeat constructor; apply plain_check; reflexivity.
  - discriminate.
  - repeat constructor; apply plain_check; reflexivity.
  - split; [discriminate|]. intro E. discriminate E.
  - apply text_check. reflexivity.
  - apply text_check. reflexivity.
  - left. split; [reflexivity|exact storable_case].
  - apply text_check. reflexivity.
  - right. split; [reflexivity|]. eexists. split; [reflexivity|exact storable1_case].
  - apply text_check. reflexivity.
  - left. split; [reflexivity|]. apply storable_empty, text_val. reflexivity.
  - intros x v G. unfold storedInfo in G. cbn [get] in G. destruct (eqb x _); [|discriminate G]. injection G as <-. apply S. reflexivity.
  - left. exists (u "color"). discriminate.
  - repeat constructor; cbn; intuition discriminate.
  - vm_compute. discriminate.
  - split; [discriminate|]. intro E. discriminate E.
  - apply text_check. reflexivity.
  - discriminate.
  - split; [discriminate|]. intro E. discriminate E.
  - apply text_check. reflexivity.
  - reflexivity.
  - discriminate.
  - apply plain_check. reflexivity.
  - discriminate.
  - repeat constructor; apply plain_check; reflexivity.
  - split; [discriminate|]. intro E. discriminate E.
  - apply text_check. reflexivity.
  - intros x v [G _]. cbn [get] in G. destruct (eqb x _); [injection G as <-; apply S; reflexivity|discriminate G].
  - right. left. vm_compute. reflexivity.
  - constructor.
  - apply (asDict_faithful []); [constructor|]. intros a v G. discriminate G.
Qed.
Example C88_case :
  match fsession toyText toyRepr roCase ascii_lower (carefulFileName ascii_lower) (PStr (u "me")) fontCase with
  | Ok s =>
    match save toyText toyRepr ascii_lower (carefulFileName ascii_lower) [u "public.default"; u "fore"] s with
    | Ok s' =>
      let t := tree (writer s') in
      let C := plistCodec toyText toyRepr in
      let m := fold_left fremember fontCase newFont in
      fDefault m = Some (u "public.default") /\ keys (fLayers m) = [u "public.default"; u "fore"] /\ fInfo m = [(u "familyName", PStr (u "G"))] /\
      layers (writer s') = [(u "public.default", u "glyphs"); (u "fore", u "glyphs.fore")] /\
      getLayerNames C 3 t true = Ok [u "public.default"; u "fore"] /\
      readInfoFile C t true = Ok (PDict [(PStr (u "familyName"), PStr (u "G"))]) /\
      snd (readGroups C (fun _ _ => Err TypeError) 3 t None true) = Ok (PDict [(PStr (u "public.kern1.A"), PList [PStr (u "a")])]) /\
      snd (readKerning C (fun _ _ => Err TypeError) 3 t None true) = Ok (pairsVal []) /\
      getImageDirectoryListing 3 t true = Ok [u "j.png"] /\
      getDataDirectoryListing t = [[u "com.x"; u "a"]; [u "d"]] /\ readBytesFromPath t (u "data/com.x/a") = Ok (Some [5]%N) /\
      readInfoOfLayer toyText toyRepr t (Some (u "fore")) = Ok [(PStr (u "color"), PStr (u "1,0,0,1"))] /\
      match readLayerGlyph toyText toyRepr t None (u "a<"), readLayerGlyph toyText toyRepr t (Some (u "fore")) (u "c") with
      | Ok a, Ok c => rcalls a = gdrawing (map passedItem itemsCase) /\ get (u "unicodes") (rattrs c) = Some (PList [PInt 66])
      | _, _ => False
      end /\
      readLayerGlyph toyText toyRepr t (Some (u "fore")) (u "d") = Err KeyError
    | Err _ => False
    end
  | Err _ => False
  end.
Proof. vm_compute. repeat split; reflexivity. Qed.

(** Without these restrictions the claim is false.  Groups that are written empty
    are still there when the writer has made the UFO; a glyph is replaced by
    another one with the default file name function. *)
Definition wrong (toFileName : str -> list (str * str) -> res str) (l : list faction) (order : list str) (Q : node -> Prop) : Prop :=
  match fsession toyText toyRepr roCase ascii_lower toFileName (PStr (u "me")) l with
  | Ok s => match save toyText toyRepr ascii_lower toFileName order s with Ok s' => Q (tree (writer s')) | Err _ => False end
  | Err _ => False
  end.
Theorem C88_empty_refuted : exists l order, fGroups (fold_left fremember l newFont) = [] /\
  wrong (carefulFileName ascii_lower) l order (fun t => snd (readGroups (plistCodec toyText toyRepr) (fun _ _ => Err TypeError) 3 t None true) = Ok (PDict [(PStr (u "g"), PList [PStr (u "a")])])).
Proof. exists [ALayer None true; AGroups [(u "g", [PStr (u "a")])]; AGroups []], [u "public.default"]. split; vm_compute; reflexivity. Qed.
Print Assumptions C88_empty_refuted.
Theorem C88_names_refuted : exists l order n g, get (u "A*") (lGlyphs (match get n (fLayers (fold_left fremember l newFont)) with Some L => L | None => mkLayer [] [] false end)) = Some g /\
  get (u "width") (fst (fst g)) = Some (PInt 500) /\
  wrong (defaultFileName ascii_lower) l order (fun t => match readLayerGlyph toyText toyRepr t (Some n) (u "A*") with Ok r => get (u "width") (rattrs r) = Some (PInt 600) | Err _ => False end).
Proof.
  exists [ALayer None true; AGlyph (u "public.default") (u "A*") [(u "width", PInt 500)] None None; AGlyph (u "public.default") (u "A_") [(u "width", PInt 600)] None None], [u "public.default"], (u "public.default").
  eexists. split; [vm_compute; reflexivity|]. split; vm_compute; reflexivity.
Qed.
Print Assumptions C88_names_refuted.
