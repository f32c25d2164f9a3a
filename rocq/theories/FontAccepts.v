(** Lemmas for C96: the writer of a new UFO refuses nothing that is valid. *)
From Coq Require Import String NArith ZArith Bool Lia List Permutation.
From Coq.Floats Require Import SpecFloat.
From Verif Require Import Base PyVal PyText FloatRepr LowerLaws Filenames FilenamesProofs GlyphSet GlyphSetProofs NamesApart PropGlyphSet.
From Verif Require Import Xml FS FSProofs Validators ValidatorsProofs PropValidators Ufo UfoProofs PropUfo PropUfoFiles Plist PlistProofs PropPlist Etree EtreeProofs PropEtree PlistFiles PointPen PropPointPen Glif GlifProofs GlifOutline GlifAgain GlifFiles PropGlif PropSession PropLayers FontInfo PropFontInfo PropInfoFile Kerning KerningProofs Font FontProofs FontLayers FontData PropFont.
Import ListNotations.
Local Open Scope string_scope.
Local Open Scope list_scope.
Local Notation world := GlyphSet.world.
Local Notation mbind := Ufo.mbind.
Local Notation lift := Ufo.lift.
Local Notation ret := Ufo.ret.
Local Notation raise := Ufo.raise.
Local Notation fetch := PropGlyphSet.fetch.
Local Notation dict_ok := Base.dict_ok.
Local Notation find := FS.find.
Local Notation call := GlyphSet.call.

(** ** What is accepted *)
(** more names than this are not to be expected: file names are found by counting *)
Definition fewNames {A} (l : list A) : Prop := (N.of_nat (length l) < 10 ^ 15 - 3)%N.
(** The layers that the client has a glyph set of after an action: it drops those
    of the layers that it renames or deletes, and all of them when it opens the UFO
    again. *)
Definition openAfter (m : font) (o : list str) (a : faction) : list str :=
  match a with
  | ALayer name _ => fKey m name :: o
  | ADelete layer | ARename layer _ _ => filter (fun n => negb (eqb n layer)) o
  | AReopen _ => []
  | _ => o
  end.
(** The data of an action is valid, and what it is about is there: besides
    [allowedIn], what a client has to observe for an action to succeed. [o] are the
    layers that it has a glyph set of. *)
Definition acceptedIn (T : pytext) (R : spec_float -> str) (ro : pyval -> str) (m : font) (o : list str) (a : faction) : Prop :=
  match a with
  | AInfo i => exists d, writeInfo T 3 true i = Ok d
  | AGroups g => groupsValidator (groupsVal g) = true
  | AKerning k => forall p v, In (p, v) k -> is_number v = true
  | ALib d => fontLibValidator (PDict d) = true
  | AFeatures t => exists b, utf8Encode t = Ok b
  | AImage f b => pngValidator b = true
  | ARemoveImage f => get f (fImages m) <> None
  (** no file where there is to be a directory, nor a directory where there is to be a file *)
  | AData p _ => forall q x, get q (fData m) = Some x -> below q p \/ below p q -> q = p
  | ARemoveData p => exists q x, get q (fData m) = Some x /\ below p q
  (** a new layer, or one that the client has no glyph set of *)
  | ALayer name df => (name <> None \/ df = true) /\
    (get (fKey m name) (fLayers m) = None /\ fewNames (fLayers m) /\ (df = true -> fDefault m = None) \/
     get (fKey m name) (fLayers m) <> None /\ ~ In (fKey m name) o /\ (df = true -> fDefault m = Some (fKey m name)))
  | AGlyph layer n g items fv => In layer o /\ (exists L, get layer (fLayers m) = Some L /\ fewNames (lGlyphs L)) /\
    n <> [] /\ exists b, gsWriteBytes T R ro 3 (PStr n) g (option_map gdrawing items) fv true = Ok b
  | ACall layer c => In layer o /\
    match c with GlyphSet.CDelete n | GlyphSet.CGet n => forall L, get layer (fLayers m) = Some L -> get n (lGlyphs L) <> None | _ => True end
  | ALayerInfo layer info => In layer o /\ forall a v, storedInfo info a = Some v -> if eqb a (u "color") then colorValidator T v = true else is_dict v = true
  | ADelete layer => get layer (fLayers m) <> None
  | ARename layer new df => get layer (fLayers m) <> None /\ fewNames (fLayers m) /\ (new = layer \/ get new (fLayers m) = None /\ (df = true -> fDefault m = None))
  | ASave order | AReopen order => forall n, In n order <-> get n (fLayers m) <> None
  end.
Fixpoint acceptedAll (T : pytext) (R : spec_float -> str) (ro : pyval -> str) (m : font) (o : list str) (l : list faction) : Prop :=
  match l with [] => True | a :: r => acceptedIn T R ro m o a /\ acceptedAll T R ro (fremember m a) (openAfter m o a) r end.

Section Accepts.
Variable T : pytext.
Variable R : spec_float -> str.
Variable ro : pyval -> str.
Variable lower : str -> str.
Variable toFileName : str -> list (str * str) -> res str.
Hypothesis LT : pytext_laws T.
Hypothesis LR : repr_laws T R.
Hypothesis keeps : lower_keeps lower.
Hypothesis LL : lower_laws lower.
Variable ok : str -> Prop.
Variable P : str -> str -> Prop.
Hypothesis fresh_names : forall n e f, ok n -> (forall g, In g (keys e) -> exists m, m <> n /\ P m g) -> toFileName n e = Ok f ->
  P n f /\ ~ In (lower f) (map lower (keys e)) /\ f <> contentsName.
Hypothesis total_names : forall n e, n <> [] -> fewNames e -> exists f, toFileName n e = Ok f.
Hypothesis ok_text : forall n, ok n -> textOk n.
Hypothesis P_text : forall n f, P n f -> textOk f.
Hypothesis P_file : forall n f, P n f -> glyphFile f.
Notation C := (plistCodec T R).
Notation finv := (finv T R lower P).
Notation glyphInv := (glyphInv T lower P).
Notation factOn := (factOn T R ro lower toFileName).

Lemma faithful_dumps v : plistFaithful v -> exists b, dumps C v = Ok b.
Proof. intros (Pl & T1 & T2). destruct (C60_file_partial T R true v LT LR Pl T1 T2) as (b & w & E & _). exists b. exact E. Qed.
(** no directory is in the way *)
Definition fileAt (x : str) (es : list (str * node)) : Prop := forall ds, get x es <> Some (Dir ds).
Lemma setbytes_total es x b : fileAt x es -> exists t, setbytes (Dir es) [x] b = FOk t.
Proof. intro F. unfold setbytes. rewrite find_top. destruct (get x es) as [[|ds]|] eqn:G; [|destruct (F ds G)|]; cbn [put]; eauto. Qed.
Lemma fsSetbytes_total s es x b : tree s = Dir es -> fileAt x es -> exists w, Ufo.fsSetbytes [x] b s = (w, Ok tt).
Proof. intros E F. unfold Ufo.fsSetbytes, mbind, getTree. rewrite E. destruct (setbytes_total es x b F) as (t & ->). eexists. reflexivity. Qed.
Lemma writePlist_total prev s es x v : tree s = Dir es -> fileAt x es -> plistFaithful v -> exists w, writePlist C prev x v s = (w, Ok tt).
Proof.
  intros E F Fv. destruct (faithful_dumps v Fv) as (b & D). unfold writePlist. destruct prev.
  - unfold mbind, lift, dumpsU, getTree. rewrite D. unfold existsAt, getbytes. rewrite E, find_top. destruct (get x es) as [[old|ds]|] eqn:G.
    + destruct (eqb b old); [eexists; reflexivity|]. eapply fsSetbytes_total; eassumption.
    + destruct (F ds G).
    + eapply fsSetbytes_total; eassumption.
  - destruct (fsSetbytes_total s es x [] E F) as (w1 & E1). unfold mbind at 1. rewrite E1. unfold mbind, lift, dumpsU. rewrite D. apply (fsSetbytes_es es) in E1 as [T1 _]; [|exact E].
    eapply fsSetbytes_total; [exact T1|]. intros ds G. rewrite get_set_same in G. discriminate G.
Qed.
Lemma getPlist_file es x v d : getPlist C (Dir es) x d = Ok v -> fileAt x es.
Proof. intros H ds G. unfold getPlist, getbytes in H. rewrite find_top, G in H. discriminate H. Qed.
Lemma plain_files m es x : plainRead T R m (Dir es) -> In x [nFontinfo; nGroups; nKerning; nLib; nFeatures] -> fileAt x es.
Proof.
  intros [_ B D F G H] I. destruct I as [<-|[<-|[<-|[<-|[<-|[]]]]]].
  - destruct (B (fun l => l)) as (v & d & E & _). unfold readInfoFile in E. apply bind_Ok in E as (w & E & _). eapply getPlist_file. exact E.
  - destruct D as (w & E & _). specialize (E (fun _ _ => Err TypeError) None). unfold readGroups, readGroupsRaw in E. change (3 <? 3)%Z with false in E. cbv iota in E. cbn [snd] in E. apply bind_Ok in E as (v & E & _). eapply getPlist_file. exact E.
  - destruct F as (w & E & _). specialize (E (fun _ _ => Err TypeError) None). unfold readKerning, readKerningRaw in E. change (3 <? 3)%Z with false in E. cbv iota in E. cbn [snd] in E. apply bind_Ok in E as (v & E & _). eapply getPlist_file. exact E.
  - destruct G as (w & E & _). unfold Ufo.readLib in E. apply bind_Ok in E as (v & E & _). eapply getPlist_file. exact E.
  - intros ds G'. unfold readFeatures, getbytes in H. rewrite find_top, G' in H. discriminate H.
Qed.
Lemma onWriter_ok f s w : f (cfg s) (writer s) = (w, Ok tt) -> onWriter_ f s = Ok (mkFst (cfg s) w (sets s)).
Proof. intro E. unfold onWriter_, onWriter. rewrite E. reflexivity. Qed.
Lemma remove_total s es x : tree s = Dir es -> plainName x -> fileAt x es -> exists w, removePath x true false s = (w, Ok tt).
Proof.
  intros E Px F. unfold removePath. unfold mbind at 1, lift at 1. rewrite (components_plain _ Px). unfold mbind at 1, getTree. unfold remove. rewrite E, find_top. unfold mbind. destruct (get x es) as [[|ds]|] eqn:G; [|destruct (F ds G)|]; eexists; reflexivity.
Qed.

(** ** One action *)
(** the glyph sets are those of the layers [o], and layercontents.plist can be written *)
Definition opens (o : list str) (s : fstate) : Prop :=
  (forall n, get n (sets s) <> None <-> In n o) /\ forall ds, find (tree (writer s)) [nLayercontents] <> Some (Dir ds).
Lemma touches_lc x s w es : touches x s w -> tree s = Dir es -> x <> nLayercontents -> find (tree w) [nLayercontents] = find (tree s) [nLayercontents].
Proof. intros [_ H] E N. destruct (H es E) as (es' & E' & F). rewrite E, E', !find_top. apply F. congruence. Qed.
Lemma lc_plain m s a s' : finv noneSaved m s -> allowedIn ok m a -> factOn s a = Ok s' ->
  match a with AInfo _ | AGroups _ | AKerning _ | ALib _ | AFeatures _ | AImage _ _ | ARemoveImage _ | AData _ _ | ARemoveData _ => True | _ => False end ->
  sets s' = sets s /\ find (tree (writer s')) [nLayercontents] = find (tree (writer s)) [nLayercontents].
Proof.
  intros [V1 V2 V3 (es & E & [P1 P2 P3 P4 P5 P6] & Im & Ly)] Al H K. destruct a; try contradiction K; cbn [allowedIn] in Al.
  all: rewrite ?fact_Info, ?fact_Groups, ?fact_Kerning, ?fact_Lib, ?fact_Features, ?fact_Image, ?fact_RemoveImage, ?fact_Data, ?fact_RemoveData in H.
  - destruct (writeInfo T 3 true info) as [d|] eqn:W; [|discriminate H]. cbn [bind] in H. apply onWriter_inv in H as (w & H & ->). split; [reflexivity|]. cbn [writer]. eapply touches_lc; [eapply (info_step T R LT LR _ _ _ _ _ Al W H)|exact E|discriminate].
  - apply onWriter_inv in H as (w & H & ->). split; [reflexivity|]. cbn [writer]. destruct Al as [Em F]. rewrite <- V2 in Em. rewrite <- E in P3. eapply touches_lc; [eapply (groups_step T R LT LR _ _ _ _ _ _ V1 E Em F P3 H)|exact E|discriminate].
  - apply onWriter_inv in H as (w & H & ->). split; [reflexivity|]. cbn [writer]. destruct Al as (Em & Dk & F). rewrite <- V2 in Em. rewrite <- E in P4. eapply touches_lc; [eapply (kerning_step T R LT LR _ _ _ _ _ _ V1 E Em Dk F P4 H)|exact E|discriminate].
  - apply onWriter_inv in H as (w & H & ->). split; [reflexivity|]. cbn [writer]. destruct Al as [Em F]. rewrite <- V2 in Em. rewrite <- E in P5. eapply touches_lc; [eapply (lib_step T R LT LR _ _ _ _ _ _ V1 E Em F P5 H)|exact E|discriminate].
  - apply onWriter_inv in H as (w & H & ->). split; [reflexivity|]. cbn [writer]. rewrite <- V2 in Al. rewrite <- E in P6. eapply touches_lc; [eapply (features_step _ _ _ _ _ _ V1 E Al P6 H)|exact E|discriminate].
  - apply onWriter_inv in H as (w & H & ->). split; [reflexivity|]. cbn [writer]. unfold Ufo.writeImage in H. rewrite V1 in H. change (3 <? 3)%Z with false in H. cbv iota in H. destruct (pngValidator data); [|discriminate H]. cbn [negb andb] in H.
    destruct (writeImage_es _ _ _ _ _ _ Al E H) as (El & ies & Hi & es' & E' & Gi & Fr). rewrite E, E', !find_top. apply Fr. discriminate.
  - apply onWriter_inv in H as (w & H & ->). split; [reflexivity|]. cbn [writer]. unfold removeImage in H. rewrite V1 in H. change (3 <? 3)%Z with false in H. cbv iota in H.
    assert (Nd : forall ies ds, get nImages es = Some (Dir ies) -> get fileName ies <> Some (Dir ds)).
    { intros ies ds G. destruct Im as [(_ & _ & Hm) _]. rewrite G in Hm. destruct Hm as [_ Hm]. rewrite Hm. destruct (get fileName (fImages m)); discriminate. }
    destruct (removeImage_es _ _ _ _ Al E Nd H) as (El & ies & b & G0 & Gf & es' & E' & Fr & Gi). rewrite E, E', !find_top. apply Fr. discriminate.
  - apply onWriter_inv in H as (w & H & ->). split; [reflexivity|]. cbn [writer]. destruct Al as [Np Fp]. destruct (data_write _ _ _ _ _ _ _ Np Fp E (proj2 Im) H) as (El & es' & E' & Fr & D). rewrite E, E', !find_top. apply Fr. discriminate.
  - apply onWriter_inv in H as (w & H & ->). split; [reflexivity|]. cbn [writer]. destruct Al as [Np Fp]. destruct (data_remove _ _ _ _ _ Np Fp E (proj2 Im) H) as (El & es' & E' & Fr & D). rewrite E, E', !find_top. apply Fr. discriminate.
Qed.
(** writing one of the plain parts of a font needs no directory in the place of its file *)
Lemma parts_total m o s es a : ver (cfg s) = 3%Z -> tree (writer s) = Dir es -> (forall x, In x [nFontinfo; nGroups; nKerning; nLib; nFeatures] -> fileAt x es) -> allowedIn ok m a -> acceptedIn T R ro m o a ->
  match a with AInfo _ | AGroups _ | AKerning _ | ALib _ | AFeatures _ => exists s', factOn s a = Ok s' | _ => True end.
Proof.
  intros V1 E Fs Al Ac. destruct a; try exact Logic.I; cbn [allowedIn acceptedIn] in *.
  - destruct Ac as (d & W). rewrite fact_Info, W. cbn [bind]. destruct (writePlist_total (hp (cfg s)) (writer s) es nFontinfo (asDict d) E) as (w & Ew).
    + apply Fs; cbn; tauto.
    + rewrite writeInfo_3 in W. cbv zeta in W. apply validate_3 in W as [-> _]; [|apply gather_ok]. apply gather_faithful. exact Al.
    + eexists. apply onWriter_ok. exact Ew.
  - rewrite fact_Groups. destruct Al as [_ F]. assert (Fi : fileAt nGroups es) by (apply Fs; cbn; tauto).
    assert (X : exists w, writeGroups C (cfg s) (groupsVal g) true (writer s) = (w, Ok tt)).
    { destruct g as [|x g].
      - unfold writeGroups. cbn [groupsVal map groupsValidator groupsLoop negb andb items asGroups]. unfold mbind, getRemap. rewrite V1. change (3 <? 3)%Z with false. cbv iota. destruct (remap (writer s)); (destruct (hp (cfg s)); [eapply remove_total; [exact E|exact plain_nGroups|exact Fi]|eexists; reflexivity]).
      - destruct (writePlist_total (hp (cfg s)) (writer s) es nGroups (groupsVal (x :: g)) E Fi F) as (w & Ew). exists w. rewrite <- Ew.
        pose proof (doWrite_stores C (cfg s) (writer s) (WGroups (groupsVal (x :: g))) true nGroups (groupsVal (x :: g))) as W. cbn [doWrite storesAs] in W. rewrite W; [reflexivity|].
        split; [intros _; exact Ac|]. split; [reflexivity|]. split; [left; exact V1|]. exists (x :: g). split; [reflexivity|]. split; [discriminate|reflexivity]. }
    destruct X as (w & X). eexists. apply onWriter_ok. exact X.
  - rewrite fact_Kerning. destruct Al as (_ & Dk & F). assert (Fi : fileAt nKerning es) by (apply Fs; cbn; tauto).
    assert (X : exists w, writeKerning C (cfg s) (pairsVal k) true (writer s) = (w, Ok tt)).
    { destruct k as [|x k].
      - unfold writeKerning. cbn [pairsVal map kerningArgOk is_dict forallb negb andb items asKerning]. unfold mbind, getRemap. rewrite V1. change (3 <? 3)%Z with false. cbv iota. destruct (remap (writer s)); (destruct (hp (cfg s)); [eapply remove_total; [exact E|exact plain_nKerning|exact Fi]|eexists; reflexivity]).
      - destruct (writePlist_total (hp (cfg s)) (writer s) es nKerning (nestedVal (nest (x :: k))) E Fi F) as (w & Ew). exists w. rewrite <- Ew.
        destruct (nest_spec (x :: k) Dk) as [No Nl].
        assert (NEn : nest (x :: k) <> []).
        { destruct x as [[a b] x]. intro En. specialize (Nl a b). rewrite En in Nl. cbn [get klook] in Nl. rewrite eqb_refl in Nl. discriminate Nl. }
        pose proof (doWrite_stores C (cfg s) (writer s) (WKerning (pairsVal (x :: k))) true nKerning (nestedVal (nest (x :: k)))) as W. cbn [doWrite storesAs] in W. rewrite W; [reflexivity|].
        split; [intros _|split; [reflexivity|split; [left; exact V1|exists (x :: k); auto]]].
        unfold kerningArgOk. cbn [pairsVal is_dict andb items]. apply forallb_forall. intros [q y] I. apply in_map_iff in I as ([[a b] z] & Ez & I). injection Ez as <- <-. cbn [is_seq elems andb fst snd]. apply (Ac _ _ I). }
    destruct X as (w & X). eexists. apply onWriter_ok. exact X.
  - rewrite fact_Lib. destruct Al as (_ & F). assert (Fi : fileAt nLib es) by (apply Fs; cbn; tauto).
    assert (X : exists w, Ufo.writeLib C (cfg s) (PDict d) true (writer s) = (w, Ok tt)).
    { unfold Ufo.writeLib. rewrite Ac. cbn [negb andb]. destruct (truthy (PDict d)); [eapply writePlist_total; eassumption|]. destruct (hp (cfg s)); [eapply remove_total; [exact E|exact plain_nLib|exact Fi]|eexists; reflexivity]. }
    destruct X as (w & X). eexists. apply onWriter_ok. exact X.
  - rewrite fact_Features. destruct Ac as (b & Ub). assert (Fi : fileAt nFeatures es) by (apply Fs; cbn; tauto).
    assert (X : exists w, writeFeatures (cfg s) (PStr text) true (writer s) = (w, Ok tt)).
    { unfold writeFeatures. rewrite V1. change (3 =? 1)%Z with false. cbn [is_str negb andb]. cbv iota. destruct (truthy (PStr text)); [|destruct (hp (cfg s)); [eapply remove_total; [exact E|exact plain_nFeatures|exact Fi]|eexists; reflexivity]].
      unfold mbind at 1, lift. rewrite Ub. unfold writeBytesToPath. unfold mbind at 1, lift. rewrite (components_plain _ plain_nFeatures). unfold mbind at 1, getTree. rewrite E.
      destruct (hp (cfg s) && _); [eexists; reflexivity|]. destruct (setbytes_total es nFeatures b Fi) as (t & ->). eexists. reflexivity. }
    destruct X as (w & X). eexists. apply onWriter_ok. exact X.
Qed.
Lemma plain_total m o s a : finv noneSaved m s -> allowedIn ok m a -> acceptedIn T R ro m o a ->
  match a with AInfo _ | AGroups _ | AKerning _ | ALib _ | AFeatures _ | AImage _ _ | ARemoveImage _ | AData _ _ | ARemoveData _ => exists s', factOn s a = Ok s' | _ => True end.
Proof.
  intros [V1 V2 V3 (es & E & Pl & Im & Ly)] Al Ac.
  assert (Fs : forall x, In x [nFontinfo; nGroups; nKerning; nLib; nFeatures] -> fileAt x es) by (intros x I; eapply plain_files; [exact Pl|cbn in *; tauto]).
  pose proof (parts_total m o s es a V1 E Fs Al Ac) as Pt. destruct a; try exact Logic.I; try exact Pt; cbn [allowedIn acceptedIn] in *; clear Pt Fs.
  - rewrite fact_Image. assert (X : exists w, Ufo.writeImage (cfg s) fileName data true (writer s) = (w, Ok tt)).
    { unfold Ufo.writeImage. rewrite V1, Ac. change (3 <? 3)%Z with false. cbn [negb andb]. cbv iota. unfold writeBytesToPath. unfold mbind at 1, lift. rewrite (imagePath_components _ Al). unfold mbind at 1, getTree. rewrite E.
      destruct (hp (cfg s) && _); [eexists; reflexivity|]. destruct Im as [(Di & Png & Hm) _]. unfold setbytes. cbn [find]. destruct (get nImages es) as [[x|ies]|] eqn:Gi; [contradiction| |].
      - destruct Hm as [Dd Hm]. specialize (Hm fileName) as Hf. destruct (get fileName ies) as [[x|ds]|] eqn:Gf; [|destruct (get fileName (fImages m)); discriminate Hf|]; cbn [put find]; rewrite Gi; eexists; reflexivity.
      - cbn [put]. rewrite Gi. unfold mbind at 1, lift. rewrite (images_dirname _ Al). unfold makedirs. cbn [mkdirs]. rewrite Gi. unfold mbind, change, Ufo.fsSetbytes, mbind, getTree. cbn [tree]. unfold setbytes. cbn [find]. rewrite get_set_same. cbn [find get put]. rewrite get_set_same. eexists. reflexivity. }
    destruct X as (w & X). eexists. apply onWriter_ok. exact X.
  - rewrite fact_RemoveImage. assert (X : exists w, removeImage (cfg s) fileName (writer s) = (w, Ok tt)).
    { unfold removeImage. rewrite V1. change (3 <? 3)%Z with false. cbv iota. apply (removePath_total _ [nImages] fileName).
      - apply imagePath_components. exact Al.
      - apply images_dirname. exact Al.
      - change (imagePath fileName) with (join [slash] ([nImages] ++ [fileName])). rewrite dirname_join; [discriminate|discriminate|]. intros x J. cbn in J. destruct J as [<-|[<-|[]]]; [exact images_plain|exact Al].
      - rewrite E. destruct Im as [(_ & _ & Hm) _]. unfold existsAt. cbn [app find]. destruct (get nImages es) as [[x|ies]|]; [contradiction| |rewrite Hm in Ac; exfalso; apply Ac; reflexivity]. destruct Hm as [_ Hm]. rewrite Hm. destruct (get fileName (fImages m)); [reflexivity|congruence]. }
    destruct X as (w & X). eexists. apply onWriter_ok. exact X.
  - rewrite fact_Data. destruct Al as [Np Fp]. destruct (data_total (hp (cfg s)) p data (writer s) es (fData m) Np Fp E (proj2 Im) Ac) as (w & X). eexists. apply onWriter_ok. exact X.
  - rewrite fact_RemoveData. destruct Al as [Np Fp]. destruct Ac as (q & x & Gq & Bq). destruct (data_remove_total p (writer s) es (fData m) q x Np Fp E (proj2 Im) Gq Bq) as (w & X). eexists. apply onWriter_ok. exact X.
Qed.

(** ** Layers *)
Lemma few_directories sv m s es : layersInv T R lower P sv m s es -> fewNames (fLayers m) -> (N.of_nat (length (map lower (values (layers (writer s))))) < 10 ^ 15 - 2)%N.
Proof.
  intros [((Dl & _) & _) A2 A3 A4 A5 A6 A7 A8 A9] Few. rewrite map_length. unfold values. rewrite map_length. unfold fewNames in Few. enough (length (layers (writer s)) <= length (fLayers m))%nat by lia.
  rewrite <- (map_length fst (layers (writer s))), <- (map_length fst (fLayers m)). apply NoDup_incl_length; [exact Dl|]. intros k I. change (In k (keys (fLayers m))). apply has_In. unfold has. destruct (get k (fLayers m)) eqn:X; [reflexivity|]. apply A6 in X. apply get_None in X. contradiction.
Qed.
Lemma newLayer_total m s name df : finv noneSaved m s -> (name <> None \/ df = true) -> get (fKey m name) (fLayers m) = None -> fewNames (fLayers m) -> (df = true -> fDefault m = None) ->
  let n := fKey m name in exists s', factOn s (ALayer name df) = Ok s' /\ (forall k, get k (sets s') = if eqb k n then get n (sets s') else get k (sets s)) /\ get n (sets s') <> None /\ find (tree (writer s')) [nLayercontents] = find (tree (writer s)) [nLayercontents].
Proof.
  intros [V1 V2 V3 (es & E & Pl & Im & Ly)] Nn Gm Few Df n. rewrite fact_Layer. pose proof (key_eq T R lower P _ _ _ _ name Ly) as Ek. fold n in Gm, Ek. pose proof Ly as [A1 A2 A3 A4 A5 A6 A7 A8 A9]. pose proof A1 as [Lyd Fi]. pose proof Lyd as (Dl & Own & Apart).
  assert (G : get n (layers (writer s)) = None) by (apply A6; exact Gm).
  assert (Gs : get n (sets s) = None) by (destruct (get n (sets s)) eqn:X; [exfalso; apply (A7 n); congruence|reflexivity]).
  assert (Ch : df && existsb (fun '(k, d) => if eqb d nGlyphs then negb (eqb k n) else eqb k n) (layers (writer s)) = false).
  { destruct df; [|reflexivity]. cbn [andb]. apply Bool.not_true_is_false. intro X. apply existsb_exists in X as ([k d] & I & X). apply (In_get _ _ _ Dl) in I. destruct (eqb_spec d nGlyphs) as [->|].
    - apply A8 in I. rewrite Df in I by reflexivity. discriminate I.
    - destruct (eqb_spec k n); [subst; congruence|discriminate X]. }
  pose proof (few_directories _ _ _ _ Ly Few) as Len.
  assert (Dir : exists d, (if df then Ok nGlyphs else newDirectory lower n (layers (writer s))) = Ok d /\ components d = Ok [d] /\ chosen lower n df (layers (writer s)) d).
  { destruct df.
    - exists nGlyphs. split; [reflexivity|]. split; [apply glyphs_components|]. split; [reflexivity|]. intros k N X. apply A8 in X. rewrite Df in X by reflexivity. discriminate X.
    - destruct (always_found lower LL n (map lower (values (layers (writer s)))) (u "glyphs.") []) as (d & Ed); [right; discriminate|exact Len|]. exists d. split; [exact Ed|]. split; [eapply newDirectory_components; exact Ed|exact Ed]. }
  destruct Dir as (d & Ed & Cd & Cn). destruct (chosen_fresh lower keeps _ _ _ _ Lyd Cn) as [Od Fresh].
  assert (Gd : get d es = None).
  { destruct (get d es) eqn:X; [|reflexivity]. exfalso. destruct (A3 d Od) as (k0 & Y); [congruence|]. apply (Fresh k0 d); [intros ->; congruence|exact Y|reflexivity]. }
  assert (Eg : exists w r, getGlyphSet C lower (cfg s) name df true (writer s) = (w, Ok r) /\ fst r = d /\ tree w = Dir (set d (Dir []) es)).
  { rewrite (getGlyphSet_3 C lower _ _ _ _ _ V1 Nn), <- Ek. unfold getGlyphSet3. unfold mbind at 1, getLayers. rewrite Ch, G.
    assert (Y : forall k, mbind (if df then ret nGlyphs else lift (newDirectory lower n (layers (writer s)))) k (writer s) = k d (writer s) :> (ust * res (str * pyval))).
    { intro k. destruct df; unfold mbind, ret, lift; [injection Ed as ->; reflexivity|rewrite Ed; reflexivity]. }
    rewrite Y. unfold mbind, lift. rewrite Cd. unfold fsMakedir, mbind, getTree, makedir, existsAt. rewrite E, find_top, Gd. cbn [put]. unfold change, setLayers, openDir, mbind, getTree. cbn [tree layers]. rewrite find_top, get_set_same. eexists. eexists. split; [reflexivity|]. split; reflexivity. }
  destruct Eg as (w & r & Eg & Er & Tw). unfold getLayer. change (layerKey name s) with (resolved name (layers (writer s))). rewrite <- Ek. unfold onWriter. rewrite Eg. cbn [bind]. cbn [sets writer cfg]. unfold has. rewrite Gs. rewrite Er, Cd. cbn [bind]. rewrite Tw, find_top, get_set_same.
  eexists. split; [reflexivity|]. cbn [sets writer]. rewrite get_set_same. split; [intro k; apply get_set|]. split; [discriminate|]. rewrite Tw, E, !find_top. apply get_set_other. intro X. apply (own_not_fixed d Od). rewrite <- X. vm_compute. tauto.
Qed.

Lemma oldLayer_total m s name df : finv noneSaved m s -> (name <> None \/ df = true) -> get (fKey m name) (fLayers m) <> None -> get (fKey m name) (sets s) = None -> (df = true -> fDefault m = Some (fKey m name)) ->
  let n := fKey m name in exists s', factOn s (ALayer name df) = Ok s' /\ (forall k, get k (sets s') = if eqb k n then get n (sets s') else get k (sets s)) /\ get n (sets s') <> None /\ find (tree (writer s')) [nLayercontents] = find (tree (writer s)) [nLayercontents].
Proof.
  intros [V1 V2 V3 (es & E & Pl & Im & Ly)] Nn Gm Gs Df n. rewrite fact_Layer. pose proof (key_eq T R lower P _ _ _ _ name Ly) as Ek. fold n in Gm, Gs, Ek, Df. pose proof Ly as [A1 A2 A3 A4 A5 A6 A7 A8 A9]. pose proof A1 as [Lyd Fi]. pose proof Lyd as (Dl & Own & Apart).
  destruct (get n (layers (writer s))) as [d|] eqn:G; [|apply A6 in G; contradiction]. destruct (get n (fLayers m)) as [L|] eqn:GL; [|congruence]. destruct (A9 _ _ _ G GL) as (dd & B1 & B2 & B3 & B4). rewrite Gs in B3. destruct B3 as (Dd & Ri & Cl). destruct (Fi _ _ G) as (_ & Cd & _).
  assert (Ch : df && existsb (fun '(k, d) => if eqb d nGlyphs then negb (eqb k n) else eqb k n) (layers (writer s)) = false).
  { destruct df; [|reflexivity]. cbn [andb]. apply Bool.not_true_is_false. intro X. apply existsb_exists in X as ([k e] & I & X). apply (In_get _ _ _ Dl) in I. specialize (Df eq_refl). destruct (eqb_spec e nGlyphs) as [->|Ne].
    - apply A8 in I. rewrite Df in I. injection I as <-. rewrite eqb_refl in X. discriminate X.
    - destruct (eqb_spec k n); [|discriminate X]. subst k. apply A8 in Df. rewrite I in Df. injection Df as Df. contradiction. }
  destruct (closed_contents T R lower LT LR P P_file _ _ Cl) as (v & Ov).
  assert (Eg : exists w r, getGlyphSet C lower (cfg s) name df true (writer s) = (w, Ok r) /\ fst r = d /\ tree w = Dir es).
  { rewrite (getGlyphSet_3 C lower _ _ _ _ _ V1 Nn), <- Ek. unfold getGlyphSet3. unfold mbind at 1, getLayers. rewrite Ch, G. unfold mbind, ret, lift. rewrite Cd. unfold fsMakedir, mbind, getTree, makedir, existsAt. rewrite E, find_top, B1. unfold setLayers, openDir, mbind, getTree, ret. cbn [tree]. rewrite E, find_top, B1. unfold lift. rewrite Ov. eexists. eexists. split; [reflexivity|]. split; [reflexivity|]. cbn [tree]. reflexivity. }
  destruct Eg as (w & r & Eg & Er & Tw). unfold getLayer. change (layerKey name s) with (resolved name (layers (writer s))). rewrite <- Ek. unfold onWriter. rewrite Eg. cbn [bind]. cbn [sets writer cfg]. unfold has. rewrite Gs. rewrite Er, Cd. cbn [bind]. rewrite Tw, find_top, B1, filesIn_files.
  destruct (closed_open T R lower LT LR P _ _ Cl) as (w0 & Eo & _). rewrite Eo.
  eexists. split; [reflexivity|]. cbn [sets writer]. rewrite get_set_same. split; [intro k; apply get_set|]. split; [discriminate|]. rewrite Tw, E. reflexivity.
Qed.
Lemma layer_total m o s name df : finv noneSaved m s -> opens o s -> acceptedIn T R ro m o (ALayer name df) -> exists s', factOn s (ALayer name df) = Ok s' /\ opens (openAfter m o (ALayer name df)) s'.
Proof.
  intros I [Op Lc] (Nn & Ac). cbn [openAfter].
  assert (X : exists s', factOn s (ALayer name df) = Ok s' /\ (forall k, get k (sets s') = if eqb k (fKey m name) then get (fKey m name) (sets s') else get k (sets s)) /\ get (fKey m name) (sets s') <> None /\ find (tree (writer s')) [nLayercontents] = find (tree (writer s)) [nLayercontents]).
  { destruct Ac as [(A & B & D)|(A & B & D)]; [apply newLayer_total; assumption|apply oldLayer_total; try assumption]. destruct (get (fKey m name) (sets s)) eqn:G; [|reflexivity]. exfalso. apply B, Op. congruence. }
  destruct X as (s' & E & K1 & K2 & F). exists s'. split; [exact E|]. split; [|rewrite F; exact Lc]. intro k. rewrite K1. cbn [In]. destruct (eqb_spec k (fKey m name)) as [->|N]; [split; [left; reflexivity|intros _; exact K2]|]. rewrite Op. split; [right; assumption|intros [X|X]; [congruence|exact X]].
Qed.

(** ** Glyph sets *)
Lemma onLayer_total m o s layer f : finv noneSaved m s -> opens o s -> In layer o ->
  (forall L g dd, get layer (fLayers m) = Some L -> layerAt T R lower P L (Some g) dd -> exists g' n', f g (Dir (files dd)) = Ok (g', n')) ->
  exists s', onLayer layer f s = Ok s' /\ opens o s' /\ layers (writer s') = layers (writer s).
Proof.
  intros [V1 V2 V3 (es & E & Pl & Im & Ly)] [Op Lc] N F. unfold onLayer. apply Op in N. destruct (get layer (sets s)) as [[p g]|] eqn:Gs; [|congruence].
  pose proof Ly as [A1 A2 A3 A4 A5 A6 A7 A8 A9]. destruct (get layer (layers (writer s))) as [d|] eqn:Gl; [|destruct (A7 layer); congruence]. destruct (get layer (fLayers m)) as [L|] eqn:GL; [|apply A6 in GL; congruence].
  destruct (A9 _ _ _ Gl GL) as (dd & B1 & B2 & B3 & B4). rewrite Gs in B2, B3. specialize (B2 _ _ eq_refl). subst p. cbn [option_map snd] in B3. rewrite E, find_top, B1.
  destruct (F L g dd eq_refl B3) as (g' & n' & ->). cbn [bind put]. eexists. split; [reflexivity|]. split; [|reflexivity]. split; cbn [sets writer tree].
  - intro k. rewrite get_set. destruct (eqb_spec k layer) as [->|]; [|apply Op]. split; [intros _; apply Op; congruence|discriminate].
  - intro ds. specialize (Lc ds). rewrite E, find_top in Lc. rewrite find_top, get_set_other; [exact Lc|]. intro X. destruct A1 as [(_ & O & _) _]. apply (own_not_fixed d (O _ _ Gl)). rewrite <- X. vm_compute. tauto.
Qed.
Lemma glyph_total m o s layer n g items fv : finv noneSaved m s -> opens o s -> allowedIn ok m (AGlyph layer n g items fv) -> acceptedIn T R ro m o (AGlyph layer n g items fv) ->
  exists s', factOn s (AGlyph layer n g items fv) = Ok s' /\ opens o s' /\ layers (writer s') = layers (writer s).
Proof.
  intros I Op [On St] (Io & (L & GL & Few) & Nn & Wb). rewrite fact_Glyph. eapply onLayer_total; [exact I|exact Op|exact Io|]. intros L' gs' dd GL' (Dd & _ & _ & G). rewrite GL in GL'. injection GL' as <-.
  unfold glyphCall. rewrite filesIn_files.
  assert (Wv : isOk (writeVersion 3 fv) = true) by (destruct Wb as (b & Wb); unfold gsWriteBytes in Wb; destruct (writeVersion 3 fv); [reflexivity|discriminate Wb]). rewrite Wv. cbn [negb].
  destruct Wb as (b & ->).
  assert (X : exists w', GlyphSet.exec (fun f => f) lower toFileName (contentsDumps T R) (contentsLoads T) (CWrite n false (Ok b)) (mkWorld gs' dd []) = (w', Ok tt)).
  { assert (Fn : exists w1 f, fileNameFor lower toFileName n (mkWorld gs' dd []) = (w1, Ok f)).
    { unfold fileNameFor. unfold GlyphSet.mbind, getGs. cbn [gs]. destruct (get n (contents gs')); [eexists; eexists; reflexivity|]. unfold setGs. cbn [gs dir GlyphSet.log].
      destruct (total_names n (existingOf lower gs') Nn) as (f & Ef); [|unfold GlyphSet.lift; rewrite Ef; eexists; eexists; reflexivity].
      unfold fewNames in *. enough (length (existingOf lower gs') <= length (lGlyphs L))%nat by lia.
      pose proof (inv_names _ _ _ _ _ G) as Nm. destruct G as (DI & _ & Dm & _). pose proof DI as (Cc & _). cbn [gs] in *.
      destruct (existingOf_spec lower gs' Cc) as [De _].
      assert (L1 : (length (existingOf lower gs') <= length (contents gs'))%nat).
      { rewrite <- (map_length fst (existingOf lower gs')), <- (map_length snd (contents gs')). apply NoDup_incl_length; [exact De|]. intros f J. destruct (existing_P _ _ _ _ _ _ DI f J) as (k & Gk). cbn [gs] in Gk. apply get_In in Gk. apply (in_map snd) in Gk. exact Gk. }
      assert (L2 : (length (contents gs') <= length (lGlyphs L))%nat).
      { rewrite <- (map_length fst (contents gs')), <- (map_length fst (lGlyphs L)). apply NoDup_incl_length; [exact (proj1 Cc)|]. intros k J. apply Nm in J. destruct (get k (lGlyphs L)) eqn:Gk; [|congruence]. apply get_In in Gk. apply (in_map fst) in Gk. exact Gk. }
      lia. }
    destruct Fn as (w1 & f & Fn). cbn [GlyphSet.exec]. unfold writeGlyph. unfold GlyphSet.mbind at 1. rewrite Fn. unfold GlyphSet.mbind, GlyphSet.lift, getGs. destruct (havePrev (gs w1)); [|eexists; reflexivity].
    unfold fsExists. destruct (has f (dir w1)) eqn:Hf; [|eexists; reflexivity]. unfold fsGetbytes. unfold has in Hf. destruct (get f (dir w1)) as [old|]; [|discriminate Hf]. unfold GlyphSet.ret. destruct (eqb b old); eexists; reflexivity. }
  destruct X as (w' & ->). eexists. eexists. reflexivity.
Qed.
Lemma layerInfo_total m o s layer info : finv noneSaved m s -> opens o s -> allowedIn ok m (ALayerInfo layer info) -> acceptedIn T R ro m o (ALayerInfo layer info) ->
  exists s', factOn s (ALayerInfo layer info) = Ok s' /\ opens o s' /\ layers (writer s') = layers (writer s).
Proof.
  intros I Op [F _] [N Va]. rewrite fact_LayerInfo. eapply onLayer_total; [exact I|exact Op|exact N|]. intros L g dd GL (Dd & _). unfold layerInfoCall.
  assert (X : exists s1, writeLayerInfo C T 3 (havePrev g) info true (mkUst (Dir (files dd)) [] [] None) = (s1, Ok tt)).
  { unfold writeLayerInfo. change (3 <? 3)%Z with false. cbv iota. destruct (gather_spec info) as (Nd & Gt & _). pose proof (gatherLayer_faithful info F) as Fa. cbv zeta in *. 
    assert (Fi : fileAt nLayerinfo (files dd)) by (intros ds X; rewrite get_files in X; destruct (get nLayerinfo dd); discriminate X).
    assert (Lo : layerInfoOk T (items (infoVal (gatherLayerInfo info))) = true).
    { unfold layerInfoOk. apply forallb_forall. intros [k v] J. pose proof J as J'. unfold infoVal in J'. cbn [items] in J'. apply in_map_iff in J' as ([a v'] & Ea & J'). injection Ea as <- <-.
      apply (In_dget a _ v' Nd) in J. rewrite Gt in J. specialize (Va _ _ J). destruct (eqb_spec a (u "color")) as [->|Nc]; [exact Va|]. unfold storedInfo in J. destruct (get a info) as [x|]; [|discriminate J].
      destruct (eqb_spec a (u "color")); [contradiction|]. destruct (eqb_spec a (u "lib")) as [->|]; [exact Va|]. exfalso. destruct x; discriminate J. }
    destruct (gatherLayerInfo info) as [|x l].
    - unfold mbind, getTree. cbn [tree]. destruct (havePrev g && existsAt (Dir (files dd)) [nLayerinfo]) eqn:Ex; [|eexists; reflexivity]. apply andb_prop in Ex as [_ Ex]. unfold existsAt in Ex. unfold remove. rewrite find_top in *. destruct (get nLayerinfo (files dd)) as [[|ds]|] eqn:Gi; [eexists; reflexivity|destruct (Fi ds Gi)|discriminate Ex].
    - rewrite Lo. cbn [negb andb]. eapply writePlist_total; [reflexivity|exact Fi|exact Fa]. }
  destruct X as (s1 & ->). eexists. eexists. reflexivity.
Qed.

(** ** Saving *)
Lemma close_total sv m o s layer : finv sv m s -> opens o s -> In layer o ->
  exists s', onLayer layer (glyphCall T R lower toFileName CWriteContents) s = Ok s' /\ opens o s' /\ layers (writer s') = layers (writer s).
Proof.
  intros I Op N. apply (inv_weaken _ _ _ _ sv noneSaved) in I; [|intros n []]. eapply onLayer_total; [exact I|exact Op|exact N|].
  - intros L g dd GL (Dd & _ & _ & G). unfold glyphCall. rewrite filesIn_files.
    assert (Em : exists b, contentsDumps T R (contents g) = Ok b).
    { assert (Dg : dict_ok (contents g) /\ goodMap textOk (contents g)) by (eapply (inv_map T lower P P_text) in G; exact G). apply (contents_total T R LT LR); apply Dg. }
    destruct Em as (b & Eb). cbn [GlyphSet.exec]. unfold writeContents, GlyphSet.mbind, getGs, GlyphSet.lift. cbn [gs]. rewrite Eb. destruct (havePrev g).
    + unfold fsExists. cbn [dir]. destruct (has contentsName dd) eqn:Hc.
      * unfold fsGetbytes. cbn [dir]. unfold has in Hc. destruct (get contentsName dd) as [old|]; [|discriminate Hc]. unfold GlyphSet.ret. destruct (eqb b old); eexists; eexists; reflexivity.
      * eexists. eexists. reflexivity.
    + eexists. eexists. reflexivity.
Qed.
Lemma saveSets_total m o s : finv noneSaved m s -> opens o s -> exists s', saveSets T R lower toFileName s = Ok s' /\ opens o s' /\ layers (writer s') = layers (writer s).
Proof.
  intros I Op. unfold saveSets.
  assert (G : forall ks sv s, finv sv m s -> opens o s -> (forall k, In k ks -> In k o) ->
    exists s', foldM (fun s n => onLayer n (glyphCall T R lower toFileName CWriteContents) s) s ks = Ok s' /\ opens o s' /\ layers (writer s') = layers (writer s)).
  { clear I Op s. induction ks as [|k ks IH]; intros sv s I Op Ik; cbn [foldM]; [eauto|].
    destruct (close_total sv m o s k I Op (Ik k (or_introl eq_refl))) as (s1 & E1 & O1 & L1). rewrite E1. cbn [bind].
    destruct (IH (fun n => n = k \/ sv n) s1) as (s' & E' & O' & L').
    - eapply close_step; eassumption.
    - exact O1.
    - intros j J. apply Ik. right. exact J.
    - exists s'. split; [exact E'|]. split; [exact O'|]. congruence. }
  eapply G; [exact I|exact Op|]. intros k J. apply Op. apply in_map_iff in J as ([k' x] & <- & J). cbn [fst]. destruct I as [_ _ _ (es & _ & _ & _ & Ly)]. apply (In_get _ _ _ (iSets _ _ _ _ _ _ _ _ Ly)) in J. congruence.
Qed.
Lemma save_total m o s order : finv noneSaved m s -> opens o s -> (forall n, In n order <-> get n (fLayers m) <> None) ->
  exists s', save T R lower toFileName order s = Ok s' /\ opens o s'.
Proof.
  intros I Op Or. destruct (saveSets_total m o s I Op) as (s1 & E1 & O1 & L1). unfold save. rewrite E1. cbn [bind].
  pose proof (saveSets_step T R lower toFileName LT LR ok P fresh_names ok_text P_text P_file m s s1 I E1) as [V1 V2 V3 (es & E & Pl & Im & [A1 A2 A3 A4 A5 A6 A7 A8 A9])].
  assert (Dl : dict_ok (layers (writer s1))) by apply A1.
  assert (X : exists w, writeLayerContents C (cfg s1) (Some (map Some order)) true (writer s1) = (w, Ok tt)).
  { unfold writeLayerContents. rewrite V1. change (3 <? 3)%Z with false. cbv iota. unfold mbind at 1, getLayers. cbv zeta. rewrite map_map, map_id.
    assert (Mem : forall n, In n order <-> In n (keys (layers (writer s1)))).
    { intro n. rewrite Or, <- has_In. unfold has. specialize (A6 n). destruct (get n (layers (writer s1))), (get n (fLayers m)); destruct A6 as [B1 B2]; split; intro Y; try congruence; try (exfalso; clear -B1 B2 Y; intuition congruence). }
    assert (Ck : forallb (fun n => mem n (keys (layers (writer s1)))) order && forallb (fun n => mem n order) (keys (layers (writer s1))) = true).
    { apply andb_true_intro. split; apply forallb_forall; intros n J; apply mem_In, Mem; exact J. }
    rewrite Ck. cbn [negb andb]. unfold mbind, lift.
    assert (Mp : forall l, (forall n, In n l -> In n (keys (layers (writer s1)))) -> exists nds, mapM (fun n => match get n (layers (writer s1)) with Some d => Ok (PTuple [PStr n; PStr d]) | None => Err KeyError end) l = Ok (map (fun nd : str * str => PTuple [PStr (fst nd); PStr (snd nd)]) nds) /\ forall n d, In (n, d) nds -> get n (layers (writer s1)) = Some d).
    { induction l as [|n l IH]; intro J; cbn [mapM]; [exists []; split; [reflexivity|intros n d []]|]. destruct (get n (layers (writer s1))) as [d|] eqn:G; [|apply get_None in G; destruct (G (J n (or_introl eq_refl)))]. cbn [bind].
      destruct IH as (nds & En & K); [intros k Jk; apply J; right; exact Jk|]. rewrite En. cbn [bind]. exists ((n, d) :: nds). split; [reflexivity|]. intros k e [Y|Y]; [injection Y as <- <-; exact G|apply K; exact Y]. }
    destruct (Mp order) as (nds & En & K); [intros n; apply Mem|]. rewrite En. eapply writePlist_total; [exact E| |].
    - intros ds Y. apply (proj2 O1 ds). rewrite E, find_top. exact Y.
    - apply pairs_faithful. intros n d J. apply (A2 _ _ (K _ _ J)). }
  destruct X as (w & X). exists (mkFst (cfg s1) w (sets s1)). split; [apply onWriter_ok; exact X|]. split; [exact (proj1 O1)|]. cbn [writer].
  unfold writeLayerContents in X. rewrite V1 in X. change (3 <? 3)%Z with false in X. cbv iota in X. unfold mbind at 1, getLayers in X. destruct (true && _); [discriminate X|]. unfold mbind at 1, lift in X. destruct (mapM _ _); [|discriminate X].
  apply (writePlist_es _ _ _ _ _ _ es E) in X as (b & _ & Tr & _). intros ds. rewrite Tr, find_top, get_set_same. discriminate.
Qed.

(** ** Calls of a glyph set *)
Lemma call_total m o s layer c : finv noneSaved m s -> opens o s -> allowedIn ok m (ACall layer c) -> acceptedIn T R ro m o (ACall layer c) ->
  exists s', factOn s (ACall layer c) = Ok s' /\ opens o s' /\ layers (writer s') = layers (writer s).
Proof.
  intros I Op [Nw Nr] [Io Ac]. rewrite fact_Call. destruct c as [n bv d|n| | | |n]; try discriminate Nw; try congruence.
  - eapply onLayer_total; [exact I|exact Op|exact Io|]. intros L g dd GL (Dd & _ & _ & G). unfold glyphCall. rewrite filesIn_files. specialize (Ac L GL). apply (inv_names _ _ _ _ _ G) in Ac. cbn [gs] in Ac.
    destruct G as (((Dc & He & Hr) & _) & _ & _ & mb & _ & B & _). specialize (B n). cbn [gs dir] in *. destruct (get n (contents g)) as [f|] eqn:Gf; [|apply get_None in Gf; contradiction]. destruct B as (b & _ & Gb).
    assert (X : exists w', GlyphSet.exec (fun f => f) lower toFileName (contentsDumps T R) (contentsLoads T) (GlyphSet.CDelete n) (mkWorld g dd []) = (w', Ok tt)).
    { cbn [GlyphSet.exec]. destruct (deleteGlyph (fun f => f) lower n (mkWorld g dd [])) as [w' r] eqn:Ed. apply deleteGlyph_spec in Ed. cbn [gs dir] in Ed. rewrite Gf in Ed. unfold has at 1 in Ed. rewrite Gb in Ed. destruct r as [[]|e]; [eexists; reflexivity|]. exfalso.
      destruct Ed as (_ & _ & _ & _ & [(x & Ex & Hx & _)|(x & Ex & Hx)]).
      - destruct (He x Ex) as [_ He']. apply He', has_In in Gf. congruence.
      - destruct (Hr x Ex) as [_ Hr']. assert (Y : get (lower f) x = Some n) by (apply Hr'; eauto). unfold has in Hx. rewrite Y in Hx. discriminate Hx. }
    destruct X as (w' & ->). eexists. eexists. reflexivity.
  - eapply close_total; eassumption.
  - eapply onLayer_total; [exact I|exact Op|exact Io|]. intros L g dd GL _. unfold glyphCall. rewrite filesIn_files. cbn [GlyphSet.exec]. unfold getReverseContents, GlyphSet.mbind, getGs, setGs, GlyphSet.ret. cbn [gs]. destruct (reverse g); eexists; eexists; reflexivity.
  - eapply onLayer_total; [exact I|exact Op|exact Io|]. intros L g dd GL (Dd & _ & _ & G). unfold glyphCall. rewrite filesIn_files. specialize (Ac L GL). apply (inv_names _ _ _ _ _ G) in Ac. cbn [gs] in Ac.
    destruct G as (_ & _ & _ & mb & _ & B & _). specialize (B n). cbn [gs dir] in *. destruct (get n (contents g)) as [f|] eqn:Gf; [|apply get_None in Gf; contradiction]. destruct B as (b & _ & Gb).
    cbn [GlyphSet.exec]. unfold getGLIF, GlyphSet.mbind, getGs, GlyphSet.ret. cbn [gs dir]. rewrite Gf. cbn [dir]. rewrite Gb. eexists. eexists. reflexivity.
Qed.

(** ** Deleting and renaming layers *)
Lemma findDirectory_get l n d : get n l = Some d -> d <> [] -> findDirectory l (Some n) = Ok d.
Proof.
  intros G N. induction l as [|[k e] l IH]; [discriminate G|]. cbn [findDirectory get] in *. destruct (eqb_spec n k) as [->|Nk].
  - injection G as ->. rewrite eqb_refl. destruct d; [congruence|reflexivity].
  - destruct (eqb_spec k n); [congruence|]. apply IH. exact G.
Qed.
Lemma own_nonempty d : ownDir d -> d <> [].
Proof. intros [->|(r & ->)]; discriminate. Qed.
Lemma opens_del o s w layer c : dict_ok (sets s) -> opens o s -> find (tree w) [nLayercontents] = find (tree (writer s)) [nLayercontents] ->
  opens (filter (fun n => negb (eqb n layer)) o) (mkFst c w (del layer (sets s))).
Proof.
  intros Ds [Op Lc] F. split; cbn [sets writer]; [|rewrite F; exact Lc]. intro n. rewrite filter_In. destruct (eqb_spec n layer) as [->|N]; cbn [negb].
  - rewrite get_del_same by exact Ds. split; [congruence|intros [_ X]; discriminate X].
  - rewrite get_del_other by exact N. rewrite Op. tauto.
Qed.
Lemma delete_total m o s layer : finv noneSaved m s -> opens o s -> get layer (fLayers m) <> None -> exists s', factOn s (ADelete layer) = Ok s' /\ opens (openAfter m o (ADelete layer)) s'.
Proof.
  intros [V1 V2 V3 (es & E & Pl & Im & Ly)] Op N. rewrite fact_Delete. pose proof Ly as [A1 A2 A3 A4 A5 A6 A7 A8 A9]. pose proof A1 as [Lyd Fi]. pose proof Lyd as (Dl & Own & Apart).
  destruct (get layer (layers (writer s))) as [d|] eqn:G; [|apply A6 in G; contradiction]. destruct (get layer (fLayers m)) as [L|] eqn:GL; [|congruence]. destruct (A9 _ _ _ G GL) as (dd & B1 & _). destruct (Fi _ _ G) as (_ & Cd & _). pose proof (Own _ _ G) as Od.
  assert (X : exists w, deleteGlyphSet (cfg s) (Some layer) (writer s) = (w, Ok tt) /\ tree w = cut [d] (Dir es)).
  { unfold deleteGlyphSet. rewrite V1. change (3 <? 3)%Z with false. cbv iota. unfold mbind at 1, getLayers. unfold mbind at 1, lift. rewrite (findDirectory_get _ _ _ G (own_nonempty _ Od)). unfold removePath, mbind, lift. rewrite Cd. unfold getTree, remove, removetree. rewrite E, find_top, B1. unfold change, ret, has. rewrite G. unfold setLayers. eexists. split; reflexivity. }
  destruct X as (w & X & Tw). rewrite (onWriter_ok _ _ _ X). cbn [bind cfg writer sets]. eexists. split; [reflexivity|]. cbn [openAfter]. apply opens_del; [exact A5|exact Op|]. rewrite Tw, E. cbn [cut]. rewrite !find_top, get_filter_name. destruct (eqb_spec d nLayercontents) as [->|]; [|reflexivity]. exfalso. apply (own_not_fixed _ Od). vm_compute. tauto.
Qed.
Lemma movedir_total es old d ds : get old es = Some (Dir ds) -> dict_ok ds -> get d es = None -> old <> d -> exists t, movedir (Dir es) [old] [d] = (t, None).
Proof.
  intros G D Gd Ne. unfold movedir, makedir. rewrite find_top, Gd. cbn [put]. rewrite !find_top, get_set_same. rewrite get_set_other by exact Ne. rewrite G, (merge_empty ds D). eexists. reflexivity.
Qed.
Lemma rename_total m o s layer new df : finv noneSaved m s -> opens o s -> allowedIn ok m (ARename layer new df) -> acceptedIn T R ro m o (ARename layer new df) ->
  exists s', factOn s (ARename layer new df) = Ok s' /\ opens (openAfter m o (ARename layer new df)) s'.
Proof.
  intros I Op (Gn & Tn & Al) (N & Few & Ac). rewrite fact_Rename.
  assert (S1 : exists s1, (if has layer (sets s) then onLayer layer (glyphCall T R lower toFileName CWriteContents) s else Ok s) = Ok s1 /\ finv noneSaved m s1 /\ opens o s1).
  { destruct (has layer (sets s)) eqn:Hs; [|exists s; auto].
    destruct (close_total noneSaved m o s layer I Op) as (s1 & E1 & O1 & _); [apply Op; unfold has in Hs; destruct (get layer (sets s)); [discriminate|discriminate Hs]|]. exists s1. split; [exact E1|]. split; [|exact O1].
    eapply inv_weaken; [|eapply close_step; eassumption]. intros n []. }
  destruct S1 as (s1 & -> & I1 & O1). cbn [bind]. clear I Op s. destruct I1 as [V1 V2 V3 (es & E & Pl & Im & Ly)]. pose proof (few_directories _ _ _ _ Ly Few) as Len. pose proof Ly as [A1 A2 A3 A4 A5 A6 A7 A8 A9]. pose proof A1 as [Lyd Fi]. pose proof Lyd as (Dl & Own & Apart).
  destruct (get layer (layers (writer s1))) as [old|] eqn:G; [|apply A6 in G; contradiction]. destruct (get layer (fLayers m)) as [L|] eqn:GL; [|congruence]. destruct (A9 _ _ _ G GL) as (dd & B1 & _ & (Dd & _) & _). destruct (Fi _ _ G) as (_ & Cd & _). pose proof (Own _ _ G) as Od.
  assert (Sf : safeCall (CRename (Some layer) (Some new) df) (layers (writer s1))).
  { cbn [safeCall]. destruct df; [|exact Logic.I]. intros Eq n Nn X. injection Eq as ->. apply A8 in X. destruct (Al eq_refl eq_refl) as [Y|Y]; congruence. }
  assert (Dx : exists d, (if df then Ok nGlyphs else newDirectory lower new (layers (writer s1))) = Ok d /\ components d = Ok [d]).
  { destruct df; [exists nGlyphs; split; [reflexivity|apply glyphs_components]|]. destruct (always_found lower LL new (map lower (values (layers (writer s1)))) (u "glyphs.") []) as (d & Ed); [right; discriminate|exact Len|]. exists d. split; [exact Ed|eapply newDirectory_components; exact Ed]. }
  destruct Dx as (d & Ed & Cn).
  assert (Tail : renamed lower (layers (writer s1)) layer (Some new) df new old d -> exists w,
    (let! oldDirectory := lift (findDirectory (layers (writer s1)) (Some layer)) in
     let! directory := (if df then ret nGlyphs else lift (newDirectory lower new (layers (writer s1)))) in
     if has layer (layers (writer s1)) then
       let! _ := setLayers (set new directory (del layer (layers (writer s1)))) in
       let! src := lift (components oldDirectory) in
       let! dst := lift (components directory) in
       let! t := getTree in
       let '(t', e) := movedir t src dst in
       let! _ := change (OMove src dst) t' in
       match e with None => ret tt | Some _ => raise FSError end
     else raise KeyError) (writer s1) = (w, Ok tt) /\ find (tree w) [nLayercontents] = find (tree (writer s1)) [nLayercontents]).
  { intro Rn. destruct (renamed_layered lower keeps _ _ _ _ _ _ _ Lyd G Rn Sf) as [Lyd' Nlo]. pose proof Lyd' as (Dl' & Own' & Apart').
    assert (Gnew : get new (set new d (del layer (layers (writer s1)))) = Some d) by apply get_set_same.
    assert (Od' : ownDir d) by (eapply Own'; exact Gnew). assert (Nod : old <> d) by (intros ->; apply Nlo; reflexivity).
    assert (Fd : forall n e, n <> layer -> get n (layers (writer s1)) = Some e -> e <> d).
    { intros n e Nn Ge. assert (Nw : n <> new).
      { intros ->. unfold renamed in Rn. destruct (eqb_spec (Some layer) (Some new)) as [X|X]; [injection X as ->; contradiction|]. destruct Rn as (_ & Rn & _). congruence. }
      intros ->. apply (Apart' n new d d Nw); [rewrite get_set_other by exact Nw; rewrite get_del_other by exact Nn; exact Ge|exact Gnew|reflexivity]. }
    assert (Gde : get d es = None).
    { destruct (get d es) eqn:X; [|reflexivity]. exfalso. destruct (A3 d Od') as (k & Y); [congruence|]. destruct (eqb_spec k layer) as [Ek|Nk]; [rewrite Ek in Y; congruence|]. exact (Fd _ _ Nk Y eq_refl). }
    assert (Dds : dict_ok (files dd)) by (unfold Base.dict_ok; rewrite keys_files; exact Dd). destruct (movedir_total es old d (files dd) B1 Dds Gde Nod) as (t & Mv).
    unfold mbind at 1, lift at 1. rewrite (findDirectory_get _ _ _ G (own_nonempty _ Od)).
    assert (Y : forall k, mbind (if df then ret nGlyphs else lift (newDirectory lower new (layers (writer s1)))) k (writer s1) = k d (writer s1) :> (ust * res unit)).
    { intro k. destruct df; unfold mbind, ret, lift; [injection Ed as ->; reflexivity|rewrite Ed; reflexivity]. }
    rewrite Y. unfold has. rewrite G. unfold mbind, setLayers, lift, getTree. cbn [tree]. rewrite Cd, Cn, E, Mv. unfold change, ret. eexists. split; [reflexivity|]. cbn [tree].
    apply (movedir_es es old d (files dd)) in Mv; [|assumption..]. destruct Mv as (es' & -> & _ & _ & M3). rewrite !find_top. apply M3; intro X; [apply (own_not_fixed d Od')|apply (own_not_fixed old Od)]; rewrite <- X; vm_compute; tauto. }
  assert (X : exists w, renameGlyphSet lower (cfg s1) (Some layer) (Some new) df (writer s1) = (w, Ok tt) /\ find (tree w) [nLayercontents] = find (tree (writer s1)) [nLayercontents]).
  { unfold renameGlyphSet. rewrite V1. change (3 <? 3)%Z with false. cbv iota. unfold mbind at 1, getLayers. destruct (eqb_spec (Some layer) (Some new)) as [Eq|Ne].
    - injection Eq as <-. rewrite G. unfold mbind at 1, ret at 1. destruct (xorb (eqb old nGlyphs) df) eqn:Xo; cbn [negb]; [|exists (writer s1); split; reflexivity]. apply Tail. unfold renamed. rewrite eqb_refl. split; [reflexivity|]. split.
      + destruct (eqb_spec old nGlyphs) as [->|No]; destruct df; try discriminate Xo; split; intro Z; try reflexivity; try discriminate Z. contradiction.
      + destruct df; [injection Ed as <-; reflexivity|exact Ed].
    - destruct Ac as [->|[Gw Df]]; [congruence|]. apply A6 in Gw. unfold has at 1. rewrite Gw.
      assert (Nv : df && mem nGlyphs (values (layers (writer s1))) = false).
      { destruct df; [|reflexivity]. cbn [andb]. apply mem_nIn. intro J. apply in_map_iff in J as ([k e] & Ee & J). cbn [snd] in Ee. subst e. apply (In_get _ _ _ Dl) in J. apply A8 in J. rewrite Df in J by reflexivity. discriminate J. }
      rewrite Nv. unfold mbind at 1, ret at 1. cbn [negb]. apply Tail. unfold renamed. destruct (eqb_spec (Some layer) (Some new)); [contradiction|]. split; [reflexivity|]. split; [exact Gw|]. destruct df; [|exact Ed]. injection Ed as <-. split; [reflexivity|]. intros k X. apply A8 in X. rewrite Df in X by reflexivity. discriminate X. }
  destruct X as (w & X & F). rewrite (onWriter_ok _ _ _ X). cbn [bind cfg writer sets]. eexists. split; [reflexivity|]. cbn [openAfter]. apply opens_del; [exact A5|exact O1|exact F].
Qed.
(** ** Opening the UFO again *)
Lemma init_total c cr es l : ver c = 3%Z -> hp c = true -> creator c = PStr cr -> textOk cr -> readMetaInfo C (Dir es) true = Ok 3%Z -> readLayersW C (Dir es) true = Ok l ->
  exists w b, initWriter C T c true (mkUst (Dir es) [] [] None) = (w, Ok tt) /\ tree w = Dir (set nMetainfo (File b) es).
Proof.
  intros V Hp Ec Tc Rm Rl. unfold initWriter. rewrite V, Hp. change (mem 3%Z supported) with true. cbv iota. unfold mbind, ret, getTree, lift. cbn [tree]. unfold readMetaInfo in Rm.
  destruct (getPlist C (Dir es) nMetainfo None) as [v|] eqn:Gp; [|discriminate Rm]. pose proof (getPlist_file _ _ _ _ Gp) as Fi. cbn [bind] in Rm. destruct v as [| | | | | | | | |d|]; try discriminate Rm. cbn [is_dict negb andb] in Rm.
  unfold vget. cbn [items]. destruct (dget (u "formatVersion") d) as [v|]; [|discriminate Rm].
  assert (Pv : pyInt T v = Ok 3%Z).
  { destruct v as [|bb|z| | | | | | | |]; try discriminate Rm; cbn [andb negb pyInt] in *.
    - destruct bb; cbn in Rm; discriminate Rm.
    - destruct (mem z supported); [|discriminate Rm]. exact Rm. }
  rewrite Pv. change (mem 3%Z supported) with true. change (3 <? 3)%Z with false. change (3 <=? 3)%Z with true. cbv iota beta. rewrite Rl. unfold setLayers. cbn [tree].
  unfold writeMetaInfo. rewrite V, Ec, Hp. destruct (writePlist_total true (mkUst (Dir es) [] l None) es nMetainfo _ eq_refl Fi (meta_faithful lower toFileName ok P fresh_names ok_text P_text P_file cr Tc)) as (w & W). pose proof W as W'. apply (writePlist_es _ _ _ _ _ _ es) in W' as (b & _ & Tr & _); [|reflexivity]. exists w, b. split; [exact W|exact Tr].
Qed.
Lemma reopen_total m o s order : finv noneSaved m s -> opens o s -> allowedIn ok m (AReopen order) -> acceptedIn T R ro m o (AReopen order) -> exists s', factOn s (AReopen order) = Ok s' /\ opens [] s'.
Proof.
  intros I Op [Nd Df] Or. rewrite fact_Reopen. destruct (save_total m o s order I Op Or) as (s1 & Sv & O1). rewrite Sv. cbn [bind].
  destruct (save_step T R lower toFileName LT LR ok P fresh_names ok_text P_text P_file _ _ _ _ I Sv) as [J K]. destruct (K Nd Df) as (nds & _ & _ & _ & Rw). destruct J as [V1 V2 (cr & V3 & V4) (es & E & Pl & Im & Ly)].
  destruct O1 as [_ Lc]. rewrite E in *. destruct (init_total (mkCfg 3 true (creator (cfg s1))) cr es _ eq_refl eq_refl V3 V4 (rMeta _ _ _ _ Pl) Rw) as (w & b & Ei & Tr). unfold opened. rewrite Ei. eexists. split; [reflexivity|]. split; cbn [sets writer].
  - intro n. cbn. split; [congruence|intros []].
  - intro ds. specialize (Lc ds). rewrite Tr, find_top, get_set_other by discriminate. rewrite find_top in Lc. exact Lc.
Qed.

(** ** All actions *)
Lemma any_total m o s a : finv noneSaved m s -> opens o s -> allowedIn ok m a -> acceptedIn T R ro m o a -> exists s', factOn s a = Ok s' /\ opens (openAfter m o a) s'.
Proof.
  intros I Op Al Ac.
  assert (Pc : (match a with AInfo _ | AGroups _ | AKerning _ | ALib _ | AFeatures _ | AImage _ _ | ARemoveImage _ | AData _ _ | ARemoveData _ => True | _ => False end) -> exists s', factOn s a = Ok s' /\ opens (openAfter m o a) s').
  { intro K. pose proof (plain_total m o s a I Al Ac) as X. assert (Y : exists s', factOn s a = Ok s') by (destruct a; try contradiction K; exact X). destruct Y as (s' & E). exists s'. split; [exact E|].
    destruct (lc_plain m s a s' I Al E K) as [Es Et]. replace (openAfter m o a) with o by (destruct a; try contradiction K; reflexivity). destruct Op as [O1 O2]. split; [rewrite Es; exact O1|rewrite Et; exact O2]. }
  destruct a as [| | | | | | | | |name df|layer n g items fv|layer c|layer info|layer|layer new df|order|order]; try (apply Pc; exact Logic.I); clear Pc.
  - apply layer_total; assumption.
  - destruct (glyph_total m o s layer n g items fv I Op Al Ac) as (s' & E & O' & _). eauto.
  - destruct (call_total m o s layer c I Op Al Ac) as (s' & E & O' & _). eauto.
  - destruct (layerInfo_total m o s layer info I Op Al Ac) as (s' & E & O' & _). eauto.
  - apply delete_total; assumption.
  - apply rename_total; assumption.
  - rewrite fact_Save. apply (save_total m); assumption.
  - apply (reopen_total m o); assumption.
Qed.
Fixpoint openAll (m : font) (o : list str) (l : list faction) : list str :=
  match l with [] => o | a :: r => openAll (fremember m a) (openAfter m o a) r end.
Lemma session_total l : forall m o s, finv noneSaved m s -> opens o s -> allowedAll ok m l -> acceptedAll T R ro m o l -> exists s', foldM factOn s l = Ok s' /\ finv noneSaved (fold_left fremember l m) s' /\ opens (openAll m o l) s'.
Proof.
  induction l as [|a l IH]; intros m o s I Op Al Ac; [exists s; cbn; auto|]. destruct Al as [A1 A2], Ac as [C1 C2]. destruct (any_total m o s a I Op A1 C1) as (s1 & E & O1). cbn [foldM fold_left openAll]. rewrite E. cbn [bind]. eapply IH; try eassumption.
  eapply any_step; eassumption.
Qed.
Lemma start_total c : textOk c -> exists s, opened T R (mkCfg 3 false (PStr c)) (Dir []) = Ok s /\ opens [] s.
Proof.
  intro Tc. unfold opened, initWriter. cbn [ver hp]. change (mem 3%Z supported) with true. cbv iota. unfold mbind, ret, getTree, setLayers. cbn [tree]. unfold existsAt. rewrite find_top. cbn [get]. unfold writeMetaInfo. cbn [hp creator ver].
  destruct (writePlist_total false (mkUst (Dir []) [] [] None) [] nMetainfo _ eq_refl ltac:(intros ds X; discriminate X) (meta_faithful lower toFileName ok P fresh_names ok_text P_text P_file c Tc)) as (w & W). pose proof W as W'. apply (writePlist_es _ _ _ _ _ _ []) in W' as (b & _ & Tr & _); [|reflexivity].
  exists (mkFst (mkCfg 3 false (PStr c)) w []). split; [|split; [intro n; cbn; split; [congruence|intros []]|cbn [writer]; rewrite Tr; intros ds X; discriminate X]].
  match goal with |- match ?x with _ => _ end = _ => change x with (writePlist C false nMetainfo (PDict [(PStr (u "creator"), PStr c); (PStr (u "formatVersion"), PInt 3)]) (mkUst (Dir []) [] [] None)) end. rewrite W. reflexivity.
Qed.
(** A session with valid data: nothing is refused, and everything is read back. *)
Theorem never_refused c l order dn : textOk c -> allowedAll ok newFont l -> acceptedAll T R ro newFont [] l -> NoDup order ->
  (forall n, In n order <-> get n (fLayers (fold_left fremember l newFont)) <> None) -> fDefault (fold_left fremember l newFont) = Some dn ->
  exists s s', fsession T R ro lower toFileName (PStr c) l = Ok s /\ save T R lower toFileName order s = Ok s' /\ readsFont T R (fold_left fremember l newFont) order dn (tree (writer s')).
Proof.
  intros Tc Al Ac Nd Or Fd. destruct (start_total c Tc) as (s0 & E0 & O0). pose proof (start_step T R lower toFileName LT LR ok P fresh_names ok_text P_text P_file c s0 Tc E0) as I0.
  destruct (session_total l _ _ _ I0 O0 Al Ac) as (s & E & I & Op). destruct (save_total _ _ _ _ I Op Or) as (s' & Es & _).
  assert (Fs : fsession T R ro lower toFileName (PStr c) l = Ok s) by (unfold fsession; rewrite E0; cbn [bind]; exact E).
  exists s, s'. split; [exact Fs|]. split; [exact Es|]. eapply font_read; eassumption.
Qed.
End Accepts.
