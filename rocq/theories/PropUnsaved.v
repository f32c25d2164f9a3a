(** C100: work that has not been saved does not damage what has been. *)
From Coq Require Import String NArith ZArith Bool Lia List Permutation.
From Coq.Floats Require Import SpecFloat.
From Verif Require Import Base PyVal PyText FloatRepr LowerLaws Filenames FilenamesProofs GlyphSet GlyphSetProofs NamesApart PropGlyphSet.
From Verif Require Import Xml FS FSProofs Validators PropValidators Ufo UfoProofs PropUfo PropUfoFiles Plist PropPlist Etree EtreeProofs PlistFiles PointPen PropPointPen Glif GlifProofs GlifOutline PropGlif PropSession PropLayers FontInfo PropFontInfo PropInfoFile Kerning Font FontProofs FontLayers FontData PropFont.
Import ListNotations.
Local Open Scope string_scope.
Local Open Scope list_scope.
Local Notation world := GlyphSet.world.
Local Notation dict_ok := Base.dict_ok.
Local Notation find := FS.find.

(** ** What the calls after a save may be *)
(** not saving again, not deleting or renaming a layer, not deleting a glyph *)
Definition additive (a : faction) : Prop :=
  match a with
  | ADelete _ | ARename _ _ _ | ASave _ | AReopen _ | ACall _ (GlyphSet.CDelete _) => False
  | _ => True
  end.
(** What a reader finds, [found], between what was there at the save and what is
    there now: everything but the glyphs and the layers as it is now; the layers of
    the save; in them all glyphs of the save, and maybe more, as they are now. *)
Record sinceSave (saved now found : font) : Prop := mkSince {
  si_info : fInfo found = fInfo now;
  si_groups : fGroups found = fGroups now;
  si_kerning : fKerning found = fKerning now;
  si_lib : fLib found = fLib now;
  si_features : fFeatures found = fFeatures now;
  si_images : fImages found = fImages now;
  si_data : fData found = fData now;
  si_layers : forall n, get n (fLayers found) = None <-> get n (fLayers saved) = None;
  si_glyphs : forall n L, get n (fLayers found) = Some L -> exists L0 L1,
    get n (fLayers saved) = Some L0 /\ get n (fLayers now) = Some L1 /\ lInfo L = lInfo L1 /\
    (forall g, get g (lGlyphs L0) <> None -> get g (lGlyphs L) <> None) /\
    forall g x, get g (lGlyphs L) = Some x -> get g (lGlyphs L1) = Some x }.

(** ** The proof *)
Section Unsaved.
Variable T : pytext.
Variable R : spec_float -> str.
Variable ro : pyval -> str.
Variable lower : str -> str.
Variable toFileName : str -> list (str * str) -> res str.
Hypothesis LT : pytext_laws T.
Hypothesis LR : repr_laws T R.
Hypothesis keeps : lower_keeps lower.
Variable ok : str -> Prop.
Variable P : str -> str -> Prop.
Hypothesis fresh_names : forall n e f, ok n -> (forall g, In g (keys e) -> exists m, m <> n /\ P m g) -> toFileName n e = Ok f ->
  P n f /\ ~ In (lower f) (map lower (keys e)) /\ f <> contentsName.
Hypothesis ok_text : forall n, ok n -> textOk n.
Hypothesis P_text : forall n f, P n f -> textOk f.
Hypothesis P_file : forall n f, P n f -> glyphFile f.
Notation C := (plistCodec T R).
Notation glyphInv := (glyphInv T lower P).
Notation closed := (closed T lower P).
Notation infoRead := (infoRead T R).
Notation finv := (finv T R lower P).
Notation openSet := (GlyphSet.openSet (fun f => f) (contentsLoads T)).
Notation exec := (GlyphSet.exec (fun f => f) lower toFileName (contentsDumps T R) (contentsLoads T)).
Notation factOn := (factOn T R ro lower toFileName).
Let gcodec := contents_codec_laws T R LT LR.

(** the contents.plist of a directory lists the glyphs of [L0], and what it lists is in the glyph set, if there is one *)
Definition listedIn (L0 : list (str * stored)) (o : option gset) (dd : dirT) : Prop :=
  get contentsName dd <> None /\ exists w, openSet dd = (w, Ok tt) /\ (forall n, get n L0 <> None -> get n (contents (gs w)) <> None) /\
  forall g, o = Some g -> forall n f, get n (contents (gs w)) = Some f -> get n (contents g) = Some f.

Lemma listed_closed L0 L g dd : glyphInv L (mkWorld g dd []) -> listedIn L0 (Some g) dd ->
  exists K, closed K dd /\ (forall n, get n L0 <> None -> get n K <> None) /\ forall n x, get n K = Some x -> get n L = Some x.
Proof.
  intros (DI & Dd & DL & mb & Dmb & B & W) (Hc & w & Eo & H0 & Hg). specialize (Hg _ eq_refl).
  destruct (openSet_spec (fun f => f) lower _ _ _ gcodec _ _ Eo) as (Dw & _ & _ & c & Dc & Ec & Dk & Ca & Hf).
  destruct DI as (_ & (Inj & Good) & _ & Disk). cbn [gs dir] in *.
  assert (Sub : forall n, In n (keys (contents (gs w))) -> exists f b, get n (contents (gs w)) = Some f /\ get n mb = Some b /\ get f dd = Some b /\ get n L <> None).
  { intros n J. apply has_In in J. unfold has in J. destruct (get n (contents (gs w))) as [f|] eqn:G; [|discriminate J]. specialize (B n). cbn [gs dir] in B. rewrite (Hg _ _ G) in B. destruct B as (b & Gm & Gd).
    exists f, b. repeat split; try assumption. specialize (W n). destruct (get n L); [discriminate|]. cbn [heldAs] in W. congruence. }
  set (inC := fun n => has n (contents (gs w))).
  assert (Gf : forall A (l : list (str * A)) n, get n (filter (fun e => inC (fst e)) l) = if inC n then get n l else None).
  { intros A l n. induction l as [|[k x] l IH]; [destruct (inC n); reflexivity|]. cbn [filter fst get]. destruct (inC k) eqn:Ek; cbn [get].
    - destruct (eqb_spec n k) as [->|]; [rewrite Ek; reflexivity|exact IH].
    - destruct (eqb_spec n k) as [->|]; [rewrite IH, Ek; reflexivity|exact IH]. }
  exists (filter (fun e => inC (fst e)) L). split; [|split].
  - split; [exact Hc|]. exists w. split; [exact Eo|]. split; [|split; [rewrite Dw; exact Dd|split; [apply dict_ok_filter; exact DL|]]].
    + split; [exact Ca|]. split; [|split].
      * split; [intros n m f h Gn Gm; apply (Inj n m f h); apply Hg; assumption|]. intros n f Gn. apply Good. apply Hg. exact Gn.
      * destruct Ca as (_ & Ex & _). intros e Ee f J. exfalso. apply (openSet_ok (fun f => f) _ dd c Dc) in Hf. rewrite Eo in Hf. injection Hf as Hf. rewrite Hf in Ee. discriminate Ee.
      * rewrite Dw. exact Disk.
    + exists (filter (fun e => inC (fst e)) mb). split; [apply dict_ok_filter; exact Dmb|]. split.
      * intro n. rewrite Dw, Gf. unfold inC, has. destruct (get n (contents (gs w))) as [f|] eqn:G; [|reflexivity]. specialize (B n). cbn [gs dir] in B. rewrite (Hg _ _ G) in B. exact B.
      * intro n. rewrite Gf. specialize (W n). unfold inC, has in *. destruct (get n (contents (gs w))) eqn:G.
        -- unfold heldAs in *. rewrite Gf. unfold has. rewrite G. exact W.
        -- unfold heldAs. rewrite Gf. unfold has. rewrite G. reflexivity.
  - intros n N. specialize (H0 n N). rewrite Gf. unfold inC, has. destruct (get n (contents (gs w))) eqn:G; [|congruence]. destruct (Sub n) as (_ & _ & _ & _ & _ & X); [apply has_In; unfold has; rewrite G; reflexivity|exact X].
  - intros n x. rewrite Gf. destruct (inC n); [auto|discriminate].
Qed.

(** calls of a glyph set *)
Lemma listed_call c L0 L g dd w' : glyphInv L (mkWorld g dd []) -> okCall ok c -> c <> CRebuild -> (forall n, c <> GlyphSet.CDelete n) ->
  exec c (mkWorld g dd []) = (w', Ok tt) -> listedIn L0 (Some g) dd -> listedIn L0 (Some (gs w')) (dir w').
Proof.
  intros G O Nr Nd E (Hc & w & Eo & H0 & Hg). specialize (Hg _ eq_refl).
  destruct (openSet_spec (fun f => f) lower _ _ _ gcodec _ _ Eo) as (Dw & _ & _ & c0 & Dc & Ec & Dk & Ca & Hf).
  assert (Same : forall g' d', get contentsName d' = get contentsName dd -> (forall f, has f dd = true -> has f d' = true) -> (forall n f, get n (contents g) = Some f -> get n (contents g') = Some f) -> listedIn L0 (Some g') d').
  { intros g' d' E1 E2 E3. split; [congruence|]. eexists. split; [apply (openSet_ok (fun f => f) _ d' c0); [unfold diskContents in *; rewrite E1; exact Dc|intros n f J; apply E2; eapply Hf; exact J]|]. cbn [gs contents]. rewrite <- Ec. split; [exact H0|].
    intros g0 X. injection X as <-. intros n f Gn. apply E3. apply Hg. exact Gn. }
  destruct c as [n bv d|n| | | |n]; cbn [GlyphSet.exec] in E.
  - assert (DI' : distinctInv (fun f => f) lower (contentsLoads T) textOk P w').
    { eapply (exec_distinct' T R lower toFileName LT LR ok P fresh_names ok_text P_text (CWrite n bv d)); [exact O|apply G|exact E]. }
    apply writeGlyph_spec in E as [(_ & _ & E)|(_ & w1 & rf & F & E)]; [discriminate E|]. destruct rf as [f|e]; [|destruct E; discriminate]. destruct d as [data|e]; [|destruct E; discriminate].
    destruct E as (_ & Eg & E). destruct (fileNameFor_spec _ _ _ _ _ _ F) as (D1 & L1 & F1). cbn [dir gs] in *.
    assert (Gn : get n (contents (gs w')) = Some f) by (rewrite Eg; destruct F1 as [(X & ->)|(_ & _ & ->)]; [exact X|cbn [contents]; apply get_set_same]).
    destruct DI' as (_ & (_ & Good) & _). destruct (Good _ _ Gn) as (_ & Nc & _).
    apply Same.
    + destruct E as [(_ & _ & -> & _)|(_ & -> & _)]; [rewrite ?D1; reflexivity|]. apply get_set_other. congruence.
    + intros f' J. destruct E as [(_ & _ & -> & _)|(_ & -> & _)]; [rewrite ?D1; exact J|]. unfold has in *. rewrite get_set. destruct (eqb f' f); [reflexivity|exact J].
    + intros n0 f0 X. rewrite Eg. destruct F1 as [(_ & ->)|(N & _ & ->)]; [exact X|]. cbn [contents]. rewrite get_set_other; [exact X|]. intros ->. congruence.
  - destruct (Nd n eq_refl).
  - assert (E' : exec CWriteContents (mkWorld g dd []) = (w', Ok tt)) by exact E.
    destruct (writeContents_closed T R lower toFileName LT LR ok P fresh_names ok_text P_text L _ _ G E') as (Eg & (Hc' & w2 & Eo2 & G2) & _). cbn [gs] in Eg.
    split; [exact Hc'|]. exists w2. split; [exact Eo2|].
    assert (Q : forall n, get n (contents (gs w2)) = get n (contents g)).
    { apply writeContents_spec in E as (_ & b & Db & E). cbn [gs dir] in *. assert (Gb : get contentsName (dir w') = Some b) by (destruct E as [(_ & X & ->)|[(_ & -> & _)|(_ & -> & _)]]; [exact X|apply get_set_same..]).
      destruct (openSet_spec (fun f => f) lower _ _ _ gcodec _ _ Eo2) as (_ & _ & _ & c2 & Dc2 & Ec2 & _). unfold diskContents in Dc2. rewrite Gb in Dc2.
      destruct (inv_map T lower P P_text _ _ G) as [M1 M2]. cbn [gs] in M1, M2. destruct (GlyphSetProofs.loads_dumps _ _ _ gcodec _ _ M1 M2 Db) as (c3 & X & Y). assert (c3 = c2) as -> by congruence. rewrite Ec2. exact Y. }
    split; [intros n N X; rewrite Q in X; specialize (H0 n N); destruct (get n (contents (gs w))) eqn:Gn; [|congruence]; rewrite (Hg _ _ Gn) in X; discriminate X|].
    intros g0 X n f Gn. injection X as <-. rewrite Eg, <- Q. exact Gn.
  - contradiction.
  - unfold GlyphSet.mbind in E. destruct (getReverseContents lower _) as [w1 rr] eqn:Rv. apply reverse_spec in Rv as (D & _ & Ct & _ & _ & d & -> & _). assert (w1 = w') by (unfold GlyphSet.ret in E; congruence). subst w'. cbn [dir gs] in *.
    apply Same; [rewrite D; reflexivity|rewrite D; auto|rewrite Ct; auto].
  - unfold GlyphSet.mbind in E. destruct (getGLIF (fun f => f) n _) as [w1 rr] eqn:Gl. apply getGLIF_spec in Gl as (-> & _). assert (w' = mkWorld g dd []) as -> by (destruct rr; inversion E; reflexivity). apply Same; auto.
Qed.

(** ** The whole font *)
Record unsaved (m0 : font) (raw : res pyval) (D : str -> str -> Prop) (m : font) (s : fstate) : Prop := mkUnsaved {
  us_inv : finv noneSaved m s;
  us_layers : forall n d, D n d -> get n (layers (writer s)) = Some d;
  us_file : getPlist C (tree (writer s)) nLayercontents None = raw;
  us_listed : forall es n d L0, tree (writer s) = Dir es -> D n d -> get n (fLayers m0) = Some L0 ->
    exists dd, get d es = Some (Dir (files dd)) /\ listedIn (lGlyphs L0) (option_map snd (get n (sets s))) dd }.

(** calls of the writer that are not about layers *)
Definition apart (s s' : fstate) : Prop :=
  sets s' = sets s /\ layers (writer s') = layers (writer s) /\ forall es, tree (writer s) = Dir es ->
    exists es', tree (writer s') = Dir es' /\ get nLayercontents es' = get nLayercontents es /\ forall y, ownDir y -> get y es' = get y es.
Lemma apart_entry c x s w : In x fixedNames -> x <> nLayercontents -> touches x (writer s) w -> apart s (mkFst c w (sets s)).
Proof.
  intros I N [El Et]. split; [reflexivity|]. split; [exact El|]. intros es E. destruct (Et es E) as (es' & E' & F). exists es'. split; [exact E'|]. split; [apply F; congruence|]. intros y O. apply F. intros ->. exact (own_not_fixed _ O I).
Qed.
Lemma apart_plain m s a s' : finv noneSaved m s -> allowedIn ok m a -> factOn s a = Ok s' ->
  match a with AInfo _ | AGroups _ | AKerning _ | ALib _ | AFeatures _ | AImage _ _ | ARemoveImage _ | AData _ _ | ARemoveData _ => True | _ => False end -> apart s s'.
Proof.
  intros [V1 V2 V3 (es & E & [P1 P2 P3 P4 P5 P6] & Im & Ly)] Al H K.
  assert (Ent : forall x w es', In x fixedNames -> x <> nLayercontents -> layers w = layers (writer s) -> tree w = Dir es' -> (forall y, y <> x -> get y es' = get y es) -> apart s (mkFst (cfg s) w (sets s))).
  { intros x w es' I N El E' F. apply (apart_entry _ x); [exact I|exact N|]. split; [exact El|]. intros es0 E0. rewrite E in E0. injection E0 as <-. exists es'. split; [exact E'|exact F]. }
  destruct a; try contradiction K; cbn [allowedIn] in Al.
  all: rewrite ?fact_Info, ?fact_Groups, ?fact_Kerning, ?fact_Lib, ?fact_Features, ?fact_Image, ?fact_RemoveImage, ?fact_Data, ?fact_RemoveData in H.
  - destruct (writeInfo T 3 true info) as [d|] eqn:W; [|discriminate H]. cbn [bind] in H. apply onWriter_inv in H as (w & H & ->). eapply (apart_entry _ nFontinfo); [cbn; tauto|discriminate|eapply (info_step T R LT LR _ _ _ _ _ Al W H)].
  - apply onWriter_inv in H as (w & H & ->). destruct Al as [Em F]. rewrite <- V2 in Em. rewrite <- E in P3. eapply (apart_entry _ nGroups); [cbn; tauto|discriminate|eapply (groups_step T R LT LR _ _ _ _ _ _ V1 E Em F P3 H)].
  - apply onWriter_inv in H as (w & H & ->). destruct Al as (Em & Dk & F). rewrite <- V2 in Em. rewrite <- E in P4. eapply (apart_entry _ nKerning); [cbn; tauto|discriminate|eapply (kerning_step T R LT LR _ _ _ _ _ _ V1 E Em Dk F P4 H)].
  - apply onWriter_inv in H as (w & H & ->). destruct Al as [Em F]. rewrite <- V2 in Em. rewrite <- E in P5. eapply (apart_entry _ nLib); [cbn; tauto|discriminate|eapply (lib_step T R LT LR _ _ _ _ _ _ V1 E Em F P5 H)].
  - apply onWriter_inv in H as (w & H & ->). rewrite <- V2 in Al. rewrite <- E in P6. eapply (apart_entry _ nFeatures); [cbn; tauto|discriminate|eapply (features_step _ _ _ _ _ _ V1 E Al P6 H)].
  - apply onWriter_inv in H as (w & H & ->). unfold Ufo.writeImage in H. rewrite V1 in H. change (3 <? 3)%Z with false in H. cbv iota in H. destruct (pngValidator data); [|discriminate H]. cbn [negb andb] in H.
    destruct (writeImage_es _ _ _ _ _ _ Al E H) as (El & ies & Hi & es' & E' & Gi & Fr). eapply (Ent nImages); [cbn; tauto|discriminate|exact El|exact E'|exact Fr].
  - apply onWriter_inv in H as (w & H & ->). unfold removeImage in H. rewrite V1 in H. change (3 <? 3)%Z with false in H. cbv iota in H.
    assert (Nd : forall ies ds, get nImages es = Some (Dir ies) -> get fileName ies <> Some (Dir ds)).
    { intros ies ds G. destruct Im as [(_ & _ & Hm) _]. rewrite G in Hm. destruct Hm as [_ Hm]. rewrite Hm. destruct (get fileName (fImages m)); discriminate. }
    destruct (removeImage_es _ _ _ _ Al E Nd H) as (El & ies & b & G0 & Gf & es' & E' & Fr & Gi). eapply (Ent nImages); [cbn; tauto|discriminate|exact El|exact E'|exact Fr].
  - apply onWriter_inv in H as (w & H & ->). destruct Al as [Np Fp]. destruct (data_write _ _ _ _ _ _ _ Np Fp E (proj2 Im) H) as (El & es' & E' & Fr & _). eapply (Ent nData); [cbn; tauto|discriminate|exact El|exact E'|exact Fr].
  - apply onWriter_inv in H as (w & H & ->). destruct Al as [Np Fp]. destruct (data_remove _ _ _ _ _ Np Fp E (proj2 Im) H) as (El & es' & E' & Fr & _). eapply (Ent nData); [cbn; tauto|discriminate|exact El|exact E'|exact Fr].
Qed.
Lemma file_frame t t' es es' raw : t = Dir es -> t' = Dir es' -> get nLayercontents es' = get nLayercontents es -> getPlist C t nLayercontents None = raw -> getPlist C t' nLayercontents None = raw.
Proof. intros -> -> E H. rewrite <- H. apply getPlist_frame. rewrite !find_top. exact E. Qed.
Lemma onLayer_unsaved m0 raw D m m' s s' layer f : unsaved m0 raw D m s -> finv noneSaved m' s' -> onLayer layer f s = Ok s' ->
  (forall d L L0 g dd g' n', get layer (layers (writer s)) = Some d -> get layer (fLayers m) = Some L -> layerAt T R lower P L (Some g) dd -> listedIn L0 (Some g) dd -> f g (Dir (files dd)) = Ok (g', n') ->
     exists dd', n' = Dir (files dd') /\ listedIn L0 (Some g') dd') -> unsaved m0 raw D m' s'.
Proof.
  intros [I Ul Uf Ud] I' H F. split; [exact I'|..]; pose proof I as [V1 V2 V3 (es & E & Pl & Im & Ly)]; pose proof Ly as [A1 A2 A3 A4 A5 A6 A7 A8 A9]; unfold onLayer in H; destruct (get layer (sets s)) as [[p g]|] eqn:Gs; try discriminate H.
  all: destruct (get layer (layers (writer s))) as [d|] eqn:Gl; [|exfalso; apply (A7 layer); [congruence|exact Gl]].
  all: destruct (layer_get _ _ _ _ _ _ _ _ _ _ Ly Gl) as (L & GL); destruct (A9 _ _ _ Gl GL) as (dd & B1 & B2 & B3 & B4); rewrite Gs in B2, B3; specialize (B2 _ _ eq_refl); subst p; cbn [option_map snd] in B3.
  all: rewrite E, find_top, B1 in H; destruct (f g (Dir (files dd))) as [[g' n']|] eqn:Ef; [|discriminate H]; cbn [bind put] in H; apply Ok_inj in H; subst s'; cbn [writer layers tree sets].
  - exact Ul.
  - eapply file_frame; [exact E|reflexivity| |exact Uf]. apply get_set_other. intro X. destruct A1 as [(_ & O & _) _]. apply (own_not_fixed d); [eapply O; exact Gl|]. rewrite <- X. cbn; tauto.
  - intros es1 n e L0 X In0 G0. injection X as <-. destruct (Ud es n e L0 E In0 G0) as (de & D1 & D2). rewrite !get_set. destruct (eqb_spec n layer) as [->|Nl].
    + rewrite (Ul _ _ In0) in Gl. injection Gl as ->. rewrite eqb_refl. rewrite Gs in D2. cbn [option_map snd] in *. rewrite B1 in D1. injection D1 as D1. assert (de = dd) as -> by (rewrite <- (filesIn_files de), <- (filesIn_files dd), D1; reflexivity).
      destruct (F d L _ g dd g' n' eq_refl GL B3 D2 Ef) as (dd' & -> & D3). exists dd'. auto.
    + destruct (eqb_spec e d) as [->|Ne]; [|exists de; auto]. exfalso. destruct A1 as [(_ & _ & A) _]. apply (A n layer d d Nl (Ul _ _ In0) Gl). reflexivity.
Qed.
Lemma unsaved_step m0 raw D m s a s' : unsaved m0 raw D m s -> allowedIn ok m a -> additive a -> factOn s a = Ok s' -> unsaved m0 raw D (fremember m a) s'.
Proof.
  intros Us Al Ad H. pose proof Us as [I Ul Uf Ud].
  pose proof (any_step T R ro lower toFileName LT LR keeps ok P fresh_names ok_text P_text P_file m s a s' I Al H) as I'.
  assert (Plain : apart s s' -> unsaved m0 raw D (fremember m a) s').
  { intros (Es & El & Fr). pose proof I as [_ _ _ (es & E & _)]. destruct (Fr es E) as (es' & E' & Fl & Fo). split; [exact I'|rewrite El; exact Ul| |].
    - eapply file_frame; [exact E|exact E'|exact Fl|exact Uf].
    - intros es1 n d L0 E1 In0 G0. rewrite E' in E1. injection E1 as <-. destruct (Ud es n d L0 E In0 G0) as (dd & D1 & D2). exists dd. rewrite Es. split; [|exact D2]. rewrite Fo; [exact D1|]. pose proof I as [_ _ _ (es2 & _ & _ & _ & [[(_ & O & _) _] _ _ _ _ _ _ _ _])]. eapply O. apply Ul. exact In0. }
  assert (Calls : forall layer c h, onLayer layer (glyphCall T R lower toFileName c) s = Ok s' -> okCall ok c -> c <> CRebuild -> (forall n, c <> GlyphSet.CDelete n) -> h = fremember m a -> unsaved m0 raw D h s').
  { intros layer c h Hc Oc Nr Nd ->. eapply onLayer_unsaved; [exact Us|exact I'|exact Hc|]. intros d L L0 g dd g' n' Gl GL (_ & _ & _ & G) Li Ef. unfold glyphCall in Ef. rewrite filesIn_files in Ef.
    destruct (exec c (mkWorld g dd [])) as [w' [[]|e]] eqn:Ex; [|discriminate Ef]. injection Ef as <- <-. rewrite withFiles_files. exists (dir w'). split; [reflexivity|]. eapply listed_call; eassumption. }
  destruct a; cbn [additive] in Ad; try contradiction Ad; try (apply Plain; eapply apart_plain; [exact I|exact Al|exact H|exact Logic.I]).
  - clear Plain Calls. rewrite fact_Layer in H. pose proof I as [V1 V2 V3 (es & E & Pl & Im & Ly)]. pose proof Ly as [A1 A2 A3 A4 A5 A6 A7 A8 A9]. pose proof A1 as [Lyd Fi]. pose proof Lyd as (Dl & Own & Apart).
    pose proof (key_eq _ _ _ _ _ _ _ _ name Ly) as Ek. unfold getLayer in H. change (layerKey name s) with (resolved name (layers (writer s))) in H. rewrite <- Ek in H. set (key := fKey m name) in *.
    unfold onWriter in H. destruct (getGlyphSet C lower (cfg s) name defaultLayer true (writer s)) as [w [r|e]] eqn:Eg; [|discriminate H]. cbn [bind] in H. cbn [sets writer cfg] in H.
    assert (Nn : name <> None \/ defaultLayer = true).
    { destruct name; [left; discriminate|]. destruct defaultLayer; [right; reflexivity|]. unfold getGlyphSet in Eg. rewrite V1 in Eg. cbn in Eg. discriminate Eg. }
    rewrite (getGlyphSet_3 C lower _ _ _ _ _ V1 Nn), <- Ek in Eg. fold key in Eg. pose proof (get3_result _ _ _ _ _ _ _ _ _ Eg) as Res.
    apply get3_spec in Eg; [|exact Dl]. destruct Eg as [[_ Eg]|(d & cs & s1 & Ch & Hc & Mk & Tr & El & Def)]; [destruct (Eg r eq_refl)|].
    assert (Cd : components d = Ok [d] /\ ownDir d).
    { destruct Ch as [G|[G Ch]]; [split; [apply (Fi _ _ G)|eapply Own; exact G]|]. unfold chosen in Ch. destruct defaultLayer; [destruct Ch as [-> _]; split; [apply glyphs_components|left; reflexivity]|].
      split; [eapply newDirectory_components; exact Ch|apply newDirectory_fresh in Ch as [(r0 & -> & _) _]; right; eauto]. }
    destruct Cd as [Cd Od]. rewrite Cd in Hc. injection Hc as <-. rewrite El, get_set_same in Res. injection Res as Res. rewrite <- Res, Cd in H. cbn [bind] in H.
    apply (makedir_es es d _ _ E) in Mk. rewrite <- Tr in Mk. clear Tr s1.
    assert (K1 : exists es', tree w = Dir es' /\ get nLayercontents es' = get nLayercontents es /\ forall e n', get e es = Some n' -> get e es' = Some n').
    { destruct Mk as [(ds & _ & ->)|[N ->]]; [exists es; auto|]. eexists. split; [reflexivity|]. split; [apply get_set_other; intro X; apply (own_not_fixed d Od); rewrite <- X; cbn; tauto|]. intros e n' X. rewrite get_set_other; [exact X|]. intros ->. congruence. }
    destruct K1 as (es' & Ew & Fl & Fo).
    assert (K2 : forall n e, D n e -> get n (layers w) = Some e).
    { intros n e J. rewrite El, get_set. destruct (eqb_spec n key) as [->|]; [|apply Ul; exact J]. apply Ul in J. destruct Ch as [G|[G _]]; congruence. }
    destruct (has key (sets s)) eqn:Hk.
    + apply Ok_inj in H. subst s'. cbn [writer sets] in *. split; [exact I'|exact K2|eapply file_frame; [exact E|exact Ew|exact Fl|exact Uf]|]. cbn [writer sets]. intros es1 n e L0 E1 In0 G0. rewrite Ew in E1. injection E1 as <-. destruct (Ud es n e L0 E In0 G0) as (de & D1 & D2). exists de. split; [apply Fo; exact D1|exact D2].
    + destruct (find (tree w) [d]) as [nd|] eqn:Fd; [|discriminate H]. destruct (openSet (filesIn nd)) as [w0 [[]|e]] eqn:Eo; [|discriminate H]. apply Ok_inj in H. subst s'. cbn [writer sets] in *.
      split; [exact I'|exact K2|eapply file_frame; [exact E|exact Ew|exact Fl|exact Uf]|]. cbn [writer sets]. intros es1 n e L0 E1 In0 G0. rewrite Ew in E1. injection E1 as <-. destruct (Ud es n e L0 E In0 G0) as (de & D1 & D2). exists de. split; [apply Fo; exact D1|].
      rewrite get_set. destruct (eqb_spec n key) as [->|Nk]; [|exact D2]. pose proof (Ul _ _ In0) as Ge. destruct Ch as [G|[G _]]; [|congruence]. rewrite G in Ge. injection Ge as <-.
      rewrite Ew, find_top in Fd. rewrite (Fo _ _ D1) in Fd. injection Fd as <-. rewrite filesIn_files in Eo. destruct D2 as (Hc & w1 & Eo1 & H0 & _). split; [exact Hc|]. exists w1. split; [exact Eo1|]. split; [exact H0|]. cbn [option_map snd]. rewrite Eo in Eo1. injection Eo1 as <-. intros g X. injection X as <-. auto.
  - rewrite fact_Glyph in H. eapply Calls; [exact H|apply Al|discriminate|discriminate|reflexivity].
  - rewrite fact_Call in H. eapply Calls; [exact H|destruct c; try exact Logic.I; destruct Al as [X _]; discriminate X|apply Al|intros n ->; exact Ad|reflexivity].
  - rewrite fact_LayerInfo in H. eapply onLayer_unsaved; [exact Us|exact I'|exact H|]. intros d L L0 g dd g' n' Gl GL (Dd & Ri & Hp & G) Li Ef. unfold layerInfoCall in Ef. destruct Al as [F Em].
    destruct (writeLayerInfo C T 3 (havePrev g) info true (mkUst (Dir (files dd)) [] [] None)) as [s1 [[]|e]] eqn:W; [|discriminate Ef]. injection Ef as <- <-.
    assert (Em' : (exists a, storedInfo info a <> None) \/ havePrev g = true \/ forall a, storedInfo (lInfo L) a = None).
    { destruct Em as [Em|Em]; [left; exact Em|]. destruct (Em L GL) as [Q|Q]; [right; left; apply Hp; exact Q|right; right; exact Q]. }
    destruct (layerInfo_call T R LT LR info (lInfo L) _ _ _ Dd F Ri Em' W) as (d' & Tr & D' & Fr & Ri'). exists d'. split; [exact Tr|].
    destruct Li as (Hc & w & Eo & H0 & Hg). destruct (openSet_spec (fun f => f) lower _ _ _ gcodec _ _ Eo) as (Dw & _ & _ & c0 & Dc & Ec & Dk & Ca & Hf).
    assert (Fc : get contentsName d' = get contentsName dd) by (apply Fr; vm_compute; discriminate). destruct G as ((_ & _ & _ & Disk) & _). cbn [dir] in Disk. destruct (Disk _ Dc) as [_ Good].
    split; [congruence|]. eexists. split; [apply (openSet_ok (fun f => f) _ d' c0); [unfold diskContents in *; rewrite Fc; exact Dc|]|cbn [gs contents]; rewrite <- Ec; auto].
    intros n f J. unfold has in *. rewrite Fr; [eapply Hf; exact J|]. apply In_get in J; [|exact Dk]. destruct (Good _ _ J) as (Pf & _). apply P_file in Pf. apply (proj1 (proj2 Pf)).
Qed.

(** saving *)
Lemma written_listed L g dd w' : glyphInv L (mkWorld g dd []) -> exec CWriteContents (mkWorld g dd []) = (w', Ok tt) -> listedIn L (Some (gs w')) (dir w').
Proof.
  intros G E. destruct (writeContents_closed T R lower toFileName LT LR ok P fresh_names ok_text P_text L _ _ G E) as (Eg & (Hc' & w2 & Eo2 & G2) & _). cbn [gs] in Eg.
  split; [exact Hc'|]. exists w2. split; [exact Eo2|]. split.
  - intros n N X. apply (inv_names T lower P _ _ G2) in N. apply has_In in N. unfold has in N. rewrite X in N. discriminate N.
  - intros g0 X n f Gn. injection X as <-. cbn [GlyphSet.exec] in E. apply writeContents_spec in E as (_ & b & Db & E). cbn [gs dir] in *. assert (Gb : get contentsName (dir w') = Some b) by (destruct E as [(_ & X & ->)|[(_ & -> & _)|(_ & -> & _)]]; [exact X|apply get_set_same..]).
    destruct (openSet_spec (fun f => f) lower _ _ _ gcodec _ _ Eo2) as (_ & _ & _ & c2 & Dc2 & Ec2 & _). unfold diskContents in Dc2. rewrite Gb in Dc2.
    destruct (inv_map T lower P P_text _ _ G) as [M1 M2]. cbn [gs] in M1, M2. destruct (GlyphSetProofs.loads_dumps _ _ _ gcodec _ _ M1 M2 Db) as (c3 & X & Y). assert (c3 = c2) as -> by congruence. rewrite Eg, <- Y, <- Ec2. exact Gn.
Qed.
Lemma close_unsaved raw (D : str -> str -> Prop) m s s' layer : unsaved m raw D m s -> onLayer layer (glyphCall T R lower toFileName CWriteContents) s = Ok s' ->
  layers (writer s') = layers (writer s) /\ unsaved m raw (fun n d => D n d \/ n = layer /\ get n (layers (writer s)) = Some d) m s'.
Proof.
  intros Us H. pose proof Us as [I Ul Uf Ud].
  assert (I' : finv noneSaved m s') by (eapply inv_weaken; [intros n []|]; eapply (close_step T R lower toFileName LT LR ok P fresh_names ok_text P_text P_file); [exact I|exact H]).
  assert (U' : unsaved m raw D m s').
  { eapply onLayer_unsaved; [exact Us|exact I'|exact H|]. intros d L L0 g dd g' n' Gl GL (_ & _ & _ & G) Li Ef. unfold glyphCall in Ef. rewrite filesIn_files in Ef.
    destruct (exec CWriteContents (mkWorld g dd [])) as [w' [[]|e]] eqn:Ex; [|discriminate Ef]. injection Ef as <- <-. rewrite withFiles_files. exists (dir w'). split; [reflexivity|]. eapply listed_call; try eassumption; [exact Logic.I|discriminate|discriminate]. }
  destruct U' as [_ Ul' Uf' Ud']. pose proof I as [V1 V2 V3 (es & E & Pl & Im & Ly)]; pose proof Ly as [A1 A2 A3 A4 A5 A6 A7 A8 A9]; unfold onLayer in H; destruct (get layer (sets s)) as [[p g]|] eqn:Gs; try discriminate H.
  destruct (get layer (layers (writer s))) as [d|] eqn:Gl; [|exfalso; apply (A7 layer); [congruence|exact Gl]].
  destruct (layer_get _ _ _ _ _ _ _ _ _ _ Ly Gl) as (L & GL); destruct (A9 _ _ _ Gl GL) as (dd & B1 & B2 & B3 & B4); rewrite Gs in B2, B3; specialize (B2 _ _ eq_refl); subst p; cbn [option_map snd] in B3.
  rewrite E, find_top, B1 in H; destruct (glyphCall _ _ _ _ _ g (Dir (files dd))) as [[g' n']|] eqn:Ef; [|discriminate H]; cbn [bind put] in H; apply Ok_inj in H; subst s'; cbn [writer layers tree sets] in *.
  split; [reflexivity|]. split; [exact I'| |exact Uf'|]; cbn [writer layers tree sets].
  - intros n e [X|[-> X]]; [apply Ul; exact X|exact X].
  - intros es1 n e L0 X In0 G0. destruct In0 as [In0|[-> In0]]; [eapply Ud'; eassumption|]. injection X as <-. rewrite Gl in In0. injection In0 as <-. rewrite GL in G0. injection G0 as <-. rewrite !get_set_same.
    unfold glyphCall in Ef. rewrite filesIn_files in Ef. destruct (exec CWriteContents (mkWorld g dd [])) as [w' [[]|e]] eqn:Ex; [|discriminate Ef]. injection Ef as <- <-. rewrite withFiles_files. exists (dir w'). split; [reflexivity|]. cbn [option_map snd]. eapply written_listed; [|exact Ex]. apply B3.
Qed.
Lemma saveSets_unsaved raw m s s' : finv noneSaved m s -> getPlist C (tree (writer s)) nLayercontents None = raw -> saveSets T R lower toFileName s = Ok s' ->
  unsaved m raw (fun n d => get n (layers (writer s')) = Some d) m s'.
Proof.
  intros I Ef H. unfold saveSets in H.
  assert (G : forall ks (D : str -> str -> Prop) s s', unsaved m raw D m s -> foldM (fun s n => onLayer n (glyphCall T R lower toFileName CWriteContents) s) s ks = Ok s' ->
    layers (writer s') = layers (writer s) /\ (forall n, get n (sets s') <> None -> get n (sets s) <> None) /\ unsaved m raw (fun n d => D n d \/ In n ks /\ get n (layers (writer s)) = Some d) m s').
  { clear I H Ef s s'. induction ks as [|k ks IH]; intros D s s' U H; cbn [foldM] in H.
    - injection H as <-. split; [reflexivity|]. split; [auto|]. destruct U as [I Ul Uf Ud]. split; [exact I| |exact Uf|].
      + intros n d [X|[[] _]]. apply Ul. exact X.
      + intros es n d L0 E [X|[[] _]] G0. eapply Ud; eassumption.
    - destruct (onLayer k _ s) as [s1|] eqn:E; [|discriminate H]. cbn [bind] in H. destruct (close_unsaved _ _ _ _ _ _ U E) as [El U1]. apply onLayer_sets in E as [_ E]. destruct (IH _ _ _ U1 H) as (El' & K & [I Ul Uf Ud]).
      split; [congruence|]. split; [auto|]. split; [exact I| |exact Uf|].
      + intros n d X. apply Ul. destruct X as [X|[[X|X] Y]]; [tauto| |]; [left; right; auto|right; rewrite El; auto].
      + intros es n d L0 E0 X G0. eapply Ud; [exact E0| |exact G0]. destruct X as [X|[[X|X] Y]]; [tauto| |]; [left; right; auto|right; rewrite El; auto]. }
  assert (U0 : unsaved m raw (fun n d => get n (layers (writer s)) = Some d /\ get n (sets s) = None) m s).
  { split; [exact I|tauto|exact Ef|]. intros es n d L E [Gl Gn] GL. pose proof I as [_ _ _ (es0 & E0 & _ & _ & Ly)]. rewrite E in E0. injection E0 as <-. destruct (iLayers _ _ _ _ _ _ _ _ Ly _ _ _ Gl GL) as (dd & B1 & _ & (_ & _ & B3) & _). rewrite Gn in B3. cbn [option_map] in B3.
    exists dd. split; [exact B1|]. destruct (closed_open T R lower LT LR P _ _ B3) as (w & Eo & _ & _ & G0). split; [apply B3|]. exists w. split; [exact Eo|]. split; [|rewrite Gn; discriminate].
    intros k N X. apply (inv_names T lower P _ _ G0) in N. apply has_In in N. unfold has in N. rewrite X in N. discriminate N. }
  destruct (G _ _ _ _ U0 H) as (El & _ & [I' Ul Uf Ud]). split; [exact I'|auto|exact Uf|].
  intros es n d L0 E0 X G0. eapply Ud; [exact E0| |exact G0]. rewrite El in X. destruct (get n (sets s)) as [x|] eqn:Es; [|left; auto]. right. split; [|exact X]. apply get_In in Es. apply (in_map fst) in Es. exact Es.
Qed.
Lemma save_unsaved m s order s' : finv noneSaved m s -> save T R lower toFileName order s = Ok s' ->
  unsaved m (getPlist C (tree (writer s')) nLayercontents None) (fun n d => get n (layers (writer s')) = Some d) m s'.
Proof.
  intros I H. destruct (save_step T R lower toFileName LT LR ok P fresh_names ok_text P_text P_file _ _ _ _ I H) as [J _]. unfold save in H. destruct (saveSets T R lower toFileName s) as [s1|] eqn:E; [|discriminate H]. cbn [bind] in H.
  pose proof (saveSets_unsaved _ _ _ _ I eq_refl E) as [I1 Ul Uf Ud]. apply onWriter_inv in H as (w & H & ->). cbn [writer] in *.
  assert (Tc : touches nLayercontents (writer s1) w).
  { unfold writeLayerContents in H. destruct (ver (cfg s1) <? 3)%Z; [injection H as ->; apply touches_refl|]. unfold Ufo.mbind at 1, getLayers in H. destruct (true && _); [discriminate H|]. unfold Ufo.mbind at 1, Ufo.lift in H. destruct (mapM _ _); [|discriminate H]. eapply writePlist_touches. exact H. }
  destruct Tc as [El Et]. split; [eapply inv_weaken; [|exact J]; intros n []|auto|reflexivity|]. cbn [writer sets]. intros es n d L0 E0 X G0. rewrite El in X. pose proof I1 as [_ _ _ (es1 & E1 & _ & _ & Ly)]. destruct (Et _ E1) as (es' & E' & F). rewrite E0 in E'. injection E' as <-.
  destruct (Ud es1 n d L0 E1 X G0) as (dd & D1 & D2). exists dd. split; [|exact D2]. rewrite F; [exact D1|]. intros ->. pose proof Ly as [[(_ & O & _) _] _ _ _ _ _ _ _ _]. apply (own_not_fixed nLayercontents); [eapply O; exact X|cbn; tauto].
Qed.
Lemma unsaved_session l : forall m0 raw D m s s', unsaved m0 raw D m s -> allowedAll ok m l -> Forall additive l -> foldM factOn s l = Ok s' -> unsaved m0 raw D (fold_left fremember l m) s'.
Proof.
  induction l as [|a l IH]; intros m0 raw D m s s' U Al Ad H; cbn [foldM] in H; [injection H as <-; exact U|]. destruct (factOn s a) as [s1|] eqn:E; [|discriminate H]. cbn [bind] in H. destruct Al as [Al As]. inversion Ad; subst. cbn [fold_left].
  eapply IH; [eapply unsaved_step; eassumption|exact As|assumption|exact H].
Qed.
(** reading *)
Lemma layers_still ex ex' l : forall ps, asPairs l = Some ps -> (forall n d, In (n, d) ps -> ex' d = Ok true) -> forall un ud fd, layerLoop ex l un ud fd = Ok true -> layerLoop ex' l un ud fd = Ok true.
Proof.
  induction l as [|v l IH]; intros ps Ep Ex un ud fd H; [exact H|]. destruct v as [| | | | | | |v|v| | ]; try discriminate H. destruct v as [|[| | | |n| | | | | | ] [|[| | | |d| | | | | | ] [|]]]; try discriminate H.
  cbn [asPairs] in Ep. destruct (asPairs l) as [ps'|] eqn:Ep'; [|discriminate Ep]. injection Ep as <-. cbn [layerLoop] in H |- *. destruct (negb (eqb d (u "glyphs")) && _); [discriminate H|]. destruct n as [|n0 n1]; [discriminate H|]. destruct (ex d) as [b|]; [|discriminate H]. cbn [bind] in H. destruct b; [|discriminate H]. cbn [negb] in H.
  rewrite (Ex (n0 :: n1) d) by (left; reflexivity). cbn [bind negb]. destruct (eqb _ _ && _); [discriminate H|]. destruct (mem _ un); [discriminate H|]. destruct (mem d ud); [discriminate H|]. eapply IH; [reflexivity| |exact H]. intros n d' J. apply (Ex n d'). right. exact J.
Qed.
Lemma names_still t t' nds : readLayersR C 3 t true = Ok nds -> getPlist C t' nLayercontents None = getPlist C t nLayercontents None -> (forall n d, In (n, d) nds -> components d = Ok [d] /\ find t' [d] <> None) -> readLayersR C 3 t' true = Ok nds.
Proof.
  intros H E K. unfold readLayersR in *. change (3 <? 3)%Z with false in *. cbv iota in *. rewrite E. destruct (getPlist C t nLayercontents None) as [raw|]; [|discriminate H]. cbn [bind] in *. destruct (layersValid t raw) as [b|] eqn:V; [|discriminate H]. cbn [bind] in H. destruct b; [|discriminate H]. destruct (asPairs (elems raw)) as [ps|] eqn:Ep; [|discriminate H]. injection H as ->.
  unfold layersValid, layerContentsValidator in *. destruct raw as [| | | | | | |l| | | ]; try discriminate V. cbn [elems] in Ep. rewrite (layers_still _ (fun d => do cs <- components d; Ok (existsAt t' cs)) l nds Ep) with (2 := V); [reflexivity|].
  intros n d J. destruct (K n d J) as [Cd Fd]. rewrite Cd. cbn [bind]. unfold existsAt. destruct (find t' [d]); [reflexivity|congruence].
Qed.

Lemma choose_layers (Q : str -> str -> layerMem -> Prop) nds : NoDup (map fst nds) -> (forall n d, In (n, d) nds -> exists L, Q n d L) ->
  exists ly, map fst ly = map fst nds /\ forall n d, In (n, d) nds -> exists L, get n ly = Some L /\ Q n d L.
Proof.
  induction nds as [|[n d] nds IH]; intros ND H; [exists []; split; [reflexivity|intros n d []]|]. cbn [map fst] in ND. inversion ND as [|x l N ND']; subst. destruct IH as (ly & E & K); [exact ND'|intros; apply H; right; assumption|]. destruct (H n d (or_introl eq_refl)) as (L & HL).
  exists ((n, L) :: ly). split; [cbn [map fst]; rewrite E; reflexivity|]. intros n' d' [X|X].
  - injection X as <- <-. exists L. cbn [get]. rewrite eqb_refl. auto.
  - destruct (K _ _ X) as (L' & G & HL'). exists L'. split; [|exact HL']. cbn [get]. destruct (eqb_spec n' n) as [->|]; [|exact G]. exfalso. apply N. apply (in_map fst) in X. exact X.
Qed.
Lemma unsaved_read m0 t0 nds m s order dn : unsaved m0 (getPlist C t0 nLayercontents None) (fun n d => In (n, d) nds) m s -> NoDup order -> map fst nds = order -> readLayersR C 3 t0 true = Ok nds ->
  (forall n, In n order <-> get n (fLayers m0) <> None) -> In (dn, u "glyphs") nds ->
  exists found, readsFont T R found order dn (tree (writer s)) /\ sinceSave m0 m found.
Proof.
  intros [I Ul Uf Ud] Nd Ek Rd0 Mem Dn0. pose proof I as [V1 V2 V3 (es & E & Pl & Im & Ly)]. rewrite E in *. pose proof Ly as [A1 A2 A3 A4 A5 A6 A7 A8 A9]. pose proof A1 as [(Dl & Own & Apart) Fi].
  set (Q := fun n d L => exists L0 L1 dd, get n (fLayers m0) = Some L0 /\ get n (fLayers m) = Some L1 /\ get d es = Some (Dir (files dd)) /\ closed (lGlyphs L) dd /\ infoRead (lInfo L) (Dir (files dd)) /\ lInfo L = lInfo L1 /\
    (forall g, get g (lGlyphs L0) <> None -> get g (lGlyphs L) <> None) /\ forall g x, get g (lGlyphs L) = Some x -> get g (lGlyphs L1) = Some x).
  destruct (choose_layers Q nds) as (ly & Ely & Hly).
  { rewrite Ek. exact Nd. }
  { intros n d J. pose proof (Ul _ _ J) as G. destruct (layer_get _ _ _ _ _ _ _ _ _ _ Ly G) as (L1 & G1).
    assert (G0 : get n (fLayers m0) <> None) by (apply Mem; rewrite <- Ek; apply (in_map fst) in J; exact J). destruct (get n (fLayers m0)) as [L0|] eqn:G0'; [|congruence].
    destruct (Ud es n d L0 eq_refl J G0') as (dd & D1 & D2). destruct (A9 _ _ _ G G1) as (dd' & B1 & _ & (B2 & B3 & B4) & _). rewrite D1 in B1. injection B1 as B1. assert (dd' = dd) as -> by (rewrite <- (filesIn_files dd'), <- (filesIn_files dd), B1; reflexivity).
    destruct (get n (sets s)) as [[p g]|]; cbn [option_map snd] in *.
    - destruct B4 as [_ B4]. destruct (listed_closed _ _ _ _ B4 D2) as (K & K1 & K2 & K3). exists (mkLayer K (lInfo L1) (lPrev L1)), L0, L1, dd. cbn [lGlyphs lInfo]. auto 10.
    - exists L1, L0, L1, dd. repeat split; try assumption; try apply B4. 2: auto. intros g N. destruct D2 as (_ & w & Eo & H0 & _). destruct (closed_open T R lower LT LR P _ _ B4) as (w' & Eo' & _ & _ & G'). rewrite Eo in Eo'. injection Eo' as <-.
      apply (inv_names T lower P _ _ G'). apply has_In. unfold has. specialize (H0 g N). destruct (get g (contents (gs w))); [reflexivity|congruence]. }
  assert (Dly : dict_ok ly) by (unfold Base.dict_ok, keys; rewrite Ely, Ek; exact Nd).
  assert (Inv : forall n L, get n ly = Some L -> exists d, In (n, d) nds /\ Q n d L).
  { intros n L G. assert (J : In n (map fst nds)) by (rewrite <- Ely; apply get_In in G; apply (in_map fst) in G; exact G). apply in_map_iff in J as ([n' d] & X & J). cbn [fst] in X. subst n'. exists d. split; [exact J|]. destruct (Hly _ _ J) as (L' & G' & H'). congruence. }
  assert (Rd : readLayersR C 3 (Dir es) true = Ok nds).
  { apply (names_still t0); [exact Rd0|exact Uf|]. intros n d J. split; [apply (Fi _ _ (Ul _ _ J))|]. destruct (Hly _ _ J) as (L & _ & L0 & L1 & dd & _ & _ & D1 & _). rewrite find_top, D1. discriminate. }
  assert (Dn : getDefaultLayerName C 3 (Dir es) true = Ok dn).
  { unfold getDefaultLayerName. rewrite Rd. cbn [bind]. destruct (defaultName_In nds) as (n & En & J); [exists dn; exact Dn0|]. rewrite En. f_equal. apply Ul in J, Dn0. apply A8 in J, Dn0. congruence. }
  exists (mkFont (fInfo m) (fGroups m) (fKerning m) (fLib m) (fFeatures m) (fImages m) (fData m) ly (Some dn) (fPrev m)). split.
  - split; [eapply plain_frame; [| | | | | |exact Pl]; reflexivity|]. cbn [fImages fData fLayers]. split; [apply images_read; rewrite find_top; exact (proj1 Im)|]. split; [apply data_read; rewrite find_top; exact (proj2 Im)|].
    split; [unfold getLayerNames; rewrite Rd; cbn [bind]; rewrite Ek; reflexivity|]. split; [exact Dn|]. split; [|split].
    + intro n. rewrite <- Ek, <- Ely. split; [intros J; apply has_In in J; unfold has in J; destruct (get n ly); [discriminate|discriminate J]|]. intro N. apply has_In. unfold has. destruct (get n ly); [reflexivity|congruence].
    + intro n. unfold readLayerGlyph, openLayer, getGlyphSetR. rewrite Dn. cbn [bind]. reflexivity.
    + intros layer L GL. destruct (Inv _ _ GL) as (d & J & L0 & L1 & dd & _ & _ & D1 & Cl & Ri & _).
      assert (Op : exists w, openLayer T R (Dir es) (Some layer) = Ok (Dir (files dd), w) /\ openSet dd = (w, Ok tt)).
      { destruct (closed_contents T R lower LT LR P P_file _ _ Cl) as (v & Ev). destruct (closed_open T R lower LT LR P _ _ Cl) as (w & Ew & _). exists w. split; [|exact Ew]. unfold openLayer, getGlyphSetR. cbn [bind]. rewrite Rd. cbn [bind].
        assert (Gn : get layer nds = Some d) by (apply In_get; [unfold Base.dict_ok, keys; rewrite Ek; exact Nd|exact J]). rewrite Gn. destruct (Fi _ _ (Ul _ _ J)) as (_ & Cd & _). rewrite Cd. cbn [bind]. rewrite find_top, D1, Ev. cbn [bind]. rewrite Cd. cbn [bind]. rewrite find_top, D1, filesIn_files, Ew. reflexivity. }
      destruct Op as (w & Eo & Ew). split; [|split].
      * intro n. unfold readLayerGlyph. rewrite Eo. cbn [bind]. eapply closed_read; eassumption.
      * unfold namesOfLayer. rewrite Eo. cbn [bind]. eexists. split; [reflexivity|]. eapply closed_names; eassumption.
      * unfold readInfoOfLayer. rewrite Eo. cbn [bind]. exact Ri.
  - split; try reflexivity; cbn [fLayers].
    + intro n. specialize (Mem n). rewrite <- Ek, <- Ely in Mem. split; intro X.
      * destruct (get n (fLayers m0)) eqn:G; [|reflexivity]. exfalso. assert (J : In n (map fst ly)) by (apply Mem; discriminate). apply has_In in J. unfold has in J. rewrite X in J. discriminate J.
      * destruct (get n ly) eqn:G; [|reflexivity]. exfalso. apply get_In in G. apply (in_map fst) in G. apply Mem in G. congruence.
    + intros n L G. destruct (Inv _ _ G) as (d & J & L0 & L1 & dd & Q1 & Q2 & Q3 & Q4 & Q5 & Q6 & Q7 & Q8). exists L0, L1. auto 10.
Qed.
Lemma unsaved_font c l l' order s s1 s2 dn : textOk c -> fsession T R ro lower toFileName (PStr c) l = Ok s -> allowedAll ok newFont l -> save T R lower toFileName order s = Ok s1 -> NoDup order ->
  let m0 := fold_left fremember l newFont in
  fDefault m0 = Some dn -> allowedAll ok m0 l' -> Forall additive l' -> foldM factOn s1 l' = Ok s2 ->
  exists found, readsFont T R found order dn (tree (writer s2)) /\ sinceSave m0 (fold_left fremember l' m0) found.
Proof.
  intros Tc H Al Sv Nd m0 Fd Al' Ad H'. unfold fsession in H. destruct (opened T R _ (Dir [])) as [s0|] eqn:E; [|discriminate H]. cbn [bind] in H. apply (start_step T R lower toFileName LT LR ok P fresh_names ok_text P_text P_file) in E; [|exact Tc].
  pose proof (session_inv T R ro lower toFileName LT LR keeps ok P fresh_names ok_text P_text P_file _ _ _ _ E Al H) as I. fold m0 in I.
  destruct (save_step T R lower toFileName LT LR ok P fresh_names ok_text P_text P_file _ _ _ _ I Sv) as [J K]. destruct K as (nds & K1 & K2 & K3 & _); [exact Nd|congruence|].
  pose proof (save_unsaved _ _ _ _ I Sv) as U. pose proof (unsaved_session _ _ _ _ _ _ _ U Al' Ad H') as U'.
  eapply (unsaved_read m0 (tree (writer s1)) nds); [|exact Nd|exact K1|exact K3| |].
  - destruct U' as [U1 U2 U3 U4]. split; [exact U1| |exact U3|].
    + intros n d X. apply U2. apply K2. exact X.
    + intros es n d L0 E0 X. apply U4; [exact E0|apply K2; exact X].
  - intro n. rewrite <- K1. destruct U as [[_ _ _ (es & _ & _ & _ & Ly)] _ _ _]. destruct (iKeys _ _ _ _ _ _ _ _ Ly n) as [X Y]. split.
    + intros Q N. apply in_map_iff in Q as ([k d] & Ekd & Q). cbn [fst] in Ekd. subst k. apply K2 in Q. apply Y in N. congruence.
    + intro N. destruct (get n (layers (writer s1))) as [d|] eqn:G; [|destruct (N (X eq_refl))]. apply K2 in G. apply (in_map fst) in G. exact G.
  - apply K2. destruct U as [[_ _ _ (es & _ & _ & _ & Ly)] _ _ _]. apply (iDefault _ _ _ _ _ _ _ _ Ly). exact Fd.
Qed.
End Unsaved.

(** ** C100 *)
(** After a save, and after any further calls that only add and replace, a reader is
    not refused: it finds the layers of the save with their glyphs, and everything as
    it has been written last.  Proved for file name functions whose file names are
    new, ignoring case, as in C88, and for programs that end between two calls; what
    is in a file that is being written at that moment is another matter (C12). *)
Theorem C100_unsaved_partial : forall T R ro lower toFileName, pytext_laws T -> repr_laws T R -> lower_keeps lower ->
  case_fresh (fun f => f) lower toFileName -> good_names textOk toFileName -> (forall n e f, toFileName n e = Ok f -> glyphFile f) ->
  forall creator l l' order s s1 s2 default, textOk creator -> allowedAll textOk newFont l ->
  fsession T R ro lower toFileName (PStr creator) l = Ok s -> save T R lower toFileName order s = Ok s1 -> NoDup order ->
  let saved := fold_left fremember l newFont in
  let now := fold_left fremember l' saved in
  fDefault saved = Some default -> allowedAll textOk saved l' -> Forall additive l' -> foldM (factOn T R ro lower toFileName) s1 l' = Ok s2 ->
  exists found, readsFont T R found order default (tree (writer s2)) /\ sinceSave saved now found.
Proof.
  intros T R ro lower tf LT LR K CF GN GF c l l' order s s1 s2 dn Tc Al H Sv Nd saved now Fd Al' Ad H'.
  eapply (unsaved_font T R ro lower tf LT LR K textOk (fun _ f => textOk f /\ glyphFile f)); try eassumption; try tauto.
  intros n e f On _ E. split; [split; [exact (GN _ _ _ On E)|exact (GF _ _ _ E)]|]. apply (CF _ _ _ E).
Qed.
Print Assumptions C100_unsaved_partial.
Theorem C100_careful_partial : forall T R ro lower, pytext_laws T -> repr_laws T R -> lower_keeps lower ->
  forall creator l l' order s s1 s2 default, textOk creator -> allowedAll textOk newFont l ->
  fsession T R ro lower (carefulFileName lower) (PStr creator) l = Ok s -> save T R lower (carefulFileName lower) order s = Ok s1 -> NoDup order ->
  let saved := fold_left fremember l newFont in
  let now := fold_left fremember l' saved in
  fDefault saved = Some default -> allowedAll textOk saved l' -> Forall additive l' -> foldM (factOn T R ro lower (carefulFileName lower)) s1 l' = Ok s2 ->
  exists found, readsFont T R found order default (tree (writer s2)) /\ sinceSave saved now found.
Proof.
  intros T R ro lower LT LR K. apply C100_unsaved_partial; try assumption.
  - apply C08_careful_function. intros f g ->. reflexivity.
  - apply careful_names_text.
  - intros n e f E. eapply glif_file. exact E.
Qed.
Print Assumptions C100_careful_partial.
(** or for names that are apart (C08), such as ASCII names without "_" *)
Theorem C100_apart_names_partial : forall T R ro lower S, pytext_laws T -> repr_laws T R -> lower_keeps lower -> lower_stable lower -> apart_names lower S ->
  forall creator l l' order s s1 s2 default, textOk creator -> allowedAll (fun n => S n /\ textOk n) newFont l ->
  fsession T R ro lower (defaultFileName lower) (PStr creator) l = Ok s -> save T R lower (defaultFileName lower) order s = Ok s1 -> NoDup order ->
  let saved := fold_left fremember l newFont in
  let now := fold_left fremember l' saved in
  fDefault saved = Some default -> allowedAll (fun n => S n /\ textOk n) saved l' -> Forall additive l' -> foldM (factOn T R ro lower (defaultFileName lower)) s1 l' = Ok s2 ->
  exists found, readsFont T R found order default (tree (writer s2)) /\ sinceSave saved now found.
Proof.
  intros T R ro lower S LT LR K L A c l l' order s s1 s2 dn Tc Al H Sv Nd saved now Fd Al' Ad H'.
  eapply (unsaved_font T R ro lower (defaultFileName lower) LT LR K (fun n => S n /\ textOk n) (fun n f => (((S n /\ textOk n) /\ ownFile lower n f) /\ textOk f) /\ glyphFile f)); try eassumption; try tauto.
  intros n e f On Pe E. assert (CO : case_only (fun f => f) lower) by (intros a b ->; reflexivity).
  destruct (fresh_apart (fun f => f) lower textOk (fun n => S n /\ textOk n) L CO (default_names_text lower) (apart_sub lower S _ (fun n H => proj1 H) A) (fun n H => proj2 H) n e f On) as (H1 & H2 & H3); [|exact E|].
  - intros g Ig. destruct (Pe g Ig) as (k & Nk & H1 & _). eauto.
  - split; [split; [exact H1|eapply glif_file; exact E]|auto].
Qed.
Print Assumptions C100_apart_names_partial.

(** a font that is saved; then a glyph is replaced and one is added, the contents of
    that layer are written, one more glyph is added and there is a new layer *)
Definition laterCase : list faction :=
  [ALayer (Some (u "fore")) false; AGlyph (u "fore") (u "c") [] None None; AGlyph (u "fore") (u "e") [] None None; ACall (u "fore") CWriteContents;
   AGlyph (u "fore") (u "f") [] None None; ALayer (Some (u "new")) false; AGlyph (u "new") (u "g") [] None None; AInfo [(u "familyName", PStr (u "H"))]; ALayerInfo (u "fore") [(u "color", PStr (u "0,0,0,1"))]].
Lemma laterCase_allowed : allowedAll textOk (fold_left fremember fontCase newFont) laterCase /\ Forall additive laterCase.
Proof.
  split; [|repeat constructor].
  assert (S : forall s, forallb (fun c => (c =? 10) || ((32 <=? c) && (c <? 128)))%N s = true -> plistFaithful (PStr s)) by (intros s E; apply str_faithful, text_check; exact E).
  cbn [laterCase allowedAll]. repeat match goal with |- _ /\ _ => split | |- True => exact Logic.I end; cbn [allowedIn]; repeat match goal with |- _ /\ _ => split | |- True => exact Logic.I end.
  - split; [discriminate|]. intro E. discriminate E.
  - apply text_check. reflexivity.
  - apply text_check. reflexivity.
  - left. split; [reflexivity|]. apply storable_empty, text_val. reflexivity.
  - apply text_check. reflexivity.
  - left. split; [reflexivity|]. apply storable_empty, text_val. reflexivity.
  - reflexivity.
  - discriminate.
  - apply text_check. reflexivity.
  - left. split; [reflexivity|]. apply storable_empty, text_val. reflexivity.
  - split; [discriminate|]. intro E. discriminate E.
  - apply text_check. reflexivity.
  - apply text_check. reflexivity.
  - left. split; [reflexivity|]. apply storable_empty, text_val. reflexivity.
  - intros x v [G _]. cbn [get] in G. destruct (eqb x _); [injection G as <-; apply S; reflexivity|discriminate G].
  - intros x v G. unfold storedInfo in G. cbn [get] in G. destruct (eqb x _); [|discriminate G]. injection G as <-. apply S. reflexivity.
  - left. exists (u "color"). discriminate.
Qed.
(** what is in the file system after a save and further calls *)
Definition afterwards (l : list faction) (order : list str) (l' : list faction) (Q : node -> Prop) : Prop :=
  match fsession toyText toyRepr roCase ascii_lower (carefulFileName ascii_lower) (PStr (u "me")) l with
  | Ok s =>
    match save toyText toyRepr ascii_lower (carefulFileName ascii_lower) order s with
    | Ok s1 => match foldM (factOn toyText toyRepr roCase ascii_lower (carefulFileName ascii_lower)) s1 l' with Ok s2 => Q (tree (writer s2)) | Err _ => False end
    | Err _ => False
    end
  | Err _ => False
  end.
Example C100_case : afterwards fontCase [u "public.default"; u "fore"] laterCase (fun t =>
  let C := plistCodec toyText toyRepr in
  getLayerNames C 3 t true = Ok [u "public.default"; u "fore"] /\
  readInfoFile C t true = Ok (PDict [(PStr (u "familyName"), PStr (u "H"))]) /\
  namesOfLayer toyText toyRepr t (Some (u "fore")) = Ok [u "c"; u "e"] /\
  readInfoOfLayer toyText toyRepr t (Some (u "fore")) = Ok [(PStr (u "color"), PStr (u "0,0,0,1"))] /\
  match readLayerGlyph toyText toyRepr t None (u "a<"), readLayerGlyph toyText toyRepr t (Some (u "fore")) (u "c") with
  | Ok a, Ok c => rcalls a = gdrawing (map passedItem itemsCase) /\ get (u "unicodes") (rattrs c) = None
  | _, _ => False
  end /\
  readLayerGlyph toyText toyRepr t (Some (u "fore")) (u "f") = Err KeyError).
Proof. vm_compute. repeat split; reflexivity. Qed.

(** Of deletions and renamings that are not followed by a save the claim is false.
    After the deletion of one glyph none of its layer is read: contents.plist lists
    a file that is not there.  After the deletion or the renaming of a layer no
    layer is read: layercontents.plist lists a directory that is not there. *)
Definition twoGlyphs : list faction :=
  [ALayer None true; AGlyph (u "public.default") (u "a") [] None None; AGlyph (u "public.default") (u "b") [] None None; ALayer (Some (u "back")) false].
Theorem C100_glyph_deletion_refuted : exists l l' order, l' = [ACall (u "public.default") (GlyphSet.CDelete (u "a"))] /\
  afterwards l order [] (fun t => exists r, readLayerGlyph toyText toyRepr t None (u "b") = Ok r) /\
  afterwards l order l' (fun t => exists e, readLayerGlyph toyText toyRepr t None (u "b") = Err e).
Proof. exists twoGlyphs. eexists. exists [u "public.default"; u "back"]. split; [reflexivity|]. split; vm_compute; eexists; reflexivity. Qed.
Print Assumptions C100_glyph_deletion_refuted.
Theorem C100_layer_deletion_refuted : exists l l' order, l' = [ADelete (u "back")] /\
  afterwards l order [] (fun t => getLayerNames (plistCodec toyText toyRepr) 3 t true = Ok order) /\
  afterwards l order l' (fun t => exists e, getLayerNames (plistCodec toyText toyRepr) 3 t true = Err e).
Proof. exists twoGlyphs. eexists. exists [u "public.default"; u "back"]. split; [reflexivity|]. split; vm_compute; [reflexivity|eexists; reflexivity]. Qed.
Print Assumptions C100_layer_deletion_refuted.
Theorem C100_layer_renaming_refuted : exists l l' order, l' = [ARename (u "back") (u "behind") false] /\
  afterwards l order [] (fun t => getLayerNames (plistCodec toyText toyRepr) 3 t true = Ok order) /\
  afterwards l order l' (fun t => exists e, getLayerNames (plistCodec toyText toyRepr) 3 t true = Err e).
Proof. exists twoGlyphs. eexists. exists [u "public.default"; u "back"]. split; [reflexivity|]. split; vm_compute; [reflexivity|eexists; reflexivity]. Qed.
Print Assumptions C100_layer_renaming_refuted.
