(** Lemmas about one layer of a font: its glyph set on the directory of the layer. *)
From Coq Require Import String NArith ZArith Bool Lia List Permutation.
From Coq.Floats Require Import SpecFloat.
From Verif Require Import Base PyVal PyText FloatRepr LowerLaws Filenames FilenamesProofs GlyphSet GlyphSetProofs PropGlyphSet.
From Verif Require Import Xml FS FSProofs Ufo UfoProofs PropUfo PropUfoFiles Plist PlistProofs PropPlist Etree EtreeProofs PropEtree PlistFiles PointPen PropPointPen Glif GlifProofs GlifOutline PropGlif PropPlistLoaded PropSession PropLayers Font FontProofs.
Import ListNotations.
Local Open Scope string_scope.
Local Open Scope list_scope.
Local Notation world := GlyphSet.world.
Local Notation mbind := Ufo.mbind.
Local Notation lift := Ufo.lift.
Local Notation ret := Ufo.ret.
Local Notation raise := Ufo.raise.
Local Notation fetch := PropGlyphSet.fetch.
Local Notation dict_ok := Base.dict_ok.
Local Notation find := FS.find.

(** file names that a glyph can have in a layer *)
Definition glyphFile (f : str) : Prop := plainName f /\ f <> nLayerinfo /\ f <> contentsName.

Section Layer.
Variable T : pytext.
Variable R : spec_float -> str.
Variable ro : pyval -> str.
Variable lower : str -> str.
Variable toFileName : str -> list (str * str) -> res str.
Hypothesis LT : pytext_laws T.
Hypothesis LR : repr_laws T R.
Variable ok : str -> Prop.
Variable P : str -> str -> Prop.
Hypothesis fresh_names : forall n e f, ok n -> (forall g, In g (keys e) -> exists m, m <> n /\ P m g) -> toFileName n e = Ok f ->
  P n f /\ ~ In (lower f) (map lower (keys e)) /\ f <> contentsName.
Hypothesis ok_text : forall n, ok n -> textOk n.
Hypothesis P_text : forall n f, P n f -> textOk f.
Hypothesis P_file : forall n f, P n f -> glyphFile f.
Notation C := (plistCodec T R).
Notation canon := (fun f : str => f).
Notation dumps' := (contentsDumps T R).
Notation loads' := (contentsLoads T).
Notation exec := (GlyphSet.exec canon lower toFileName dumps' loads').
Notation distinct := (distinctInv canon lower loads' textOk P).

Let codec := contents_codec_laws T R LT LR.
Let total := contents_total T R LT LR.
Lemma canon_lower : case_only canon lower.
Proof. intros f g ->. reflexivity. Qed.

(** what the files of the glyphs are read as *)
Definition heldAs (mb : list (str * bytes)) (n : str) (x : option stored) : Prop :=
  match x with
  | Some (g, items, fv) => exists b r, get n mb = Some b /\ gsReadBytes T 3 true true true b = Ok r /\ readsAs (isSpace T) (versionOf 3 fv) n g items r
  | None => get n mb = None
  end.
(** the glyphs [m] of a world *)
Definition glyphInv (m : list (str * stored)) (w : world) : Prop :=
  distinct w /\ dict_ok (dir w) /\ dict_ok m /\ exists mb, dict_ok mb /\ bytesInv canon mb w /\ forall n, heldAs mb n (get n m).
Lemma glyphInv_new d l : get contentsName d = None -> dict_ok d -> glyphInv [] (mkWorld (mkGset [] None None false) d l).
Proof.
  intros N D. split; [|split; [exact D|split; [constructor|]]].
  - split; [split; [constructor|split; discriminate]|]. split; [split; [intros n m f g G; discriminate G|intros n f G; discriminate G]|]. split; [discriminate|].
    intros c X. unfold diskContents in X. cbn [dir] in X. rewrite N in X. injection X as <-. split; [intros n m f g G; discriminate G|intros n f G; discriminate G].
  - exists []. split; [constructor|]. split; [intro n; reflexivity|intro n; reflexivity].
Qed.
(** another file of the directory changes *)
Lemma glyphInv_info m g d d' l l' : glyphInv m (mkWorld g d l) -> dict_ok d' -> (forall x, x <> nLayerinfo -> get x d' = get x d) -> glyphInv m (mkWorld g d' l').
Proof.
  intros (DI & Dd & Dm & mb & Dmb & B & W) Dd' E. split; [|split; [exact Dd'|split; [exact Dm|]]].
  - destruct DI as (A1 & A2 & A3 & A4). split; [exact A1|]. split; [exact A2|]. split; [exact A3|]. intros c X. apply A4. cbn [dir] in *. unfold diskContents in *. rewrite <- (E contentsName); [exact X|]. vm_compute. discriminate.
  - exists mb. split; [exact Dmb|]. split; [|exact W]. intro n. specialize (B n). cbn [gs dir] in *. destruct (get n (contents g)) as [f|] eqn:G; [|exact B].
    destruct B as (b & B1 & B2). exists b. split; [exact B1|]. rewrite E; [exact B2|]. destruct DI as (_ & (_ & H) & _). destruct (H n f G) as (Pf & _). apply P_file in Pf. apply Pf.
Qed.

(** what a call does to the glyphs *)
Definition glyphCalled (c : GlyphSet.call) (m : list (str * stored)) : list (str * stored) := match c with GlyphSet.CDelete n => del n m | _ => m end.
Definition isWriteCall (c : GlyphSet.call) : bool := match c with CWrite _ _ _ => true | _ => false end.
Lemma exec_distinct' c w w' r : okCall ok c -> distinct w -> exec c w = (w', r) -> distinct w'.
Proof.
  intros O DI E. assert (X : distinct (fst (exec c w))) by (eapply exec_distinct; try exact codec; try exact fresh_names; try exact canon_lower; eauto). rewrite E in X. exact X.
Qed.
Lemma exec_dir_ok c w w' r : dict_ok (dir w) -> exec c w = (w', r) -> dict_ok (dir w').
Proof. intros D E. assert (X := dir_ok canon lower toFileName dumps' loads' c w D). rewrite E in X. exact X. Qed.
Lemma glyph_call c m w w' : glyphInv m w -> isWriteCall c = false -> c <> CRebuild -> exec c w = (w', Ok tt) -> glyphInv (glyphCalled c m) w'.
Proof.
  intros (DI & Dd & Dm & mb & Dmb & B & W) Nw Nr E. assert (Oc : okCall ok c) by (destruct c; [discriminate Nw|exact I..]).
  pose proof (exec_distinct' c w w' _ Oc DI E) as DI'. split; [exact DI'|]. split; [eapply exec_dir_ok; eassumption|].
  pose proof (exec_bytes canon lower toFileName dumps' loads' textOk canon_lower P c w w' mb DI DI' B Dmb Dd E Nr) as B'.
  destruct c as [n bv d|n| | | |n]; [discriminate Nw|..]; cbn [glyphCalled remember] in *; try (split; [exact Dm|exists mb; auto]).
  split; [apply dict_ok_del; exact Dm|]. exists (del n mb). split; [apply dict_ok_del; exact Dmb|]. split; [exact B'|].
  intro k. unfold heldAs. destruct (eq_decide k n) as [->|N]; [rewrite !get_del_same by assumption; reflexivity|rewrite !get_del_other by assumption; apply W].
Qed.
Lemma glyph_write n g items fv m w w' bv : glyphInv m w -> ok n -> storedAs (versionOf 3 fv) n g items ->
  exec (CWrite n bv (gsWriteBytes T R ro 3 (PStr n) g (option_map gdrawing items) fv true)) w = (w', Ok tt) -> glyphInv (set n (g, items, fv) m) w'.
Proof.
  intros (DI & Dd & Dm & mb & Dmb & B & W) On St E. pose proof (exec_distinct' _ w w' _ (On : okCall ok (CWrite n bv _)) DI E) as DI'.
  split; [exact DI'|]. split; [eapply exec_dir_ok; eassumption|]. split; [apply dict_ok_set; exact Dm|].
  destruct (gsWriteBytes T R ro 3 (PStr n) g (option_map gdrawing items) fv true) as [b|e] eqn:Wb.
  - pose proof (exec_bytes canon lower toFileName dumps' loads' textOk canon_lower P _ w w' mb DI DI' B Dmb Dd E ltac:(discriminate)) as B'. cbn [remember] in B'.
    exists (set n b mb). split; [apply dict_ok_set; exact Dmb|]. split; [exact B'|]. intro k. unfold heldAs. rewrite !get_set. destruct (eqb_spec k n) as [->|N]; [|apply W]. destruct (written_read T R ro 3 n g items fv b LT LR St Wb) as (r & Er & Ra). eauto.
  - exfalso. cbn [GlyphSet.exec] in E. apply writeGlyph_spec in E as [(_ & _ & E)|(_ & w3 & rf & _ & E)]; [discriminate E|]. destruct rf; destruct E as (_ & E); discriminate E.
Qed.
(** layerinfo.plist is not touched *)
Lemma exec_other c w w' x : okCall ok c -> c <> CRebuild -> distinct w -> exec c w = (w', Ok tt) -> x <> contentsName -> (forall n, ~ P n x) -> get x (dir w') = get x (dir w).
Proof.
  intros O Nr DI E Nc NP. pose proof (exec_distinct' c w w' _ O DI E) as DI'. destruct DI as (_ & (_ & H) & _). destruct DI' as (_ & (_ & H') & _).
  destruct c as [n bv d|n| | | |n]; cbn [GlyphSet.exec] in E.
  - apply writeGlyph_spec in E as [(_ & _ & E)|(_ & w1 & rf & F & E)]; [discriminate E|]. destruct rf as [f|e]; [|destruct E; discriminate]. destruct d as [data|e]; [|destruct E; discriminate].
    destruct E as (_ & Eg & E). destruct (fileNameFor_spec _ _ _ _ _ _ F) as (D1 & L1 & F1).
    assert (Gn : get n (contents (gs w')) = Some f) by (rewrite Eg; destruct F1 as [(G & ->)|(_ & _ & ->)]; [exact G|cbn [contents]; apply get_set_same]).
    destruct E as [(_ & _ & -> & _)|(_ & -> & _)]; [reflexivity|]. apply get_set_other. intros ->. apply (NP n). apply (H' _ _ Gn).
  - apply deleteGlyph_spec in E. destruct (get n (contents (gs w))) as [f|] eqn:G; [|destruct E; discriminate]. destruct (has f (dir w)); [|destruct E; discriminate].
    destruct E as (-> & _). apply get_del_other. intros ->. apply (NP n). apply (H _ _ G).
  - apply writeContents_spec in E as (_ & b & _ & E). destruct E as [(_ & _ & ->)|[(_ & -> & _)|(_ & -> & _)]]; rewrite ?get_set_other by exact Nc; reflexivity.
  - contradiction.
  - unfold GlyphSet.mbind in E. destruct (getReverseContents lower w) as [w1 rr] eqn:Rv. apply reverse_spec in Rv as (D & _ & _ & _ & _ & d & -> & _). assert (w1 = w') by (unfold GlyphSet.ret in E; congruence). subst w'. rewrite D. reflexivity.
  - unfold GlyphSet.mbind in E. destruct (getGLIF canon n w) as [w1 rr] eqn:G. apply getGLIF_spec in G as (-> & _). destruct rr; inversion E; reflexivity.
Qed.
Lemma not_P_info : forall n, ~ P n nLayerinfo.
Proof. intros n X. apply P_file in X. apply (proj1 (proj2 X)). reflexivity. Qed.
Lemma exec_info c w w' : okCall ok c -> c <> CRebuild -> distinct w -> exec c w = (w', Ok tt) -> get nLayerinfo (dir w') = get nLayerinfo (dir w).
Proof. intros O Nr DI E. eapply exec_other; try eassumption; [vm_compute; discriminate|exact not_P_info]. Qed.
(** calls do not lose the mark that the directory existed *)
Lemma exec_prev c w w' : exec c w = (w', Ok tt) -> havePrev (gs w') = havePrev (gs w).
Proof.
  intro E. destruct c as [n bv d|n| | | |n]; cbn [GlyphSet.exec] in E.
  - apply writeGlyph_spec in E as [(_ & _ & E)|(_ & w1 & rf & F & E)]; [discriminate E|]. destruct rf as [f|e]; [|destruct E; discriminate]. destruct d as [data|e]; [|destruct E; discriminate].
    destruct E as (_ & -> & _). destruct (fileNameFor_spec _ _ _ _ _ _ F) as (_ & _ & F1). destruct F1 as [(_ & ->)|(_ & _ & ->)]; reflexivity.
  - apply deleteGlyph_spec in E. destruct (get n (contents (gs w))) as [f|] eqn:G; [|destruct E; discriminate]. destruct (has f (dir w)); [|destruct E; discriminate]. destruct E as (_ & _ & -> & _). reflexivity.
  - apply writeContents_spec in E as (-> & _). reflexivity.
  - unfold rebuildContents in E. destruct (match get _ _ with Some b => _ | None => _ end); [|discriminate E]. destruct (checkFiles _ _ _); inversion E. reflexivity.
  - unfold GlyphSet.mbind in E. destruct (getReverseContents lower w) as [w1 rr] eqn:Rv. apply reverse_spec in Rv as (_ & _ & _ & _ & Hp & d & -> & _). assert (w1 = w') by (unfold GlyphSet.ret in E; congruence). subst w'. exact Hp.
  - unfold GlyphSet.mbind in E. destruct (getGLIF canon n w) as [w1 rr] eqn:G. apply getGLIF_spec in G as (-> & _). destruct rr; inversion E; reflexivity.
Qed.

(** ** Directories with a contents.plist *)
(** the directory holds the glyphs [m]: a glyph set that is opened has them *)
Definition closed (m : list (str * stored)) (d : dirT) : Prop :=
  get contentsName d <> None /\ exists w, openSet canon loads' d = (w, Ok tt) /\ glyphInv m w.
Lemma writeContents_closed m w w' : glyphInv m w -> exec CWriteContents w = (w', Ok tt) -> gs w' = gs w /\ closed m (dir w') /\ glyphInv m w'.
Proof.
  intros G E. pose proof (glyph_call CWriteContents _ _ _ G eq_refl ltac:(discriminate) E) as G'. cbn [glyphCalled] in G'. cbn [GlyphSet.exec] in E. apply writeContents_spec in E as (Eg & b & Db & E).
  split; [exact Eg|]. split; [|exact G']. assert (Gb : get contentsName (dir w') = Some b) by (destruct E as [(_ & X & ->)|[(_ & -> & _)|(_ & -> & _)]]; [exact X|apply get_set_same..]).
  split; [congruence|]. destruct G' as (DI & Dd & Dm & mb & Dmb & B & W). rewrite <- Eg in Db. set (g := gs w') in *. set (d := dir w') in *. set (w0 := mkWorld (mkGset (contents g) (existing g) (reverse g) true) d []).
  assert (Ew : writeContents canon dumps' w0 = (w0, Ok tt)).
  { unfold writeContents. unfold GlyphSet.mbind, getGs, GlyphSet.lift, fsExists, fsGetbytes, GlyphSet.ret. cbn [w0 gs havePrev contents dir]. rewrite Db. unfold has. rewrite Gb. change (dir w0) with d. rewrite Gb. rewrite eqb_refl. reflexivity. }
  assert (DI0 : distinct w0) by exact DI. assert (B0 : bytesInv canon mb w0) by exact B.
  destruct (reopen_bytes canon lower toFileName dumps' loads' textOk codec total P P_text w0 mb DI0 B0 Dd) as (w1 & E1 & DI' & B' & Dd').
  unfold actOn in E1. rewrite Ew in E1. cbn [done bind w0 dir] in E1. destruct (openSet canon loads' d) as [w2 [[]|]] eqn:Eo; [|discriminate E1]. cbn [done] in E1. injection E1 as <-. exists w2. split; [reflexivity|].
  split; [exact DI'|]. split; [exact Dd'|]. split; [exact Dm|]. exists mb. auto.
Qed.
Lemma inv_map m w : glyphInv m w -> dict_ok (contents (gs w)) /\ goodMap textOk (contents (gs w)).
Proof. intros (((D & _) & (_ & H) & _) & _). split; [exact D|]. intros n f G. destruct (H n f G) as (Pf & _ & Gn). eauto. Qed.
Lemma inv_names m w : glyphInv m w -> forall n, In n (keys (contents (gs w))) <-> get n m <> None.
Proof.
  intros (_ & _ & _ & mb & _ & B & W) n. specialize (B n). specialize (W n). rewrite <- has_In. unfold has. destruct (get n m) as [[[g items] fv]|]; cbn [heldAs] in W.
  - destruct W as (b & r & Gb & _). destruct (get n (contents (gs w))); [|congruence]. split; [discriminate|reflexivity].
  - destruct (get n (contents (gs w))) as [f|]; [destruct B as (b & Gb & _); congruence|]. split; [discriminate|congruence].
Qed.
Lemma closed_open m d : closed m d -> exists w, openSet canon loads' d = (w, Ok tt) /\ dir w = d /\ havePrev (gs w) = true /\ glyphInv m w.
Proof.
  intros (Hc & w & E & G). exists w. split; [exact E|]. destruct (openSet_spec canon lower dumps' loads' textOk codec d w E) as (D1 & _ & E1 & _). split; [exact D1|].
  split; [rewrite E1; unfold has; destruct (get contentsName d); [reflexivity|congruence]|exact G].
Qed.
Lemma open_new d w : get contentsName d = None -> dict_ok d -> openSet canon loads' d = (w, Ok tt) -> dir w = d /\ glyphInv [] w.
Proof.
  intros N D E. rewrite (openSet_ok canon loads' d []) in E; [|unfold diskContents; rewrite N; reflexivity|intros n f []].
  injection E as <-. split; [reflexivity|]. unfold has. rewrite N. apply glyphInv_new; assumption.
Qed.
(** the check of contents.plist by UFOWriter and UFOReader *)
Lemma loads_entries b c : loads' b = Ok c -> exists e, plistLoads T b = Ok (PDict (map (fun '(n, f) => (PStr n, PStr f)) e)) /\ dict_ok e /\ forall n, get n e = get n c.
Proof.
  intro H. unfold contentsLoads in H. apply bind_Ok in H as (v & E & H). destruct v as [| | | | | | | | |d| ]; try discriminate H. rewrite E.
  destruct (C93_shape T R b _ LR E) as [X|Sh]; [discriminate X|]. inversion Sh as [| | | | | | |m N F]; subst. clear Sh E F.
  assert (V : exists e, m = map (fun '(n, f) => (n, PStr f)) e).
  { revert H. generalize (@nil (str * str)) as c0. clear N. induction m as [|[k v] m IH]; intros c0 H; [exists []; reflexivity|]. cbn [map foldM] in H. apply bind_Ok in H as (c1 & H1 & H). destruct v as [| | | |f| | | | | | ]; try discriminate H1.
    destruct (IH _ H) as (e & ->). exists ((k, f) :: e). reflexivity. }
  destruct V as (e & ->). exists e. rewrite map_map in N, H.
  assert (De : dict_ok e) by (unfold Base.dict_ok, keys; replace (map fst e) with (map (fun x : str * str => fst (let '(n, f) := x in (n, PStr f))) e); [exact N|apply map_ext; intros []; reflexivity]).
  split; [f_equal; f_equal; rewrite map_map; apply map_ext; intros []; reflexivity|]. split; [exact De|].
  destruct (load_entries e []) as (c' & Ec & Gc); [reflexivity|exact De|].
  assert (c' = c) as <-.
  { apply Ok_inj. rewrite <- Ec, <- H. f_equal. apply map_ext. intros []. reflexivity. }
  intro n. rewrite Gc. destruct (get n e); reflexivity.
Qed.
Lemma closed_contents m d : closed m d -> exists v, openGlyphSet C (Dir (files d)) true = Ok v.
Proof.
  intros (Hc & w & Eo & G). destruct (openSet_spec canon lower dumps' loads' textOk codec d w Eo) as (D1 & _ & _ & c & Dc & Ec & Okc & _ & Hf). destruct G as (DI & _).
  unfold diskContents in Dc. destruct (get contentsName d) as [b|] eqn:Gb; [|congruence]. destruct (loads_entries b c Dc) as (e & L & De & Ge).
  unfold openGlyphSet, getPlist, getbytes. rewrite find_top, get_files. change nContents with contentsName. rewrite Gb. cbn [option_map plistCodec Ufo.loads]. rewrite L. cbn [bind].
  assert (Ck : contentsOk (Dir (files d)) (map (fun '(n, f) => (PStr n, PStr f)) e) = Ok true).
  { assert (K : forall n f, In (n, f) e -> get n c = Some f) by (intros n f I; rewrite <- Ge; apply In_get; assumption). clear - K DI Hf P_file Ec.
    induction e as [|[n f] e IH]; [reflexivity|]. cbn [map contentsOk]. pose proof (K n f (or_introl eq_refl)) as G.
    destruct DI as (A1 & (A2 & H) & A3). destruct (H n f) as (Pf & _); [rewrite Ec; exact G|]. apply P_file in Pf as [Pf _]. rewrite (components_plain _ Pf). cbn [bind].
    unfold existsAt. rewrite find_top, get_files. apply get_In in G. apply Hf in G. unfold has in G. destruct (get f d); [|discriminate G]. cbn [option_map].
    rewrite IH; [reflexivity|intros n' f' I; apply K; right; exact I]. }
  rewrite Ck. cbn [bind]. eauto.
Qed.
(** reading the glyphs *)
Lemma closed_read m d w : closed m d -> openSet canon loads' d = (w, Ok tt) -> forall n,
  match get n m with
  | Some (g, items, fv) => exists r, readGlyphOf T 3 canon n w = Ok r /\ readsAs (isSpace T) (versionOf 3 fv) n g items r
  | None => readGlyphOf T 3 canon n w = Err KeyError
  end.
Proof.
  intros Cl E n. destruct (closed_open m d Cl) as (w' & E' & _ & _ & G). rewrite E in E'. injection E' as <-. destruct G as (_ & _ & _ & mb & _ & B & W).
  specialize (B n). specialize (W n). unfold readGlyphOf. rewrite fetch_eq. unfold fileOf. destruct (get n m) as [[[g items] fv]|]; cbn [heldAs] in W.
  - destruct W as (b & r & Gb & Er & Ra). destruct (get n (contents (gs w))) as [f|]; [|congruence]. destruct B as (b' & Gb' & ->). assert (b' = b) as -> by congruence. cbn [bind]. eauto.
  - destruct (get n (contents (gs w))) as [f|]; [destruct B as (b' & Gb' & _); congruence|]. reflexivity.
Qed.
Lemma closed_names m d w : closed m d -> openSet canon loads' d = (w, Ok tt) -> NoDup (keys (contents (gs w))) /\ forall n, In n (keys (contents (gs w))) <-> get n m <> None.
Proof.
  intros Cl E. destruct (closed_open m d Cl) as (w' & E' & _ & _ & G). rewrite E in E'. injection E' as <-. split; [apply (inv_map _ _ G)|]. intro n. rewrite (inv_names _ _ G n). reflexivity.
Qed.

(** ** The info of a layer *)
(** the attributes that are read are those that are stored; an empty lib may be there *)
Definition readInfoAs (info : list (str * pyval)) (l : list (pyval * pyval)) : Prop :=
  NoDup (map fst l) /\ (forall k v, In (k, v) l -> exists a, k = PStr a) /\
  forall a, match storedInfo info a, dget a l with
            | None, None => True
            | Some v, Some w => psame v w
            | None, Some w => a = u "lib" /\ w = PDict []
            | Some _, None => False
            end.
(** what the reader finds *)
Definition infoRead (info : list (str * pyval)) (n : node) : Prop :=
  exists l, readLayerInfo C T n true = Ok l /\ readInfoAs info l.
Lemma infoRead_frame info n n' : find n' [nLayerinfo] = find n [nLayerinfo] -> infoRead info n -> infoRead info n'.
Proof. intros E (l & H & Rest). exists l. split; [|exact Rest]. unfold readLayerInfo, getPlist, getbytes in *. rewrite E. exact H. Qed.
Lemma infoRead_none info n : find n [nLayerinfo] = None -> (forall a, storedInfo info a = None) -> infoRead info n.
Proof.
  intros E N. exists []. split; [unfold readLayerInfo, getPlist, getbytes; rewrite E; reflexivity|]. split; [constructor|]. split; [intros k v []|]. intro a. rewrite N. exact I.
Qed.
Lemma stored_none info : gatherLayerInfo info = [] <-> forall a, storedInfo info a = None.
Proof.
  destruct (gather_spec info) as (_ & Gt & _). split.
  - intros E a. rewrite <- Gt, E. reflexivity.
  - intro N. destruct (gatherLayerInfo info) as [|[a v] l]; [reflexivity|]. specialize (Gt a). rewrite N in Gt. cbn [infoVal map items dget] in Gt. rewrite eqb_refl in Gt. discriminate Gt.
Qed.
Lemma gatherLayer_faithful info : (forall a v, storedInfo info a = Some v -> plistFaithful v) -> plistFaithful (infoVal (gatherLayerInfo info)).
Proof.
  intro F. destruct (gather_spec info) as (ND & Gt & Tk). cbv zeta in *.
  assert (Each : forall a v, In (a, v) (gatherLayerInfo info) -> textOk a /\ plistFaithful v).
  { intros a v I. split.
    - unfold gatherLayerInfo in I. apply in_flat_map in I as (x & Ix & I).
      assert (a = x) as -> by (destruct (get x info) as [y|]; [|contradiction]; destruct y; try contradiction; destruct (eqb x (u "lib") && negb _); try contradiction; destruct I as [I|[]]; congruence).
      destruct Ix as [<-|[<-|[]]]; apply text_check; reflexivity.
    - apply (F a). rewrite <- Gt. apply In_dget; [exact ND|]. unfold infoVal. cbn [items]. apply in_map_iff. exists (a, v). auto. }
  assert (NDk : NoDup (map fst (gatherLayerInfo info))).
  { unfold infoVal in ND. cbn [items] in ND. rewrite map_map in ND. assert (E : map (fun x => fst (let '(a, v) := x in (PStr a, v))) (gatherLayerInfo info) = map PStr (map fst (gatherLayerInfo info))) by (rewrite map_map; apply map_ext; intros []; reflexivity).
    rewrite E in ND. apply NoDup_map_inv in ND. exact ND. }
  split.
  - unfold infoVal. constructor; [exact NDk|]. apply Forall_forall. intros [a v] I. cbn [snd]. apply (Each a v I).
  - unfold infoVal. split.
    + intros s I. inversion I as [|l x J1 J2|l x J1 J2|d' k x J1 J2]; subst. apply in_map_iff in J1 as ([a v] & E & J1). injection E as <- <-. destruct (Each a v J1) as [_ [_ [X _]]]. apply X. exact J2.
    + intros d' k x I J. inversion I as [|l y J1 J2|l y J1 J2|d'' k' y J1 J2]; subst.
      * apply in_map_iff in J as ([a v] & E & J). injection E as <- <-. exact (proj1 (Each a v J)).
      * apply in_map_iff in J1 as ([a v] & E & J1). injection E as <- <-. destruct (Each a v J1) as [_ [_ [_ X]]]. eapply X; eassumption.
Qed.
Lemma layerInfo_call info info0 prev d s' : dict_ok d -> (forall a v, storedInfo info a = Some v -> plistFaithful v) ->
  infoRead info0 (Dir (files d)) -> ((exists a, storedInfo info a <> None) \/ prev = true \/ forall a, storedInfo info0 a = None) ->
  writeLayerInfo C T 3 prev info true (mkUst (Dir (files d)) [] [] None) = (s', Ok tt) ->
  exists d', tree s' = Dir (files d') /\ dict_ok d' /\ (forall x, x <> nLayerinfo -> get x d' = get x d) /\ infoRead info (Dir (files d')).
Proof.
  intros D F Ri Em H. set (s := mkUst (Dir (files d)) [] [] None) in *. pose proof (C72_layer_info_partial C plistFaithful T prev s info (plist_codec_laws T R LT LR) (ex_intro _ (files d) eq_refl)) as (A & _ & _).
  destruct (gatherLayerInfo info) as [|x l] eqn:Eg.
  - pose proof (proj1 (stored_none info) Eg) as Non. unfold writeLayerInfo in H. change (3 <? 3)%Z with false in H. cbv iota in H. rewrite Eg in H. unfold mbind, getTree in H.
    unfold existsAt, remove in H. cbn [tree s] in H. rewrite find_top, get_files in H. destruct (get nLayerinfo d) as [b|] eqn:G; cbn [option_map] in H.
    + destruct prev; cbn [andb] in H.
      * apply (f_equal (fun x => tree (fst x))) in H. cbn [fst tree change cut] in H. exists (filter (fun e => negb (eqb nLayerinfo (fst e))) d). rewrite <- H, filter_files. split; [reflexivity|]. split; [apply dict_ok_filter; exact D|].
        split; [intros y N; rewrite get_filter_name; destruct (eqb_spec nLayerinfo y); [congruence|reflexivity]|]. apply infoRead_none; [|exact Non]. rewrite find_top, get_files, get_filter_name, eqb_refl. reflexivity.
      * destruct Em as [(a & Na)|[X|N0]]; [rewrite Non in Na; congruence|discriminate X|].
        apply (f_equal (fun x => tree (fst x))) in H. cbn [fst tree ret] in H. exists d. rewrite <- H. split; [reflexivity|]. split; [exact D|]. split; [reflexivity|].
        destruct Ri as (l & H1 & H2 & H3 & H4). exists l. split; [exact H1|]. split; [exact H2|]. split; [exact H3|]. intro a. specialize (H4 a). rewrite N0 in H4. rewrite Non. exact H4.
    + rewrite andb_false_r in H. apply (f_equal (fun x => tree (fst x))) in H. cbn [fst tree ret] in H. exists d. rewrite <- H. split; [reflexivity|]. split; [exact D|]. split; [reflexivity|].
      apply infoRead_none; [|exact Non]. rewrite find_top, get_files, G. reflexivity.
  - assert (Some_ : exists a, storedInfo info a <> None).
    { destruct x as [a v]. exists a. destruct (gather_spec info) as (_ & Gt & _). rewrite <- Gt, Eg. cbn [infoVal map items dget]. rewrite eqb_refl. discriminate. }
    assert (Fg : plistFaithful (infoVal (x :: l))) by (rewrite <- Eg; apply gatherLayer_faithful; exact F).
    destruct (A s' true H Some_ Fg) as (rl & H1 & H2 & H3 & H4).
    assert (W : exists b, tree s' = Dir (files (set nLayerinfo b d))).
    { unfold writeLayerInfo in H. change (3 <? 3)%Z with false in H. cbv iota in H. rewrite Eg in H. destruct (true && negb _); [discriminate H|].
      destruct (writePlist_es C prev _ _ s s' (files d) eq_refl H) as (b & _ & E & _). exists b. rewrite E, set_files. reflexivity. }
    destruct W as (b & W). exists (set nLayerinfo b d). split; [exact W|]. split; [apply dict_ok_set; exact D|]. split; [intros y N; apply get_set_other; exact N|].
    exists rl. rewrite <- W. split; [exact H1|]. split; [exact H2|]. split; [exact H3|]. intro a. specialize (H4 a). destruct (storedInfo info a), (dget a rl); first [exact H4|destruct H4].
Qed.
End Layer.
