(** C97: loading a UFO and saving it under another name. *)
From Coq Require Import String NArith ZArith Bool Lia List Permutation.
From Coq.Floats Require Import SpecFloat.
From Verif Require Import Base PyVal PyText FloatRepr LowerLaws Filenames FilenamesProofs PropFilenames GlyphSet GlyphSetProofs NamesApart PropGlyphSet.
From Verif Require Import Xml XmlClean FS FSProofs Validators ValidatorsProofs PropValidators Ufo UfoProofs PropUfo PropUfoFiles Plist PlistProofs PropPlist PropPlistLoaded Etree EtreeProofs PropEtree PlistFiles PointPen PropPointPen Glif GlifProofs GlifOutline GlifElements GlifRead GlifNotes GlifAccepted GlifAgain GlifFiles PropGlif PropGlifClean PropSession PropLayers FontInfoTables FontInfo FontInfoProofs PropFontInfo PropInfoFile Kerning KerningProofs Font FontProofs FontLayers FontData PropFont FontAccepts PropAccepts SaveAs.
Import ListNotations.
Local Open Scope string_scope.
Local Open Scope list_scope.
Local Notation world := GlyphSet.world.
Local Notation fetch := PropGlyphSet.fetch.
Local Notation dict_ok := Base.dict_ok.
Local Notation find := FS.find.

(** ** What is asked of the font, and when two fonts are the same *)
(** Texts that XML carries unchanged, integers that fit property lists,
    image names and data paths made of file names, and no more names than can be counted. *)
Record cleanUfo (f : ufont) : Prop := {
  cu_info : forall x v, setTo (uInfo f) x v -> plistFaithful v;
  cu_groups : plistFaithful (groupsVal (uGroups f));
  cu_kerning : forall a b v, In (a, b, v) (uKerning f) -> textOk a /\ textOk b /\ plistFaithful v;
  cu_lib : plistFaithful (PDict (uLib f));
  cu_images : forall n b, In (n, b) (uImages f) -> plainName n;
  cu_data : forall p b, In (p, b) (uData f) -> Forall plainName p;
  cu_few : fewNames (uLayers f);
  cu_layers : forall n glyphs info, In (n, (glyphs, info)) (uLayers f) -> textOk n /\ fewNames glyphs /\ forall x v, In (x, v) info -> plistFaithful v;
  cu_glyphs : forall n glyphs info g r, In (n, (glyphs, info)) (uLayers f) -> In (g, r) glyphs -> g <> [] /\ valOk g /\ cleanReading r }.
(** a glyph under the name of contents.plist *)
Definition underName (n : str) (r : greading) : greading := mkReading (set (u "name") (PStr n) (rattrs r)) (rcalls r).
Definition sameDict {K} `{Eqb K} {A} (same : K -> A -> A -> Prop) (d d' : list (K * A)) : Prop :=
  NoDup (map fst d') /\ forall k, match get k d, get k d' with Some v, Some w => same k v w | None, None => True | _, _ => False end.
(** an empty lib of a layer is like none *)
Definition sameLayerInfo (info info' : list (str * pyval)) : Prop :=
  forall a, match storedInfo info a, storedInfo info' a with Some v, Some w => psame v w | None, None => True | _, _ => False end.
Record sameUfo (T : pytext) (f f' : ufont) : Prop := {
  su_info : sameInfo T (uInfo f) (uInfo f');
  su_groups : psame (groupsVal (uGroups f)) (groupsVal (uGroups f'));
  su_kerning : Permutation (uKerning f') (uKerning f);
  su_lib : psame (PDict (uLib f)) (PDict (uLib f'));
  su_features : uFeatures f' = uFeatures f;
  su_images : sameDict (fun _ b b' => b' = b) (uImages f) (uImages f');
  su_data : sameDict (fun _ b b' => b' = b) (uData f) (uData f');
  su_default : uDefault f' = uDefault f;
  su_order : map fst (uLayers f') = map fst (uLayers f);
  su_layers : sameDict (fun _ '(glyphs, info) '(glyphs', info') =>
    sameDict (fun n r r' => sameReading (underName n r) r') glyphs glyphs' /\ sameLayerInfo info info') (uLayers f) (uLayers f') }.

(** ** Glyphs *)
Lemma grouped_points r i acc pts : grouped (map PAdd pts ++ r) (Some (i, acc)) = grouped r (Some (i, acc ++ pts)).
Proof. revert acc. induction pts as [|p pts IH]; intro acc; cbn [map app grouped]; [rewrite app_nil_r; reflexivity|]. rewrite IH, <- app_assoc. reflexivity. Qed.
Lemma grouped_drawing items : grouped (gdrawing items) None = items.
Proof.
  induction items as [|i items IH]; [reflexivity|]. unfold drawing in *. cbn [flat_map]. destruct i as [ident pts|b t ident]; cbn [callsOf app grouped theId]; [|rewrite IH; reflexivity].
  rewrite <- app_assoc, grouped_points. cbn [app grouped theId]. rewrite IH. reflexivity.
Qed.
Section Glyphs.
Variable T : pytext.
Hypothesis LT : pytext_laws T.
Variable R : spec_float -> str.
Hypothesis LR : repr_laws T R.
Variable ro : pyval -> str.
Lemma reading_storable r items name : accepted T r items -> cleanReading r -> valOk name -> storable name (rattrs r) (Some items).
Proof.
  intros Ac [Cc Cn Cno Ci Cg Ca Cl Clt] Vn. assert (Rd := accepted_readable T r items Ac Cl). destruct Rd as [Hw Hh Hi Hg Ha Hd Hl]. constructor; try assumption.
  - intros k d I Vh. apply Hi; [|exact Vh]. unfold transformationDefaults in I. cbn [In] in I. unfold transformationInfo. cbn [map fst In]. repeat (destruct I as [I|I]; [injection I as <- <-; tauto|]). destruct I.
  - intros v I. rewrite Forall_forall in Hg. split; [|intros k s0 E; eapply Cg; eassumption]. intros k K. apply (Hg v I). unfold guideNums. destruct K as [<-|[<-|[<-|[]]]]; cbn [In]; tauto.
  - intros v I. rewrite Forall_forall in Ha. split; [|intros k s0 E; eapply Ca; eassumption]. intros k K. apply (Ha v I). unfold anchorNums. destruct K as [<-|[<-|[]]]; cbn [In]; tauto.
  - intros l i E I. injection E as <-. assert (Ai := ac_items _ _ _ Ac). rewrite Forall_forall in Ai. destruct (rItem_good i (Ai i I)) as [A B]. split; [exact A|]. split; [exact B|]. eapply calls_text; [exact (ac_calls _ _ _ Ac)|exact Cc|exact I].
Qed.
Lemma under_attr n r k : u k <> u "name" -> attr (rattrs (underName n r)) k = attr (rattrs r) k.
Proof. intro N. unfold attr, underName. cbn [rattrs]. rewrite get_set_other by exact N. reflexivity. Qed.
Lemma reading_same r items name r' : accepted T r items -> sameGlyph (isSpace T) name (rattrs r) (Some items) r' -> sameReading (underName name r) r'.
Proof.
  intros Ac [Gn Gw Gh Gnu Gu Gnn Gno Gi Gg Ga Gl (items' & Gc & Gf)].
  constructor; rewrite ?under_attr by discriminate; try assumption; unfold underName; cbn [rattrs rcalls]; rewrite ?get_set_same; rewrite ?get_set_other by discriminate; try assumption.
  - rewrite Gc. eapply calls_same; [exact (ac_calls _ _ _ Ac)|exact Gf].
  - destruct (get (u "unicodes") (rattrs r)) as [v|] eqn:E; [|apply Gnu; unfold attr; rewrite E; reflexivity]. destruct (ac_unicodes _ _ _ Ac v E) as (zs & -> & ND & Ne). destruct zs as [|z zs]; [contradiction|]. rewrite (Gu z zs); [rewrite firsts_nodup by exact ND; reflexivity|]. unfold attr. rewrite E. reflexivity.
  - destruct (get (u "note") (rattrs r)) as [v|] eqn:E; [|left; apply Gnn; unfold attr; rewrite E; reflexivity]. destruct (ac_note _ _ _ Ac v E) as (s0 & ->). destruct (noteLines T s0) as [|c0 s1] eqn:N.
    + right. split; [|reflexivity]. apply Gnn. unfold attr. rewrite E. reflexivity.
    + left. destruct (Gno (c0 :: s1)) as (s' & -> & Ns); [unfold attr; rewrite E; reflexivity|discriminate|]. apply noteRead_fun in Ns. rewrite <- N in Ns. rewrite noteLines_idem, N in Ns. rewrite Ns. reflexivity.
Qed.
(** a glyph that was read: it can be stored, the writer accepts it, and what is read is the same *)
Lemma glyph_again v b0 r name : gsReadBytes T v true true true b0 = Ok r -> cleanReading r -> name <> [] -> valOk name ->
  storedAs 2 name (rattrs r) (Some (regroup (rcalls r))) /\
  (exists b, gsWriteBytes T R ro 3 (PStr name) (rattrs r) (Some (gdrawing (regroup (rcalls r)))) None true = Ok b) /\
  forall r', readsAs (isSpace T) 2 name (rattrs r) (Some (regroup (rcalls r))) r' -> sameReading (underName name r) r'.
Proof.
  intros Er Cr Nn Vn. unfold gsReadBytes, readGlyphBytes in Er. apply bind_Ok in Er as (f & _ & Er). destruct (readFormat_accepted T R LR true true _ f r eq_refl eq_refl Er) as (items & Ac).
  assert (E : regroup (rcalls r) = items) by (unfold regroup; rewrite (ac_calls _ _ _ Ac); apply grouped_drawing). rewrite E.
  pose proof (reading_storable r items name Ac Cr Vn) as S. assert (V := accepted_valid T r items Ac (cr_lib _ Cr)).
  split; [left; split; [reflexivity|exact S]|]. split.
  - destruct (read_write_read T LT R LR ro name (rattrs r) (gdrawing items) items Nn V S (asPassed_drawing items (ac_passed _ _ _ Ac)) (ac_passed _ _ _ Ac)) as (b & r' & Wb & _). exists b. exact Wb.
  - intros r' [H _]. eapply reading_same; [exact Ac|]. apply H. reflexivity.
Qed.
End Glyphs.

(** ** What loading makes sure of *)
Lemma decode_scalar b : forall s, utf8Decode b = Ok s -> Forall scalar s.
Proof.
  remember (length b) as n eqn:En. revert b En. induction n as [n IH] using lt_wf_ind. intros b En s E. destruct b as [|a r]; cbn [utf8Decode] in E; [injection E as <-; constructor|].
  assert (K : forall r' s' c, (length r' < n)%nat -> utf8Decode r' = Ok s' -> scalar c -> Forall scalar (c :: s')) by (intros r' s' c L D S; constructor; [exact S|eapply IH; [exact L|reflexivity|exact D]]).
  cbn [length] in En. unfold scalar in K.
  destruct (N.ltb_spec a 0x80); [apply bind_Ok in E as (s' & E' & E); injection E as <-; apply (K r); [lia|exact E'|left; lia]|].
  destruct (N.ltb_spec a 0xC2); [discriminate|]. destruct (N.ltb_spec a 0xE0).
  { destruct r as [|x r']; [discriminate|]. destruct (cont x) eqn:Cx; [|discriminate]. apply bind_Ok in E as (s' & E' & E). injection E as <-. cbn [length] in En. apply (K r'); [lia|exact E'|]. unfold cont in Cx. apply andb_prop in Cx as [C1 C2]. apply N.leb_le in C1. apply N.ltb_lt in C2. left. lia. }
  destruct (N.ltb_spec a 0xF0).
  { destruct r as [|x [|y r']]; [discriminate|discriminate|]. cbv zeta in E. match type of E with (if ?q then _ else _) = _ => destruct q eqn:Q; [|discriminate] end. apply bind_Ok in E as (s' & E' & E). injection E as <-. cbn [length] in En. apply (K r'); [lia|exact E'|].
    apply andb_prop in Q as [Q Q4]. apply andb_prop in Q as [Q Q3]. apply andb_prop in Q as [Q1 Q2]. unfold cont in Q1, Q2. apply andb_prop in Q1 as [A1 A2]. apply andb_prop in Q2 as [B1 B2]. apply N.leb_le in A1, B1, Q3. apply N.ltb_lt in A2, B2. apply negb_true_iff, andb_false_iff in Q4 as [Q4|Q4]; [apply N.leb_gt in Q4; left; exact Q4|apply N.ltb_ge in Q4; right]. lia. }
  destruct (N.ltb_spec a 0xF5); [|discriminate]. destruct r as [|x [|y [|z r']]]; [discriminate|discriminate|discriminate|]. cbv zeta in E. match type of E with (if ?q then _ else _) = _ => destruct q eqn:Q; [|discriminate] end. apply bind_Ok in E as (s' & E' & E). injection E as <-. cbn [length] in En. apply (K r'); [lia|exact E'|].
  apply andb_prop in Q as [Q Q4]. apply andb_prop in Q as [_ Q3]. apply N.leb_le in Q3. apply N.ltb_lt in Q4. right. lia.
Qed.
Lemma loaded_features t s : readFeatures t = Ok s -> exists b, utf8Encode s = Ok b.
Proof.
  unfold readFeatures. intro E. apply utf8_total. destruct (getbytes t [nFeatures]) as [b|[]]; try discriminate; [eapply decode_scalar; exact E|injection E as <-; constructor].
Qed.
Lemma set_2To3 d : forall acc c, convertData2To3 d acc = Ok c -> dict_ok acc -> dict_ok c.
Proof. induction d as [|[a v] d IH]; intros acc c E D; cbn [convertData2To3] in E; [injection E as <-; exact D|]. apply bind_Ok in E as (nv & _ & E). eapply IH; [exact E|]. apply dict_ok_set. exact D. Qed.
(** the data that readInfo validates *)
Definition infoToSet (T : pytext) (perm : list str -> list str) (v : Z) (data : pyval) : res (list (str * pyval)) :=
  if (v =? 1)%Z then do d <- convertData1To2 T (collect (perm fontInfoAttributesVersion1) data []) []; convertData2To3 d []
  else if (v =? 2)%Z then convertData2To3 (collect (fontInfoAttributesVersion2 T) data []) []
  else if (v =? 3)%Z then Ok (collect (fontInfoAttributesVersion3 T) data []) else Err NotImplementedError.
Lemma readInfo_sets T perm v data i : readInfo T perm v true data = Ok i -> exists c, infoToSet T perm v data = Ok c /\ dict_ok c /\ validateInfoVersion3Data T c = Ok i.
Proof.
  intro E. destruct (is_dict data) eqn:ID; [|unfold readInfo in E; rewrite ID in E; discriminate E]. unfold readInfo in E. rewrite ID in E. cbn [negb andb] in E. apply bind_Ok in E as (c & Ec & E). exists c. split; [exact Ec|]. split; [|exact E]. clear E.
  destruct (v =? 1)%Z; [apply bind_Ok in Ec as (d & _ & Ec); eapply set_2To3; [exact Ec|constructor]|]. destruct (v =? 2)%Z; [eapply set_2To3; [exact Ec|constructor]|]. destruct (v =? 3)%Z; [|discriminate Ec]. apply Ok_inj in Ec. rewrite <- Ec. apply collect_keys. constructor.
Qed.
Lemma loaded_info T perm v data i : readInfo T perm v true data = Ok i -> exists d, writeInfo T 3 true i = Ok d.
Proof.
  intro E. apply readInfo_sets in E as (c & _ & D & E). destruct (validate_3 T c i D E) as (-> & F).
  eexists. rewrite writeInfo_3. cbv zeta. apply validate_3_ok; [apply gather_ok|]. apply Forall_forall. intros [a x] I. apply In_get in I; [|apply gather_ok]. apply gather_get in I as (_ & G & _). rewrite Forall_forall in F. apply F. apply get_In. exact G.
Qed.
Lemma loaded_groups d g : groupsValidator (PDict d) = true -> asGroups d = Some g -> groupsValidator (groupsVal g) = true.
Proof.
  unfold groupsVal. cbn [groupsValidator]. generalize (@nil str) at 1 3 as a. generalize (@nil str) as b. revert g. induction d as [|[k v] d IH]; intros g a b H E; cbn [asGroups groupsLoop] in *; [injection E as <-; reflexivity|].
  destruct k as [| | | |n| | | | | |]; try discriminate E. destruct (is_seq v); [|discriminate E]. destruct (asGroups d) as [g'|]; [|discriminate E]. injection E as <-. cbn [map groupsLoop is_seq negb elems] in *. destruct n as [|c n]; [discriminate H|].
  destruct (startswith public_ (c :: n)); [|eapply IH; [exact H|reflexivity]]. destruct (negb _ && negb _); [eapply IH; [exact H|reflexivity]|]. destruct (Nat.eqb _ 13); [discriminate H|].
  destruct (startswith pkern1 (c :: n)); (destruct (memberLoop (elems v) _) as [l|]; [|discriminate H]); (eapply IH; [exact H|reflexivity]).
Qed.
Lemma asKerning_pairs k : asKerning (items (pairsVal k)) = Some k.
Proof. unfold pairsVal. cbn [items]. induction k as [|[[a b] v] k IH]; [reflexivity|]. cbn [map fst snd asKerning]. rewrite IH. reflexivity. Qed.
Lemma asInner_num inner i : asInner inner = Some i -> forallb (fun '(second, value) => is_str second && is_number value) inner = true -> forall b v, In (b, v) i -> is_number v = true.
Proof.
  revert i. induction inner as [|[k v] l IH]; intros i E F b x I; cbn [asInner forallb] in *; [injection E as <-; destruct I|]. apply andb_prop in F as [F1 F2]. destruct k; try discriminate E. destruct (asInner l); [|discriminate E]. injection E as <-.
  destruct I as [I|I]; [injection I as <- <-; apply andb_prop in F1; apply F1|eapply IH; [reflexivity|exact F2|exact I]].
Qed.
Lemma asNested_num d n : asNested d = Some n -> kerningValidator (PDict d) = true -> forall a i b v, In (a, i) n -> In (b, v) i -> is_number v = true.
Proof.
  unfold kerningValidator. cbn [is_dict items andb]. revert n. induction d as [|[k w] l IH]; intros n E F a i b v I J; cbn [asNested forallb] in *; [injection E as <-; destruct I|]. apply andb_prop in F as [F1 F2]. destruct k; try discriminate E. destruct w; try discriminate E.
  destruct (asInner _) as [i0|] eqn:Ei; [|discriminate E]. destruct (asNested l); [|discriminate E]. injection E as <-. destruct I as [I|I]; [injection I as <- <-|eapply IH; [reflexivity|exact F2|exact I|exact J]].
  apply andb_prop in F1 as [_ F1]. eapply asInner_num; [exact Ei|exact F1|exact J].
Qed.
Lemma flatten_src {V} (n : list (str * list (str * V))) : forall a b v, In (a, b, v) (flatten n) -> exists i, In (a, i) n /\ In (b, v) i.
Proof.
  unfold flatten. enough (A : forall acc a b v, In (a, b, v) (fold_left (fun (acc : list (str * str * V)) '(lft, rights) => fold_left (fun acc '(rgt, value) => set (lft, rgt) value acc) rights acc) n acc) -> In (a, b, v) acc \/ exists i, In (a, i) n /\ In (b, v) i) by (intros a b v I; destruct (A _ _ _ _ I) as [[]|H]; exact H).
  induction n as [|[x i] n IH]; intros acc a b v I; cbn [fold_left] in I; [auto|]. apply IH in I as [I|(j & I & J)]; [|right; exists j; split; [right; exact I|exact J]].
  assert (B : In (a, b, v) acc \/ (a = x /\ In (b, v) i)).
  { clear -I. revert acc I. induction i as [|[y z] i IHi]; intros acc I; cbn [fold_left] in I; [auto|]. apply IHi in I as [I|[E I]]; [|right; split; [exact E|right; exact I]].
    clear -I. induction acc as [|[k w] acc IHa]; cbn [set] in I; [destruct I as [I|[]]; injection I as <- <- <-; right; split; [reflexivity|left; reflexivity]|].
    destruct (eqb_spec (x, y) k) as [<-|]; destruct I as [I|I].
    - injection I as <- <- <-. right. split; [reflexivity|left; reflexivity].
    - left. right. exact I.
    - left. left. exact I.
    - destruct (IHa I) as [H|H]; [left; right; exact H|right; exact H]. }
  destruct B as [B|[-> B]]; [left; exact B|right]. exists i. split; [left; reflexivity|exact B].
Qed.
Section Load.
Variable T : pytext.
Hypothesis LT : pytext_laws T.
Variable R : spec_float -> str.
Hypothesis LR : repr_laws T R.
Notation C := (plistCodec T R).
Lemma loaded_kerning conv ver t cache v k : snd (readKerning C conv ver t cache true) = Ok v -> asKerning (items v) = Some k ->
  dict_ok k /\ (forall p x, In (p, x) k -> is_number x = true).
Proof.
  intros E A. unfold readKerning in E. match type of E with snd (let '(_, _) := ?q in _) = _ => destruct q as [c r] end. cbn [snd] in E. apply bind_Ok in E as (w & Ew & E). cbn [andb] in E. destruct (kerningValidator w) eqn:V; [|discriminate E]. cbn [negb] in E.
  destruct w; try discriminate E. cbn [items] in E. destruct (asNested _) as [n|] eqn:N; [|discriminate E]. injection E as <-. rewrite asKerning_pairs in A. injection A as <-. split; [apply dict_ok_flatten|].
  intros [a b] x I. destruct (flatten_src n a b x I) as (i & I1 & I2). eapply asNested_num; eassumption.
Qed.
Lemma loaded_layers v t l default : readLayersR C v t true = Ok l -> getDefaultLayerName C v t true = Ok default ->
  NoDup (map fst l) /\ In default (map fst l) /\ forall n, In n (map fst l) -> goodLayerName n (eqb n default).
Proof.
  intros E D. unfold getDefaultLayerName in D. rewrite E in D. cbn [bind] in D. unfold readLayersR in E. destruct (v <? 3)%Z.
  { injection E as <-. vm_compute in D. injection D as <-. cbn [map fst]. split; [constructor; [intros []|constructor]|]. split; [left; reflexivity|]. intros n [<-|[]]. split; [discriminate|reflexivity]. }
  apply bind_Ok in E as (raw & _ & E). apply bind_Ok in E as (okv & V & E). destruct okv; [|discriminate E].
  unfold layersValid in V. apply C30_layer_contents_rule in V as (ps & -> & N1 & N2 & _ & G). cbn [elems] in E.
  assert (P : asPairs (map (fun nd => PList [PStr (fst nd); PStr (snd nd)]) ps) = Some ps).
  { clear. induction ps as [|[n d] ps IH]; [reflexivity|]. cbn [map fst snd asPairs]. rewrite IH. reflexivity. }
  rewrite P in E. injection E as <-. split; [exact N1|].
  assert (Df : forall l, defaultName l = Ok default -> In (default, u "glyphs") l).
  { clear. induction l as [|[n d] l IH]; cbn [defaultName]; [discriminate|]. destruct (eqb_spec d nGlyphs) as [->|]; [intro E; injection E as <-; left; reflexivity|right; auto]. }
  pose proof (Df _ D) as Id. split; [apply in_map_iff; exists (default, u "glyphs"); split; [reflexivity|exact Id]|].
  intros n I. apply in_map_iff in I as ([n' d] & <- & I). cbn [fst]. destruct (G n' d I) as (Nn & _ & _ & Pd). split; [exact Nn|]. intro E. apply Pd in E. subst d.
  destruct (eqb_spec n' default) as [|Ne]; [reflexivity|]. exfalso. apply Ne. clear -N2 I Id. induction ps as [|[a b] ps IH]; [destruct I|]. inversion N2 as [|? ? H1 H2]; subst.
  destruct I as [I|I], Id as [J|J].
  - congruence.
  - injection I as -> ->. exfalso. apply H1. apply in_map_iff. eexists. split; [|exact J]. reflexivity.
  - injection J as -> ->. exfalso. apply H1. apply in_map_iff. eexists. split; [|exact I]. reflexivity.
  - auto.
Qed.
(** a layer that was loaded *)
Record layerLoaded (glyphs : list (str * greading)) (info : list (str * pyval)) : Prop := {
  ll_names : NoDup (map fst glyphs);
  ll_glyphs : forall g r, In (g, r) glyphs -> exists v b, gsReadBytes T v true true true b = Ok r;
  ll_info : forall a v, storedInfo info a = Some v -> if eqb a (u "color") then colorValidator T v = true else is_dict v = true }.
Lemma mapM_pairs_fst {K A} (f : K -> res (K * A)) l ys : (forall x y, f x = Ok y -> fst y = x) -> mapM f l = Ok ys -> map fst ys = l.
Proof.
  intros H E. apply mapM_Forall2 in E. induction E as [|x y l ys E F IH]; [reflexivity|]. cbn [map]. rewrite IH, (H _ _ E). reflexivity.
Qed.
Lemma mapM_In {A B} (f : A -> res B) l ys y : mapM f l = Ok ys -> In y ys -> exists x, In x l /\ f x = Ok y.
Proof. intros E I. apply mapM_Forall2 in E. induction E as [|x z l ys E F IH]; [destruct I|]. destruct I as [->|I]; [exists x; split; [left; reflexivity|exact E]|]. destruct (IH I) as (x' & I' & E'). exists x'. split; [right; exact I'|exact E']. Qed.
Lemma asInner_get l i a : asInner l = Some i -> forall v, get a i = Some v -> In (PStr a, v) l.
Proof.
  revert i. induction l as [|[k w] l IH]; intros i E v G; cbn [asInner] in E; [injection E as <-; discriminate G|]. destruct k; try discriminate E. destruct (asInner l) as [i'|]; [|discriminate E]. injection E as <-. cbn [get] in G.
  destruct (eqb_spec a s) as [->|]; [injection G as <-; left; reflexivity|right; eapply IH; [reflexivity|exact G]].
Qed.
Lemma openLayer_ok v t layer n w : openLayerOf T R v t layer = Ok (n, w) -> openSet (fun f => f) (contentsLoads T) (filesIn n) = (w, Ok tt).
Proof.
  unfold openLayerOf. intro E. apply bind_Ok in E as ([d x] & _ & E). apply bind_Ok in E as (p & _ & E). destruct (find t p) as [m|]; [|discriminate E]. destruct (openSet _ _ (filesIn m)) as [w' [[]|e]] eqn:O; [|discriminate E]. injection E as <- <-. exact O.
Qed.
Lemma loaded_layer v t name y : loadLayer T R v t name = Ok y -> fst y = name /\ layerLoaded (fst (snd y)) (snd (snd y)).
Proof.
  unfold loadLayer. intro E. apply bind_Ok in E as ([n w] & Eo & E). apply bind_Ok in E as (gl & Eg & E). apply bind_Ok in E as (l & El & E). apply bind_Ok in E as (info & Ei & E). injection E as <-. split; [reflexivity|]. cbn [fst snd].
  apply openLayer_ok in Eo. apply (openSet_spec (fun f => f) (fun f => f) _ _ _ (contents_codec_laws T R LT LR)) in Eo as (_ & _ & _ & c & _ & Ec & Dc & _). constructor.
  - assert (F : map fst gl = keys (contents (gs w))) by (eapply mapM_pairs_fst; [|exact Eg]; intros x y H; apply bind_Ok in H as (r & _ & H); injection H as <-; reflexivity).
    rewrite F, Ec. exact Dc.
  - intros g r I. destruct (mapM_In _ _ _ _ Eg I) as (g' & _ & E). apply bind_Ok in E as (r' & E & X). injection X as <- <-. unfold readGlyphOf in E. apply bind_Ok in E as (b & _ & E). eauto.
  - intros a av S. unfold readLayerInfo in El. apply bind_Ok in El as (d & _ & El). assert (O : layerInfoOk T l = true) by (destruct d as [| | | | | | | | |d|]; try discriminate El; destruct (layerInfoOk T d) eqn:O; [|discriminate El]; injection El as <-; exact O). destruct (asInner l) as [i|] eqn:A; [|discriminate Ei]. injection Ei as <-.
    unfold storedInfo in S. destruct (get a i) as [x|] eqn:G; [|discriminate S]. pose proof (asInner_get _ _ _ A _ G) as I. unfold layerInfoOk in O. rewrite forallb_forall in O. specialize (O _ I). cbv beta iota in O.
    destruct (eqb a (u "color")) eqn:Ea.
    + destruct x; try discriminate S; injection S as <-; exact O.
    + destruct (eqb a (u "lib")); [|discriminate O]. cbn [andb] in S. destruct x; try discriminate S; try discriminate O. destruct (truthy _); [|discriminate S]. injection S as <-. reflexivity.
Qed.
Record fontLoaded (f : ufont) : Prop := {
  fl_info : exists d, writeInfo T 3 true (uInfo f) = Ok d;
  fl_groups : groupsValidator (groupsVal (uGroups f)) = true;
  fl_kerning : dict_ok (uKerning f) /\ forall p x, In (p, x) (uKerning f) -> is_number x = true;
  fl_lib : fontLibValidator (PDict (uLib f)) = true;
  fl_features : exists b, utf8Encode (uFeatures f) = Ok b;
  fl_images : forall n b, In (n, b) (uImages f) -> pngValidator b = true /\ get n (uImages f) = Some b;
  fl_data : forall p b, In (p, b) (uData f) -> p <> [] /\ get p (uData f) = Some b /\
    (Forall plainName p -> forall q x, In (q, x) (uData f) -> Forall plainName q -> below q p \/ below p q -> q = p);
  fl_names : NoDup (map fst (uLayers f));
  fl_default : In (uDefault f) (map fst (uLayers f));
  fl_good : forall n, In n (map fst (uLayers f)) -> goodLayerName n (eqb n (uDefault f));
  fl_layers : forall n glyphs info, In (n, (glyphs, info)) (uLayers f) -> layerLoaded glyphs info }.
Lemma loaded p p' t f : loadUfo T R p p' t = Ok f -> fontLoaded f.
Proof.
  intro E. unfold loadUfo in E. apply bind_Ok in E as (v & _ & E).
  apply bind_Ok in E as (ri & _ & E). apply bind_Ok in E as (info & Ei & E). destruct (readGroups _ _ _ _ _ _) as [cache g0] eqn:Rg. apply bind_Ok in E as (g & Eg & E). apply bind_Ok in E as (gr & Egr & E). apply bind_Ok in E as (k & Ek & E). apply bind_Ok in E as (ke & Eke & E). apply bind_Ok in E as (lib & El & E). apply bind_Ok in E as (fe & Ef & E).
  apply bind_Ok in E as (ims & _ & E). apply bind_Ok in E as (im & Eim & E). apply bind_Ok in E as (dt & Edt & E). apply bind_Ok in E as (names & En & E). apply bind_Ok in E as (df & Ed & E). apply bind_Ok in E as (ly & Ely & E). injection E as <-.
  unfold getLayerNames in En. apply bind_Ok in En as (lr & Er & En). injection En as <-. destruct (loaded_layers _ _ _ _ Er Ed) as (L1 & L2 & L3).
  assert (Ln : map fst ly = map fst lr) by (eapply mapM_pairs_fst; [|exact Ely]; intros x y H; apply loaded_layer in H; apply H).
  constructor; cbn [uInfo uGroups uKerning uLib uFeatures uImages uData uLayers uDefault]; rewrite ?Ln; try assumption.
  - eapply loaded_info. exact Ei.
  - unfold readGroups in Rg. match type of Rg with (let '(_, _) := ?q in _) = _ => destruct q as [c0 r0] end. apply pair_equal_spec in Rg as [_ Rg]. rewrite <- Rg in Eg. apply bind_Ok in Eg as (w & _ & Eg). cbn [andb] in Eg. destruct (groupsValidator w) eqn:V; [|discriminate Eg]. injection Eg as <-. destruct w as [| | | | | | | | |dw|]; try discriminate V. cbn [items] in Egr. destruct (asGroups dw) eqn:A; [|discriminate Egr]. injection Egr as <-. eapply loaded_groups; eassumption.
  - destruct (asKerning (items k)) eqn:A; [|discriminate Eke]. injection Eke as <-. eapply loaded_kerning; eassumption.
  - unfold Ufo.readLib in El. apply bind_Ok in El as (w & _ & El). cbn [andb] in El. destruct (fontLibValidator w) eqn:V; [|discriminate El]. injection El as <-. destruct w; try discriminate V. exact V.
  - eapply loaded_features. exact Ef.
  - intros n b I. assert (K : forall n b, In (n, b) im -> Ufo.readImage v t n true = Ok b).
    { intros n0 b0 I0. destruct (mapM_In _ _ _ _ Eim I0) as (x & _ & X). apply bind_Ok in X as (b1 & X & Y). injection Y as -> ->. exact X. }
    pose proof (K _ _ I) as Kb. split.
    + unfold Ufo.readImage in Kb. destruct (v <? 3)%Z; [discriminate Kb|]. destruct (find t [nImages]) as [[?|es]|]; try discriminate Kb. apply bind_Ok in Kb as (cs & _ & Kb). destruct (getbytes _ cs) as [data|]; [|discriminate Kb]. cbn [andb] in Kb. destruct (pngValidator data) eqn:V; [|discriminate Kb]. injection Kb as <-. exact V.
    + destruct (get n im) as [b'|] eqn:G; [apply get_In in G; apply K in G; congruence|]. apply get_None in G. exfalso. apply G. apply in_map_iff. exists (n, b). auto.
  - intros p0 b I. assert (K : forall p b, In (p, b) dt -> In p (getDataDirectoryListing t) /\ readBytesFromPath t (dataPath p) = Ok (Some b)).
    { intros q x J. destruct (mapM_In _ _ _ _ Edt J) as (y & Iy & X). apply bind_Ok in X as (o & X & Y). apply bind_Ok in Y as (b1 & Y & Z). injection Z as -> ->. destruct o; [|discriminate Y]. injection Y as ->. auto. }
    assert (F : forall p b, In (p, b) dt -> Forall plainName p -> find t (nData :: p) = Some (File b)).
    { intros q x J Fq. destruct (K _ _ J) as [_ X]. unfold readBytesFromPath in X. rewrite (dataPath_components q Fq) in X. cbn [bind] in X. unfold getbytes in X. destruct (find t (nData :: q)) as [[]|]; try discriminate X. injection X as ->. reflexivity. }
    destruct (K _ _ I) as [Il Kb]. split; [|split].
    + intros ->. unfold getDataDirectoryListing in Il. destruct (find t [nData]) as [[|es]|]; try contradiction Il. clear -Il. cbn [walkFiles] in Il. induction es as [|[k m] es IH]; [destruct Il|]. apply in_app_or in Il as [Il|Il]; [apply in_map_iff in Il as (? & X & _); discriminate X|exact (IH Il)].
    + destruct (get p0 dt) as [b'|] eqn:G; [apply get_In in G; apply K in G as [_ G]; congruence|]. apply get_None in G. exfalso. apply G. apply in_map_iff. exists (p0, b). auto.
    + intros Fp q x J Fq B. pose proof (F _ _ I Fp) as X. pose proof (F _ _ J Fq) as Y.
      assert (Pre : forall q p y x, find t (nData :: q) = Some (File y) -> find t (nData :: p) = Some (File x) -> below q p -> q = p).
      { clear. intros q p y x A B (r & ->). change (nData :: q ++ r) with ((nData :: q) ++ r) in B. rewrite find_app, A in B. destruct r; [symmetry; apply app_nil_r|discriminate B]. }
      destruct B as [B|B]; [eapply Pre; eassumption|symmetry; eapply Pre; eassumption].
  - intros n gl li I. destruct (mapM_In _ _ _ _ Ely I) as (x & _ & X). apply loaded_layer in X. apply X.
Qed.
End Load.

(** ** The actions of saving *)
Definition storedGlyph (r : greading) : stored := (rattrs r, Some (regroup (rcalls r)), None).
Definition memLayer (l : str * (list (str * greading) * list (str * pyval))) : str * layerMem :=
  let '(n, (glyphs, info)) := l in (n, mkLayer (map (fun '(g, r) => (g, storedGlyph r)) glyphs) info false).
Definition imagesOf (f : ufont) : list (str * bytes) := fold_left (fun d '(n, b) => set n b d) (uImages f) [].
Definition dataOf (f : ufont) : list (path * bytes) := fold_left (fun d '(p, b) => set p b d) (uData f) [].
Definition memOf (f : ufont) : font :=
  mkFont (uInfo f) (uGroups f) (uKerning f) (uLib f) (uFeatures f) (imagesOf f) (dataOf f) (map memLayer (uLayers f)) (Some (uDefault f)) false.
Lemma get_last {A} (n : str) (a : A) P : ~ In n (map fst P) -> get n (P ++ [(n, a)]) = Some a.
Proof. induction P as [|[k v] P IH]; intro N; cbn [app get]; [rewrite eqb_refl; reflexivity|]. destruct (eqb_spec n k) as [->|]; [exfalso; apply N; left; reflexivity|]. apply IH. intro I. apply N. right. exact I. Qed.
Lemma set_last {A} (n : str) (a b : A) P : ~ In n (map fst P) -> set n b (P ++ [(n, a)]) = P ++ [(n, b)].
Proof. induction P as [|[k v] P IH]; intro N; cbn [app set]; [rewrite eqb_refl; reflexivity|]. destruct (eqb_spec n k) as [->|]; [exfalso; apply N; left; reflexivity|]. rewrite IH; [reflexivity|]. intro I. apply N. right. exact I. Qed.
Lemma set_none {A} (n : str) (a : A) P : ~ In n (map fst P) -> set n a P = P ++ [(n, a)].
Proof. induction P as [|[k v] P IH]; intro N; cbn [app set]; [reflexivity|]. destruct (eqb_spec n k) as [->|]; [exfalso; apply N; left; reflexivity|]. rewrite IH; [reflexivity|]. intro I. apply N. right. exact I. Qed.
Lemma memLayer_fst l : map fst (map memLayer l) = map fst l.
Proof. rewrite map_map. apply map_ext. intros [n [g i]]. reflexivity. Qed.

Lemma stored_In info x v : storedInfo info x = Some v -> In (x, v) info.
Proof.
  unfold storedInfo. destruct (get x info) as [w|] eqn:E; [|discriminate]. intro H. assert (v = w) as ->; [|exact (get_In x w info E)].
  destruct (eqb x (u "color")); [destruct w; congruence|]. destruct (eqb x (u "lib") && truthy w); destruct w; congruence.
Qed.

Lemma nest_nonempty {V} (k : list (str * str * V)) a i : In (a, i) (nest k) -> i <> [].
Proof.
  unfold nest. assert (A : forall (l : list (str * str * V)) d, (forall a i, In (a, i) d -> i <> []) -> forall a i, In (a, i) (fold_left (fun d '((lft, rgt), value) => let inner := match get lft d with Some i => i | None => [] end in set lft (set rgt value inner) d) l d) -> i <> []).
  { clear. induction l as [|[[x y] v] l IH]; intros d H a i I; cbn [fold_left] in I; [eapply H; exact I|]. eapply IH; [|exact I]. clear -H. intros a i I. cbn zeta in I. set (j := set y v _) in I. assert (Nj : j <> []) by (unfold j; generalize (match get x d with Some i => i | None => [] end); intros [|[q w] r]; cbn [set]; [discriminate|destruct (eqb y q); discriminate]).
    clearbody j. induction d as [|[q w] d IHd]; cbn [set] in I; [destruct I as [I|[]]; apply pair_equal_spec in I as [_ <-]; exact Nj|]. destruct (eqb x q); (destruct I as [I|I]; [apply pair_equal_spec in I as [<- <-]|]).
    - exact Nj.
    - eapply H. right. exact I.
    - eapply H. left. reflexivity.
    - apply IHd; [|exact I]. intros a' i' I'. eapply H. right. exact I'. }
  apply A. intros ? ? [].
Qed.

Section Save.
Variable T : pytext.
Hypothesis LT : pytext_laws T.
Variable R : spec_float -> str.
Hypothesis LR : repr_laws T R.
Variable ro : pyval -> str.
Notation C := (plistCodec T R).
Definition onlyWrites (a : faction) : bool := match a with ADelete _ | ARename _ _ _ | AReopen _ => false | _ => true end.
Definition covered (m : font) (o : list str) : Prop := forall n, get n (fLayers m) <> None -> In n o.
Lemma covered_after m o a : onlyWrites a = true -> covered m o -> covered (fremember m a) (openAfter m o a).
Proof.
  intros W C n H.
  assert (On : forall layer (f : layerMem -> layerMem), get n (onMem layer f m) <> None -> In n o).
  { intros layer f Hn. apply C. intro X. apply Hn. unfold onMem. destruct (get layer (fLayers m)) eqn:G; [|exact X]. rewrite get_set. destruct (eqb_spec n layer); [congruence|exact X]. }
  destruct a as [?|?|?|?|?|? ?|?|? ?|?|name df|layer ? ? ? ?|layer ?|layer ?|?|? ? ?|?|?]; try discriminate W; cbn [openAfter]; try (apply C; destruct m; exact H); try (destruct m; eapply On; exact H).
  destruct (eqb_spec n (fKey m name)) as [->|N]; [left; reflexivity|right]. apply C. intro X. apply H. destruct m as [i g k l ft im dt ly d p]. cbn [fremember]. unfold withLayers. cbn [fLayers] in *.
  destruct (has _ ly); [exact X|]. rewrite get_set_other; assumption.
Qed.
Fixpoint fine (m : font) (l : list faction) : Prop :=
  match l with [] => True | a :: r => allowedIn textOk m a /\ onlyWrites a = true /\ (forall o, covered m o -> acceptedIn T R ro m o a) /\ fine (fremember m a) r end.
Lemma fine_gives l : forall m, fine m l -> allowedAll textOk m l /\ forall o, covered m o -> acceptedAll T R ro m o l.
Proof.
  induction l as [|a l IH]; intros m F; [split; [exact Logic.I|intros o _; exact Logic.I]|]. destruct F as (A & W & B & F). destruct (IH _ F) as [X Y].
  split; [split; assumption|]. intros o C. split; [apply B; exact C|]. apply Y. apply covered_after; assumption.
Qed.
Lemma fine_app a : forall b m, fine m a -> fine (fold_left fremember a m) b -> fine m (a ++ b).
Proof. induction a as [|x a IH]; intros b m Ha Hb; [exact Hb|]. destruct Ha as (A & W & B & F). split; [exact A|]. split; [exact W|]. split; [exact B|]. apply IH; assumption. Qed.
Lemma fine_cons m a l : allowedIn textOk m a -> onlyWrites a = true -> (forall o, covered m o -> acceptedIn T R ro m o a) -> fine (fremember m a) l -> fine m (a :: l).
Proof. intros A W B F. split; [exact A|]. split; [exact W|]. split; [exact B|exact F]. Qed.
Lemma fine_one m a : allowedIn textOk m a -> onlyWrites a = true -> (forall o, covered m o -> acceptedIn T R ro m o a) -> fine m [a].
Proof. intros A W B. apply fine_cons; [exact A|exact W|exact B|exact Logic.I]. Qed.

Lemma fine_images im : forall i g k l ft im0 dt ly d p, (forall n b, In (n, b) im -> plainName n /\ pngValidator b = true) ->
  let m := mkFont i g k l ft im0 dt ly d p in
  fine m (map (fun '(n, b) => AImage n b) im) /\ fold_left fremember (map (fun '(n, b) => AImage n b) im) m = mkFont i g k l ft (fold_left (fun d '(n, b) => set n b d) im im0) dt ly d p.
Proof.
  induction im as [|[n b] im IH]; intros i g k l ft im0 dt ly d p H; cbn zeta; cbn [map fold_left]; [split; [exact Logic.I|reflexivity]|].
  destruct (IH i g k l ft (set n b im0) dt ly d p) as [A B]; [intros n' b' I; apply H; right; exact I|]. destruct (H n b (or_introl eq_refl)) as [P V]. split; [|exact B]. apply fine_cons; [exact P|reflexivity|intros o _; exact V|exact A].
Qed.
Lemma fine_data dt : forall i g k l ft im dt0 ly d p, (forall q b, In (q, b) dt -> q <> [] /\ Forall plainName q) ->
  (forall q b q' b', In (q, b) dt -> In (q', b') dt -> below q' q \/ below q q' -> q' = q) -> (forall q b q' x, In (q, b) dt -> get q' dt0 = Some x -> below q' q \/ below q q' -> q' = q) ->
  let m := mkFont i g k l ft im dt0 ly d p in
  fine m (map (fun '(q, b) => AData q b) dt) /\ fold_left fremember (map (fun '(q, b) => AData q b) dt) m = mkFont i g k l ft im (fold_left (fun d '(q, b) => set q b d) dt dt0) ly d p.
Proof.
  induction dt as [|[q b] dt IH]; intros i g k l ft im dt0 ly d p H H1 H2; cbn zeta; cbn [map fold_left]; [split; [exact Logic.I|reflexivity]|].
  destruct (IH i g k l ft im (set q b dt0) ly d p) as [A B].
  - intros q' b' I. eapply H. right. exact I.
  - intros q1 b1 q2 b2 I1 I2. eapply H1; right; eassumption.
  - intros q1 b1 q2 x I G. rewrite get_set in G. destruct (eqb_spec q2 q) as [->|]; [eapply H1; [right; exact I|left; reflexivity]|eapply H2; [right; exact I|exact G]].
  - split; [|exact B]. apply fine_cons; [eapply H; left; reflexivity|reflexivity| |exact A]. cbn [acceptedIn fData]. intros o _ q' x G. eapply H2; [left; reflexivity|exact G].
Qed.
Lemma fine_glyphs n gl : forall i g k l ft im dt Pl G d p, ~ In n (map fst Pl) -> NoDup (map fst gl) -> (forall x, In x (map fst gl) -> ~ In x (map fst G)) -> fewNames (G ++ map (fun '(g, r) => (g, storedGlyph r)) gl) ->
  (forall x r, In (x, r) gl -> x <> [] /\ valOk x /\ cleanReading r /\ exists v b, gsReadBytes T v true true true b = Ok r) ->
  let m G := mkFont i g k l ft im dt (Pl ++ [(n, mkLayer G [] false)]) d p in
  let a := map (fun '(x, r) => AGlyph n x (rattrs r) (Some (regroup (rcalls r))) None) gl in
  fine (m G) a /\ fold_left fremember a (m G) = m (G ++ map (fun '(g, r) => (g, storedGlyph r)) gl).
Proof.
  induction gl as [|[x r] gl IH]; intros i g k l ft im dt Pl G d p Nn Nd Dj Fw H; cbn zeta; cbn [map fold_left]; [rewrite app_nil_r; split; [exact Logic.I|reflexivity]|].
  inversion Nd as [|? ? N1 N2]; subst. destruct (H x r (or_introl eq_refl)) as (Nx & Vx & Cx & v0 & b0 & Er). destruct (glyph_again T LT R LR ro v0 b0 r x Er Cx Nx Vx) as (St & Wr & _).
  assert (Rm : fremember (mkFont i g k l ft im dt (Pl ++ [(n, mkLayer G [] false)]) d p) (AGlyph n x (rattrs r) (Some (regroup (rcalls r))) None) = mkFont i g k l ft im dt (Pl ++ [(n, mkLayer (G ++ [(x, storedGlyph r)]) [] false)]) d p).
  { cbn [fremember]. unfold withLayers, onMem. cbn [fInfo fGroups fKerning fLib fFeatures fImages fData fLayers fPrev]. rewrite get_last by exact Nn. cbn [lGlyphs lInfo lPrev]. rewrite set_last by exact Nn. f_equal. f_equal. f_equal. f_equal. f_equal.
    apply set_none. apply Dj. left. reflexivity. }
  assert (E : G ++ (x, storedGlyph r) :: map (fun '(g, r) => (g, storedGlyph r)) gl = (G ++ [(x, storedGlyph r)]) ++ map (fun '(g, r) => (g, storedGlyph r)) gl) by (rewrite <- app_assoc; reflexivity).
  destruct (IH i g k l ft im dt Pl (G ++ [(x, storedGlyph r)]) d p) as [A B].
  - exact Nn.
  - exact N2.
  - intros y I J. rewrite map_app in J. apply in_app_or in J as [J|[J|[]]]; [apply (Dj y); [right; exact I|exact J]|]. cbn [fst] in J. subst y. contradiction.
  - rewrite <- E. exact Fw.
  - intros y q I. apply H. right. exact I.
  - rewrite Rm, E. split; [|exact B]. apply fine_cons; [|reflexivity| |rewrite Rm; exact A].
    + split; [apply Vx|exact St].
    + intros o Co. split; [apply Co; cbn [fLayers]; rewrite get_last by exact Nn; discriminate|]. split; [|split; [exact Nx|exact Wr]]. exists (mkLayer G [] false). cbn [fLayers]. split; [apply get_last; exact Nn|]. cbn [lGlyphs]. unfold fewNames in *. rewrite app_length in Fw. lia.
Qed.
Lemma fine_layers dn ly : forall i g k l ft im dt Pl d, NoDup (map fst (Pl ++ ly)) -> fewNames (Pl ++ ly) -> (In dn (map fst Pl) -> d = Some dn) -> (~ In dn (map fst Pl) -> d = None) ->
  (forall n, In n (map fst ly) -> goodLayerName n (eqb n dn)) ->
  (forall n glyphs info, In (n, (glyphs, info)) ly -> textOk n /\ fewNames glyphs /\ (forall x v, In (x, v) info -> plistFaithful v)) ->
  (forall n glyphs info x r, In (n, (glyphs, info)) ly -> In (x, r) glyphs -> x <> [] /\ valOk x /\ cleanReading r) ->
  (forall n glyphs info, In (n, (glyphs, info)) ly -> layerLoaded T glyphs info) ->
  let m := mkFont i g k l ft im dt (map memLayer Pl) d false in
  let a := flat_map (saveLayer dn) ly in
  fine m a /\ fold_left fremember a m = mkFont i g k l ft im dt (map memLayer (Pl ++ ly)) (if mem dn (map fst ly) then Some dn else d) false.
Proof.
  induction ly as [|[n [gl li]] ly IH]; intros i g k l ft im dt Pl d Nd Fw Di Dn Gd Cl Cg Ld; cbn zeta; cbn [flat_map fold_left map fst]; [rewrite app_nil_r; split; [exact Logic.I|reflexivity]|].
  assert (Nn : ~ In n (map fst Pl)).
  { rewrite map_app in Nd. cbn [map fst] in Nd. apply NoDup_remove_2 in Nd. intro I. apply Nd. apply in_or_app. left. exact I. }
  assert (Nl : ~ In n (map fst ly)).
  { rewrite map_app in Nd. cbn [map fst] in Nd. apply NoDup_remove_2 in Nd. intro I. apply Nd. apply in_or_app. right. exact I. }
  assert (Nm : ~ In n (map fst (map memLayer Pl))) by (rewrite memLayer_fst; exact Nn).
  destruct (Cl n gl li (or_introl eq_refl)) as (Tn & Fg & Pi). destruct (Ld n gl li (or_introl eq_refl)) as [LN LG LI].
  set (d' := if eqb n dn then Some n else d).
  assert (R1 : fremember (mkFont i g k l ft im dt (map memLayer Pl) d false) (ALayer (Some n) (eqb n dn)) = mkFont i g k l ft im dt (map memLayer Pl ++ [(n, mkLayer [] [] false)]) d' false).
  { cbn [fremember fKey]. unfold withLayers. cbn [fInfo fGroups fKerning fLib fFeatures fImages fData fPrev]. assert (Hh : has n (map memLayer Pl) = false) by (unfold has; rewrite (proj2 (get_None n (map memLayer Pl))); [reflexivity|exact Nm]). rewrite Hh, set_none by exact Nm. reflexivity. }
  destruct (fine_glyphs n gl i g k l ft im dt (map memLayer Pl) [] d' false) as [A B].
  - exact Nm.
  - exact LN.
  - intros x _ [].
  - cbn [app]. unfold fewNames in *. rewrite map_length. exact Fg.
  - intros x r I. destruct (Cg n gl li x r (or_introl eq_refl) I) as (H1 & H2 & H3). split; [exact H1|]. split; [exact H2|]. split; [exact H3|]. exact (LG x r I).
  - cbn [app] in B. set (gs' := map (fun '(g, r) => (g, storedGlyph r)) gl) in *.
    assert (R2 : fremember (mkFont i g k l ft im dt (map memLayer Pl ++ [(n, mkLayer gs' [] false)]) d' false) (ALayerInfo n li) = mkFont i g k l ft im dt (map memLayer (Pl ++ [(n, (gl, li))])) d' false).
    { cbn [fremember]. unfold withLayers, onMem. cbn [fInfo fGroups fKerning fLib fFeatures fImages fData fLayers fPrev]. rewrite get_last by exact Nm. cbn [lGlyphs lInfo lPrev]. rewrite set_last by exact Nm. rewrite map_app. reflexivity. }
    destruct (IH i g k l ft im dt (Pl ++ [(n, (gl, li))]) d') as [A3 B3].
    + rewrite <- app_assoc. exact Nd.
    + unfold fewNames in *. rewrite <- app_assoc. exact Fw.
    + rewrite map_app, in_app_iff. cbn [map fst In]. unfold d'. destruct (eqb_spec n dn) as [->|N]; [reflexivity|]. intros [I|[I|[]]]; [auto|congruence].
    + rewrite map_app, in_app_iff. cbn [map fst In]. unfold d'. destruct (eqb_spec n dn) as [->|N]; [intro X; exfalso; apply X; right; left; reflexivity|]. intro X. apply Dn. intro I. apply X. left. exact I.
    + intros n' I. apply Gd. right. exact I.
    + intros n' gl' li' I. apply (Cl n' gl' li'). right. exact I.
    + intros n' gl' li' x r I. apply (Cg n' gl' li'). right. exact I.
    + intros n' gl' li' I. apply (Ld n' gl' li'). right. exact I.
    + cbn [saveLayer]. rewrite !fold_left_app. cbn [fold_left]. rewrite R1, fold_left_app, B. cbn [fold_left]. rewrite R2, B3, <- app_assoc. split.
      2: { cbn [app]. f_equal. unfold d', mem. cbn [existsb]. destruct (eqb_spec dn n) as [->|N]; [rewrite eqb_refl; cbn [orb]; destruct (existsb (eqb n) (map fst ly)); reflexivity|]. destruct (eqb_spec n dn) as [->|_]; [contradiction|]. reflexivity. }
      change (fine (mkFont i g k l ft im dt (map memLayer Pl) d false) ([ALayer (Some n) (eqb n dn)] ++ ((map (fun '(x, r) => AGlyph n x (rattrs r) (Some (regroup (rcalls r))) None) gl ++ [ALayerInfo n li]) ++ flat_map (saveLayer dn) ly))).
      apply fine_app; [apply fine_one|].
      * split; [apply Gd; left; reflexivity|exact Tn].
      * reflexivity.
      * intros o _. split; [left; discriminate|]. left. cbn [fKey fLayers fDefault]. split; [apply get_None; exact Nm|]. split.
        -- unfold fewNames in *. rewrite map_length. rewrite app_length in Fw. cbn [length] in Fw. lia.
        -- intro E. apply Dn. destruct (eqb_spec n dn) as [E'|]; [rewrite <- E'; exact Nn|discriminate E].
      * cbn [fold_left]. rewrite R1. apply fine_app; [apply fine_app; [exact A|]|].
        -- rewrite B. apply fine_one.
           ++ cbn [allowedIn fLayers]. split; [intros x v Ex; apply Pi with x; apply stored_In; exact Ex|]. right. rewrite get_last by exact Nm. intros L EL. apply (f_equal (fun o => match o with Some q => q | None => L end)) in EL. subst L. right. intro x. reflexivity.
           ++ reflexivity.
           ++ intros o Co. cbn [acceptedIn]. split; [apply Co; cbn [fLayers]; rewrite get_last by exact Nm; discriminate|exact LI].
        -- rewrite fold_left_app, B. cbn [fold_left]. rewrite R2. exact A3.
Qed.
Lemma nested_faithful k : dict_ok k -> (forall a b v, In (a, b, v) k -> textOk a /\ textOk b /\ plistFaithful v) -> plistFaithful (nestedVal (nest k)).
Proof.
  intros D H. destruct (nest_spec k D) as ((N1 & N2) & L). unfold nestedVal.
  assert (E : map (fun '(a, inner) => (PStr a, PDict (map (fun '(b, x) => (PStr b, x)) inner))) (nest k) = map (fun kv : str * pyval => (PStr (fst kv), snd kv)) (map (fun '(a, inner) => (a, asDict inner)) (nest k))).
  { rewrite map_map. apply map_ext. intros [a i]. cbn [fst snd]. unfold asDict. f_equal. f_equal. apply map_ext. intros [b x]. reflexivity. }
  rewrite E. apply asDict_faithful.
  - unfold dict_ok, keys. rewrite map_map. erewrite map_ext; [exact N1|]. intros [a i]. reflexivity.
  - intros a v G. apply get_In in G. apply in_map_iff in G as ([a' i] & X & I). apply pair_equal_spec in X as [-> <-]. pose proof (N2 _ _ I) as Di.
    assert (K : forall b x, get b i = Some x -> In (a, b, x) k).
    { intros b x G. apply get_In. rewrite <- L. unfold klook. rewrite (In_get a i (nest k) N1 I). exact G. }
    split; [|apply asDict_faithful; [exact Di|]; intros b x G; destruct (H a b x (K b x G)) as (A1 & A2 & A3); split; assumption].
    assert (Ni : i <> []) by (eapply nest_nonempty; exact I). destruct i as [|[b x] i]; [contradiction|]. destruct (H a b x) as [A _]; [apply K; cbn [get]; rewrite eqb_refl; reflexivity|exact A].
Qed.
Lemma saving f : fontLoaded T f -> cleanUfo f -> fine newFont (saveAll f) /\ fold_left fremember (saveAll f) newFont = memOf f.
Proof.
  intros [F1 F2 [F3 F3'] F4 F5 F6 Fd F7 F8 F9 F10] [C1 C2 C3 C4 C5 Cd C6 C7 C8]. unfold saveAll, newFont.
  destruct (fine_images (uImages f) (uInfo f) (uGroups f) (uKerning f) (uLib f) (uFeatures f) [] [] [] None false) as [I1 I2]; [intros n b I; split; [eapply C5; exact I|apply (F6 n b I)]|].
  destruct (fine_data (uData f) (uInfo f) (uGroups f) (uKerning f) (uLib f) (uFeatures f) (imagesOf f) [] [] None false) as [D1 D2].
  { intros q b I. split; [apply (Fd q b I)|eapply Cd; exact I]. }
  { intros q b q0 b0 I J. destruct (Fd q b I) as (_ & _ & X). eapply X; [eapply Cd; exact I|exact J|eapply Cd; exact J]. }
  { intros q b q' x _ G. discriminate G. }
  destruct (fine_layers (uDefault f) (uLayers f) (uInfo f) (uGroups f) (uKerning f) (uLib f) (uFeatures f) (imagesOf f) (dataOf f) [] None) as [L1 L2]; try assumption; try reflexivity; [intros []|].
  split.
  - apply fine_app; [|apply fine_app; [exact I1|apply fine_app; cbn [fold_left fremember]; rewrite I2; fold (imagesOf f); [exact D1|rewrite D2; exact L1]]].
    apply fine_cons; [exact C1|reflexivity|intros o _; exact F1|]. apply fine_cons; [split; [right; right; reflexivity|exact C2]|reflexivity|intros o _; exact F2|]. apply fine_cons; [split; [right; right; reflexivity|split; [exact F3|apply nested_faithful; assumption]]|reflexivity|intros o _; exact F3'|].
    apply fine_cons; [split; [right; right; reflexivity|exact C4]|reflexivity|intros o _; exact F4|]. apply fine_one; [right; right; reflexivity|reflexivity|intros o _; exact F5].
  - rewrite !fold_left_app. cbn [fold_left fremember]. rewrite I2. fold (imagesOf f). rewrite D2. fold (dataOf f). cbn [map app] in L2. rewrite L2. unfold memOf. f_equal. rewrite (proj2 (mem_In _ _) F8). reflexivity.
Qed.

(** *** Reading it again *)
Lemma get_memLayer (n : str) (ly : list (str * (list (str * greading) * list (str * pyval)))) : get n (map memLayer ly) = match get n ly with Some (gl, li) => Some (mkLayer (map (fun '(g, r) => (g, storedGlyph r)) gl) li false) | None => None end.
Proof. induction ly as [|[m [gl li]] ly IH]; [reflexivity|]. cbn [map memLayer get]. destruct (eqb n m); [reflexivity|exact IH]. Qed.
Lemma get_stored (g : str) (gl : list (str * greading)) : get g (map (fun '(g, r) => (g, storedGlyph r)) gl) = option_map storedGlyph (get g gl).
Proof. induction gl as [|[x r] gl IH]; [reflexivity|]. cbn [map get]. destruct (eqb g x); [reflexivity|exact IH]. Qed.
Lemma images_get {K} `{EK : Eqb K} (im : list (K * bytes)) : forall d, (forall n b, In (n, b) im -> get n im = Some b) -> forall n, get n (fold_left (fun d '(n, b) => set n b d) im d) = match get n im with Some b => Some b | None => get n d end.
Proof.
  enough (A : forall l (d : list (K * bytes)), (forall n b b', In (n, b) l -> In (n, b') l -> b = b') -> forall n, get n (fold_left (fun d '(n, b) => set n b d) l d) = match get n l with Some b => Some b | None => get n d end).
  { intros d H. apply A. intros n b b' I J. apply H in I, J. congruence. }
  induction l as [|[x b] l IH]; intros d H n; cbn [fold_left get]; [reflexivity|]. rewrite IH by (intros n0 b0 b1 I J; apply (H n0); right; assumption). rewrite get_set. destruct (eqb_spec n x) as [->|]; [|reflexivity].
  destruct (get x l) as [b'|] eqn:G; [|reflexivity]. apply get_In in G. f_equal. apply (H x); [right; exact G|left; reflexivity].
Qed.
Lemma Forall2_In_r {A B} (Q : A -> B -> Prop) l m y : Forall2 Q l m -> In y m -> exists x, In x l /\ Q x y.
Proof. induction 1 as [|a b l m H F IH]; [intros []|]. intros [<-|I]; [exists a; split; [left; reflexivity|exact H]|]. destruct (IH I) as (x & J & K). exists x. split; [right; exact J|exact K]. Qed.
Lemma asGroups_back d : forall w, psame (PDict (map (fun '(n, l) => (PStr n, PList l)) d)) w -> exists g', asGroups (items w) = Some g' /\ groupsVal g' = w.
Proof.
  intros w H. inversion H as [? K| | |d0 e e' P F]; subst; [discriminate K|]. cbn [items].
  assert (A : forall k v, In (k, v) e -> exists n l, k = PStr n /\ v = PList l).
  { intros k v I. apply (Permutation_in _ (Permutation_sym P)) in I.
    destruct (Forall2_In_r _ _ _ _ F I) as ([x y] & J & X & Y). cbn [fst snd] in X, Y. apply in_map_iff in J as ([n l] & J & _). apply pair_equal_spec in J as [<- <-]. exists n. inversion Y as [? K0|? m0| |]; subst; [discriminate K0|]. exists m0. split; reflexivity. }
  clear -A. unfold groupsVal. induction e as [|[k v] e IH]; [exists []; split; reflexivity|]. destruct (A k v (or_introl eq_refl)) as (n & l & -> & ->). destruct IH as (g & G1 & G2); [intros k v I; apply A; right; exact I|]. exists ((n, l) :: g). cbn [asGroups is_seq elems map]. rewrite G1. split; [reflexivity|]. f_equal. f_equal. congruence.
Qed.
Lemma asInner_total l : (forall k v, In (k, v) l -> exists a, k = PStr a) -> exists i, asInner l = Some i /\ map fst l = map PStr (map fst i) /\ forall a, get a i = dget a l.
Proof.
  induction l as [|[k v] l IH]; intro H; [exists []; repeat split|]. destruct (H k v (or_introl eq_refl)) as (a & ->). destruct IH as (i & E & F & G); [intros k w I; apply (H k w); right; exact I|]. exists ((a, v) :: i). cbn [asInner map fst]. rewrite E, F. split; [reflexivity|]. split; [reflexivity|].
  intro b. cbn [get dget]. rewrite <- G. reflexivity.
Qed.
Lemma psame_truthy v w : psame v w -> truthy w = truthy v.
Proof.
  intro S. destruct S as [v _|l m F|l m F|d e e' P F]; [reflexivity|destruct F; reflexivity|destruct F; reflexivity|]. cbn [truthy].
  destruct F as [|x y d e'' _ _]; [apply Permutation_nil in P; subst e; reflexivity|]. destruct e; [symmetry in P; apply Permutation_nil in P; discriminate P|reflexivity].
Qed.
Lemma stored_back info info' a v w : storedInfo info a = Some v -> get a info' = Some w -> psame v w -> storedInfo info' a = Some w.
Proof.
  intros E G S. pose proof (psame_truthy _ _ S) as Ty. unfold storedInfo in *. rewrite G. destruct (get a info) as [x|]; [|discriminate E].
  assert (Nx : x <> PNone) by (intros ->; discriminate E). assert (E' : (if eqb a (u "color") then Some x else if eqb a (u "lib") && truthy x then Some x else None) = Some v) by (destruct x; try exact E; congruence). clear E.
  assert (x = v) as -> by (destruct (eqb a (u "color")); [congruence|]; destruct (eqb a (u "lib") && truthy x); congruence).
  assert (Nw : w <> PNone) by (intros ->; inversion S; congruence).
  assert (E2 : (if eqb a (u "color") then Some w else if eqb a (u "lib") && truthy w then Some w else None) = Some w) by (rewrite Ty; destruct (eqb a (u "color")); [reflexivity|]; destruct (eqb a (u "lib") && truthy v); [reflexivity|discriminate E']).
  destruct w; try exact E2. congruence.
Qed.
Lemma layer_back f t n gl li : fontLoaded T f -> cleanUfo f -> In (n, (gl, li)) (uLayers f) -> readsFont T R (memOf f) (map fst (uLayers f)) (uDefault f) t ->
  exists gl' li', loadLayer T R 3 t n = Ok (n, (gl', li')) /\ sameDict (fun n r r' => sameReading (underName n r) r') gl gl' /\ sameLayerInfo li li'.
Proof.
  intros Fl Cu I (_ & _ & _ & _ & _ & _ & _ & Rd). destruct (Rd n (mkLayer (map (fun '(g, r) => (g, storedGlyph r)) gl) li false)) as (Rg & (names & En & Nd & Ns) & l & El & N2 & K & S).
  { cbn [fLayers memOf]. rewrite get_memLayer, (In_get n (gl, li) (uLayers f) (fl_names _ _ Fl) I). reflexivity. }
  cbn [lGlyphs lInfo] in *. destruct (fl_layers _ _ Fl _ _ _ I) as [LN LG LI]. unfold namesOfLayer in En. unfold readInfoOfLayer in El. unfold readLayerGlyph in Rg. unfold loadLayer. change (openLayerOf T R 3 t n) with (openLayer T R t (Some n)). destruct (openLayer T R t (Some n)) as [[nd w]|]; [|discriminate En]. cbn [bind] in *. apply Ok_inj in En. rewrite En, El.
  assert (Tot : forall g, In g names -> exists r0 r, get g gl = Some r0 /\ readGlyphOf T 3 (fun f => f) g w = Ok r /\ sameReading (underName g r0) r).
  { intros g Ig. apply Ns in Ig. specialize (Rg g). rewrite get_stored in Ig, Rg. destruct (get g gl) as [r0|] eqn:G; [|contradiction Ig; reflexivity]. cbn [option_map storedGlyph] in Rg. destruct Rg as (r & E & Ra). exists r0, r. split; [reflexivity|]. split; [exact E|].
    apply get_In in G. destruct (LG g r0 G) as (v0 & b0 & Eb). destruct (cu_glyphs _ Cu _ _ _ _ _ I G) as (Q1 & Q2 & Q3). destruct (glyph_again T LT R LR ro v0 b0 r0 g Eb Q3 Q1 Q2) as (_ & _ & Q). apply Q. exact Ra. }
  destruct (mapM_total (fun g => do r <- readGlyphOf T 3 (fun f => f) g w; Ok (g, r)) names) as (gl' & Egl).
  { apply Forall_forall. intros g Ig. destruct (Tot g Ig) as (r0 & r & _ & E & _). rewrite E. cbn [bind]. eauto. }
  rewrite Egl. cbn [bind]. destruct (asInner_total l K) as (i & Ei & Fi & Gi). rewrite Ei. cbn [orTypeError bind]. exists gl', i. split; [reflexivity|].
  assert (Fn : map fst gl' = names) by (eapply mapM_pairs_fst; [|exact Egl]; intros x y H; apply bind_Ok in H as (q & _ & H); apply Ok_inj in H; rewrite <- H; reflexivity).
  split; [split; [rewrite Fn; exact Nd|]|].
  - intro g. destruct (get g gl') as [r|] eqn:G.
    + apply get_In in G. destruct (mapM_In _ _ _ _ Egl G) as (g' & Ig & E). apply bind_Ok in E as (r' & E & X). apply Ok_inj, pair_equal_spec in X as [-> ->]. destruct (Tot g Ig) as (r0 & r1 & -> & E1 & Sm). rewrite E in E1. apply Ok_inj in E1. subst r1. exact Sm.
    + destruct (get g gl) as [r0|] eqn:G0; [|exact Logic.I]. apply get_None in G. apply G. unfold keys. rewrite Fn. apply Ns. rewrite get_stored, G0. discriminate.
  - intro a. specialize (S a). rewrite <- Gi in S. destruct (get a i) as [x|] eqn:Ga.
    + destruct (storedInfo li a) as [y|] eqn:Ls; [rewrite (stored_back li i a y x Ls Ga S); exact S|]. destruct S as [-> ->]. unfold storedInfo. rewrite Ga. exact Logic.I.
    + assert (Si : storedInfo i a = None) by (unfold storedInfo; rewrite Ga; reflexivity). rewrite Si. exact S.
Qed.
Lemma read_back f t : fontLoaded T f -> cleanUfo f -> readsFont T R (memOf f) (map fst (uLayers f)) (uDefault f) t -> forall p p', exists f', loadUfo T R p p' t = Ok f' /\ sameUfo T f f'.
Proof.
  intros Fl Cu Rf p p'. pose proof Rf as ([P1 P2 P3 P4 P5 P6] & ((il & Eil & Nil & Iil) & Im) & ((Ndl & Idl) & Dt) & En & Ed & _ & _ & _). cbn [memOf fInfo fGroups fKerning fLib fFeatures fImages fData] in *.
  destruct (P2 p) as (rv & info & R1 & R2 & Si). destruct P3 as (gw & G1 & G2). destruct (asGroups_back _ _ G2) as (g' & Ag & Vg). destruct P4 as (kl & K1 & K2). destruct P5 as (lw & L1 & L2).
  assert (Ig : forall n, get n (imagesOf f) = get n (uImages f)).
  { intro n. unfold imagesOf. rewrite images_get by (intros x b I; apply (fl_images _ _ Fl x b I)). destruct (get n (uImages f)); reflexivity. }
  destruct (mapM_total (fun x => do b <- Ufo.readImage 3 t x true; Ok (x, b)) il) as (im & Eim).
  { apply Forall_forall. intros x I. apply Iil in I. destruct (get x (imagesOf f)) as [b|] eqn:G; [|contradiction I; reflexivity]. rewrite (Im _ _ G). cbn [bind]. eauto. }
  assert (Dg : forall n, get n (dataOf f) = get n (uData f)).
  { intro n. unfold dataOf. rewrite images_get by (intros x b I; apply (fl_data _ _ Fl x b I)). destruct (get n (uData f)); reflexivity. }
  destruct (mapM_total (fun p => do o <- readBytesFromPath t (dataPath p); do b <- orTypeError o; Ok (p, b)) (getDataDirectoryListing t)) as (dt & Edt).
  { apply Forall_forall. intros x I. apply Idl in I. destruct (get x (dataOf f)) as [b|] eqn:G; [|contradiction I; reflexivity]. change (dataPath x) with (join [slash] (u "data" :: x)). rewrite (Dt _ _ G). cbn [bind orTypeError]. eauto. }
  destruct (mapM_total (loadLayer T R 3 t) (map fst (uLayers f))) as (ly & Ely).
  { apply Forall_forall. intros n I. apply in_map_iff in I as ([n' [gl li]] & <- & I). destruct (layer_back f t n' gl li Fl Cu I Rf) as (gl' & li' & E & _). exists (n', (gl', li')). exact E. }
  exists (mkUfont info g' kl (items lw) (uFeatures f) im dt ly (uDefault f)). split.
  - unfold loadUfo. rewrite P1. cbn [bind]. rewrite R1. cbn [bind]. rewrite R2. cbn [bind]. specialize (G1 (convPy p') None). destruct (readGroups _ _ _ _ _ _) as [cache gr]. cbn [snd] in G1. rewrite G1. cbn [bind]. rewrite Ag. cbn [orTypeError bind]. rewrite K1. cbn [bind]. rewrite asKerning_pairs. cbn [orTypeError bind]. rewrite L1. cbn [bind]. rewrite P6. cbn [bind]. rewrite Eil. cbn [bind]. rewrite Eim. cbn [bind]. rewrite Edt. cbn [bind]. rewrite En. cbn [bind]. rewrite Ed. cbn [bind]. rewrite Ely. reflexivity.
  - assert (Fi : map fst im = il) by (eapply mapM_pairs_fst; [|exact Eim]; intros x y H; apply bind_Ok in H as (q & _ & H); apply Ok_inj in H; rewrite <- H; reflexivity).
    assert (Fy : map fst ly = map fst (uLayers f)) by (eapply mapM_pairs_fst; [|exact Ely]; intros x y H; apply (loaded_layer T LT R LR) in H; apply H).
    constructor; cbn [uInfo uGroups uKerning uLib uFeatures uImages uData uLayers uDefault].
    + exact Si.
    + unfold groupsVal at 1. rewrite Vg. exact G2.
    + exact K2.
    + inversion L2; subst; [discriminate|]. exact L2.
    + reflexivity.
    + split; [rewrite Fi; exact Nil|]. intro n. destruct (get n im) as [b|] eqn:G.
      * apply get_In in G. destruct (mapM_In _ _ _ _ Eim G) as (x & Ix & X). apply bind_Ok in X as (b' & X & Y). apply Ok_inj, pair_equal_spec in Y as [-> ->]. apply Iil in Ix. rewrite Ig in Ix. destruct (get n (uImages f)) as [b0|] eqn:G0; [|contradiction Ix; reflexivity]. rewrite <- Ig in G0. apply Im in G0. congruence.
      * destruct (get n (uImages f)) as [b0|] eqn:G0; [|exact Logic.I]. apply get_None in G. apply G. unfold keys. rewrite Fi. apply Iil. rewrite Ig, G0. discriminate.
    + assert (Fd : map fst dt = getDataDirectoryListing t) by (eapply mapM_pairs_fst; [|exact Edt]; intros x y H; apply bind_Ok in H as (q & _ & H); apply bind_Ok in H as (q' & _ & H); apply Ok_inj in H; rewrite <- H; reflexivity).
      split; [rewrite Fd; exact Ndl|]. intro n. destruct (get n dt) as [b|] eqn:G.
      * apply get_In in G. destruct (mapM_In _ _ _ _ Edt G) as (x & Ix & X). apply bind_Ok in X as (o & X & Y). apply bind_Ok in Y as (b' & Y & Z). apply Ok_inj, pair_equal_spec in Z as [-> ->]. destruct o; [|discriminate Y]. apply Ok_inj in Y. subst. apply Idl in Ix. rewrite Dg in Ix. destruct (get n (uData f)) as [b0|] eqn:G0; [|contradiction Ix; reflexivity]. rewrite <- Dg in G0. apply Dt in G0. change (join [slash] (u "data" :: n)) with (dataPath n) in G0. congruence.
      * destruct (get n (uData f)) as [b0|] eqn:G0; [|exact Logic.I]. apply get_None in G. apply G. unfold keys. rewrite Fd. apply Idl. rewrite Dg, G0. discriminate.
    + reflexivity.
    + exact Fy.
    + split; [rewrite Fy; apply (fl_names _ _ Fl)|]. intro n. destruct (get n (uLayers f)) as [[gl li]|] eqn:G.
      * apply get_In in G as I. destruct (layer_back f t n gl li Fl Cu I Rf) as (gl' & li' & E & S1 & S2). assert (In n (map fst (uLayers f))) as In1 by (apply in_map_iff; exists (n, (gl, li)); auto).
        destruct (get n ly) as [[gl2 li2]|] eqn:G2'; [|apply get_None in G2'; exfalso; apply G2'; unfold keys; rewrite Fy; exact In1]. apply get_In in G2'. destruct (mapM_In _ _ _ _ Ely G2') as (x & _ & X). pose proof (loaded_layer T LT R LR _ _ _ _ X) as (Nx & _). cbn [fst] in Nx. subst x. rewrite E in X. apply Ok_inj in X. apply pair_equal_spec in X as [_ X]. apply pair_equal_spec in X as [-> ->]. split; assumption.
      * apply get_None in G. destruct (get n ly) as [q|] eqn:G2'; [|exact Logic.I]. apply G. unfold keys. rewrite <- Fy. apply get_In in G2'. apply in_map_iff. exists (n, q). auto.
Qed.
End Save.

(** ** C97 *)
Lemma order_memOf f n : In n (map fst (uLayers f)) <-> get n (fLayers (memOf f)) <> None.
Proof.
  cbn [memOf fLayers]. rewrite <- memLayer_fst. destruct (get n (map memLayer (uLayers f))) as [L|] eqn:G.
  - apply get_In in G. split; [discriminate|]. intros _. apply in_map_iff. exists (n, L). auto.
  - apply get_None in G. split; [intros I; contradiction|congruence].
Qed.
(** Partial: texts and numbers as in [cleanUfo], and glyphs under the names of
    contents.plist. *)
Theorem C97_save_as_partial : forall T R ro lower toFileName, pytext_laws T -> repr_laws T R -> lower_keeps lower -> lower_laws lower ->
  case_fresh (fun f => f) lower toFileName -> good_names textOk toFileName -> (forall n e f, toFileName n e = Ok f -> glyphFile f) ->
  (forall n e, n <> [] -> fewNames e -> exists f, toFileName n e = Ok f) ->
  forall creator p p' t f, textOk creator -> loadUfo T R p p' t = Ok f -> cleanUfo f ->
  exists t', saveAs T R ro lower toFileName (PStr creator) f = Ok t' /\ forall q q', exists f', loadUfo T R q q' t' = Ok f' /\ sameUfo T f f'.
Proof.
  intros T R ro lower tf LT LR K LL CF GN GF Tot c p p' t f Tc E Cl. pose proof (loaded T LT R LR p p' t f E) as Fl. destruct (saving T LT R LR ro f Fl Cl) as [Fi Em]. destruct (fine_gives T R ro _ _ Fi) as [Al Ac']. assert (Ac : acceptedAll T R ro newFont [] (saveAll f)) by (apply Ac'; intros n0 H0; exfalso; apply H0; reflexivity).
  destruct (C96_never_refused_partial T R ro lower tf LT LR K LL CF GN GF Tot c (saveAll f) (map fst (uLayers f)) (uDefault f) Tc Al Ac (fl_names _ _ Fl)) as (s & s' & E1 & E2 & Rf); rewrite ?Em; [apply order_memOf|reflexivity|].
  rewrite Em in Rf. exists (tree (writer s')). split; [unfold saveAs; rewrite E1; cbn [bind]; rewrite E2; reflexivity|]. exact (read_back T LT R LR ro f _ Fl Cl Rf).
Qed.
Print Assumptions C97_save_as_partial.
(** in particular, file names that differ in more than case *)
Theorem C97_careful_partial : forall T R ro lower, pytext_laws T -> repr_laws T R -> lower_keeps lower -> lower_laws lower ->
  forall creator p p' t f, textOk creator -> loadUfo T R p p' t = Ok f -> cleanUfo f ->
  exists t', saveAs T R ro lower (carefulFileName lower) (PStr creator) f = Ok t' /\ forall q q', exists f', loadUfo T R q q' t' = Ok f' /\ sameUfo T f f'.
Proof.
  intros T R ro lower LT LR K LL. apply C97_save_as_partial; try assumption.
  - apply C08_careful_function. intros f g ->. reflexivity.
  - apply careful_names_text.
  - intros n e f E. eapply glif_file. exact E.
  - intros n e. apply careful_total. exact LL.
Qed.
Print Assumptions C97_careful_partial.
(** with the default file name function, for names that are apart (C08) *)
Lemma allowed_names (Q : str -> Prop) l : forall m, allowedAll textOk m l -> (forall layer n g items fv, In (AGlyph layer n g items fv) l -> Q n) -> allowedAll (fun n => Q n /\ textOk n) m l.
Proof.
  induction l as [|a l IH]; intros m H N; [exact Logic.I|]. destruct H as [H1 H2]. split; [|apply IH; [exact H2|]; intros layer n g items fv I; eapply N; right; exact I].
  destruct a; try exact H1. destruct H1 as [H1 H1']. split; [|exact H1']. split; [|exact H1]. eapply N. left. reflexivity.
Qed.
Theorem C97_apart_names_partial : forall T R ro lower S, pytext_laws T -> repr_laws T R -> lower_keeps lower -> lower_laws lower -> lower_stable lower -> apart_names lower S ->
  forall creator p p' t f, textOk creator -> loadUfo T R p p' t = Ok f -> cleanUfo f -> (forall n glyphs info g r, In (n, (glyphs, info)) (uLayers f) -> In (g, r) glyphs -> S g) ->
  exists t', saveAs T R ro lower (defaultFileName lower) (PStr creator) f = Ok t' /\ forall q q', exists f', loadUfo T R q q' t' = Ok f' /\ sameUfo T f f'.
Proof.
  intros T R ro lower S LT LR K LL LS A c p p' t f Tc E Cl Sn. pose proof (loaded T LT R LR p p' t f E) as Fl. destruct (saving T LT R LR ro f Fl Cl) as [Fi Em]. destruct (fine_gives T R ro _ _ Fi) as [Al Ac']. assert (Ac : acceptedAll T R ro newFont [] (saveAll f)) by (apply Ac'; intros n0 H0; exfalso; apply H0; reflexivity).
  assert (Al' : allowedAll (fun n => S n /\ textOk n) newFont (saveAll f)).
  { apply allowed_names; [exact Al|]. intros layer n g items fv I. unfold saveAll in I. apply in_app_or in I as [I|I]; [repeat (destruct I as [I|I]; [discriminate I|]); destruct I|]. do 2 (apply in_app_or in I as [I|I]; [apply in_map_iff in I as ([x b] & I & _); discriminate I|]).
    apply in_flat_map in I as ([x [gl li]] & J & I). cbn [saveLayer] in I. destruct I as [I|I]; [discriminate I|]. apply in_app_or in I as [I|[I|[]]]; [|discriminate I]. apply in_map_iff in I as ([y r] & I & Jy). injection I as <- <- _ _ _. eapply Sn; eassumption. }
  destruct (C96_apart_names_partial T R ro lower S LT LR K LL LS A c (saveAll f) (map fst (uLayers f)) (uDefault f) Tc Al' Ac (fl_names _ _ Fl)) as (s & s' & E1 & E2 & Rf); rewrite ?Em; [apply order_memOf|reflexivity|].
  rewrite Em in Rf. exists (tree (writer s')). split; [unfold saveAs; rewrite E1; cbn [bind]; rewrite E2; reflexivity|]. exact (read_back T LT R LR ro f _ Fl Cl Rf).
Qed.
Print Assumptions C97_apart_names_partial.

(** ** Documents *)
(** a file somewhere in a tree *)
Inductive inTree (b : bytes) : node -> Prop :=
| it_file : inTree b (File b)
| it_dir f n es : In (f, n) es -> inTree b n -> inTree b (Dir es).
(** no XML document of the UFO refers to tabs or carriage returns by number *)
Definition plainDocuments (t : node) : Prop := forall b e, inTree b t -> parseBytes b = Ok e -> noWhiteRefs b.
Record plainFont (f : ufont) : Prop := {
  pf_info : forall x v, get x (uInfo f) = Some v -> wholeRange v;
  pf_groups : wholeRange (groupsVal (uGroups f));
  pf_kerning : forall p v, In (p, v) (uKerning f) -> wholeRange v;
  pf_lib : wholeRange (PDict (uLib f));
  pf_images : forall n b, In (n, b) (uImages f) -> plainName n;
  pf_data : forall p b, In (p, b) (uData f) -> Forall plainName p;
  pf_few : fewNames (uLayers f);
  pf_layers : forall n glyphs info, In (n, (glyphs, info)) (uLayers f) -> fewNames glyphs /\ forall x v, In (x, v) info -> wholeRange v;
  pf_glyphs : forall n glyphs info g r, In (n, (glyphs, info)) (uLayers f) -> In (g, r) glyphs -> g <> [] /\ ~ In 9%N g /\ wholeRange (attr (rattrs r) "lib") }.
Lemma find_inTree b p : forall t n, find t p = Some n -> inTree b n -> inTree b t.
Proof.
  induction p as [|c p IH]; intros t n E I; cbn [FS.find] in E; [injection E as <-; exact I|]. destruct t as [|es]; [discriminate|]. destruct (get c es) as [m|] eqn:G; [|discriminate]. apply get_In in G. eapply it_dir; [exact G|]. eapply IH; eassumption.
Qed.
Lemma plain_sub t p n : plainDocuments t -> find t p = Some n -> plainDocuments n.
Proof. intros H F b e I. apply H. eapply find_inTree; eassumption. Qed.
Lemma filesIn_In f b n : In (f, b) (filesIn n) -> inTree b n.
Proof.
  unfold filesIn. intro I. apply in_flat_map in I as ([g m] & J & I). destruct m as [b'|]; [|destruct I]. destruct I as [I|[]]. injection I as <- <-. destruct n as [|es]; [destruct J|]. eapply it_dir; [exact J|constructor].
Qed.
Section Documents.
Variable T : pytext.
Hypothesis LT : pytext_laws T.
Variable R : spec_float -> str.
Hypothesis LR : repr_laws T R.
Notation C := (plistCodec T R).
Lemma loads_data b v : (forall e, parseBytes b = Ok e -> noWhiteRefs b) -> plistLoads T b = Ok v -> v = PNone \/ plistData textOk v.
Proof.
  intros N E. apply bind_Ok in E as (e & Ee & E). eapply (run_good T R LR textOk textOk_nil textOk_app); [|exact E]. apply sax_good. apply goodTree_texts. eapply parseBytes_good; [eapply N; exact Ee|exact Ee].
Qed.
Lemma getPlist_data t x d v : plainDocuments t -> (forall w, d = Some w -> w = PDict []) -> getPlist C t x d = Ok v -> v = PNone \/ plistData textOk v.
Proof.
  intros P D E. unfold getPlist in E. unfold getbytes in E. destruct (find t [x]) as [[b|es]|] eqn:F; try discriminate E.
  - cbn [loads plistCodec] in E. destruct (plistLoads T b) as [w|] eqn:L; [|discriminate E]. injection E as <-. eapply loads_data; [|exact L]. intros e Ee. eapply P; [|exact Ee]. eapply find_inTree; [exact F|constructor].
  - destruct d as [w|]; [|discriminate E]. injection E as <-. rewrite (D w eq_refl). right. apply (pd_dict textOk []); constructor.
Qed.
Lemma data_faithful v : plistData textOk v -> wholeRange v -> plistFaithful v.
Proof. intros D W. split; [eapply data_plistable; eassumption|apply data_texts; exact D]. Qed.
Lemma data_entry d k v : plistData textOk (PDict d) -> In (k, v) d -> exists a, k = PStr a /\ textOk a /\ plistData textOk v.
Proof. intros D I. inversion D as [| | | | | | |m N F]; subst. apply in_map_iff in I as ([a x] & E & J). apply pair_equal_spec in E as [<- <-]. exists a. rewrite Forall_forall in F. destruct (F _ J). auto. Qed.
Lemma data_vget a v : plistData textOk v -> vget a v = PNone \/ plistData textOk (vget a v).
Proof.
  intro D. unfold vget. destruct (dget a (items v)) as [x|] eqn:G; [|auto]. right. destruct v as [| | | | | | | | |d|]; try discriminate G. cbn [items] in G. clear -D G.
  assert (I : exists k, In (k, x) d) by (clear D; induction d as [|[k w] d IH]; [discriminate G|]; cbn [dget] in G; destruct k; try (destruct (IH G) as (k & I); exists k; right; exact I); destruct (eqb a s); [injection G as <-; eexists; left; reflexivity|destruct (IH G) as (k & I); exists k; right; exact I]).
  destruct I as (k & I). destruct (data_entry _ _ _ D I) as (a' & _ & _ & H). exact H.
Qed.
Lemma asInner_In l i : asInner l = Some i -> forall a v, In (a, v) i -> In (PStr a, v) l.
Proof.
  revert i. induction l as [|[k w] l IH]; intros i E a v I; cbn [asInner] in E; [injection E as <-; destruct I|]. destruct k; try discriminate E. destruct (asInner l) as [i'|]; [|discriminate E]. injection E as <-. destruct I as [I|I]; [injection I as <- <-; left; reflexivity|right; eapply IH; [reflexivity|exact I]].
Qed.
Lemma asNested_In l n : asNested l = Some n -> forall a i, In (a, i) n -> exists d, In (PStr a, PDict d) l /\ asInner d = Some i.
Proof.
  revert n. induction l as [|[k w] l IH]; intros n E a i I; cbn [asNested] in E; [injection E as <-; destruct I|]. destruct k; try discriminate E. destruct w as [| | | | | | | | |d|]; try discriminate E. destruct (asInner d) as [i'|] eqn:Ei; [|discriminate E]. destruct (asNested l) as [n'|]; [|discriminate E]. injection E as <-.
  destruct I as [I|I]; [injection I as <- <-; exists d; split; [left; reflexivity|exact Ei]|]. destruct (IH _ eq_refl _ _ I) as (d' & J & K). exists d'. split; [right; exact J|exact K].
Qed.
Lemma contents_text b c : (forall e, parseBytes b = Ok e -> noWhiteRefs b) -> contentsLoads T b = Ok c -> forall n f, In (n, f) c -> textOk n.
Proof.
  intros N E. unfold contentsLoads in E. apply bind_Ok in E as (v & Ev & E). apply (loads_data b v N) in Ev as [->|D]; [discriminate E|]. destruct v as [| | | | | | | | |d|]; try discriminate E.
  assert (H : forall k w, In (k, w) d -> forall a, k = PStr a -> textOk a) by (intros k w I a ->; destruct (data_entry _ _ _ D I) as (a' & X & Y & _); injection X as ->; exact Y).
  assert (A : forall c0, (forall n f, In (n, f) c0 -> textOk n) -> foldM (fun c '(n, f) => match n, f with PStr n, PStr f => Ok (set n f c) | _, _ => Err GlifLibError end) c0 d = Ok c -> forall n f, In (n, f) c -> textOk n).
  { clear -H. induction d as [|[k w] d IH]; intros c0 H0 E n f I; cbn [foldM] in E; [injection E as <-; eapply H0; exact I|]. apply bind_Ok in E as (c1 & E1 & E). eapply IH; [intros k' w' J; apply (H k' w'); right; exact J| |exact E|exact I].
    destruct k; try discriminate E1. destruct w; try discriminate E1. injection E1 as <-. intros n' f' J. clear -J H0 H. assert (K : n' = s \/ exists f, In (n', f) c0).
    { clear -J. induction c0 as [|[x y] c0 IH]; cbn [set] in J; [destruct J as [J|[]]; injection J as <- _; auto|]. destruct (eqb s x); destruct J as [J|J].
      - injection J as <- _. right. exists y. left. apply pair_equal_spec. auto.
      - right. exists f'. right. exact J.
      - right. exists y. left. congruence.
      - destruct (IH J) as [K|(f & K)]; [auto|right; exists f; right; exact K]. }
    destruct K as [->|(f & K)]; [eapply H; [left; reflexivity|reflexivity]|eapply H0; exact K]. }
  apply (A []); [intros ? ? []|exact E].
Qed.
Lemma reading_clean ver b r : (forall e, parseBytes b = Ok e -> noWhiteRefs b) -> gsReadBytes T ver true true true b = Ok r -> wholeRange (attr (rattrs r) "lib") -> cleanReading r.
Proof.
  intros N E W. unfold gsReadBytes, readGlyphBytes in E. apply bind_Ok in E as (e & Ee & E). unfold glifTree in Ee. apply bind_Ok in Ee as (root & Er & Ee).
  assert (G : goodTree e) by (destruct (eqb (etag root) (u "glyph")); [|discriminate]; destruct (blankText T (etextOf root)); [|discriminate]; injection Ee as <-; eapply parseBytes_good; [eapply N; exact Er|exact Er]).
  apply (read_clean T R LR) in E; [|exact G]. destruct E as [A B].
  assert (X : forall k v, attr (rattrs r) k = v -> v = PNone \/ attrClean (u k) v).
  { intros k v Ek. unfold attr in Ek. destruct (get (u k) (rattrs r)) as [w|] eqn:Gk; [subst w; right; apply B; exact Gk|left; auto]. }
  assert (L : attr (rattrs r) "lib" = PNone \/ plistData textOk (attr (rattrs r) "lib")) by (destruct (X "lib" _ eq_refl) as [H|H]; [left; exact H|exact H]).
  constructor.
  - exact A.
  - intros s Es. destruct (X "name" _ Es) as [H|H]; [discriminate|]. apply H. reflexivity.
  - intros s Es. destruct (X "note" _ Es) as [H|H]; [discriminate|]. apply H. reflexivity.
  - intros k s Es. destruct (X "image" _ eq_refl) as [H|H]; [rewrite H in Es; discriminate Es|]. exact (H k s Es).
  - intros v k s I Es. destruct (X "guidelines" _ eq_refl) as [H|H]; [rewrite H in I; destruct I|]. change (Forall cleanItem (listed (attr (rattrs r) "guidelines"))) in H. rewrite Forall_forall in H. exact (H v I k s Es).
  - intros v k s I Es. destruct (X "anchors" _ eq_refl) as [H|H]; [rewrite H in I; destruct I|]. change (Forall cleanItem (listed (attr (rattrs r) "anchors"))) in H. rewrite Forall_forall in H. exact (H v I k s Es).
  - intro Tr. destruct L as [H|H]; [rewrite H in Tr; discriminate Tr|]. eapply data_plistable; eassumption.
  - destruct L as [H|H]; [|apply data_texts; exact H]. rewrite H. split; [intros s I; inversion I|intros d k x I; inversion I].
Qed.
Lemma openLayer_find v t layer n w : openLayerOf T R v t layer = Ok (n, w) -> exists p, find t p = Some n.
Proof.
  unfold openLayerOf. intro E. apply bind_Ok in E as ([d x] & _ & E). apply bind_Ok in E as (p & _ & E). destruct (find t p) as [m|] eqn:F; [|discriminate E]. destruct (openSet _ _ (filesIn m)) as [w' [[]|e]]; [|discriminate E]. injection E as <- <-. exists p. exact F.
Qed.
Lemma layer_plain ver t name gl li : plainDocuments t -> loadLayer T R ver t name = Ok (name, (gl, li)) ->
  (forall x v, In (x, v) li -> wholeRange v -> plistFaithful v) /\
  forall g r, In (g, r) gl -> textOk g /\ (wholeRange (attr (rattrs r) "lib") -> cleanReading r).
Proof.
  intros P E. unfold loadLayer in E. apply bind_Ok in E as ([n w] & Eo & E). apply bind_Ok in E as (gl' & Eg & E). apply bind_Ok in E as (l & El & E). apply bind_Ok in E as (info & Ei & E). injection E as -> ->. cbn [fst snd].
  destruct (openLayer_find _ _ _ _ _ Eo) as (p & Fp). pose proof (plain_sub _ _ _ P Fp) as Pn. apply openLayer_ok in Eo. apply (openSet_spec (fun f => f) (fun f => f) _ _ _ (contents_codec_laws T R LT LR)) in Eo as (Ed & _ & _ & c & Dc & Ec & Dc' & _). split.
  - intros x v I W. destruct (asInner l) as [i|] eqn:A; [|discriminate Ei]. injection Ei as ->. unfold readLayerInfo in El. apply bind_Ok in El as (d & Ed' & El). apply getPlist_data in Ed' as [->|D]; [discriminate El| |exact Pn|intros w' X; congruence].
    apply (asInner_In _ _ A) in I. destruct d as [| | | | | | | | |d|]; try discriminate El. destruct (layerInfoOk T d); [|discriminate El]. injection El as ->. destruct (data_entry _ _ _ D I) as (a & _ & _ & Dv). apply data_faithful; assumption.
  - intros g r I. destruct (mapM_In _ _ _ _ Eg I) as (g' & Ig & E). apply bind_Ok in E as (r' & E & X). injection X as -> ->. split.
    + unfold diskContents in Dc. rewrite Ec in Ig. destruct (get contentsName (filesIn n)) as [b|] eqn:G; [|injection Dc as <-; destruct Ig]. apply in_map_iff in Ig as ([x f] & <- & Ig). eapply contents_text; [|exact Dc|exact Ig]. intros e Ee. eapply Pn; [|exact Ee]. eapply filesIn_In. apply get_In in G. exact G.
    + intro W. unfold readGlyphOf in E. apply bind_Ok in E as (b & Eb & E). eapply reading_clean; [|exact E|exact W]. intros e Ee. eapply Pn; [|exact Ee]. unfold PropGlyphSet.fetch, getGLIF in Eb. cbn in Eb. destruct (get g (contents (gs w))) as [f|]; [|discriminate Eb]. cbn [snd] in Eb. destruct (get f (dir w)) as [b'|] eqn:G; [|discriminate Eb]. injection Eb as ->. rewrite Ed in G. apply get_In in G. eapply filesIn_In. exact G.
Qed.
Lemma collect_src attrs d x w : forall acc, (forall w, get x acc = Some w -> w = vget x d /\ is_none w = false) -> get x (collect attrs d acc) = Some w -> w = vget x d /\ is_none w = false.
Proof.
  induction attrs as [|y r IH]; intros acc H G; cbn [collect] in G; [apply H; exact G|]. revert G. apply IH. intros q. destruct (is_none (vget y d)) eqn:Nn; [apply H|]. rewrite get_set. destruct (eqb_spec x y) as [->|]; [|apply H]. intro X. injection X as <-. auto.
Qed.
Lemma asGroups_data d : forall g, asGroups d = Some g -> plistData textOk (PDict d) -> groupsVal g = PDict d.
Proof.
  intros g E D. assert (H : forall k v, In (k, v) d -> plistData textOk v) by (intros k v I; destruct (data_entry _ _ _ D I) as (a & _ & _ & X); exact X). clear D. unfold groupsVal. f_equal. revert g E. induction d as [|[k v] d IH]; intros g E; cbn [asGroups] in E; [injection E as <-; reflexivity|].
  destruct k as [| | | |n| | | | | |]; try discriminate E. destruct (is_seq v) eqn:Sq; [|discriminate E]. destruct (asGroups d) as [g'|]; [|discriminate E]. injection E as <-. cbn [map]. rewrite (IH (fun k v I => H k v (or_intror I)) g' eq_refl). f_equal. f_equal. pose proof (H _ _ (or_introl eq_refl)) as Dv. destruct v; try discriminate Sq; [reflexivity|inversion Dv].
Qed.
Lemma set_entry {A} (k : str) (v : A) d : forall a w, In (a, w) (set k v d) -> (a = k /\ w = v) \/ In (a, w) d.
Proof.
  induction d as [|[x y] d IH]; intros a w I; cbn [set] in I; [destruct I as [I|[]]; injection I as <- <-; auto|]. destruct (eqb_spec k x) as [->|]; destruct I as [I|I].
  - injection I as <- <-. auto.
  - right. right. exact I.
  - right. left. exact I.
  - destruct (IH _ _ I) as [H|H]; [auto|right; right; exact H].
Qed.
Lemma collect_entries attrs d : forall acc a w, In (a, w) (collect attrs d acc) -> In (a, w) acc \/ In a attrs /\ w = vget a d /\ is_none w = false.
Proof.
  induction attrs as [|y r IH]; intros acc a w I; cbn [collect] in I; [left; exact I|]. apply IH in I as [I|(I & H)]; [|right; split; [right; exact I|exact H]].
  destruct (is_none (vget y d)) eqn:Nn; [left; exact I|]. apply set_entry in I as [(-> & ->)|I]; [right; split; [left; reflexivity|auto]|left; exact I].
Qed.
Definition dataEntries (Q : str -> Prop) (d : list (str * pyval)) : Prop := forall a w, In (a, w) d -> Q a /\ plistData textOk w.
Lemma collect_data attrs d : plistData textOk d -> dataEntries (fun a => In a attrs) (collect attrs d []).
Proof. intros D a w I. apply collect_entries in I as [[]|(I & -> & Nn)]. split; [exact I|]. destruct (data_vget a d D) as [H|H]; [rewrite H in Nn; discriminate Nn|exact H]. Qed.
Lemma set_data (Q : str -> Prop) d a w : Q a -> plistData textOk w -> dataEntries Q d -> dataEntries Q (set a w d).
Proof. intros Ha Hw D a' w' I. apply set_entry in I as [(-> & ->)|I]; [auto|apply D; exact I]. Qed.
Lemma via_data d v w : Forall (fun kv => plistData textOk (snd kv)) d -> convertVia d v = Ok w -> plistData textOk w.
Proof.
  intros F E. unfold convertVia, dictGet in E. destruct (hashable v); [|discriminate E]. cbn [bind] in E. induction F as [|[k x] r Hx F IH]; cbn [lookup] in E; [discriminate E|]. destruct (py_eq v k); [injection E as <-; exact Hx|apply IH; exact E].
Qed.
Lemma table_data d : forallb (fun kv : pyval * pyval => match snd kv with PInt _ => true | PStr s => forallb (fun c => (c =? 10) || ((32 <=? c) && (c <? 128)))%N s | _ => false end) d = true -> Forall (fun kv => plistData textOk (snd kv)) d.
Proof.
  intros E. apply Forall_forall. intros [k v] I. rewrite forallb_forall in E. specialize (E _ I). cbn [snd] in E |- *. destruct v; try discriminate E; constructor. apply text_check. exact E.
Qed.
Lemma value_1To2 a v n w : convertValue1To2 a v = Ok (n, w) -> plistData textOk v -> plistData textOk w.
Proof.
  intros E D. unfold convertValue1To2 in E. apply bind_Ok in E as (v1 & E1 & E). apply bind_Ok in E as (v2 & E2 & E). injection E as _ <-.
  assert (D1 : plistData textOk v1).
  { destruct v; cbn [floatToInt] in E1; try (injection E1 as <-; exact D). apply bind_Ok in E1 as (z & _ & E1). injection E1 as <-. destruct (num_eq _ _); [constructor|exact D]. }
  destruct (is_none v1); [injection E2 as <-; exact D1|].
  destruct (eqb a (u "fontStyle")); [eapply via_data; [|exact E2]; apply table_data; vm_compute; reflexivity|].
  destruct (eqb a (u "widthName")); [eapply via_data; [|exact E2]; apply table_data; vm_compute; reflexivity|].
  destruct (eqb a (u "msCharSet")); [eapply via_data; [|exact E2]; apply table_data; vm_compute; reflexivity|]. injection E2 as <-. exact D1.
Qed.
Notation V2 := (fontInfoAttributesVersion2 T).
Lemma data_1To2 Q d : dataEntries Q d -> forall acc c, convertData1To2 T d acc = Ok c -> dataEntries (fun a => In a V2) acc -> dataEntries (fun a => In a V2) c.
Proof.
  induction d as [|[a v] d IH]; intros D acc c E A; cbn [convertData1To2] in E; [injection E as <-; exact A|]. assert (D' : dataEntries Q d) by (intros x y I; apply D; right; exact I).
  destruct (eqb a (u "weightValue") && py_eq v (PInt (-1))); [eapply IH; eassumption|]. apply bind_Ok in E as ([n w] & Ev & E). cbn [fst snd] in E.
  destruct (mem n V2) eqn:M; cbn [negb] in E; [|eapply IH; eassumption]. destruct (is_none v); [discriminate E|]. eapply IH; [exact D'|exact E|]. apply set_data; [apply mem_In; exact M| |exact A]. eapply value_1To2; [exact Ev|]. apply (D a v). left. reflexivity.
Qed.
Lemma value_2To3 a v n w : convertValue2To3 a v = Ok (n, w) -> In a V2 -> plistData textOk v -> n = a /\ plistData textOk w.
Proof.
  intros E Ia D. unfold convertValue2To3 in E. apply bind_Ok in E as (v1 & E1 & E). apply bind_Ok in E as (v2 & E2 & E). injection E as <- <-. split; [reflexivity|].
  assert (D1 : plistData textOk v1).
  { destruct (mem a ufo2To3FloatToInt); [|injection E1 as <-; exact D]. apply bind_Ok in E1 as (z & _ & E1). injection E1 as <-. match goal with |- plistData _ (if ?b then _ else _) => destruct b end; [exact D|constructor]. }
  destruct (mem a ufo2To3NonNegativeInt).
  - apply bind_Ok in E2 as (z & _ & E2). injection E2 as <-. match goal with |- plistData _ (if ?b then _ else _) => destruct b end; [exact D1|constructor].
  - assert (L : mem a ufo2To3NonNegativeIntOrFloat = false).
    { assert (H : forallb (fun a => negb (mem a ufo2To3NonNegativeIntOrFloat)) V2 = true) by (vm_compute; reflexivity). rewrite forallb_forall in H. apply negb_true_iff. exact (H a Ia). }
    rewrite L in E2. injection E2 as <-. exact D1.
Qed.
Lemma data_2To3 d : dataEntries (fun a => In a V2) d -> forall acc c, convertData2To3 d acc = Ok c -> dataEntries (fun _ => True) acc -> dataEntries (fun _ => True) c.
Proof.
  induction d as [|[a v] d IH]; intros D acc c E A; cbn [convertData2To3] in E; [injection E as <-; exact A|]. apply bind_Ok in E as ([n w] & Ev & E). cbn [fst snd] in E. destruct (D a v (or_introl eq_refl)) as [Ia Dv]. destruct (value_2To3 _ _ _ _ Ev Ia Dv) as [-> Dw].
  eapply IH; [intros x y I; apply D; right; exact I|exact E|]. apply set_data; [exact Logic.I|exact Dw|exact A].
Qed.
Lemma infoToSet_data perm v d c : plistData textOk d -> infoToSet T perm v d = Ok c -> dataEntries (fun _ => True) c.
Proof.
  intros D E. unfold infoToSet in E. assert (Z : forall Q, dataEntries Q []) by (intros Q a w []). destruct (v =? 1)%Z.
  - apply bind_Ok in E as (c1 & E1 & E). eapply data_2To3; [|exact E|apply Z]. eapply data_1To2; [|exact E1|apply Z]. apply collect_data. exact D.
  - destruct (v =? 2)%Z; [eapply data_2To3; [|exact E|apply Z]; apply collect_data; exact D|]. destruct (v =? 3)%Z; [|discriminate E]. apply Ok_inj in E. rewrite <- E. intros a w I. split; [exact Logic.I|]. eapply collect_data; [exact D|exact I].
Qed.
(** names of kerning groups *)
Lemma removeAux_text p s : forall k, textOk s -> textOk (removeAllAux p k s).
Proof.
  assert (Q : forall c s, textOk (c :: s) -> textOk s) by (intros c r H; apply textOk_chars in H; apply textOk_chars; inversion H; assumption).
  induction s as [|c s IH]; intros k H; cbn [removeAllAux]; [destruct k; exact H|]. destruct k; [|apply IH; eapply Q; exact H]. destruct (startswith p (c :: s)); [apply IH; eapply Q; exact H|]. pose proof (IH O (Q _ _ H)) as H2. apply textOk_chars in H. apply textOk_chars in H2. apply textOk_chars. constructor; [inversion H; assumption|exact H2].
Qed.
Lemma unique_text name names fuel n : forall c, makeUniqueGroupNameAux fuel name names c = Ok n -> textOk name -> textOk n.
Proof.
  induction fuel as [|fuel IH]; intros c E H; cbn [makeUniqueGroupNameAux] in E; [discriminate E|]. destruct (mem _ _); [eapply IH; eassumption|]. injection E as <-. destruct (0 <? c)%N; [|exact H]. apply textOk_app; [exact H|]. apply text_check. pose proof (str_of_N_digit c) as Hd. rewrite forallb_forall in Hd |- *. intros x I. specialize (Hd x I). unfold is_digit in Hd. apply andb_true_iff in Hd as [H1 H2]. apply N.leb_le in H1. apply N.leb_le in H2. apply orb_true_iff. right. apply andb_true_iff. split; [apply N.leb_le|apply N.ltb_lt]; lia.
Qed.
Lemma renameLoop_text newP oldP groups : textOk newP -> forall order renamed r, renameLoop newP oldP groups order renamed = Ok r -> (forall o n, In (o, n) renamed -> textOk o -> textOk n) -> forall o n, In (o, n) r -> textOk o -> textOk n.
Proof.
  intro Tp. induction order as [|a order IH]; intros renamed r E H; cbn [renameLoop] in E; [injection E as <-; exact H|]. apply bind_Ok in E as (nm & En & E). eapply IH; [exact E|]. intros o n I To. apply set_entry in I as [(-> & ->)|I]; [|eapply H; eassumption]. eapply unique_text; [exact En|]. apply textOk_app; [exact Tp|]. apply removeAux_text. exact To.
Qed.
Lemma copyGroups_text ren : (forall o n, In (o, n) ren -> textOk o -> textOk n) -> forall g g', copyGroups ren g = Ok g' -> dict_ok g -> (forall n l, In (n, l) g -> textOk n /\ Forall textOk l) ->
  dict_ok g' /\ (forall n l, In (n, l) g' -> textOk n /\ Forall textOk l) /\ forall o n, In (o, n) ren -> textOk n.
Proof.
  induction ren as [|[o n] ren IH]; intros Hr g g' E D H; cbn [copyGroups] in E; [injection E as <-; split; [exact D|]; split; [exact H|]; intros ? ? []|]. destruct (get o g) as [l|] eqn:G; [|discriminate E]. apply get_In in G. destruct (H _ _ G) as [To Tl]. pose proof (Hr o n (or_introl eq_refl) To) as Tn.
  destruct (IH (fun x y I => Hr x y (or_intror I)) _ _ E) as (D' & H' & R'); [apply dict_ok_set; exact D|intros x y I; apply set_entry in I as [(-> & ->)|I]; [auto|eapply H; exact I]|]. split; [exact D'|]. split; [exact H'|]. intros x y [I|I]; [injection I as <- <-; exact Tn|eapply R'; exact I].
Qed.
Lemma getd_text k m : textOk k -> (forall o n, In (o, n) m -> textOk n) -> textOk (getd k m).
Proof. intros H F. unfold getd. destruct (get k m) as [x|] eqn:G; [|exact H]. apply get_In in G. eapply F; exact G. Qed.
Definition pairsText (k : list (str * list (str * pyval))) : Prop := forall a i, In (a, i) k -> textOk a /\ forall b x, In (b, x) i -> textOk b /\ plistData textOk x.
Lemma renamed_text r1 r2 k : (forall o n, In (o, n) r1 -> textOk n) -> (forall o n, In (o, n) r2 -> textOk n) -> pairsText k -> pairsText (renameKerning r1 r2 k).
Proof.
  intros H1 H2 P. unfold renameKerning.
  assert (S : forall i acc, (forall b x, In (b, x) i -> textOk b /\ plistData textOk x) -> (forall b x, In (b, x) acc -> textOk b /\ plistData textOk x) -> forall b x, In (b, x) (fold_left (fun ns '(second, value) => set (getd second r2) value ns) i acc) -> textOk b /\ plistData textOk x).
  { induction i as [|[b x] i IH]; intros acc Hi Ha; cbn [fold_left]; [exact Ha|]. apply IH; [intros b' x' I; apply Hi; right; exact I|]. destruct (Hi b x (or_introl eq_refl)) as [Tb Dx]. intros b' x' I. apply set_entry in I as [(-> & ->)|I]; [split; [apply getd_text; assumption|exact Dx]|apply Ha; exact I]. }
  assert (G : forall k acc, pairsText k -> pairsText acc -> pairsText (fold_left (fun nk '(first, seconds) => set (getd first r1) (fold_left (fun ns '(second, value) => set (getd second r2) value ns) seconds []) nk) k acc)).
  { clear k P. induction k as [|[a i] k IH]; intros acc Pk Pa; cbn [fold_left]; [exact Pa|]. apply IH; [intros a' i' I; apply Pk; right; exact I|]. destruct (Pk a i (or_introl eq_refl)) as [Ta Hi]. intros a' i' I. apply set_entry in I as [(-> & ->)|I]; [|apply Pa; exact I]. split; [apply getd_text; assumption|]. apply S; [exact Hi|intros ? ? []]. }
  apply G; [exact P|intros ? ? []].
Qed.
Lemma nested_data l n : asNested l = Some n -> plistData textOk (PDict l) -> pairsText n.
Proof.
  intros E D a i I. destruct (asNested_In _ _ E _ _ I) as (d & I3 & Ai). destruct (data_entry _ _ _ D I3) as (a' & X & Ta & Dd). injection X as <-. split; [exact Ta|]. intros b x J. apply (asInner_In _ _ Ai) in J. destruct (data_entry _ _ _ Dd J) as (b' & X & Tb & Dx). injection X as <-. auto.
Qed.
Lemma asTexts_data l : forall ss, asTexts l = Some ss -> Forall (plistData textOk) l -> Forall textOk ss.
Proof.
  induction l as [|v l IH]; intros ss E F; cbn [asTexts] in E; [injection E as <-; constructor|]. destruct v; try discriminate E. destruct (asTexts l) as [ss'|]; [|discriminate E]. injection E as <-. inversion F as [|? ? Dv F']; subst. constructor; [inversion Dv; assumption|apply IH; auto].
Qed.
Lemma textGroups_data l : forall g, asTextGroups l = Some g -> (forall k v, In (k, v) l -> exists a, k = PStr a /\ textOk a /\ plistData textOk v) ->
  map fst l = map PStr (keys g) /\ forall n m, In (n, m) g -> textOk n /\ Forall textOk m.
Proof.
  induction l as [|[k v] l IH]; intros g E H; cbn [asTextGroups] in E; [injection E as <-; split; [reflexivity|intros ? ? []]|]. destruct k; try discriminate E. destruct v; try discriminate E. destruct (asTexts l0) as [ss|] eqn:A; [|discriminate E]. destruct (asTextGroups l) as [g'|]; [|discriminate E]. injection E as <-.
  destruct (IH _ eq_refl (fun k v I => H k v (or_intror I))) as [K G]. destruct (H _ _ (or_introl eq_refl)) as (a & X & Ta & Dv). injection X as <-. split; [cbn [map keys fst]; f_equal; exact K|]. intros n m [I|I]; [|apply G; exact I]. injection I as <- <-. split; [exact Ta|]. inversion Dv; subst. eapply asTexts_data; eassumption.
Qed.
Lemma data_names l (names : list str) : plistData textOk (PDict l) -> map fst l = map PStr names -> NoDup names.
Proof.
  intros D E. inversion D as [| | | | | | |m N F]; subst. rewrite map_map in E. assert (X : map PStr (map fst m) = map PStr names) by (rewrite <- E, map_map; apply map_ext; intros [a x]; reflexivity). assert (Y : map fst m = names) by (clear -X; revert names X; induction (map fst m) as [|a r IH]; intros [|b s] X; try discriminate X; [reflexivity|]; injection X as -> X; f_equal; apply IH; exact X). rewrite <- Y. exact N.
Qed.
Lemma conv_data perm k g k' g' m : convPy perm k g = Ok (k', g', m) -> plistData textOk k -> plistData textOk g -> (exists n, k' = nestedVal n /\ pairsText n) /\ plistData textOk g'.
Proof.
  intros E Dk Dg. unfold convPy in E. destruct k as [| | | | | | | | |kd|]; try discriminate E. destruct g as [| | | | | | | | |gd|]; try discriminate E. destruct (asNested kd) as [kn|] eqn:N; [|discriminate E]. destruct (asTextGroups gd) as [gs|] eqn:G; [|discriminate E].
  destruct (convertKerning perm kn gs) as [[[nk ng] [m1 m2]]|] eqn:Cv; [|discriminate E]. injection E as <- <- _. apply nested_data in N; [|exact Dk]. apply textGroups_data in G as [Kg Tg]; [|intros k v I; exact (data_entry _ _ _ Dg I)]. pose proof (data_names _ _ Dg Kg) as Ng.
  unfold convertKerning in Cv. destruct (referencedGroups _ _ _) as [f s]. apply bind_Ok in Cv as (r1 & E1 & Cv). apply bind_Ok in Cv as (r2 & E2 & Cv). apply bind_Ok in Cv as (gs' & Ec & Cv). injection Cv as <- <- <- <-.
  assert (T1 : forall o n, In (o, n) r1 -> textOk o -> textOk n) by (eapply renameLoop_text; [|exact E1|intros ? ? []]; apply text_check; reflexivity).
  assert (T2 : forall o n, In (o, n) r2 -> textOk o -> textOk n) by (eapply renameLoop_text; [|exact E2|intros ? ? []]; apply text_check; reflexivity).
  destruct (copyGroups_text (r1 ++ r2)) with (2 := Ec) as (Dg' & Hg' & Hr); [intros o n I; apply in_app_or in I as [I|I]; eauto|exact Ng|exact Tg|]. split.
  - eexists. split; [reflexivity|]. apply renamed_text; [intros o n I; eapply Hr; apply in_or_app; left; exact I|intros o n I; eapply Hr; apply in_or_app; right; exact I|exact N].
  - assert (X : groupsVal (map (fun '(n, l) => (n, map PStr l)) gs') = PDict (map (fun '(k, x) => (PStr k, x)) (map (fun '(n, l) => (n, PList (map PStr l))) gs'))) by (unfold groupsVal; rewrite !map_map; f_equal; apply map_ext; intros [n l]; reflexivity).
    rewrite X. constructor; [rewrite map_map; erewrite map_ext; [exact Dg'|intros [n l]; reflexivity]|]. apply Forall_forall. intros [n v] I. apply in_map_iff in I as ([n' l] & E & I). injection E as <- <-. destruct (Hg' _ _ I) as [Tn Tl]. cbn [fst snd]. split; [exact Tn|]. constructor. apply Forall_forall. intros v J. apply in_map_iff in J as (w & <- & J). constructor. rewrite Forall_forall in Tl. apply Tl. exact J.
Qed.
Lemma asNested_back (n : list (str * list (str * pyval))) : exists d, nestedVal n = PDict d /\ asNested d = Some n.
Proof.
  eexists. split; [reflexivity|]. induction n as [|[a i] n IH]; [reflexivity|]. cbn [map asNested]. assert (X : asInner (map (fun '(b, x) => (PStr b, x)) i) = Some i) by (clear; induction i as [|[b x] i IH]; [reflexivity|]; cbn [map asInner]; rewrite IH; reflexivity). rewrite X, IH. reflexivity.
Qed.
(** groups and kerning of the loaded UFO *)
Lemma groups_kerning_data p v t cache g0 g k : plainDocuments t -> readGroups C (convPy p) v t None true = (cache, g0) -> g0 = Ok g -> snd (readKerning C (convPy p) v t cache true) = Ok k ->
  plistData textOk g /\ exists n, pairsText n /\ k = pairsVal (flatten n).
Proof.
  intros P Rg -> Ek. assert (Z : forall w, Some (PDict []) = Some w -> w = PDict []) by congruence.
  assert (Fin : forall kv, (do k <- Ok kv; check negb (true && negb (kerningValidator k)) else UFOLibError; match k, asNested (items k) with PDict _, Some n => Ok (pairsVal (flatten n)) | _, _ => Err TypeError end) = Ok k -> (plistData textOk kv \/ exists n, kv = nestedVal n /\ pairsText n) -> exists n, pairsText n /\ k = pairsVal (flatten n)).
  { intros kv E H. cbn [bind andb] in E. destruct (kerningValidator kv); [|discriminate E]. cbn [negb] in E. destruct H as [D|(n & -> & Pn)].
    - destruct kv as [| | | | | | | | |d|]; try discriminate E. cbn [items] in E. destruct (asNested d) as [n|] eqn:N; [|discriminate E]. injection E as <-. exists n. split; [eapply nested_data; eassumption|reflexivity].
    - destruct (asNested_back n) as (d & X & Y). rewrite X in E. cbn [items] in E. rewrite Y in E. injection E as <-. exists n. auto. }
  unfold readGroups in Rg. unfold readKerning in Ek. destruct (v <? 3)%Z.
  - unfold upConvert in Rg. destruct (readGroupsRaw C t) as [g1|] eqn:Eg1; [|discriminate Rg]. destruct (rawGroupsOk g1) eqn:Og; [|discriminate Rg]. cbn [andb negb] in Rg. destruct (readKerningRaw C t) as [k1|] eqn:Ek1; [|discriminate Rg]. destruct (convPy p k1 g1) as [[[k2 g2] m]|] eqn:Cv; [|discriminate Rg]. cbn [bind upGroups] in Rg. apply pair_equal_spec in Rg as [<- Rg].
    destruct (groupsValidator g2); [|discriminate Rg]. cbn [andb negb] in Rg. injection Rg as ->.
    apply getPlist_data in Eg1 as [->|Dg]; [discriminate Og| |exact P|exact Z]. apply getPlist_data in Ek1 as [->|Dk]; [discriminate Cv| |exact P|exact Z]. destruct (conv_data _ _ _ _ _ _ Cv Dk Dg) as [(n & -> & Pn) Dg']. split; [exact Dg'|].
    unfold upConvert in Ek. cbn [snd] in Ek. apply bind_Ok in Ek as (kv & Ekv & Ek). apply bind_Ok in Ekv as (tt' & _ & Ekv). cbn [upKerning] in Ekv. injection Ekv as <-. apply (Fin (nestedVal n)); [exact Ek|]. right. exists n. auto.
  - apply pair_equal_spec in Rg as [<- Rg]. apply bind_Ok in Rg as (w & Ew & Rg). apply getPlist_data in Ew as [->|D]; [discriminate Rg| |exact P|exact Z]. split; [destruct (groupsValidator w); [|discriminate Rg]; injection Rg as <-; exact D|].
    cbn [snd] in Ek. apply bind_Ok in Ek as (kv & Ekv & Ek). apply getPlist_data in Ekv as [->|Dk]; [discriminate Ek| |exact P|exact Z]. apply (Fin kv); [exact Ek|left; exact Dk].
Qed.
Lemma plain_clean p p' t f : plainDocuments t -> plainFont f -> loadUfo T R p p' t = Ok f -> cleanUfo f.
Proof.
  intros P [F1 F2 F3 F4 F5 Fd F6 F7 F8] E. unfold loadUfo in E. apply bind_Ok in E as (v & _ & E).
  apply bind_Ok in E as (ri & Eri & E). apply bind_Ok in E as (info & Ei & E). destruct (readGroups _ _ _ _ _ _) as [cache g1] eqn:Rg. apply bind_Ok in E as (g & Eg & E). apply bind_Ok in E as (gr & Egr & E). apply bind_Ok in E as (k & Ek & E). apply bind_Ok in E as (ke & Eke & E). apply bind_Ok in E as (lib & El & E). apply bind_Ok in E as (fe & Ef & E).
  apply bind_Ok in E as (ims & _ & E). apply bind_Ok in E as (im & Eim & E). apply bind_Ok in E as (dt & Edt & E). apply bind_Ok in E as (names & En & E). apply bind_Ok in E as (df & Ed & E). apply bind_Ok in E as (ly & Ely & E). injection E as <-. cbn [uInfo uGroups uKerning uLib uFeatures uImages uData uLayers uDefault] in *.
  assert (Z : forall w, Some (PDict []) = Some w -> w = PDict []) by congruence. destruct (groups_kerning_data _ _ _ _ _ _ _ P Rg Eg Ek) as (Dg & n & Pn & ->).
  constructor; cbn [uInfo uGroups uKerning uLib uFeatures uImages uData uLayers uDefault]; try assumption.
  - intros x w [G _]. pose proof (F1 x w G) as W. apply data_faithful; [|exact W]. unfold readInfoFile in Eri. apply bind_Ok in Eri as (d & Ed' & Eri). apply getPlist_data in Ed' as [->|D]; [discriminate Eri| |exact P|exact Z]. cbn [andb] in Eri. destruct (is_dict d) eqn:ID; [|discriminate Eri]. injection Eri as <-.
    apply readInfo_sets in Ei as (c & Ec & Dc & Ei). apply infoToSet_data in Ec; [|exact D]. destruct (validate_3 T c info Dc Ei) as (-> & _). apply get_In in G. apply (Ec x w G).
  - apply data_faithful; [|exact F2]. destruct g as [| | | | | | | | |dw|]; cbn [items] in Egr; try (injection Egr as <-; apply (pd_dict textOk []); constructor). destruct (asGroups dw) eqn:A; [|discriminate Egr]. injection Egr as <-. rewrite (asGroups_data dw _ A Dg). exact Dg.
  - intros a b x I. pose proof (F3 _ _ I) as W. rewrite asKerning_pairs in Eke. injection Eke as <-. destruct (flatten_src n a b x I) as (i & I1 & I2). destruct (Pn _ _ I1) as [Ta Hi]. destruct (Hi _ _ I2) as [Tb Dx]. split; [exact Ta|]. split; [exact Tb|]. apply data_faithful; assumption.
  - apply data_faithful; [|exact F4]. unfold Ufo.readLib in El. apply bind_Ok in El as (w & Ew & El). apply getPlist_data in Ew as [->|D]; [discriminate El| |exact P|exact Z]. cbn [andb] in El. destruct (fontLibValidator w) eqn:V; [|discriminate El]. injection El as <-. destruct w; try discriminate V. exact D.
  - intros ln gl li I. destruct (F7 _ _ _ I) as [Fe Wi]. destruct (mapM_In _ _ _ _ Ely I) as (x & Ix & X). pose proof (loaded_layer T LT R LR _ _ _ _ X) as (Nx & _). cbn [fst] in Nx. subst x. destruct (layer_plain _ _ _ _ _ P X) as [Hi _]. split; [|split; [exact Fe|]; intros x q Iq; apply (Hi x q Iq); eapply Wi; exact Iq].
    unfold getLayerNames in En. apply bind_Ok in En as (lr & Er & En). injection En as <-. unfold readLayersR in Er. destruct (v <? 3)%Z; [injection Er as <-; destruct Ix as [<-|[]]; apply text_check; reflexivity|]. apply bind_Ok in Er as (raw & Eraw & Er). apply getPlist_data in Eraw as [->|D]; [discriminate Er| |exact P|discriminate]. apply bind_Ok in Er as (okv & V & Er). destruct okv; [|discriminate Er]. clear -Er D Ix.
    destruct raw; cbn [elems] in Er; try (injection Er as <-; destruct Ix); try (inversion D; fail). inversion D as [| | | | | |l0 F|]; subst. revert lr Er Ix. induction l as [|q l IH]; intros lr Er Ix; cbn [asPairs] in Er; [injection Er as <-; destruct Ix|]. inversion F as [|? ? Dq F']; subst.
    destruct q as [| | | | | | |[|[| | | |a| | | | | |] [|[| | | |b| | | | | |] [|]]]|[|[| | | |a| | | | | |] [|[| | | |b| | | | | |] [|]]]| |]; try discriminate Er; [|inversion Dq]. destruct (asPairs l) as [ps|]; [|discriminate Er]. injection Er as <-. destruct Ix as [<-|Ix]; [|apply (IH (pd_list _ _ F') F' ps eq_refl Ix)]. inversion Dq as [| | | | | |? Fq|]; subst. inversion Fq as [|? ? Da _]; subst. inversion Da. assumption.
  - intros ln gl li g0 r I J. destruct (F8 _ _ _ _ _ I J) as (Ng & Tg & W). destruct (mapM_In _ _ _ _ Ely I) as (x & Ix & X). pose proof (loaded_layer T LT R LR _ _ _ _ X) as (Nx & _). cbn [fst] in Nx. subst x. destruct (layer_plain _ _ _ _ _ P X) as [_ Hg]. destruct (Hg g0 r J) as [Tx Cr]. split; [exact Ng|]. split; [split; [exact Tx|exact Tg]|exact (Cr W)].
Qed.
End Documents.

(** The same in terms of the files: no XML document of the UFO refers to characters by
    number; integers have 64 bits; names of glyphs are not empty and have no tab. *)
Theorem C97_documents_partial : forall T R ro lower, pytext_laws T -> repr_laws T R -> lower_keeps lower -> lower_laws lower ->
  forall creator p p' t f, textOk creator -> plainDocuments t -> loadUfo T R p p' t = Ok f -> plainFont f ->
  exists t', saveAs T R ro lower (carefulFileName lower) (PStr creator) f = Ok t' /\ forall q q', exists f', loadUfo T R q q' t' = Ok f' /\ sameUfo T f f'.
Proof.
  intros T R ro lower LT LR K LL c p p' t f Tc P E Pf. apply (C97_careful_partial T R ro lower LT LR K LL c p p' t f Tc E). eapply plain_clean; eassumption.
Qed.
Print Assumptions C97_documents_partial.

(** A UFO with kerning, groups, a lib, features, two layers and data. *)
Definition doc (s : string) : bytes := u "<?xml version=""1.0"" encoding=""UTF-8""?><plist version=""1.0"">" ++ u s ++ u "</plist>".
Definition ufoCase (lib : string) : node := Dir [
  (u "metainfo.plist", File (doc "<dict><key>creator</key><string>x</string><key>formatVersion</key><integer>3</integer></dict>"));
  (u "fontinfo.plist", File (doc "<dict><key>unitsPerEm</key><integer>1000</integer></dict>"));
  (u "groups.plist", File (doc "<dict><key>public.kern1.A</key><array><string>A</string></array></dict>"));
  (u "kerning.plist", File (doc "<dict><key>public.kern1.A</key><dict><key>a</key><integer>-7</integer></dict></dict>"));
  (u "lib.plist", File (doc lib));
  (u "features.fea", File (u "feature kern {} kern;"));
  (u "layercontents.plist", File (doc "<array><array><string>back</string><string>glyphs.b</string></array><array><string>fore</string><string>glyphs</string></array></array>"));
  (u "glyphs", Dir [
    (u "contents.plist", File (doc "<dict><key>A</key><string>x.glif</string><key>a</key><string>X.glif</string></dict>"));
    (u "x.glif", File (u "<glyph name=""A"" format=""2""><advance width=""500""/><outline><contour><point x=""0"" y=""0"" type=""line""/><point x=""9"" y=""3"" type=""line""/></contour><component base=""a""/></outline></glyph>"));
    (u "X.glif", File (u "<glyph name=""other"" format=""1""><unicode hex=""61""/></glyph>"))]);
  (u "glyphs.b", Dir [
    (u "contents.plist", File (doc "<dict></dict>"));
    (u "layerinfo.plist", File (doc "<dict><key>lib</key><dict><key>k</key><true/></dict></dict>"))]);
  (u "data", Dir [(u "com.x", Dir [(u "e", Dir []); (u "y", File [1]%N)]); (u "z", File [2]%N)])].
Definition savedCase (lib : string) : res (ufont * res (node * res ufont)) :=
  do f <- loadUfo toyText toyRepr (fun l => l) (fun l => l) (ufoCase lib);
  Ok (f, do t <- saveAs toyText toyRepr roCase ascii_lower (carefulFileName ascii_lower) (PStr (u "me")) f; Ok (t, loadUfo toyText toyRepr (fun l => l) (fun l => l) t)).
Definition someLib : string := "<dict><key>k</key><integer>1</integer></dict>".
Definition pointAt x y : gcall := PAdd (mkPoint (Some (PInt x, PInt y)) (Some (u "line")) false None (Some None)).
Example C97_case :
  match savedCase someLib with
  | Ok (f, Ok (t, Ok f')) =>
    uInfo f = [(u "unitsPerEm", PInt 1000)] /\ uInfo f' = uInfo f /\
    uGroups f = [(u "public.kern1.A", [PStr (u "A")])] /\ uGroups f' = uGroups f /\
    uKerning f = [((u "public.kern1.A", u "a"), PInt (-7))] /\ uKerning f' = uKerning f /\
    uLib f = [(PStr (u "k"), PInt 1)] /\ uLib f' = uLib f /\ uFeatures f' = u "feature kern {} kern;" /\ uData f' = [([u "com.x"; u "y"], [1]%N); ([u "z"], [2]%N)] /\
    map fst (uLayers f') = [u "back"; u "fore"] /\ uDefault f' = u "fore" /\
    get (u "back") (uLayers f') = Some ([], [(u "lib", PDict [(PStr (u "k"), PBool true)])]) /\
    match get (u "fore") (uLayers f), get (u "fore") (uLayers f') with
    | Some (gl, _), Some (gl', _) =>
      map fst gl = [u "A"; u "a"] /\ map fst gl' = [u "A"; u "a"] /\
      (exists r r', get (u "A") gl = Some r /\ get (u "A") gl' = Some r' /\ rcalls r' = rcalls r /\ get (u "width") (rattrs r') = Some (PInt 500) /\
         rcalls r' = [PBegin (Some None); pointAt 0 0; pointAt 9 3; PEnd; PComponent (u "a") [PInt 1; PInt 0; PInt 0; PInt 1; PInt 0; PInt 0] (Some None)]) /\
      (exists r r', get (u "a") gl = Some r /\ get (u "a") gl' = Some r' /\ get (u "name") (rattrs r) = Some (PStr (u "other")) /\ get (u "name") (rattrs r') = Some (PStr (u "a")) /\
         get (u "unicodes") (rattrs r') = Some (PList [PInt 97]))
    | _, _ => False
    end /\
    exists es, find t [u "glyphs"] = Some (Dir es) /\ map fst es = [u "A_.glif"; u "a.glif"; u "contents.plist"]
  | _ => False
  end.
Proof. vm_compute. repeat split; repeat eexists. Qed.
(** A UFO 1 is upgraded: fontinfo, kerning groups and anchors are converted when it
    is loaded, and saving keeps the converted data. *)
Definition ufo1Case : node := Dir [
  (u "metainfo.plist", File (doc "<dict><key>creator</key><string>x</string><key>formatVersion</key><integer>1</integer></dict>"));
  (u "fontinfo.plist", File (doc "<dict><key>fontStyle</key><integer>64</integer><key>menuName</key><string>M</string><key>weightValue</key><integer>-1</integer></dict>"));
  (u "groups.plist", File (doc "<dict><key>@MMK_L_A</key><array><string>A</string></array></dict>"));
  (u "kerning.plist", File (doc "<dict><key>@MMK_L_A</key><dict><key>B</key><integer>-7</integer></dict></dict>"));
  (u "glyphs", Dir [
    (u "contents.plist", File (doc "<dict><key>A</key><string>A_.glif</string></dict>"));
    (u "A_.glif", File (u "<glyph name=""A"" format=""1""><outline><contour><point x=""3"" y=""4"" type=""move"" name=""top""/></contour></outline></glyph>"))])].
Example C97_upgrade_case :
  match (do f <- loadUfo toyText toyRepr (fun l => l) (fun l => l) ufo1Case;
         do t <- saveAs toyText toyRepr roCase ascii_lower (carefulFileName ascii_lower) (PStr (u "me")) f;
         do f' <- loadUfo toyText toyRepr (fun l => l) (fun l => l) t; Ok (f, t, f')) with
  | Ok (f, t, f') =>
    readMetaInfo (plistCodec toyText toyRepr) t true = Ok 3%Z /\
    get (u "styleMapStyleName") (uInfo f') = Some (PStr (u "regular")) /\ get (u "styleMapFamilyName") (uInfo f') = Some (PStr (u "M")) /\ length (uInfo f') = 2%nat /\
    uGroups f' = [(u "@MMK_L_A", [PStr (u "A")]); (u "public.kern1.A", [PStr (u "A")])] /\
    uKerning f' = [((u "public.kern1.A", u "B"), PInt (-7))] /\
    map fst (uLayers f') = [u "public.default"] /\
    match uLayers f, uLayers f' with
    | [(_, ([(_, r)], _))], [(_, ([(_, r')], _))] =>
      rcalls r' = [] /\ get (u "anchors") (rattrs r') = get (u "anchors") (rattrs r) /\
      exists a, get (u "anchors") (rattrs r') = Some (PList [PDict a]) /\ dget (u "name") a = Some (PStr (u "top")) /\ dget (u "x") a = Some (PInt 3) /\ dget (u "y") a = Some (PInt 4)
    | _, _ => False
    end
  | _ => False
  end.
Proof. vm_compute. repeat split; repeat eexists. Qed.
(** the hypotheses hold for the first case *)
Fixpoint ints (v : pyval) : list Z :=
  match v with
  | PInt z => [z]
  | PList l | PTuple l => flat_map ints l
  | PDict d => flat_map (fun kv => ints (snd kv)) d
  | _ => []
  end.
Lemma ints_inside z v : PropPlist.inside (PInt z) v -> In z (ints v).
Proof. induction 1 as [|l v J _ IH|l v J _ IH|d k v J _ IH]; cbn [ints]; [left; reflexivity| | |]; apply in_flat_map; [exists v|exists v|exists (k, v)]; auto. Qed.
Lemma small_ints v : forallb (fun z => (- 2 ^ 63 <=? z) && (z <? 2 ^ 64))%Z (ints v) = true -> wholeRange v.
Proof. intros H z I. apply ints_inside in I. rewrite forallb_forall in H. specialize (H z I). apply andb_prop in H as [A B]. apply Z.leb_le in A. apply Z.ltb_lt in B. split; assumption. Qed.
Fixpoint refless (s : bytes) : bool := match s with c :: r => negb ((c =? 38)%N && match r with d :: _ => (d =? 35)%N | [] => false end) && refless r | [] => true end.
Lemma refless_ok s : refless s = true -> noWhiteRefs s.
Proof. intro H. apply noRefs_simple. intros p q ->. induction p as [|c p IH]; [discriminate H|]. apply IH. cbn [app refless] in H. apply andb_prop in H. apply H. Qed.
Fixpoint allFiles (t : node) : list bytes := match t with File b => [b] | Dir es => flat_map (fun e => allFiles (snd e)) es end.
Lemma allFiles_in b t : inTree b t -> In b (allFiles t).
Proof. induction 1 as [|f n es I _ IH]; cbn [allFiles]; [left; reflexivity|]. apply in_flat_map. exists (f, n). auto. Qed.
Lemma plain_case : plainDocuments (ufoCase someLib).
Proof. intros b e I _. apply allFiles_in in I. apply refless_ok. revert b I. apply forallb_forall. vm_compute. reflexivity. Qed.
Definition fontOfCase : ufont := match loadUfo toyText toyRepr (fun l => l) (fun l => l) (ufoCase someLib) with Ok f => f | Err _ => mkUfont [] [] [] [] [] [] [] [] [] end.
Lemma font_case : plainFont fontOfCase.
Proof.
  set (f := fontOfCase). vm_compute in f. constructor; unfold f; cbn [uInfo uGroups uKerning uLib uImages uData uLayers].
  - intros x v G. apply get_In in G. destruct G as [G|[]]. injection G as _ <-. apply small_ints. reflexivity.
  - apply small_ints. reflexivity.
  - intros p v [G|[]]. injection G as _ <-. apply small_ints. reflexivity.
  - apply small_ints. reflexivity.
  - intros n b [].
  - intros p b [I|[I|[]]]; apply pair_equal_spec in I as [<- _]; repeat constructor; apply plain_check; reflexivity.
  - unfold fewNames. cbn [length]. vm_compute. reflexivity.
  - intros n gl li [G|[G|[]]]; apply pair_equal_spec in G as [_ G]; apply pair_equal_spec in G as [<- <-]; (split; [vm_compute; reflexivity|]).
    + intros x v [G|[]]. injection G as _ <-. apply small_ints. reflexivity.
    + intros x v [].
  - intros n gl li g r [G|[G|[]]] I; apply pair_equal_spec in G as [_ G]; apply pair_equal_spec in G as [<- <-]; [destruct I|]. destruct I as [I|[I|[]]]; apply pair_equal_spec in I as [<- <-]; (split; [discriminate|]); (split; [intros [I|[]]; discriminate I|]); apply small_ints; reflexivity.
Qed.
Example C97_hypotheses : exists t', saveAs toyText toyRepr roCase ascii_lower (carefulFileName ascii_lower) (PStr (u "me")) fontOfCase = Ok t' /\ forall q q', exists f', loadUfo toyText toyRepr q q' t' = Ok f' /\ sameUfo toyText fontOfCase f'.
Proof.
  eapply C97_documents_partial.
  - exact toyText_laws.
  - exact toyRepr_laws.
  - apply ascii_keeps.
  - apply ascii_lower_laws.
  - apply text_check. reflexivity.
  - exact plain_case.
  - instantiate (1 := fun l => l). instantiate (1 := fun l => l). vm_compute. reflexivity.
  - exact font_case.
Qed.
(** Without the hypotheses it is false: a lib with an integer beyond 64 bits is loaded,
    and can not be saved. *)
Theorem C97_all_refuted : ~ (forall T R ro lower, pytext_laws T -> repr_laws T R -> lower_keeps lower -> lower_laws lower ->
  forall creator p p' t f, textOk creator -> loadUfo T R p p' t = Ok f ->
  exists t', saveAs T R ro lower (carefulFileName lower) (PStr creator) f = Ok t').
Proof.
  intro H. destruct (loadUfo toyText toyRepr (fun l => l) (fun l => l) (ufoCase "<dict><key>k</key><integer>18446744073709551616</integer></dict>")) as [f|e] eqn:E; [|vm_compute in E; discriminate E].
  destruct (H toyText toyRepr roCase ascii_lower toyText_laws toyRepr_laws ascii_keeps ascii_lower_laws (u "me") (fun l => l) (fun l => l) _ f (text_check (u "me") eq_refl) E) as (t' & S).
  vm_compute in E. injection E as <-. vm_compute in S. discriminate S.
Qed.
Print Assumptions C97_all_refuted.
