(** Property C112: which font data a validating UFOWriter of version 3 writes. *)
From Coq Require Import String NArith ZArith Bool Lia List Permutation.
From Coq.Floats Require Import SpecFloat.
From Verif Require Import Base PyVal PyText FloatRepr Validators ValidatorsProofs PropValidators FontInfoTables FontInfo FontInfoProofs PropFontInfoTypes PropFontInfo PropInfoUpgrade PropFontInfoAccepts PropFontInfo2.
From Verif Require Import Kerning KerningProofs PropKerning Xml Plist PlistProofs Etree EtreeProofs PlistFiles FS FSProofs Ufo UfoProofs PropUfoFiles PropSaveAs PropReader GlifTexts PropGlifWriter.
Import ListNotations.
Local Open Scope string_scope.
Local Open Scope list_scope.

(** * The statement *)
Definition accepts (m : M unit) (s : ust) : Prop := exists s', m s = (s', Ok tt).
(** the place for a file at the top of the UFO is not taken by a directory *)
Definition room (s : ust) (name : string) : Prop := (exists es, tree s = Dir es) /\ isdir (tree s) [u name] = false.
(** kerning: a dictionary from pairs of texts to numbers *)
Definition goodPairs (v : pyval) : Prop :=
  exists d, v = PDict d /\ forall k x, In (k, x) d -> exists a b, k = PTuple [PStr a; PStr b] /\ xml a /\ xml b /\ isNum x /\ goodPlist x.
(** the writer is of version 3, or has not been given new names for kerning groups *)
Definition keepsNames (c : wcfg) (s : ust) : Prop := ver c = 3%Z \/ remap s = None.
(** an attribute of a layer: a colour or a non-empty lib *)
Definition goodLayer (T : pytext) (info : list (str * pyval)) : Prop :=
  (forall x : pyval, get (u "color") info = Some x -> x <> PNone -> colour T x /\ goodPlist x) /\
  (forall x : pyval, get (u "lib") info = Some x -> x <> PNone -> truthy x = true -> (exists d, x = PDict d) /\ goodPlist x).
(** no surrogates *)
Definition goodFeatures (v : pyval) : Prop := exists s, v = PStr s /\ Forall scalar s.
(** every attribute of UFO 3 that is set can be stored *)
Definition storedInfo (info : infoT) : Prop := forall name sh v, In (name, sh) documented -> setTo info (u name) v -> goodPlist v.

(** * Proofs *)
Section Accepts.
Variable T : pytext.
Variable R : spec_float -> str.
Hypothesis RX : forall f, xml (R f).
Notation C := (plistCodec T R).

(** * C112 *)
Theorem C112_dumps : forall v, (exists b, plistDumps T R true v = Ok b) <-> goodPlist v.
Proof.
  intro v. rewrite <- (mk_iff R (fun _ => []) RX v true 1). unfold plistDumps, dumpTree, totree. split.
  - intros (b & E). apply bind_Ok in E as (root & Er & E). apply bind_Ok in E as (t & Et & _). apply bind_Ok in Er as (e & Ee & Er). apply Ok_inj in Er. subst root.
    exists e. split; [exact Ee|]. assert (S : serial (Elem (u "plist") [(u "version", u "1.0")] None [e] None)).
    { apply (tostring_iff T); [constructor; [right; reflexivity|constructor; [exact (mk_tidy R v _ _ _ _ Ee)|constructor]]|eauto]. }
    inversion S as [? ? ? ? ? _ _ _ _ F]; subst. inversion F. assumption.
  - intros (e & Ee & S). rewrite Ee. cbn [bind].
    assert (S' : serial (Elem (u "plist") [(u "version", u "1.0")] None [e] None)).
    { constructor; try exact I; [apply xml_lit; reflexivity| |constructor; [exact S|constructor]]. constructor; [|constructor]. split; apply xml_lit; reflexivity. }
    apply (tostring_iff T) in S' as (t & Et); [|constructor; [right; reflexivity|constructor; [exact (mk_tidy R v _ _ _ _ Ee)|constructor]]].
    rewrite Et. cbn [bind]. eauto.
Qed.
Lemma set_accepts s es name b : tree s = Dir es -> isdir (tree s) [name] = false -> fsSetbytes [name] b s = (mkUst (Dir (set name (File b) es)) (log s ++ [OWrite [name]]) (layers s) (remap s), Ok tt).
Proof. intros E D. unfold fsSetbytes, mbind, getTree. rewrite E in *. rewrite setbytes_top by exact D. reflexivity. Qed.
Lemma plist_accepts c name v s : room s name -> (accepts (writePlist C (hp c) (u name) v) s <-> goodPlist v).
Proof.
  intros ((es & E) & D). pose proof D as D'. rewrite <- C112_dumps. unfold accepts, writePlist, dumpsU. cbn [dumps plistCodec]. destruct (hp c).
  - unfold mbind at 1. unfold lift at 1. destruct (plistDumps T R true v) as [b|e]; [|split; [intros (s' & H); discriminate H|intros (b & H); discriminate H]].
    split; [eauto|]. intros _. unfold mbind at 1, getTree at 1. destruct (existsAt (tree s) [u name]) eqn:X; [|rewrite (set_accepts s es) by assumption; eauto].
    rewrite getbytes_kind. unfold isdir in D. unfold kind, existsAt in *. destruct (find (tree s) [u name]) as [[old|ds]|]; try discriminate.
    cbn. destruct (eqb b old); [unfold ret; eauto|]. rewrite (set_accepts s es) by assumption. eauto.
  - unfold mbind at 1. rewrite (set_accepts s es) by assumption. unfold mbind, lift. destruct (plistDumps T R true v) as [b|e]; [|split; [intros (s' & H); discriminate H|intros (b & H); discriminate H]].
    split; [eauto|]. intros _. rewrite (set_accepts _ (set (u name) (File []) es)); [eauto|reflexivity|]. cbn [tree]. unfold isdir. cbn [find]. rewrite get_set_same. reflexivity.
Qed.
Lemma remove_accepts name s : components (u name) = Ok [u name] -> room s name -> accepts (removePath (u name) true false) s.
Proof.
  intros Cn ((es & E) & D). unfold accepts, removePath. unfold mbind at 1, lift at 1. rewrite Cn. unfold mbind, getTree. cbn [fst snd].
  unfold remove, isdir in *. rewrite E in *. destruct (find (Dir es) [u name]) as [[b|ds]|] eqn:F; try discriminate D.
  - unfold change, ret. eauto.
  - unfold ret. eauto.
Qed.

(** ** Groups *)
Lemma dict_good d : goodPlist (PDict d) <-> Forall (fun kx => (exists s, fst kx = PStr s /\ xml s) /\ goodPlist (snd kx)) d.
Proof. split; [intro H; inversion H; assumption|constructor; assumption]. Qed.
Lemma groups_as d : Forall namedGlyphList d -> exists g, asGroups d = Some g /\ (g = [] <-> d = []) /\ (goodPlist (groupsVal g) <-> goodPlist (PDict d)).
Proof.
  unfold groupsVal. intro F. setoid_rewrite dict_good. induction F as [|[k v] d (n & E & _ & Sv) F IH]; [exists []; split; [reflexivity|]; split; [tauto|]; cbn [map]; tauto|].
  destruct IH as (g & A & _ & G). cbn [fst snd] in *. subst k. exists ((n, elems v) :: g). cbn [asGroups]. rewrite Sv, A. split; [reflexivity|]. split; [split; discriminate|].
  cbn [map]. rewrite !Forall_cons_iff, G. cbn [fst snd]. assert (Q : goodPlist (PList (elems v)) <-> goodPlist v).
  { destruct v as [| | | | | | |l|l| |]; try discriminate Sv; [reflexivity|]. cbn [elems]. split; intro H; inversion H; constructor; assumption. }
  rewrite Q. reflexivity.
Qed.
Theorem C112_groups : forall c v s, keepsNames c s -> room s "groups.plist" ->
  (accepts (writeGroups C c v true) s <-> goodGroups v /\ goodPlist v).
Proof.
  intros c v s V Rm. unfold writeGroups. cbn [andb]. destruct (groupsValidator v) eqn:G; cbn [negb].
  - apply C43_groups_rule in G. assert (Gv : goodGroups v) by exact G. destruct G as (d & -> & F & _). destruct (groups_as d F) as (g & A & E & P). cbn [items]. rewrite A.
    assert (X : accepts (let! m := getRemap in match (match m with Some r => if (ver c <? 3)%Z then remapGroups r g else g | None => g end) with
      [] => if hp c then removePath nGroups true false else ret tt | _ => writePlist C (hp c) nGroups (groupsVal (match m with Some r => if (ver c <? 3)%Z then remapGroups r g else g | None => g end)) end) s <->
      accepts (match g with [] => if hp c then removePath nGroups true false else ret tt | _ => writePlist C (hp c) nGroups (groupsVal g) end) s).
    { unfold accepts, mbind, getRemap. destruct V as [V|V]; rewrite V; [change (3 <? 3)%Z with false; cbv iota; destruct (remap s)|]; reflexivity. }
    transitivity (accepts (match g with [] => if hp c then removePath nGroups true false else ret tt | _ => writePlist C (hp c) nGroups (groupsVal g) end) s).
    { rewrite <- X. unfold accepts, mbind, getRemap. destruct V as [V|V]; rewrite V; [change (3 <? 3)%Z with false; cbv iota; destruct (remap s)|]; destruct g; reflexivity. }
    destruct g as [|p g].
    + rewrite (proj1 E eq_refl) in *. split; [intros _; split; [exact Gv|apply dict_good; constructor]|]. intros _. destruct (hp c); [|exists s; reflexivity]. apply remove_accepts; [vm_compute; reflexivity|exact Rm].
    + change nGroups with (u "groups.plist"). rewrite (plist_accepts c "groups.plist" _ s Rm), P. tauto.
  - split; [intros (s' & H); discriminate H|]. intros (Gv & _). apply C43_groups_rule in Gv. rewrite Gv in G. discriminate.
Qed.
Theorem C112_lib : forall c v s, room s "lib.plist" -> (accepts (writeLib C c v true) s <-> goodFontLib v /\ goodPlist v).
Proof.
  intros c v s Rm. unfold writeLib. cbn [andb]. destruct (fontLibValidator v) eqn:G; cbn [negb].
  - assert (Gv : goodFontLib v) by (apply (proj1 (C95_libs asciiText v)); exact G). destruct Gv as (d & -> & F). change (truthy (PDict d)) with (match d with [] => false | _ => true end).
    assert (Gv : goodFontLib (PDict d)) by (exists d; split; [reflexivity|exact F]). destruct d as [|p d].
    + split; [intros _; split; [exact Gv|apply dict_good; constructor]|]. intros _. destruct (hp c); [|exists s; reflexivity]. apply remove_accepts; [vm_compute; reflexivity|exact Rm].
    + change nLib with (u "lib.plist"). rewrite (plist_accepts c "lib.plist" _ s Rm). tauto.
  - split; [intros (s' & H); discriminate H|]. intros (Gv & _). apply (proj1 (C95_libs asciiText v)) in Gv. rewrite Gv in G. discriminate.
Qed.
(** ** Kerning *)
Lemma kerning_as d k : asKerning d = Some k -> d = map (fun '((a, b), x) => (PTuple [PStr a; PStr b], x)) k.
Proof.
  revert k. induction d as [|[p x] d IH]; intros k H; cbn [asKerning] in H; [injection H as <-; reflexivity|].
  destruct p as [| | | | | | | |[|[| | | |a| | | | | |] [|[| | | |b| | | | | |] [|? ?]]]| |]; try discriminate H. destruct (asKerning d) as [r|]; [|discriminate H]. injection H as <-. cbn [map]. rewrite <- (IH r eq_refl). reflexivity.
Qed.
Lemma kerning_total d : (forall k x, In (k, x) d -> exists a b, k = PTuple [PStr a; PStr b] /\ xml a /\ xml b /\ isNum x /\ goodPlist x) -> exists k, asKerning d = Some k.
Proof.
  induction d as [|[p x] d IH]; intro H; [eexists; reflexivity|]. destruct (H p x ltac:(left; reflexivity)) as (a & b & -> & _). destruct IH as (k & E); [intros; eapply H; right; eassumption|]. cbn [asKerning]. rewrite E. eauto.
Qed.
Lemma nested_good k : dict_ok k -> (goodPlist (nestedVal (nest k)) <-> forall a b x, In (a, b, x) k -> xml a /\ xml b /\ goodPlist x).
Proof.
  intro D. destruct (nest_spec k D) as ((N1 & N2) & L). unfold nestedVal. rewrite dict_good, Forall_map, Forall_forall. split.
  - intros H a b x I. apply In_get in I; [|exact D]. rewrite <- L in I. unfold klook in I. destruct (get a (nest k)) as [i|] eqn:G; [|discriminate I].
    specialize (H (a, i) (get_In _ _ _ G)). cbn [fst snd] in H. destruct H as ((s & E & X) & P). injection E as <-. apply dict_good in P. rewrite Forall_map, Forall_forall in P.
    specialize (P (b, x) (get_In _ _ _ I)). cbn [fst snd] in P. destruct P as ((s & E & Y) & P). injection E as <-. auto.
  - intros H [a i] I. cbn [fst snd]. pose proof (N2 _ _ I) as Di.
    assert (K : forall b x, get b i = Some x -> In (a, b, x) k).
    { intros b x G. apply get_In. rewrite <- L. unfold klook. rewrite (In_get a i (nest k) N1 I). exact G. }
    split.
    + exists a. split; [reflexivity|]. assert (Ni : i <> []) by (eapply nest_nonempty; exact I). destruct i as [|[b x] i]; [contradiction|]. destruct (H a b x) as (A & _); [apply K; cbn [get]; rewrite eqb_refl; reflexivity|exact A].
    + apply dict_good. rewrite Forall_map. apply Forall_forall. intros [b x] J. cbn [fst snd]. destruct (H a b x) as (_ & B & P); [apply K; apply In_get; assumption|]. split; [exists b; split; [reflexivity|exact B]|exact P].
Qed.
Theorem C112_kerning : forall c v s, keepsNames c s -> room s "kerning.plist" -> keysOnce v ->
  (accepts (writeKerning C c v true) s <-> goodPairs v).
Proof.
  intros c v s V Rm K. unfold writeKerning. cbn [andb]. destruct (kerningArgOk v) eqn:G; cbn [negb].
  - destruct v as [| | | | | | | | |d|]; try discriminate G. cbn [items]. destruct (asKerning d) as [k|] eqn:A.
    + pose proof (kerning_as _ _ A) as E.
      assert (Dk : dict_ok k).
      { destruct K as (K & _). rewrite E, map_map in K. unfold dict_ok, keys. apply (NoDup_map_inv (fun p => PTuple [PStr (fst p); PStr (snd p)])). rewrite map_map. erewrite map_ext; [exact K|]. intros [[a b] x]. reflexivity. }
      transitivity (accepts (match nest k with [] => if hp c then removePath nKerning true false else ret tt | n => writePlist C (hp c) nKerning (nestedVal n) end) s).
      { unfold accepts, mbind, getRemap. destruct V as [V|V]; rewrite V; [change (3 <? 3)%Z with false; cbv iota; destruct (remap s)|]; reflexivity. }
      assert (Nm : forall a b x, In (a, b, x) k -> isNum x).
      { intros a b x I. unfold kerningArgOk in G. cbn [is_dict andb items] in G. rewrite forallb_forall in G. specialize (G (PTuple [PStr a; PStr b], x)). apply number_iff.
        assert (J : In (PTuple [PStr a; PStr b], x) d) by (rewrite E; apply in_map_iff; exists (a, b, x); split; [reflexivity|exact I]). apply G in J. apply andb_true_iff in J. apply J. }
      assert (Gp : goodPairs (PDict d) <-> goodPlist (nestedVal (nest k))).
      { rewrite (nested_good k Dk). split.
        - intros (d' & Q & H) a b x I. injection Q as <-. destruct (H (PTuple [PStr a; PStr b]) x) as (a' & b' & Q & Xa & Xb & _ & P); [rewrite E; apply in_map_iff; exists (a, b, x); split; [reflexivity|exact I]|].
          injection Q as <- <-. auto.
        - intro H. exists d. split; [reflexivity|]. intros p x I. rewrite E in I. apply in_map_iff in I as ([[a b] y] & Q & I). injection Q as <- <-. exists a, b. destruct (H a b y I) as (Xa & Xb & P). split; [reflexivity|]. split; [exact Xa|]. split; [exact Xb|]. split; [exact (Nm a b y I)|exact P]. }
      rewrite Gp. destruct (nest k) as [|p n].
      * split; [intros _; apply dict_good; constructor|]. intros _. destruct (hp c); [|exists s; reflexivity]. apply remove_accepts; [vm_compute; reflexivity|exact Rm].
      * change nKerning with (u "kerning.plist"). apply (plist_accepts c "kerning.plist" _ s Rm).
    + split; [intros (s' & H); discriminate H|]. intros (d' & Q & H). injection Q as <-. destruct (kerning_total d H) as (k & E). rewrite E in A. discriminate A.
  - split; [intros (s' & H); discriminate H|]. intros (d & -> & H). unfold kerningArgOk in G. cbn [is_dict andb items] in G.
    assert (F : forallb (fun '(p, x) => is_seq p && match elems p with [PStr _; PStr _] => true | _ => false end && is_number x) d = true); [|rewrite F in G; discriminate G].
    apply forallb_forall. intros [p x] I. destruct (H p x I) as (a & b & -> & _ & _ & Nx & _). cbn [is_seq elems andb]. apply number_iff. exact Nx.
Qed.
(** ** Features *)
Theorem C112_features : forall c v s, ver c <> 1%Z -> room s "features.fea" -> (accepts (writeFeatures c v true) s <-> goodFeatures v).
Proof.
  intros c v s V Rm. unfold writeFeatures. destruct (Z.eqb_spec (ver c) 1); [contradiction|]. cbn [andb]. unfold goodFeatures.
  destruct v as [| | | |t| | | | | |]; cbn [is_str negb]; try (split; [intros (s' & H); discriminate H|intros (t & Q & _); discriminate Q]).
  assert (Q : (exists t0, PStr t = PStr t0 /\ Forall scalar t0) <-> exists b, utf8Encode t = Ok b).
  { rewrite <- utf8_total. split; [intros (t0 & Q & F); injection Q as <-; exact F|eauto]. }
  rewrite Q. destruct t as [|x t].
  - cbn [truthy]. split; [intros _; exists []; reflexivity|]. intros _. destruct (hp c); [|exists s; reflexivity]. apply remove_accepts; [vm_compute; reflexivity|exact Rm].
  - cbn [truthy]. unfold accepts, mbind at 1, lift at 1. destruct (utf8Encode (x :: t)) as [b|e]; [|split; [intros (s' & H); discriminate H|intros (b & H); discriminate H]].
    split; [eauto|]. intros _. destruct Rm as ((es & E) & D). unfold writeBytesToPath, mbind at 1, lift at 1. change (components nFeatures) with (@Ok path [u "features.fea"]). unfold mbind at 1, getTree at 1.
    change (negb (eqb (x :: t) [])) with true. cbv iota beta. destruct (hp c && _); [unfold ret; eauto|]. rewrite E in D |- *. rewrite setbytes_top by exact D. unfold change. eauto.
Qed.
(** ** Font info *)
Lemma documented_ascii name sh : In (name, sh) documented -> ascii (u name).
Proof.
  assert (A : forallb (fun e => forallb (fun c => (32 <=? c) && (c <? 128))%N (u (fst e))) documented = true) by (vm_compute; reflexivity).
  intro J. rewrite forallb_forall in A. specialize (A (name, sh) J). cbn [fst] in A. rewrite forallb_forall in A. apply Forall_forall. intros c I. apply A in I. apply andb_true_iff in I as (X & Y). apply N.leb_le in X. apply N.ltb_lt in Y. right. split; assumption.
Qed.
Theorem C112_info : forall c info s, pytext_laws T -> onceEach info -> room s "fontinfo.plist" ->
  ((exists d, writeInfo T 3 true info = Ok d /\ accepts (writeInfoFile C c (asDict d)) s) <-> fits3 T info /\ storedInfo info).
Proof.
  intros c info s L O Rm. unfold writeInfoFile. change nFontinfo with (u "fontinfo.plist"). split.
  - intros (d & W & A). split; [apply (proj1 (C104_write T info L O)); exists d; exact W|]. apply (plist_accepts c "fontinfo.plist" _ s Rm) in A.
    rewrite writeInfo_3 in W. cbv zeta in W. apply validate_3 in W as (-> & _); [|apply gather_ok]. intros name sh v J S1.
    assert (G : get (u name) (gather T info) = Some v) by (apply gather_get; split; [apply in_names3; exists name, sh; split; [reflexivity|exact J]|exact S1]).
    apply dict_good in A. rewrite Forall_forall in A. apply (A (PStr (u name), v)). apply in_map_iff. exists (u name, v). split; [reflexivity|exact (get_In _ _ _ G)].
  - intros (F & S1). destruct (proj2 (proj1 (C104_write T info L O)) F) as (d & W). exists d. split; [exact W|]. apply (plist_accepts c "fontinfo.plist" _ s Rm).
    rewrite writeInfo_3 in W. cbv zeta in W. apply validate_3 in W as (-> & _); [|apply gather_ok]. apply dict_good. apply Forall_forall. intros kx I. apply in_map_iff in I as ([a v] & <- & I). cbn [fst snd].
    apply In_get in I; [|apply gather_ok]. apply gather_get in I as (I & Sv). apply in_names3 in I as (name & sh & -> & J). split; [|exact (S1 name sh v J Sv)].
    exists (u name). split; [reflexivity|]. apply xml_ascii. exact (documented_ascii name sh J).
Qed.
(** ** Layer info *)
Lemma layer_good info : goodPlist (infoVal (gatherLayerInfo info)) <->
  (forall x : pyval, get (u "color") info = Some x -> x <> PNone -> goodPlist x) /\
  (forall x : pyval, get (u "lib") info = Some x -> x <> PNone -> truthy x = true -> goodPlist x).
Proof.
  unfold infoVal. rewrite dict_good, Forall_map, Forall_forall. unfold gatherLayerInfo, layerAttrs. cbn [flat_map]. rewrite app_nil_r. split.
  - intro H. split.
    + intros x G N. apply (H (u "color", x)). apply in_or_app. left. rewrite G. destruct x; try congruence; cbn [andb eqb]; left; reflexivity.
    + intros x G N V. apply (H (u "lib", x)). apply in_or_app. right. rewrite G, V. destruct x; try congruence; cbn [negb]; rewrite ?andb_false_r; left; reflexivity.
  - intros [H1 H2] [a x] J. cbn [fst snd]. apply in_app_or in J as [J|J].
    + destruct (get (u "color") info) as [w|] eqn:G; [|destruct J]. specialize (H1 w eq_refl).
      destruct w; cbn in J; try contradiction; (destruct J as [J|[]]; injection J as <- <-; split; [eexists; split; [reflexivity|apply xml_lit; reflexivity]|apply H1; discriminate]).
    + destruct (get (u "lib") info) as [w|] eqn:G; [|destruct J]. specialize (H2 w eq_refl).
      destruct w; try contradiction; (match type of J with context [truthy ?w] => destruct (truthy w) eqn:V; cbn in J; try contradiction end; destruct J as [J|[]]; injection J as <- <-; split; [eexists; split; [reflexivity|apply xml_lit; reflexivity]|apply H2; [discriminate|reflexivity]]).
Qed.
Theorem C112_layer_info : forall prev info s, room s "layerinfo.plist" -> (accepts (writeLayerInfo C T 3 prev info true) s <-> goodLayer T info).
Proof.
  intros prev info s Rm. assert (W : accepts (writeLayerInfo C T 3 prev info false) s <-> goodPlist (infoVal (gatherLayerInfo info))).
  { unfold writeLayerInfo. change (3 <? 3)%Z with false. cbv iota. cbn [andb]. destruct (gatherLayerInfo info) as [|p l].
    - split; [intros _; unfold infoVal; apply dict_good; apply Forall_nil|]. intros _. destruct Rm as ((es & E) & Di). unfold accepts, mbind, getTree. change nLayerinfo with (u "layerinfo.plist").
      destruct (prev && existsAt (tree s) [u "layerinfo.plist"]) eqn:X; [|exists s; reflexivity]. apply andb_true_iff in X as (_ & X).
      unfold remove, isdir, existsAt in *. rewrite E in *. destruct (find (Dir es) [u "layerinfo.plist"]) as [[b|ds]|]; try discriminate. unfold change. eauto.
    - change nLayerinfo with (u "layerinfo.plist"). exact (plist_accepts (mkCfg 3 prev PNone) "layerinfo.plist" _ s Rm). }
  rewrite layer_good in W. destruct (proj2 (C95_layer_info C T) prev info s) as [[(G1 & G2) E]|[G E]].
  - unfold accepts in *. rewrite E, W. unfold goodLayer. split.
    + intros (H1 & H2). split; [intros x K N; split; [apply G1; assumption|apply H1; assumption]|intros x K N V; split; [apply G2; assumption|apply H2; assumption]].
    + intros (H1 & H2). split; [intros x K N; apply H1; assumption|intros x K N V; apply H2; assumption].
  - unfold accepts. rewrite E. split; [intros (s' & H); discriminate H|]. intros (H1 & H2). exfalso. apply G. split; [intros x K N; apply H1; assumption|intros x K N V; apply H2; assumption].
Qed.
End Accepts.
Print Assumptions C112_layer_info.
Print Assumptions C112_dumps.
Print Assumptions C112_groups.
Print Assumptions C112_lib.
Print Assumptions C112_kerning.
Print Assumptions C112_features.
Print Assumptions C112_info.
(** a new and an existing UFO; what is refused: a control character, a group
    sharing a glyph with another, an integer of more than 64 bits, a surrogate,
    None *)
Definition caseCfg (prev : bool) : wcfg := mkCfg 3 prev (PStr (u "x")).
Definition caseState : ust := mkUst (Dir [(u "metainfo.plist", File [1%N]); (u "groups.plist", File [2%N])]) [] [] None.
Definition wrote {A} (r : ust * res A) : bool := match snd r with Ok _ => true | Err _ => false end.
Definition D (l : list (string * pyval)) : pyval := PDict (map (fun '(k, x) => (PStr (u k), x)) l).
Definition caseC : codec := plistCodec toyText toyX.
Example C112_case :
  room caseState "groups.plist" /\ room caseState "lib.plist" /\
  (forall prev, let g v := wrote (writeGroups caseC (caseCfg prev) v true caseState) in
   let l v := wrote (writeLib caseC (caseCfg prev) v true caseState) in
   let k a x := wrote (writeKerning caseC (caseCfg prev) (PDict [(PTuple [PStr a; PStr (u "b")], x)]) true caseState) in
   let f t := wrote (writeFeatures (caseCfg prev) (PStr t) true caseState) in
   [g (D [("public.kern1.A", PTuple [PStr (u "a")]); ("other", PList [PInt 1])]); g (D [("public.kern1.A", PList [PStr (u "a")]); ("public.kern1.B", PList [PStr (u "a")])]);
    g (PDict [(PStr [1%N], PList [])]); g (PDict []); g (PList [])] = [true; false; false; true; false] /\
   [l (D [("a", PList [PInt (2 ^ 64 - 1); PBytes [1%N]])]); l (D [("a", PInt (2 ^ 64))]); l (D [("a", PNone)]); l (D [("public.glyphOrder", PStr (u "a"))]); l (PDict [(PInt 1, PInt 1)])] = [true; false; false; false; false] /\
   [k (u "a") (PInt (-10)); k (u "a") (PStr (u "10")); k [55296%N] (PInt 1); k (u "a") (PInt (2 ^ 64))] = [true; false; false; false] /\
   [f (u "feature kern;"); f [55296%N]; f []; f [0%N]] = [true; false; true; true] /\
   let y i := wrote (writeLayerInfo caseC toyText 3 prev i true caseState) in
   [y [(u "lib", D [("a", PInt 1)])]; y [(u "lib", D [("a", PNone)])]; y [(u "lib", PInt 1)]; y [(u "lib", PInt 0); (u "name", PInt 1)]; y [(u "color", PInt 1)]] = [true; false; false; true; false]).
Proof.
  split; [split; [eexists; reflexivity|reflexivity]|]. split; [split; [eexists; reflexivity|reflexivity]|].
  intros [|]; vm_compute; repeat split; reflexivity.
Qed.
