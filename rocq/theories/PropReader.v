(** Property C105: exactly what can be read from a UFO 3, and what comes back.
    For each part of the UFO the reader is decided by the file in it: a missing
    file is read as the documented empty value, a file is accepted if and only if
    it holds a document of the documented form, and its content is what comes
    back. *)
From Coq Require Import String NArith ZArith Bool Lia List Permutation.
From Coq.Floats Require Import SpecFloat.
From Verif Require Import Base PyVal PyText Validators ValidatorsProofs PropValidators FontInfoTables FontInfo FontInfoProofs PropFontInfoTypes PropFontInfo PropInfoUpgrade PropFontInfoAccepts PropFontInfo2.
From Verif Require Import Kerning KerningProofs PropKerning FS FSProofs Ufo ToyCodec PropUfoFiles PropSaveAs.
From Verif Require FontProofs.
Import ListNotations.
Local Open Scope string_scope.
Local Open Scope list_scope.

(** ** the statements *)
(** what a property list file at the top of [t] holds; [d] if there is no file *)
Definition holds (C : codec) (t : node) (name : string) (d : option pyval) (v : pyval) : Prop :=
  (existsAt t [u name] = false /\ d = Some v) \/ (exists b, fileAt t [u name] = Some b /\ loads C b = Ok v).
Definition empty : option pyval := Some (PDict []).
Definition goodGroups (v : pyval) : Prop :=
  exists d, v = PDict d /\ Forall namedGlyphList d /\ Forall goodKerningGroup d /\
    NoDup (membersOf (u "public.kern1.") d) /\ NoDup (membersOf (u "public.kern2.") d).
Definition goodKerning (v : pyval) : Prop :=
  exists d, v = PDict d /\ forall first seconds, In (first, seconds) d -> text first /\
    exists e, seconds = PDict e /\ forall second value, In (second, value) e -> text second /\ isNum value.
(** the pairs of kerning.plist *)
Definition pairsOf (v k : pyval) : Prop :=
  exists d, k = PDict d /\ NoDup (map fst d) /\
    (forall key x, In (key, x) d <->
       exists d0 first e second, v = PDict d0 /\ In (first, PDict e) d0 /\ In (second, x) e /\ key = PTuple [first; second]).
(** the directory [n] holds every file of the contents *)
Definition goodContents (n : node) (v : pyval) : Prop :=
  exists d, v = PDict d /\ forall k x, In (k, x) d -> text k /\
    exists f cs, x = PStr f /\ components f = Ok cs /\ existsAt n cs = true.
(** the layers listed in layercontents.plist *)
Definition listsLayers (C : codec) (t : node) (layers : list (str * str)) : Prop :=
  holds C t "layercontents.plist" None (PList (map (fun nd => PList [PStr (fst nd); PStr (snd nd)]) layers)) /\
  documentedLayers (fun d => exists cs, components d = Ok cs /\ existsAt t cs = true) layers.
(** font info: every known attribute in [v], and no other, has its documented form *)
Definition goodInfo (T : pytext) (v : pyval) : Prop :=
  exists d, v = PDict d /\ forall name sh x, In (name, sh) documented -> In (PStr (u name), x) d -> x <> PNone -> exactly3 T sh x.
Definition infoOf (v : pyval) (info : infoT) : Prop :=
  forall d, v = PDict d -> NoDup (keys info) /\
    forall a x, In (a, x) info <-> (exists name sh, a = u name /\ In (name, sh) documented) /\ In (PStr a, x) d /\ x <> PNone.
(** the outcome of a reader: [P] says what it gives, and it fails with [e] *)
Definition decides {A} (r : res A) (P : A -> Prop) (e : exn) : Prop :=
  (forall a, r = Ok a <-> P a) /\ forall e', r = Err e' -> e' = e.

(** ** proofs *)
Lemma getPlist_holds C t name d v : getPlist C t (u name) d = Ok v <-> holds C t name d v.
Proof.
  unfold getPlist, holds. rewrite getbytes_kind, kind_fileAt, kind_exists. destruct (kind t [u name]) as [[b|]|].
  - split.
    + intro H. right. exists b. split; [reflexivity|]. destruct (loads C b); congruence.
    + intros [(H & _)|(b' & E & H)]; [discriminate|]. inversion E; subst. rewrite H. reflexivity.
  - split; [discriminate|]. intros [(H & _)|(b' & E & H)]; discriminate.
  - split.
    + intro H. left. split; [reflexivity|]. destruct d; congruence.
    + intros [(_ & ->)|(b' & E & H)]; [reflexivity|discriminate].
Qed.
Lemma getPlist_err C t name d e : getPlist C t name d = Err e -> e = UFOLibError.
Proof.
  unfold getPlist. destruct (getbytes t [name]) as [b|[]]; try (intro H; injection H as <-; reflexivity); [destruct (loads C b)|destruct d]; try discriminate; intro H; injection H as <-; reflexivity.
Qed.
(** reading a file and validating it *)
Lemma checked_decides C t name d (ok : pyval -> bool) (P : pyval -> Prop) : (forall v, ok v = true <-> P v) ->
  decides (do v <- getPlist C t (u name) d; check negb (true && negb (ok v)) else UFOLibError; Ok v) (fun v => holds C t name d v /\ P v) UFOLibError.
Proof.
  intro S. split.
  - intro v. rewrite <- getPlist_holds. split.
    + intro H. apply bind_Ok in H as (w & -> & H). specialize (S w). destruct (ok w) eqn:O; cbn in H; [|discriminate H]. injection H as <-. split; [reflexivity|]. apply S, eq_refl.
    + intros (-> & H). cbn [bind]. rewrite (proj2 (S v) H). reflexivity.
  - intros e H. destruct (getPlist C t (u name) d) as [v|x] eqn:G; cbn [bind] in H; [|injection H as <-; eapply getPlist_err; exact G].
    destruct (ok v); cbn in H; [discriminate|]. injection H as <-. reflexivity.
Qed.

(** groups.plist *)
Theorem C105_groups : forall C conv t cache,
  fst (readGroups C conv 3 t cache true) = cache /\
  decides (snd (readGroups C conv 3 t cache true)) (fun g => holds C t "groups.plist" empty g /\ goodGroups g) UFOLibError.
Proof.
  intros C conv t cache. split; [reflexivity|]. unfold readGroups. change (3 <? 3)%Z with false. cbn iota. cbn [snd]. apply checked_decides. intro v. apply C43_groups_rule.
Qed.
Print Assumptions C105_groups.
(** lib.plist, of every version *)
Theorem C105_lib : forall C t,
  decides (readLib C t true) (fun v => holds C t "lib.plist" empty v /\ goodFontLib v) UFOLibError.
Proof. intros C t. apply checked_decides. intro v. apply (proj1 (C95_libs asciiText v)). Qed.
Print Assumptions C105_lib.

(** kerning.plist *)
Lemma asInner_vals e i : asInner e = Some i -> e = map (fun '(b, x) => (PStr b, x)) i.
Proof.
  revert i. induction e as [|[k x] r IH]; intros i H; cbn [asInner] in H; [injection H as <-; reflexivity|]. destruct k; try discriminate. destruct (asInner r); [|discriminate]. injection H as <-. cbn [map]. rewrite (IH _ eq_refl). reflexivity.
Qed.
Lemma asNested_vals d n : asNested d = Some n -> d = map (fun '(a, i) => (PStr a, PDict (map (fun '(b, x) => (PStr b, x)) i))) n.
Proof.
  revert n. induction d as [|[k x] r IH]; intros n H; cbn [asNested] in H; [injection H as <-; reflexivity|]. destruct k; try discriminate. destruct x; try discriminate.
  destruct (asInner d) eqn:I; [|discriminate]. destruct (asNested r); [|discriminate]. injection H as <-. cbn [map]. rewrite (IH _ eq_refl), (asInner_vals _ _ I). reflexivity.
Qed.
Lemma asInner_total e : (forall k x, In (k, x) e -> text k) -> exists i, asInner e = Some i.
Proof.
  induction e as [|[k x] r IH]; intro H; [eexists; reflexivity|]. destruct (H k x ltac:(left; reflexivity)) as (s & ->). destruct IH as (i & E); [intros; eapply H; right; eassumption|].
  cbn [asInner]. rewrite E. eexists. reflexivity.
Qed.
Lemma asNested_total d : (forall k x, In (k, x) d -> text k /\ exists e, x = PDict e /\ forall b y, In (b, y) e -> text b) -> exists n, asNested d = Some n.
Proof.
  induction d as [|[k x] r IH]; intro H; [eexists; reflexivity|]. destruct (H k x ltac:(left; reflexivity)) as ((s & ->) & e & -> & He). destruct (asInner_total e He) as (i & Ei).
  destruct IH as (n & E); [intros; eapply H; right; eassumption|]. cbn [asNested]. rewrite Ei, E. eexists. reflexivity.
Qed.
Lemma nodup_texts {A} (l : list (str * A)) (f : str * A -> pyval * pyval) : (forall p, fst (f p) = PStr (fst p)) -> NoDup (map fst (map f l)) -> dict_ok l.
Proof.
  intros F H. unfold dict_ok, keys. rewrite map_map in H. rewrite (map_ext _ (fun p => PStr (fst p)) F) in H. rewrite <- map_map in H. eapply NoDup_map_inv. exact H.
Qed.
Lemma flat_pairs d n : keysOnce (PDict d) -> asNested d = Some n -> pairsOf (PDict d) (pairsVal (flatten n)).
Proof.
  intros K E. pose proof (asNested_vals _ _ E) as V.
  assert (No : dict_ok n /\ forall f s, In (f, s) n -> dict_ok s).
  { split.
    - subst d. destruct K as (K & _). eapply nodup_texts; [|exact K]. intros [a i]. reflexivity.
    - intros f s I. assert (K2 : keysOnce (PDict (map (fun '(b, x) => (PStr b, x)) s))).
      { eapply keys_in; [exact K|]. rewrite V. apply in_map_iff. exists (f, s). split; [reflexivity|exact I]. }
      destruct K2 as (K2 & _). eapply nodup_texts; [|exact K2]. intros [a i]. reflexivity. }
  eexists. split; [reflexivity|]. split.
  - rewrite map_map. pose proof (dict_ok_flatten n) as D. unfold dict_ok, keys in D.
    rewrite (map_ext _ (fun p => PTuple [PStr (fst (fst p)); PStr (snd (fst p))])) by (intros [[a b] x]; reflexivity).
    rewrite <- (map_map fst (fun p => PTuple [PStr (fst p); PStr (snd p)])). apply FinFun.Injective_map_NoDup; [|exact D]. intros [a b] [a' b'] Q. cbn in Q. inversion Q; subst. reflexivity.
  - intros key x. rewrite in_map_iff. split.
    + intros ([[a b] y] & Q & I). inversion Q; subst key y. cbn [fst snd]. destruct (flatten_src n a b x I) as (i & I1 & I2).
      exists d, (PStr a), (map (fun '(b, x) => (PStr b, x)) i), (PStr b). split; [reflexivity|]. split; [rewrite V; apply in_map_iff; exists (a, i); split; [reflexivity|exact I1]|]. split; [|reflexivity].
      apply in_map_iff. exists (b, x). split; [reflexivity|exact I2].
    + intros (d0 & first & e & second & Q & I1 & I2 & ->). inversion Q; subst d0. rewrite V in I1. apply in_map_iff in I1 as ([a i] & Q1 & I1). inversion Q1; subst. apply in_map_iff in I2 as ([b y] & Q2 & I2). inversion Q2; subst.
      exists ((a, b), x). split; [reflexivity|]. apply get_In. rewrite get_flatten by exact No. unfold klook. rewrite (In_get a i n (proj1 No) I1). apply In_get; [exact (proj2 No _ _ I1)|exact I2].
Qed.
Theorem C105_kerning : forall C conv t cache, fst (readKerning C conv 3 t cache true) = cache /\
  (forall v, holds C t "kerning.plist" empty v -> keysOnce v ->
     goodKerning v /\ (exists k, snd (readKerning C conv 3 t cache true) = Ok k /\ pairsOf v k) \/
     ~ goodKerning v /\ snd (readKerning C conv 3 t cache true) = Err UFOLibError) /\
  ((forall v, ~ holds C t "kerning.plist" empty v) -> snd (readKerning C conv 3 t cache true) = Err UFOLibError).
Proof.
  intros C conv t cache. split; [reflexivity|].
  assert (U : snd (readKerning C conv 3 t cache true) = do k <- getPlist C t (u "kerning.plist") empty; check negb (true && negb (kerningValidator k)) else UFOLibError;
     match k, asNested (items k) with PDict _, Some n => Ok (pairsVal (flatten n)) | _, _ => Err TypeError end) by reflexivity.
  rewrite U. clear U. split.
  - intros v H K. apply getPlist_holds in H. rewrite H. cbn [bind]. pose proof (C75_kerning_rule v) as S. fold (goodKerning v) in S. destruct (kerningValidator v) eqn:G.
    + left. pose proof (proj1 S eq_refl) as GK. split; [exact GK|]. cbn [negb andb]. destruct GK as (d & -> & F). cbn [items].
      destruct (asNested_total d) as (n & E). { intros k x I. destruct (F k x I) as (Tk & e & -> & Fe). split; [exact Tk|]. exists e. split; [reflexivity|]. intros b y J. exact (proj1 (Fe b y J)). }
      rewrite E. eexists. split; [reflexivity|]. apply flat_pairs; assumption.
    + right. split; [|reflexivity]. intro Q. apply S in Q. discriminate.
  - intro N. destruct (getPlist C t (u "kerning.plist") empty) as [v|e] eqn:G; [apply getPlist_holds in G; destruct (N _ G)|]. rewrite (getPlist_err _ _ _ _ _ G). reflexivity.
Qed.
Print Assumptions C105_kerning.

(** features.fea: every text in UTF-8, of every version *)
Lemma cont_spec x : cont x = true <-> (128 <= x < 192)%N.
Proof. unfold cont. rewrite andb_true_iff, N.leb_le, N.ltb_lt. reflexivity. Qed.
Lemma encode_cons c b s r : utf8Char c = Some b -> utf8Encode s = Ok r -> utf8Encode (c :: s) = Ok (b ++ r).
Proof. intros E R. cbn [utf8Encode]. rewrite E, R. reflexivity. Qed.
Lemma char2 a x : (194 <= a < 224)%N -> (128 <= x < 192)%N -> utf8Char ((a - 0xC0) * 64 + (x - 0x80))%N = Some [a; x].
Proof.
  intros A X. unfold utf8Char. rewrite (proj2 (N.ltb_ge _ _)) by lia. rewrite (proj2 (N.ltb_lt _ _)) by lia.
  rewrite (N.add_comm ((a - 0xC0) * 64)), N.div_add, N.mod_add, N.div_small, N.mod_small by lia. repeat f_equal; lia.
Qed.
Lemma char3 a x y : (224 <= a < 240)%N -> (128 <= x < 192)%N -> (128 <= y < 192)%N -> let c := ((a - 0xE0) * 4096 + (x - 0x80) * 64 + (y - 0x80))%N in
  (0x800 <= c)%N -> ((0xD800 <=? c) && (c <? 0xE000))%N = false -> utf8Char c = Some [a; x; y].
Proof.
  intros A X Y c L S. unfold utf8Char. rewrite (proj2 (N.ltb_ge _ _)) by lia. rewrite (proj2 (N.ltb_ge c 0x800)) by lia. rewrite S. rewrite (proj2 (N.ltb_lt _ _)) by lia.
  assert (D1 : (c / 64 = (a - 0xE0) * 64 + (x - 0x80))%N) by (symmetry; apply N.div_unique with (r := (y - 0x80)%N); unfold c; lia).
  assert (M1 : (c mod 64 = y - 0x80)%N) by (symmetry; apply N.mod_unique with (q := ((a - 0xE0) * 64 + (x - 0x80))%N); unfold c; lia).
  assert (D2 : (c / 4096 = a - 0xE0)%N) by (symmetry; apply N.div_unique with (r := ((x - 0x80) * 64 + (y - 0x80))%N); unfold c; lia).
  assert (M2 : (((a - 0xE0) * 64 + (x - 0x80)) mod 64 = x - 0x80)%N) by (symmetry; apply N.mod_unique with (q := (a - 0xE0)%N); lia).
  rewrite D2, M1, D1, M2. repeat f_equal; lia.
Qed.
Lemma char4 a x y z : (240 <= a < 245)%N -> (128 <= x < 192)%N -> (128 <= y < 192)%N -> (128 <= z < 192)%N ->
  let c := ((a - 0xF0) * 262144 + (x - 0x80) * 4096 + (y - 0x80) * 64 + (z - 0x80))%N in
  (0x10000 <= c)%N -> (c < 0x110000)%N -> utf8Char c = Some [a; x; y; z].
Proof.
  intros A X Y Z c L S. unfold utf8Char. rewrite (proj2 (N.ltb_ge _ _)) by lia. rewrite (proj2 (N.ltb_ge c 0x800)) by lia.
  rewrite (proj2 (N.ltb_ge c 0xE000)) by lia. rewrite andb_false_r. rewrite (proj2 (N.ltb_ge c 0x10000)) by lia. rewrite (proj2 (N.ltb_lt _ _)) by lia.
  assert (D1 : (c / 64 = ((a - 0xF0) * 64 + (x - 0x80)) * 64 + (y - 0x80))%N) by (symmetry; apply N.div_unique with (r := (z - 0x80)%N); unfold c; lia).
  assert (M1 : (c mod 64 = z - 0x80)%N) by (symmetry; apply N.mod_unique with (q := (((a - 0xF0) * 64 + (x - 0x80)) * 64 + (y - 0x80))%N); unfold c; lia).
  assert (D2 : (c / 4096 = (a - 0xF0) * 64 + (x - 0x80))%N) by (symmetry; apply N.div_unique with (r := ((y - 0x80) * 64 + (z - 0x80))%N); unfold c; lia).
  assert (D3 : (c / 262144 = a - 0xF0)%N) by (symmetry; apply N.div_unique with (r := ((x - 0x80) * 4096 + (y - 0x80) * 64 + (z - 0x80))%N); unfold c; lia).
  assert (M2 : ((((a - 0xF0) * 64 + (x - 0x80)) * 64 + (y - 0x80)) mod 64 = y - 0x80)%N) by (symmetry; apply N.mod_unique with (q := ((a - 0xF0) * 64 + (x - 0x80))%N); lia).
  assert (M3 : (((a - 0xF0) * 64 + (x - 0x80)) mod 64 = x - 0x80)%N) by (symmetry; apply N.mod_unique with (q := (a - 0xF0)%N); lia).
  rewrite D3, M1, D2, D1, M2, M3. repeat f_equal; lia.
Qed.
Lemma utf8_back b : forall s, utf8Decode b = Ok s -> utf8Encode s = Ok b.
Proof.
  remember (length b) as n eqn:En. revert b En. induction n as [n IH] using lt_wf_ind. intros b En s E. destruct b as [|a r]; cbn [utf8Decode] in E; [injection E as <-; reflexivity|]. cbn [length] in En.
  destruct (a <? 0x80)%N eqn:A1.
  { apply N.ltb_lt in A1. apply bind_Ok in E as (s' & E & H). injection H as <-. apply (encode_cons a [a]); [unfold utf8Char; rewrite (proj2 (N.ltb_lt _ _) A1); reflexivity|]. eapply IH; [|reflexivity|exact E]. lia. }
  destruct (a <? 0xC2)%N eqn:A2; [discriminate|]. apply N.ltb_ge in A2. destruct (a <? 0xE0)%N eqn:A3.
  { apply N.ltb_lt in A3. destruct r as [|x r]; [discriminate|]. destruct (cont x) eqn:X; [|discriminate]. apply cont_spec in X. apply bind_Ok in E as (s' & E & H). injection H as <-. cbn [length] in En.
    apply (encode_cons _ [a; x]); [apply char2; lia|]. eapply IH; [|reflexivity|exact E]. lia. }
  apply N.ltb_ge in A3. destruct (a <? 0xF0)%N eqn:A4.
  { apply N.ltb_lt in A4. destruct r as [|x [|y r]]; try discriminate. cbv zeta in E.
    match type of E with (if ?c then _ else _) = _ => destruct c eqn:G; [|discriminate] end. rewrite !andb_true_iff in G. destruct G as (((? & ?) & ?) & ?).
    apply bind_Ok in E as (s' & E & Q). injection Q as <-. cbn [length] in En.
    apply (encode_cons _ [a; x; y]); [apply char3; [lia|apply cont_spec; assumption|apply cont_spec; assumption|apply N.leb_le; assumption|apply negb_true_iff; assumption]|]. eapply IH; [|reflexivity|exact E]. lia. }
  apply N.ltb_ge in A4. destruct (a <? 0xF5)%N eqn:A5; [|discriminate]. apply N.ltb_lt in A5.
  destruct r as [|x [|y [|z r]]]; try discriminate. cbv zeta in E.
  match type of E with (if ?c then _ else _) = _ => destruct c eqn:G; [|discriminate] end. rewrite !andb_true_iff in G. destruct G as ((((? & ?) & ?) & ?) & ?).
  apply bind_Ok in E as (s' & E & Q). injection Q as <-. cbn [length] in En.
  apply (encode_cons _ [a; x; y; z]); [apply char4; [lia|apply cont_spec; assumption|apply cont_spec; assumption|apply cont_spec; assumption|apply N.leb_le; assumption|apply N.ltb_lt; assumption]|]. eapply IH; [|reflexivity|exact E]. lia.
Qed.
Theorem C105_features : forall t s,
  readFeatures t = Ok s <->
  (existsAt t [u "features.fea"] = false /\ s = []) \/ (exists b, fileAt t [u "features.fea"] = Some b /\ utf8Encode s = Ok b).
Proof.
  intros t s. unfold readFeatures. rewrite getbytes_kind, kind_fileAt, kind_exists. change nFeatures with (u "features.fea"). destruct (kind t [u "features.fea"]) as [[b|]|].
  - split.
    + intro H. right. exists b. split; [reflexivity|]. apply utf8_back. exact H.
    + intros [(H & _)|(b' & E & H)]; [discriminate|]. inversion E; subst. apply utf8_round. exact H.
  - split; [discriminate|]. intros [(H & _)|(b' & E & H)]; discriminate.
  - split; [intro H; left; split; [reflexivity|congruence]|]. intros [(_ & ->)|(b' & E & H)]; [reflexivity|discriminate].
Qed.
Print Assumptions C105_features.

(** fontinfo.plist *)
Lemma attrs_nodup T : NoDup (fontInfoAttributesVersion3 T).
Proof. apply nodup_dec. vm_compute. reflexivity. Qed.
Lemma vget_once d a x : NoDup (map fst d) -> x <> PNone -> (vget a (PDict d) = x <-> In (PStr a, x) d).
Proof.
  intros ND N. unfold vget. cbn [items]. split.
  - destruct (dget a d) as [y|] eqn:G; [|intro Q; destruct N; symmetry; exact Q]. intros <-. clear -G. induction d as [|[k z] r IH]; [discriminate|]. cbn [dget] in G.
    destruct k; try (right; apply IH; exact G). destruct (eqb_spec a s) as [->|]; [left; congruence|right; apply IH; exact G].
  - intro I. rewrite (once_dget d a x ND I). reflexivity.
Qed.
Theorem C105_info : forall C T perm t v, pytext_laws T -> holds C t "fontinfo.plist" empty v -> keysOnce v ->
  let reading := do d <- readInfoFile C t true; readInfo T perm 3 true d in
  goodInfo T v /\ (exists info, reading = Ok info /\ infoOf v info) \/
  ~ goodInfo T v /\ (exists e, reading = Err e).
Proof.
  intros C T perm t v laws H K reading. unfold reading. clear reading. apply getPlist_holds in H. unfold readInfoFile. change nFontinfo with (u "fontinfo.plist"). fold empty. rewrite H. cbn [bind].
  destruct (is_dict v) eqn:D. 2: { right. split; [|eexists; reflexivity]. intros (d & -> & _). discriminate. }
  cbn [negb andb bind]. destruct v; try discriminate D. clear D.
  assert (R : readInfo T perm 3 true (PDict d) = validateInfoVersion3Data T (collect (fontInfoAttributesVersion3 T) (PDict d) [])) by reflexivity. rewrite R. clear R.
  set (c := collect (fontInfoAttributesVersion3 T) (PDict d) []).
  assert (Dc : dict_ok c) by (apply collect_keys; constructor).
  assert (Gc : forall a x, In (a, x) c <-> In a (fontInfoAttributesVersion3 T) /\ In (PStr a, x) d /\ x <> PNone).
  { intros a x. split.
    - intro I. apply In_get in I; [|exact Dc]. unfold c in I. rewrite collect_get in I; [|intros []|apply attrs_nodup|intros k _ []].
      destruct (mem_spec a (fontInfoAttributesVersion3 T)) as [M|M]; [|discriminate]. destruct (is_none (vget a (PDict d))) eqn:N; [discriminate|]. injection I as I.
      assert (x <> PNone) by (intros ->; rewrite I in N; discriminate). split; [exact M|]. split; [|assumption]. apply vget_once; [exact (proj1 K)|assumption|exact I].
    - intros (M & I & N). apply get_In. unfold c. rewrite collect_get; [|intros []|apply attrs_nodup|intros k _ []]. rewrite (proj2 (mem_In _ _) M).
      rewrite (proj2 (vget_once d a x (proj1 K) N) I). destruct x; try reflexivity. contradiction. }
  clearbody c.
  assert (Iff : Forall (fun kv => valid3 T (fst kv) (snd kv)) c <-> goodInfo T (PDict d)).
  { rewrite Forall_forall. split.
    - intro F. exists d. split; [reflexivity|]. intros name sh x J I N.
      assert (Ic : In (u name, x) c) by (apply Gc; split; [apply in_names3; eauto|split; assumption]).
      specialize (F _ Ic). cbn [fst snd] in F. apply (C104_version_3 T (u name) x laws (keys_in _ _ _ K I)) in F as (n2 & s2 & E & J2 & X).
      apply shape_unique in J, J2. rewrite E in J. rewrite J in J2. inversion J2; subst. exact X.
    - intros (d' & E & F) [a x] I. inversion E; subst d'. apply Gc in I as (I & J & N). cbn [fst snd]. apply in_names3 in I as (name & sh & -> & I).
      apply (C104_version_3 T (u name) x laws (keys_in _ _ _ K J)). exists name, sh. split; [reflexivity|]. split; [exact I|]. exact (F name sh x I J N). }
  destruct (validateInfoVersion3Data T c) as [r|e] eqn:V.
  - left. apply validate_3 in V as (-> & F); [|exact Dc]. split; [apply Iff; exact F|]. exists c. split; [reflexivity|]. intros d' E. inversion E; subst d'. split; [exact Dc|].
    intros a x. rewrite Gc, in_names3. split; intros ((name & sh & A) & B); (split; [exists name, sh; exact A|exact B]).
  - right. split.
    + intro G. apply Iff in G. rewrite (validate_3_ok T c Dc G) in V. discriminate.
    + exists e. reflexivity.
Qed.
Print Assumptions C105_info.

(** layercontents.plist *)
Lemma asPairs_map l : asPairs (map (fun nd : str * str => PList [PStr (fst nd); PStr (snd nd)]) l) = Some l.
Proof. induction l as [|[n d] r IH]; [reflexivity|]. cbn [map asPairs fst snd]. rewrite IH. reflexivity. Qed.
Lemma documented_ext (P Q : str -> Prop) l : (forall d, P d <-> Q d) -> documentedLayers P l -> documentedLayers Q l.
Proof. intros E (A & B & D & F). split; [exact A|]. split; [exact B|]. split; [exact D|]. intros n d I. destruct (F n d I) as (F1 & F2 & F3). split; [exact F1|]. split; [apply E; exact F2|exact F3]. Qed.
Lemma there_iff t d : (do cs <- components d; Ok (existsAt t cs)) = Ok true <-> exists cs, components d = Ok cs /\ existsAt t cs = true.
Proof.
  destruct (components d) as [cs|e]; cbn [bind]; [|split; [discriminate|intros (? & ? & _); discriminate]]. split; [intro H; exists cs; split; [reflexivity|congruence]|].
  intros (cs' & E & H). inversion E; subst. rewrite H. reflexivity.
Qed.
Lemma layersR_iff C t l : readLayersR C 3 t true = Ok l <-> listsLayers C t l.
Proof.
  unfold readLayersR. change (3 <? 3)%Z with false. cbn iota. change nLayercontents with (u "layercontents.plist"). unfold listsLayers. rewrite <- getPlist_holds. split.
  - intro H. apply bind_Ok in H as (raw & G & H). apply bind_Ok in H as (ok & V & H). destruct ok; [|discriminate H]. unfold layersValid in V. apply C30_layer_contents_rule in V as (ls & -> & D).
    cbn [elems] in H. rewrite asPairs_map in H. apply Ok_inj in H. subst ls. split; [exact G|]. eapply documented_ext; [|exact D]. intro d. apply there_iff.
  - intros (G & D). rewrite G. cbn [bind]. assert (V : layersValid t (PList (map (fun nd : str * str => PList [PStr (fst nd); PStr (snd nd)]) l)) = Ok true).
    { unfold layersValid. apply C30_layer_contents_rule. exists l. split; [reflexivity|]. eapply documented_ext; [|exact D]. intro d. symmetry. apply there_iff. }
    rewrite V. cbn [bind elems]. rewrite asPairs_map. reflexivity.
Qed.
Lemma default_find l n : NoDup (map snd l) -> (defaultName l = Ok n <-> In (n, u "glyphs") l).
Proof.
  induction l as [|[m d] r IH]; intro ND; cbn [defaultName]; [split; [discriminate|intros []]|]. cbn [map snd] in ND. inversion ND as [|? ? N1 N2]; subst.
  change nGlyphs with (u "glyphs"). destruct (eqb_spec d (u "glyphs")) as [->|ne].
  - split; [intro H; injection H as <-; left; reflexivity|]. intros [E|I]; [congruence|]. exfalso. apply N1. apply in_map_iff. exists (n, u "glyphs"). split; [reflexivity|exact I].
  - rewrite (IH N2). split; [intro I; right; exact I|]. intros [E|I]; [congruence|exact I].
Qed.
(** the names of the layers, in the order of the file, and the default layer: the
    one in the directory glyphs *)
Theorem C105_layers : forall C t,
  (forall names, getLayerNames C 3 t true = Ok names <-> exists layers, listsLayers C t layers /\ names = map fst layers) /\
  (forall name, getDefaultLayerName C 3 t true = Ok name <-> exists layers, listsLayers C t layers /\ In (name, u "glyphs") layers) /\
  (forall v, (v < 3)%Z -> getLayerNames C v t true = Ok [u "public.default"] /\ getDefaultLayerName C v t true = Ok (u "public.default")).
Proof.
  intros C t. split; [|split].
  - intro names. unfold getLayerNames. split.
    + intro H. apply bind_Ok in H as (l & L & H). apply Ok_inj in H. exists l. split; [apply layersR_iff; exact L|symmetry; exact H].
    + intros (l & L & ->). apply layersR_iff in L. rewrite L. reflexivity.
  - intro name. unfold getDefaultLayerName. split.
    + intro H. apply bind_Ok in H as (l & L & H). apply layersR_iff in L. exists l. split; [exact L|]. apply default_find; [exact (proj1 (proj2 (proj2 L)))|exact H].
    + intros (l & L & I). pose proof L as L'. apply layersR_iff in L'. rewrite L'. cbn [bind]. apply default_find; [exact (proj1 (proj2 (proj2 L)))|exact I].
  - intros v V. unfold getLayerNames, getDefaultLayerName, readLayersR. rewrite (proj2 (Z.ltb_lt _ _) V). split; reflexivity.
Qed.
Print Assumptions C105_layers.

(** contents.plist: a layer is opened if and only if its directory holds each file listed *)
Lemma contents_ok n l : contentsOk n l = Ok true <-> forall k x, In (k, x) l -> text k /\ exists f cs, x = PStr f /\ components f = Ok cs /\ existsAt n cs = true.
Proof.
  induction l as [|[k x] r IH]; cbn [contentsOk]; [split; [intros _ k x []|reflexivity]|]. destruct x;
    try (split; [intro H; apply bind_Ok in H as (? & _ & H); discriminate|intro H; destruct (H _ _ (or_introl eq_refl)) as (_ & ? & ? & ? & _); discriminate]). split.
  - intro H. apply bind_Ok in H as (cs & E & H). destruct (existsAt n cs) eqn:X; [|discriminate H]. apply bind_Ok in H as (ok & G & H). apply Ok_inj in H. apply andb_prop in H as (S & ->).
    intros k' x' [Q|I]; [|apply IH; assumption]. inversion Q; subst. split; [destruct k'; try discriminate S; eexists; reflexivity|]. exists s, cs. auto.
  - intro H. destruct (H k _ ltac:(left; reflexivity)) as ((kt & ->) & f & cs & E & Cp & X). inversion E; subst. rewrite Cp. cbn [bind]. rewrite X.
    rewrite (proj2 IH) by (intros; apply H; right; assumption). reflexivity.
Qed.
Lemma open_iff C n v : openGlyphSet C n true = Ok v <-> holds C n "contents.plist" empty v /\ goodContents n v.
Proof.
  unfold openGlyphSet. change nContents with (u "contents.plist"). fold empty. rewrite <- getPlist_holds. split.
  - intro H. apply bind_Ok in H as (c & G & H). destruct c; try discriminate H. apply bind_Ok in H as (ok & K & H). destruct ok; [|discriminate H]. apply Ok_inj in H. subst v.
    split; [exact G|]. exists d. split; [reflexivity|]. apply contents_ok. exact K.
  - intros (G & d & -> & F). rewrite G. cbn [bind]. rewrite (proj2 (contents_ok n d) F). reflexivity.
Qed.
Theorem C105_glyph_set : forall C t layer dir contents,
  getGlyphSetR C 3 t layer true = Ok (dir, contents) <->
  exists layers name cs es, listsLayers C t layers /\ In (name, dir) layers /\
    match layer with Some n => name = n | None => dir = u "glyphs" end /\
    components dir = Ok cs /\ find t cs = Some (Dir es) /\
    holds C (Dir es) "contents.plist" empty contents /\ goodContents (Dir es) contents.
Proof.
  intros C t layer dir contents. unfold getGlyphSetR. split.
  - intro H. apply bind_Ok in H as (name & N & H). apply bind_Ok in H as (l & L & H). pose proof L as L'. apply layersR_iff in L'. destruct (get name l) as [d|] eqn:G; [|discriminate H].
    apply bind_Ok in H as (cs & Cp & H). destruct (find t cs) as [[b|es]|] eqn:F; try discriminate H. apply bind_Ok in H as (c & O & H). apply Ok_inj in H. injection H as -> ->.
    apply get_In in G. exists l, name, cs, es. split; [exact L'|]. split; [exact G|]. split.
    + destruct layer as [n|]; [congruence|]. unfold getDefaultLayerName in N. rewrite L in N. cbn [bind] in N. pose proof L' as (_ & ND1 & ND & _). apply default_find in N; [|exact ND].
      apply (In_get name dir l) in G; [|exact ND1]. apply (In_get name _ l) in N; [|exact ND1]. congruence.
    + split; [exact Cp|]. split; [exact F|]. apply open_iff. exact O.
  - intros (l & name & cs & es & L & I & N & Cp & F & O). pose proof L as L'. apply layersR_iff in L'. apply open_iff in O. destruct L as (_ & ND1 & ND & _).
    assert (E : match layer with Some n => Ok n | None => getDefaultLayerName C 3 t true end = Ok name).
    { destruct layer as [n|]; [congruence|]. subst dir. unfold getDefaultLayerName. rewrite L'. cbn [bind]. apply default_find; assumption. }
    rewrite E, L'. cbn [bind]. rewrite (In_get name dir l ND1 I). rewrite Cp. cbn [bind]. rewrite F, O. reflexivity.
Qed.
Print Assumptions C105_glyph_set.

(** layerinfo.plist; [t] is the directory of the layer.  GlyphSet raises its own
    error for an invalid file *)
Theorem C105_layer_info : forall C T t l,
  readLayerInfo C T t true = Ok l <-> holds C t "layerinfo.plist" empty (PDict l) /\ goodLayerInfo T l.
Proof.
  intros C T t l. unfold readLayerInfo. change nLayerinfo with (u "layerinfo.plist"). fold empty. rewrite <- getPlist_holds. split.
  - intro H. apply bind_Ok in H as (d & G & H). destruct d; try discriminate H. pose proof (layerInfo_spec T d) as S. destruct (layerInfoOk T d); [|discriminate H]. apply Ok_inj in H. subst l.
    split; [exact G|]. apply S. reflexivity.
  - intros (G & F). rewrite G. cbn [bind]. rewrite (proj2 (layerInfo_spec T l) F). reflexivity.
Qed.
Print Assumptions C105_layer_info.

(** images: those that start like a PNG file *)
Definition png (b : bytes) : Prop := exists rest, b = [137; 80; 78; 71; 13; 10; 26; 10]%N ++ rest.
Theorem C105_images : forall t,
  (forall f b, readImage 3 t f true = Ok b <-> exists cs, components f = Ok cs /\ cs <> [] /\ fileAt t (u "images" :: cs) = Some b /\ png b) /\
  (forall l, getImageDirectoryListing 3 t true = Ok l -> wf t -> NoDup l /\ forall f, In f l <-> exists b, fileAt t [u "images"; f] = Some b /\ png b) /\
  ((exists l, getImageDirectoryListing 3 t true = Ok l) <-> fileAt t [u "images"] = None).
Proof.
  intro t. unfold readImage, getImageDirectoryListing. change (3 <? 3)%Z with false. cbn iota. change nImages with (u "images"). split; [|split].
  - intros f b. split.
    + intro H. destruct (FS.find t [u "images"]) as [[|es]|] eqn:F; try discriminate H. apply bind_Ok in H as (cs & Cp & H). destruct (getbytes (Dir es) cs) as [data|] eqn:G; [|discriminate H].
      pose proof (C76_png_signature data) as S. destruct (pngValidator data); [|discriminate H]. apply Ok_inj in H. subst data. exists cs. split; [exact Cp|]. split; [intros ->; discriminate G|]. split; [|apply S; reflexivity].
      destruct t as [|ts]; [discriminate F|]. cbn [FS.find] in F. unfold fileAt. cbn [FS.find]. destruct (get (u "images") ts) as [n|]; [|discriminate F]. injection F as ->.
      unfold getbytes in G. destruct (FS.find (Dir es) cs) as [[x|]|]; try discriminate G. congruence.
    + intros (cs & Cp & NE & F & P). destruct t as [|ts]; [discriminate F|]. unfold fileAt in F. cbn [FS.find] in *. destruct (get (u "images") ts) as [n|]; [|discriminate F].
      destruct n as [x|es].
      * destruct cs; [congruence|discriminate F].
      * rewrite Cp. cbn [bind]. unfold getbytes. destruct (FS.find (Dir es) cs) as [[y|]|]; try discriminate F. injection F as ->. rewrite (proj2 (C76_png_signature b) P). reflexivity.
  - intros l H W. destruct t as [|ts]; [cbn [FS.find] in H; injection H as <-; split; [apply NoDup_nil|]; intro f; split; [intros []|intros (? & Q & _); discriminate Q]|].
    cbn [FS.find] in H. unfold fileAt. cbn [FS.find]. inversion W as [|? D A]; subst. destruct (get (u "images") ts) as [n|] eqn:G.
    2: { injection H as <-. split; [apply NoDup_nil|]. intro f. split; [intros []|intros (b & Q & _); discriminate Q]. }
    destruct n as [|es]; [discriminate H|]. apply Ok_inj in H. subst l.
    assert (Wn : wf (Dir es)) by (apply get_In in G; rewrite Forall_forall in A; exact (A _ G)). inversion Wn as [|? De _]; subst. split.
    + clear -De. unfold dict_ok, keys in De. induction es as [|[a m] r IH]; [constructor|]. cbn [map fst] in De. inversion De as [|? ? N1 N2]; subst. cbn [filter]. destruct (match m with Dir _ => false | File b => _ end).
      * cbn [map fst]. constructor; [|apply IH; exact N2]. intro I. apply N1. apply in_map_iff in I as (p & <- & I). apply filter_In in I as (I & _). apply in_map. exact I.
      * apply IH. exact N2.
    + intro f. rewrite in_map_iff. split.
      * intros ([f' m] & Q & I). cbn [fst] in Q. subst f'. apply filter_In in I as (I & V). destruct m as [b|]; [|discriminate V]. cbn [negb orb] in V. exists b. rewrite (In_get f (File b) es De I). split; [reflexivity|]. apply C76_png_signature. exact V.
      * intros (b & F & P). destruct (get f es) as [m|] eqn:E; [|discriminate F]. destruct m; [|discriminate F]. injection F as ->. exists (f, File b). split; [reflexivity|]. apply filter_In. split; [apply get_In; exact E|]. cbn [negb orb]. apply C76_png_signature. exact P.
  - unfold fileAt. destruct (FS.find t [u "images"]) as [[|es]|]; split; try discriminate; try (intros (? & ?); discriminate); try reflexivity; intros _; eexists; reflexivity.
Qed.
Print Assumptions C105_images.

(** a UFO with two layers; a lib with a wrong glyph order; a layer whose contents
    name a file that is not there *)
Example C105_case :
  let p v := match dumps toy v with Ok b => File b | Err _ => File [] end in
  let t := Dir [(u "layercontents.plist", p (PList [PList [PStr (u "fore"); PStr (u "glyphs")]; PList [PStr (u "back"); PStr (u "glyphs.b")]]));
                (u "glyphs", Dir [(u "contents.plist", p (PDict [(PStr (u "A"), PStr (u "A_.glif"))])); (u "A_.glif", File [])]);
                (u "glyphs.b", Dir [(u "contents.plist", p (PDict [(PStr (u "A"), PStr (u "A_.glif"))]))]);
                (u "lib.plist", p (PDict [(PStr (u "public.glyphOrder"), PList [PInt 3])]));
                (u "groups.plist", p (PDict [(PStr (u "public.kern1.O"), PList [PStr (u "O"); PStr (u "Q")])]));
                (u "features.fea", File [195; 169; 10]%N)] in
  getLayerNames toy 3 t true = Ok [u "fore"; u "back"] /\ getDefaultLayerName toy 3 t true = Ok (u "fore") /\
  getGlyphSetR toy 3 t None true = Ok (u "glyphs", PDict [(PStr (u "A"), PStr (u "A_.glif"))]) /\
  getGlyphSetR toy 3 t (Some (u "back")) true = Err GlifLibError /\
  readLib toy t true = Err UFOLibError /\ readFeatures t = Ok [233; 10]%N /\
  snd (readGroups toy (fun _ _ => Err TypeError) 3 t None true) = Ok (PDict [(PStr (u "public.kern1.O"), PList [PStr (u "O"); PStr (u "Q")])]) /\
  snd (readKerning toy (fun _ _ => Err TypeError) 3 t None true) = Ok (PDict []).
Proof. vm_compute. repeat split. Qed.

(** ** C79, for images: the image called [f] in the other UFO becomes the image
    called [g] of this one, and nothing else is touched *)
Theorem C79_images : forall c src f g s, ver c = 3%Z -> plainName f -> plainName g ->
  (existsAt src [u "images"; f] = false \/ existsAt (tree s) [u "images"; g] = true -> copyImageFromReader c src f g s = (s, Err UFOLibError)) /\
  (forall s', copyImageFromReader c src f g s = (s', Ok tt) ->
     (forall x, fileAt (tree s') (u "images" :: g :: x) = fileAt src (u "images" :: f :: x) /\ isdir (tree s') (u "images" :: g :: x) = isdir src (u "images" :: f :: x)) /\
     (forall x, ~ below [u "images"; g] x -> fileAt (tree s') x = fileAt (tree s) x /\
                                             (isdir (tree s') x = true <-> isdir (tree s) x = true \/ x = [] \/ x = [u "images"]))) /\
  (** an image that the other UFO offers is copied, and is then read here *)
  (forall b, readImage 3 src f true = Ok b -> isdir (tree s) [] = true -> fileAt (tree s) [u "images"] = None -> existsAt (tree s) [u "images"; g] = false ->
     exists s', copyImageFromReader c src f g s = (s', Ok tt) /\ readImage 3 (tree s') g true = Ok b).
Proof.
  intros c src f g s V Pf Pg.
  pose proof (imagePath_components f Pf) as Cf. pose proof (imagePath_components g Pg) as Cg. change nImages with (u "images") in Cf, Cg.
  assert (U : copyImageFromReader c src f g s = copyFromReader src (imagePath f) (imagePath g) s) by (unfold copyImageFromReader; rewrite V; reflexivity).
  rewrite U.
  assert (A : forall s', copyFromReader src (imagePath f) (imagePath g) s = (s', Ok tt) ->
     (forall x, fileAt (tree s') (u "images" :: g :: x) = fileAt src (u "images" :: f :: x) /\ isdir (tree s') (u "images" :: g :: x) = isdir src (u "images" :: f :: x)) /\
     (forall x, ~ below [u "images"; g] x -> fileAt (tree s') x = fileAt (tree s) x /\
                                             (isdir (tree s') x = true <-> isdir (tree s) x = true \/ x = [] \/ x = [u "images"]))).
  { intros s' H. destruct (C79_copy src _ _ _ _ s s' Cf Cg) as (_ & K). destruct (K H) as (K1 & K2). split; [intro x; exact (K1 x)|].
    intros x NB. destruct (K2 x NB) as (E1 & E2). split; [exact E1|]. rewrite E2. split; (intros [D|B]; [left; exact D|right]).
    - destruct B as (r & E). destruct x as [|a x]; [left; reflexivity|]. right. cbn [app] in E. injection E as <- E. destruct x as [|a x]; [reflexivity|].
      cbn [app] in E. injection E as <- E. symmetry in E. apply app_eq_nil in E as [-> _]. destruct NB. exists []. reflexivity.
    - destruct B as [-> | ->]; [exists [u "images"; g]|exists [g]]; reflexivity. }
  split; [exact (proj1 (C79_copy src _ _ _ _ s s Cf Cg))|]. split; [exact A|].
  intros b R D NF NE. destruct (C105_images src) as (RI & _). apply RI in R as (cs & Cc & _ & F & P).
  rewrite (components_plain _ Pf) in Cc. apply Ok_inj in Cc. subst cs.
  assert (M : exists t1, mkdirs [u "images"] (tree s) = Some t1).
  { apply mkdirs_Some. intros q (r & E). destruct q as [|a q].
    - unfold isdir in D. unfold fileAt. cbn [FS.find] in *. destruct (tree s); [discriminate D|reflexivity].
    - cbn [app] in E. injection E as <- E. symmetry in E. apply app_eq_nil in E as [-> _]. exact NF. }
  destruct M as (t1 & M).
  assert (X : exists s', copyFromReader src (imagePath f) (imagePath g) s = (s', Ok tt)).
  { pose proof (FontProofs.images_dirname g Pg) as Dp. change nImages with (u "images") in Dp.
    unfold copyFromReader, mbind, lift. rewrite Cf. unfold fileAt in F. destruct (FS.find src [u "images"; f]) as [[b'|]|] eqn:Fs; try discriminate F.
    rewrite Cg. unfold getTree. rewrite NE, Dp. unfold makedirs. rewrite M. unfold change at 1.
    assert (T1 : exists ts is, t1 = Dir ts /\ get (u "images") ts = Some (Dir is)).
    { pose proof (kind_mkdirs _ _ _ [u "images"] M) as K. change (FSProofs.strip [u "images"] [u "images"]) with (FSProofs.strip [u "images"] ([u "images"] ++ [])) in K.
      rewrite (proj2 (strip_Some _ _ _) eq_refl) in K. unfold kind in K. destruct t1 as [|ts]; [discriminate K|]. cbn [FS.find] in K.
      destruct (get (u "images") ts) as [[|is]|] eqn:G; try discriminate K. exists ts, is. split; [reflexivity|exact G]. }
    destruct T1 as (ts & is & -> & G).
    assert (N : FS.find (Dir ts) [u "images"; g] = None).
    { pose proof (kind_mkdirs _ _ _ [u "images"; g] M) as K. rewrite (proj2 (strip_None _ _)) in K by (intros (r & E); discriminate E).
      unfold existsAt in NE. unfold kind in K. destruct (FS.find (tree s) [u "images"; g]); [discriminate NE|]. destruct (FS.find (Dir ts) [u "images"; g]) as [[|]|]; [discriminate K..|reflexivity]. }
    rewrite N. cbn [put]. rewrite G. cbn [put]. eexists. reflexivity. }
  destruct X as (s' & X). exists s'. split; [exact X|]. destruct (C105_images (tree s')) as (RI' & _). apply RI'. exists [g].
  split; [apply components_plain; exact Pg|]. split; [discriminate|]. split; [|exact P]. destruct (A s' X) as (K & _). rewrite (proj1 (K [])). exact F.
Qed.
Print Assumptions C79_images.
Example C79_images_case : let png := File [137; 80; 78; 71; 13; 10; 26; 10; 1]%N in let src := Dir [(u "images", Dir [(u "a.png", png); (u "b.png", File [2%N])])] in
  let s := mkUst (Dir [(u "images", Dir [(u "a.png", File [3%N])])]) [] [] None in let c := mkCfg 3 false PNone in
  readImage 3 (tree (fst (copyImageFromReader c src (u "a.png") (u "b.png") s))) (u "b.png") true = Ok [137; 80; 78; 71; 13; 10; 26; 10; 1]%N /\
  fileAt (tree (fst (copyImageFromReader c src (u "a.png") (u "b.png") s))) [u "images"; u "a.png"] = Some [3%N] /\
  copyImageFromReader c src (u "b.png") (u "a.png") s = (s, Err UFOLibError) /\ copyImageFromReader c src (u "c.png") (u "c.png") s = (s, Err UFOLibError).
Proof. vm_compute. auto. Qed.
