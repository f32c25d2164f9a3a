(** C96: a writer of a new UFO 3 refuses nothing that is valid. *)
From Coq Require Import String NArith ZArith Bool Lia List Permutation.
From Coq.Floats Require Import SpecFloat.
From Verif Require Import Base PyVal PyText FloatRepr LowerLaws Filenames FilenamesProofs PropFilenames GlyphSet GlyphSetProofs NamesApart PropGlyphSet.
From Verif Require Import Xml FS Validators Ufo UfoProofs PropUfo PropUfoFiles Plist PropPlist Etree EtreeProofs PlistFiles PointPen Glif GlifProofs GlifOutline GlifAgain PropGlif PropSession PropLayers FontInfo PropFontInfo PropInfoFile Kerning Font FontProofs FontLayers PropFont FontAccepts.
Import ListNotations.
Local Open Scope string_scope.
Local Open Scope list_scope.
Local Notation dict_ok := Base.dict_ok.
Local Notation find := FS.find.

(** ** C96 *)
(** The history decides nothing: an action whose data is accepted by validation
    ([acceptedIn]) succeeds, whatever has been done before, and so does saving; and
    all of it is read back.  Proved for histories of any kind, with file name
    functions that find a name as long as there are few others. A second glyph set
    of a layer that the client has one of is not covered, and need not be given:
    see [C96_opening_again_refuted]. *)
Theorem C96_never_refused_partial : forall T R ro lower toFileName, pytext_laws T -> repr_laws T R -> lower_keeps lower -> lower_laws lower ->
  case_fresh (fun f => f) lower toFileName -> good_names textOk toFileName -> (forall n e f, toFileName n e = Ok f -> glyphFile f) ->
  (forall n e, n <> [] -> fewNames e -> exists f, toFileName n e = Ok f) ->
  forall creator l order default, textOk creator -> allowedAll textOk newFont l -> acceptedAll T R ro newFont [] l ->
  let m := fold_left fremember l newFont in
  NoDup order -> (forall n, In n order <-> get n (fLayers m) <> None) -> fDefault m = Some default ->
  exists s s', fsession T R ro lower toFileName (PStr creator) l = Ok s /\ save T R lower toFileName order s = Ok s' /\ readsFont T R m order default (tree (writer s')).
Proof.
  intros T R ro lower tf LT LR K LL CF GN GF Tot c l order dn Tc Al Ac m Nd Or Fd.
  apply (never_refused T R ro lower tf LT LR K LL textOk (fun _ f => textOk f /\ glyphFile f)); try assumption; try tauto.
  intros n e f On _ E. split; [split; [exact (GN _ _ _ On E)|exact (GF _ _ _ E)]|]. apply (CF _ _ _ E).
Qed.
Print Assumptions C96_never_refused_partial.
Lemma careful_total lower n e : lower_laws lower -> n <> [] -> fewNames e -> exists f, carefulFileName lower n e = Ok f.
Proof.
  intros LL Nn F. apply (always_found lower LL); [left; exact Nn|]. unfold fewNames in F. cbn [length]. rewrite map_length. unfold keys. rewrite map_length. lia.
Qed.
Lemma default_total lower n e : lower_laws lower -> n <> [] -> fewNames e -> exists f, defaultFileName lower n e = Ok f.
Proof.
  intros LL Nn F. apply (always_found lower LL); [left; exact Nn|]. unfold fewNames in F. unfold keys. rewrite map_length. lia.
Qed.
Theorem C96_careful_partial : forall T R ro lower, pytext_laws T -> repr_laws T R -> lower_keeps lower -> lower_laws lower ->
  forall creator l order default, textOk creator -> allowedAll textOk newFont l -> acceptedAll T R ro newFont [] l ->
  let m := fold_left fremember l newFont in
  NoDup order -> (forall n, In n order <-> get n (fLayers m) <> None) -> fDefault m = Some default ->
  exists s s', fsession T R ro lower (carefulFileName lower) (PStr creator) l = Ok s /\ save T R lower (carefulFileName lower) order s = Ok s' /\ readsFont T R m order default (tree (writer s')).
Proof.
  intros T R ro lower LT LR K LL. apply C96_never_refused_partial; try assumption.
  - apply C08_careful_function. intros f g ->. reflexivity.
  - apply careful_names_text.
  - intros n e f E. eapply glif_file. exact E.
  - intros n e. apply careful_total. exact LL.
Qed.
Print Assumptions C96_careful_partial.
(** with the default file name function, for names that are apart (C08) *)
Theorem C96_apart_names_partial : forall T R ro lower S, pytext_laws T -> repr_laws T R -> lower_keeps lower -> lower_laws lower -> lower_stable lower -> apart_names lower S ->
  forall creator l order default, textOk creator -> allowedAll (fun n => S n /\ textOk n) newFont l -> acceptedAll T R ro newFont [] l ->
  let m := fold_left fremember l newFont in
  NoDup order -> (forall n, In n order <-> get n (fLayers m) <> None) -> fDefault m = Some default ->
  exists s s', fsession T R ro lower (defaultFileName lower) (PStr creator) l = Ok s /\ save T R lower (defaultFileName lower) order s = Ok s' /\ readsFont T R m order default (tree (writer s')).
Proof.
  intros T R ro lower S LT LR K LL L A c l order dn Tc Al Ac m Nd Or Fd.
  apply (never_refused T R ro lower (defaultFileName lower) LT LR K LL (fun n => S n /\ textOk n) (fun n f => (((S n /\ textOk n) /\ ownFile lower n f) /\ textOk f) /\ glyphFile f)); try assumption; try tauto.
  - intros n e f On Pe E. assert (CO : case_only (fun f => f) lower) by (intros a b ->; reflexivity).
    destruct (fresh_apart (fun f => f) lower textOk (fun n => S n /\ textOk n) L CO (default_names_text lower) (apart_sub lower S _ (fun n H => proj1 H) A) (fun n H => proj2 H) n e f On) as (H1 & H2 & H3); [|exact E|].
    + intros g Ig. destruct (Pe g Ig) as (k & Nk & H1 & _). eauto.
    + split; [split; [exact H1|eapply glif_file; exact E]|auto].
  - intros n e. apply default_total. exact LL.
Qed.
Print Assumptions C96_apart_names_partial.

(** The hypotheses hold for a font with everything in it. *)
Definition acceptCase : list faction :=
  [AInfo [(u "familyName", PStr (u "F<")); (u "unitsPerEm", PInt 1000)]; AGroups [(u "public.kern1.A", [PStr (u "a")])]; AKerning [(u "a", u "b", PInt (-10))];
   ALib [(PStr (u "k"), PList [PInt 1])]; AFeatures (u "# x"); AImage (u "i.png") pngCase; AData [u "com.x"; u "a"] [1]%N; AData [u "com.x"; u "b"] [2]%N;
   ALayer None true; ALayer (Some (u "back")) false; AGlyph (u "public.default") (u "a<") glyphCase (Some itemsCase) None;
   AGlyph (u "back") (u "c") glyph1Case (Some items1Case) (Some 1%Z); AGlyph (u "back") (u "d") [] None None; ALayerInfo (u "back") [(u "color", PStr (u "1,0,0,1"))];
   ASave [u "back"; u "public.default"]; AGlyph (u "back") (u "c") [] None None; ARemoveImage (u "i.png"); ARemoveData [u "com.x"; u "a"];
   ACall (u "back") (GlyphSet.CDelete (u "d")); ARename (u "back") (u "front") false; AReopen [u "front"; u "public.default"]; ALayer (Some (u "front")) false;
   AGlyph (u "front") (u "e") [] None None; ALayer (Some (u "x")) false; ADelete (u "x")].
Lemma two_names {B} (n x y : str) (d : list (str * B)) : keys d = [x; y] -> (In n [x; y] <-> get n d <> None) /\ (In n [y; x] <-> get n d <> None).
Proof.
  intro K. assert (E : In n [x; y] <-> get n d <> None).
  { rewrite <- K. split; [intros I E; apply (proj1 (get_None n d) E); exact I|]. intro N. destruct (in_dec eq_decide n (keys d)) as [I|I]; [exact I|]. exfalso. apply N. apply get_None. exact I. }
  split; [exact E|]. rewrite <- E. cbn [In]. tauto.
Qed.
Lemma acceptCase_allowed : allowedAll textOk newFont acceptCase.
Proof.
  assert (S : forall s, forallb (fun c => (c =? 10) || ((32 <=? c) && (c <? 128)))%N s = true -> plistFaithful (PStr s)) by (intros s E; apply str_faithful, text_check; exact E).
  assert (One : forall k v, forallb (fun c => (c =? 10) || ((32 <=? c) && (c <? 128)))%N k = true -> plistFaithful v -> plistFaithful (PDict [(PStr k, v)])).
  { intros k v E F. apply (asDict_faithful [(k, v)]); [repeat constructor; intros []|]. intros a x G. cbn [get] in G. destruct (eqb_spec a k) as [->|]; [|discriminate G]. injection G as <-. split; [apply text_check; exact E|exact F]. }
  cbn [acceptCase allowedAll]. repeat match goal with |- _ /\ _ => split | |- True => exact Logic.I end; cbn [allowedIn]; repeat match goal with |- _ /\ _ => split | |- True => exact Logic.I end.
  - intros x v [G _]. cbn [get] in G. destruct (eqb x _); [injection G as <-; apply S; reflexivity|]. destruct (eqb x _); [|discriminate G]. injection G as <-. apply int_faithful. lia.
  - left. discriminate.
  - apply One; [reflexivity|]. apply list_faithful. apply Forall_cons; [apply S; reflexivity|apply Forall_nil].
  - left. discriminate.
  - repeat constructor. intros [].
  - apply One; [reflexivity|]. apply One; [reflexivity|]. apply int_faithful. lia.
  - left. discriminate.
  - apply One; [reflexivity|]. apply list_faithful. apply Forall_cons; [apply int_faithful; lia|apply Forall_nil].
  - left. discriminate.
  - apply plain_check. reflexivity.
  - discriminate.
  - repeat constructor; apply plain_check; reflexivity.
  - discriminate.
  - repeat constructor; apply plain_check; reflexivity.
  - split; [discriminate|]. intro E. discriminate E.
  - apply text_check. reflexivity.
  - apply text_check. reflexivity.
  - left. split; [reflexivity|exact storable_case].
  - apply text_check. reflexivity.
  - right. split; [reflexivity|]. eexists. split; [reflexivity|exact storable1_case].
  - apply text_check. reflexivity.
  - left. split; [reflexivity|]. apply storable_empty, text_val. reflexivity.
  - intros x v G. unfold storedInfo in G. cbn [get] in G. destruct (eqb x _); [|discriminate G]. injection G as <-. apply S. reflexivity.
  - left. exists (u "color"). discriminate.
  - apply text_check. reflexivity.
  - left. split; [reflexivity|]. apply storable_empty, text_val. reflexivity.
  - apply plain_check. reflexivity.
  - discriminate.
  - repeat constructor; apply plain_check; reflexivity.
  - reflexivity.
  - discriminate.
  - split; [discriminate|]. intro E. discriminate E.
  - apply text_check. reflexivity.
  - discriminate.
  - repeat constructor; vm_compute; intuition discriminate.
  - vm_compute. discriminate.
  - split; [discriminate|]. intro E. discriminate E.
  - apply text_check. reflexivity.
  - apply text_check. reflexivity.
  - left. split; [reflexivity|]. apply storable_empty, text_val. reflexivity.
  - split; [discriminate|]. intro E. discriminate E.
  - apply text_check. reflexivity.
Qed.
Lemma acceptCase_accepted : acceptedAll toyText toyRepr roCase newFont [] acceptCase.
Proof.
  assert (V : forall (A : Type) (r : res A) , isOk r = true -> exists x, r = Ok x) by (intros A [x|e] H; [eauto|discriminate H]).
  assert (G : forall n g items fv, isOk (gsWriteBytes toyText toyRepr roCase 3 (PStr n) g (option_map gdrawing items) fv true) = true -> exists b, gsWriteBytes toyText toyRepr roCase 3 (PStr n) g (option_map gdrawing items) fv true = Ok b) by (intros; apply V; assumption).
  cbn [acceptCase acceptedAll]. repeat match goal with |- _ /\ _ => split | |- True => exact Logic.I end; cbn [acceptedIn].
  - apply V. vm_compute. reflexivity.
  - vm_compute. reflexivity.
  - intros p v [E|[]]. injection E as <- <-. reflexivity.
  - vm_compute. reflexivity.
  - apply V. vm_compute. reflexivity.
  - vm_compute. reflexivity.
  - intros q x Gq. discriminate Gq.
  - intros q x Gq. cbn in Gq. destruct (eqb_spec q [u "com.x"; u "a"]) as [->|]; [|discriminate Gq]. intros [(r & E)|(r & E)]; discriminate E.
  - split; [right; reflexivity|]. left. split; [reflexivity|]. split; [vm_compute; reflexivity|reflexivity].
  - split; [left; discriminate|]. left. split; [reflexivity|]. split; [vm_compute; reflexivity|discriminate].
  - split; [vm_compute; tauto|]. split; [eexists; split; [reflexivity|vm_compute; reflexivity]|]. split; [discriminate|]. apply G. vm_compute. reflexivity.
  - split; [vm_compute; tauto|]. split; [eexists; split; [reflexivity|vm_compute; reflexivity]|]. split; [discriminate|]. apply G. vm_compute. reflexivity.
  - split; [vm_compute; tauto|]. split; [eexists; split; [reflexivity|vm_compute; reflexivity]|]. split; [discriminate|]. apply G. vm_compute. reflexivity.
  - split; [vm_compute; tauto|]. intros a v. unfold storedInfo. cbn [get]. destruct (eqb_spec a (u "color")) as [->|]; [|discriminate]. intro E. injection E as <-. vm_compute. reflexivity.
  - intro n. refine (proj2 (two_names n (u "public.default") (u "back") _ _)). vm_compute. reflexivity.
  - split; [vm_compute; tauto|]. split; [eexists; split; [reflexivity|vm_compute; reflexivity]|]. split; [discriminate|]. apply G. vm_compute. reflexivity.
  - vm_compute. discriminate.
  - exists [u "com.x"; u "a"], [1]%N. split; [vm_compute; reflexivity|]. exists []. reflexivity.
  - split; [vm_compute; tauto|]. intros L E. vm_compute in E. injection E as <-. vm_compute. discriminate.
  - split; [vm_compute; discriminate|]. split; [vm_compute; reflexivity|]. right. split; [reflexivity|discriminate].
  - intro n. refine (proj2 (two_names n (u "public.default") (u "front") _ _)). vm_compute. reflexivity.
  - split; [left; discriminate|]. right. split; [vm_compute; discriminate|]. split; [intros []|discriminate].
  - split; [vm_compute; tauto|]. split; [eexists; split; [vm_compute; reflexivity|vm_compute; reflexivity]|]. split; [discriminate|]. apply G. vm_compute. reflexivity.
  - split; [left; discriminate|]. left. split; [reflexivity|]. split; [vm_compute; reflexivity|discriminate].
  - vm_compute. discriminate.
Qed.

Definition acceptFont : font := fold_left fremember acceptCase newFont.
(** Every step of it succeeds, and what is read is what was passed. *)
Example C96_case : exists s s', fsession toyText toyRepr roCase ascii_lower (carefulFileName ascii_lower) (PStr (u "me")) acceptCase = Ok s
  /\ save toyText toyRepr ascii_lower (carefulFileName ascii_lower) [u "front"; u "public.default"] s = Ok s'
  /\ readsFont toyText toyRepr acceptFont [u "front"; u "public.default"] (u "public.default") (tree (writer s')).
Proof.
  apply C96_careful_partial.
  - exact toyText_laws.
  - exact toyRepr_laws.
  - apply ascii_keeps.
  - apply ascii_lower_laws.
  - apply text_check. reflexivity.
  - exact acceptCase_allowed.
  - exact acceptCase_accepted.
  - repeat constructor; vm_compute; intuition discriminate.
  - intro n. refine (proj2 (two_names n (u "public.default") (u "front") _ _)). vm_compute. reflexivity.
  - vm_compute. reflexivity.
Qed.

(** The conditions on the history are needed: a layer is opened a second time by a
    writer that has deleted one of its glyphs since saving, and the writer refuses,
    because contents.plist names a file that is no longer there (glifLib 176-180). *)
Theorem C96_opening_again_refuted : ~ (forall T R ro lower, pytext_laws T -> repr_laws T R -> lower_keeps lower -> lower_laws lower ->
  forall creator l name default, textOk creator -> allowedAll textOk newFont (l ++ [ALayer name default]) ->
  isOk (fsession T R ro lower (carefulFileName lower) (PStr creator) l) = true ->
  isOk (fsession T R ro lower (carefulFileName lower) (PStr creator) (l ++ [ALayer name default])) = true).
Proof.
  intro H.
  specialize (H toyText toyRepr roCase ascii_lower toyText_laws toyRepr_laws ascii_keeps ascii_lower_laws (u "me")
    [ALayer None true; AGlyph (u "public.default") (u "a") [] None None; ASave [u "public.default"]; ACall (u "public.default") (GlyphSet.CDelete (u "a"))] None true).
  assert (E : isOk (fsession toyText toyRepr roCase ascii_lower (carefulFileName ascii_lower) (PStr (u "me"))
    [ALayer None true; AGlyph (u "public.default") (u "a") [] None None; ASave [u "public.default"]; ACall (u "public.default") (GlyphSet.CDelete (u "a")); ALayer None true]) = true).
  - apply H; [apply text_check; reflexivity| |vm_compute; reflexivity].
    cbn [app allowedAll]. repeat match goal with |- _ /\ _ => split | |- True => exact Logic.I end; cbn [allowedIn]; repeat match goal with |- _ /\ _ => split | |- True => exact Logic.I end.
    + apply text_check. reflexivity.
    + left. split; [reflexivity|]. apply storable_empty, text_val. reflexivity.
    + reflexivity.
    + discriminate.
  - vm_compute in E. discriminate E.
Qed.
Print Assumptions C96_opening_again_refuted.
