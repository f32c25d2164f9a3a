(** C92: the character mapping of a layer. *)
From Coq Require Import String NArith ZArith Bool Lia List Permutation.
From Coq.Floats Require Import SpecFloat.
From Verif Require Import Base LowerLaws Filenames PyVal PyText FloatRepr GlyphSet GlyphSetProofs NamesApart PropGlyphSet Xml FS Ufo UfoProofs PropUfoFiles Plist PlistProofs PropPlist Etree EtreeProofs PropEtree PlistFiles Validators PointPen PropPointPen Glif GlifProofs GlifOutline GlifElements GlifRead GlifFiles GlifNotes GlifAccepted GlifAgain GlifFormat1 GlifFetch PropGlif PropSession GlyphRefs PropGlyphRefs.
Import ListNotations.
Local Open Scope string_scope.
Local Open Scope list_scope.

(** __init__.py 664-680 on the glyph set of the layer *)
Definition layerMapping (T : pytext) (canon : str -> str) (w : world) : res (list (Z * list str)) :=
  do unicodes <- snd (getUnicodes T canon None w);
  Ok (characterMapping unicodes).

(** ** Specification *)
(** the attribute unicodes is missing, empty or a list of integers *)
Definition listsCodes (a : gaction) : Prop :=
  match a with Write _ g _ _ => truthy (attr g "unicodes") = false \/ exists zs, attr g "unicodes" = PList (map PInt zs) | Other _ => True end.
(** the glyph, as last written, has the Unicode value *)
Definition hasCode (l : list gaction) (code : Z) (n : str) : Prop :=
  exists g items fv zs, get n (rememberedGlyphs l) = Some (g, items, fv) /\ attr g "unicodes" = PList (map PInt zs) /\ In code zs.
(** exactly the values of the glyphs, each with all its glyphs *)
Definition mapsCodes (l : list gaction) (r : res (list (Z * list str))) : Prop :=
  exists cmap, r = Ok cmap /\ dict_ok cmap /\ forall code,
    match get code cmap with
    | Some names => names <> [] /\ NoDup names /\ forall n, In n names <-> hasCode l code n
    | None => forall n, ~ hasCode l code n
    end.

(** ** Proofs *)
Lemma firsts_In zs z : In z (firsts zs) <-> In z zs.
Proof. unfold firsts. rewrite <- in_rev, nodup_In, <- in_rev. tauto. Qed.
Lemma firsts_NoDup zs : NoDup (firsts zs).
Proof. unfold firsts. apply NoDup_rev, NoDup_nodup. Qed.
Lemma mapping_ok (us : list (str * list Z)) : dict_ok (characterMapping us).
Proof.
  assert (In1 : forall (n : str) codes (c : list (Z * list str)), dict_ok c -> dict_ok (fold_left (fun cmap code => match get code cmap with Some l => set code (l ++ [n]) cmap | None => set code [n] cmap end) codes c)).
  { intros n codes. induction codes as [|z codes IH]; intros c D; [exact D|]. cbn [fold_left]. apply IH. destruct (get z c); apply dict_ok_set; exact D. }
  unfold characterMapping. assert (D : dict_ok ([] : list (Z * list str))) by constructor. revert D. generalize (@nil (Z * list str)). induction us as [|[n codes] us IH]; intros c D; [exact D|]. cbn [fold_left]. apply IH, In1, D.
Qed.
Lemma remembered_lists l : Forall listsCodes l -> forall m : list (str * stored), (forall n g i f, get n m = Some (g, i, f) -> listsCodes (Write n g i f)) -> dict_ok m ->
  forall n g i f, get n (fold_left rememberGlyph l m) = Some (g, i, f) -> listsCodes (Write n g i f).
Proof.
  induction 1 as [|a l A _ IH]; intros m H D; [exact H|]. cbn [fold_left]. destruct a as [n g i f|a]; cbn [rememberGlyph].
  - apply IH; [|apply dict_ok_set; exact D]. intros k g' i' f'. rewrite get_set. destruct (eqb_spec k n) as [->|N]; [|apply H]. intro E. injection E as <- <- <-. exact A.
  - destruct a as [c|]; [|apply IH; assumption]. destruct c; try (apply IH; assumption). apply IH; [|apply dict_ok_del; exact D]. intros k g' i' f' E. destruct (eq_decide k name) as [->|N]; [rewrite get_del_same in E by exact D; discriminate E|]. rewrite get_del_other in E by exact N. apply (H _ _ _ _ E).
Qed.
Lemma In_dict {A} (d : list (str * A)) n a : dict_ok d -> In (n, a) d <-> get n d = Some a.
Proof. intro D. split; [apply In_get; exact D|apply get_In]. Qed.
Lemma mapping_answers l d : Forall listsCodes l -> dict_ok d ->
  (forall n, match get n d with Some a => asked l None n /\ exists x, get n (rememberedGlyphs l) = Some x /\ codesOfGlyph x a | None => ~ asked l None n end) ->
  mapsCodes l (Ok (characterMapping d)).
Proof.
  intros A D H. exists (characterMapping d). split; [reflexivity|]. split; [apply mapping_ok|].
  assert (Ls := remembered_lists l A [] ltac:(discriminate) ltac:(constructor)). change (fold_left rememberGlyph l []) with (rememberedGlyphs l) in Ls.
  assert (C : forall n a, get n d = Some a -> NoDup a /\ forall z, In z a <-> hasCode l z n).
  { intros n a E. specialize (H n). rewrite E in H. destruct H as (_ & ((g & i) & f) & G & [C1 C2]). specialize (Ls n g i f G). cbn [listsCodes] in Ls. destruct Ls as [F|(zs & Ez)].
    - rewrite (C1 F). split; [constructor|]. intro z. split; [intros []|]. intros (g' & i' & f' & zs & G' & Ez & I). rewrite G in G'. injection G' as <- <- <-. rewrite Ez in F. destruct zs; [destruct I|discriminate F].
    - rewrite (C2 zs Ez). split; [apply firsts_NoDup|]. intro z. rewrite firsts_In. split; [intro I; exists g, i, f, zs; auto|]. intros (g' & i' & f' & zs' & G' & Ez' & I). rewrite G in G'. injection G' as <- <- <-. rewrite Ez in Ez'. injection Ez' as Ez'. apply mapInt_inj in Ez'. subst zs'. exact I. }
  assert (Mem : forall code n, In n (map fst (filter (fun nc => existsb (Z.eqb code) (snd nc)) d)) <-> hasCode l code n).
  { intros code n. rewrite in_map_iff. split.
    - intros ([k a] & <- & I). apply filter_In in I as [I E]. cbn [fst snd] in *. apply existsb_exists in E as (z & Iz & Ez). apply Z.eqb_eq in Ez. subst z. apply In_dict in I; [|exact D]. apply (proj2 (C k a I)). exact Iz.
    - intro Hc. assert (Hc' := Hc). destruct Hc as (g & i & f & zs & G & _). assert (Hn := H n). destruct (get n d) as [a|] eqn:E; [|exfalso; apply Hn; cbn [asked]; congruence]. exists (n, a). split; [reflexivity|]. apply filter_In. split; [apply In_dict; assumption|]. cbn [snd]. apply existsb_exists. exists code. split; [apply (proj2 (C n a E)); exact Hc'|apply Z.eqb_refl]. }
  intro code. rewrite C70_character_mapping by (intros n a I; apply In_dict in I; [|exact D]; apply (C n a I)).
  assert (Nd : NoDup (map fst (filter (fun nc => existsb (Z.eqb code) (snd nc)) d))).
  { clear - D. unfold dict_ok, keys in D. induction d as [|[n a] d IH]; [constructor|]. cbn [map fst] in D. inversion D as [|? ? NI ND]; subst. cbn [filter]. destruct (existsb _ _); [|apply IH; exact ND]. cbn [map fst]. constructor; [|apply IH; exact ND]. intro I. apply NI. apply in_map_iff in I as (x & E & I). apply filter_In in I as [I _]. rewrite <- E. apply in_map. exact I. }
  specialize (Mem code). destruct (filter _ d) as [|nc r].
  - intros n Hc. apply Mem in Hc. destruct Hc.
  - split; [discriminate|]. split; [exact Nd|exact Mem].
Qed.
Lemma session_mapping T canon l w : Forall listsCodes l -> answers l None codesOfGlyph (snd (getUnicodes T canon None w)) -> mapsCodes l (layerMapping T canon w).
Proof.
  intros A [_ H]. destruct H as (d & E & D & H); [intros n An; exact An|]. unfold layerMapping. rewrite E. cbn [bind]. apply mapping_answers; assumption.
Qed.

(** * C92 *)
(** Proved for the sessions of C85. *)
Theorem C92_mapping_partial : forall T R ro ufo canon lower toFileName, pytext_laws T -> repr_laws T R ->
  case_only canon lower -> case_fresh canon lower toFileName -> good_names textOk toFileName ->
  forall l w, Forall (allowed ufo) l -> Forall listsCodes l -> session canon lower toFileName (contentsDumps T R) (contentsLoads T) (map (compile T R ro ufo) l) = Ok w ->
  mapsCodes l (layerMapping T canon w).
Proof.
  intros T R ro ufo canon lower tf LT LR CO CF GN l w A Lc S. apply session_mapping; [exact Lc|].
  apply (C86_references_partial T R ro ufo canon lower tf LT LR CO CF GN l w A S None).
Qed.
Print Assumptions C92_mapping_partial.
Theorem C92_apart_names_partial : forall T R ro ufo canon lower S, pytext_laws T -> repr_laws T R -> lower_stable lower -> case_only canon lower -> apart_names lower S ->
  forall l w, Forall (allowed ufo) l -> Forall listsCodes l -> Forall (named S) l -> session canon lower (defaultFileName lower) (contentsDumps T R) (contentsLoads T) (map (compile T R ro ufo) l) = Ok w ->
  mapsCodes l (layerMapping T canon w).
Proof.
  intros T R ro ufo canon lower S LT LR L CO Ap l w A Lc Ln E. apply session_mapping; [exact Lc|].
  apply (C86_apart_names_partial T R ro ufo canon lower S LT LR L CO Ap l w A Ln E None).
Qed.
Print Assumptions C92_apart_names_partial.
(** two glyphs for one character, one of them listing it twice, a glyph written again
    with other values and one deleted *)
Definition codes (zs : list Z) : list (str * pyval) := [(u "unicodes", PList (map PInt zs))].
Definition cmapCase : list gaction :=
  [Write (u "A") (codes [65]) (Some []) None; Write (u "Alpha") (codes [913; 65; 913]) (Some []) (Some 1%Z); Write (u "B") (codes [66; 914]) (Some []) None; Other Reopen;
   Write (u "A") (codes [65; 913]) (Some []) None; Write (u "C") (codes [67]) None None; Other (Do (CDelete (u "B"))); Write (u "space") [] None None]%Z.
Example C92_case :
  match session idName ascii_lower (carefulFileName ascii_lower) (contentsDumps toyText toyRepr) (contentsLoads toyText) (map (compile toyText toyRepr roCase 3) cmapCase) with
  | Ok w => layerMapping toyText idName w
  | Err e => Err e
  end = Ok [(65%Z, [u "A"; u "Alpha"]); (913%Z, [u "A"; u "Alpha"]); (67%Z, [u "C"])] /\ Forall listsCodes cmapCase.
Proof.
  split; [vm_compute; reflexivity|]. repeat (apply Forall_cons; [try exact Logic.I; cbn [listsCodes]; first [right; eexists; reflexivity|left; reflexivity]|]). apply Forall_nil.
Qed.
