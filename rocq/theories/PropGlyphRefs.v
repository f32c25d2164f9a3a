(** C86: the references of a whole glyph set. *)
From Coq Require Import String NArith ZArith Bool Lia List Permutation.
From Coq.Floats Require Import SpecFloat.
From Verif Require Import Base LowerLaws Filenames PyVal PyText FloatRepr GlyphSet GlyphSetProofs NamesApart PropGlyphSet Xml FS Ufo UfoProofs PropUfoFiles Plist PlistProofs PropPlist Etree EtreeProofs PropEtree PlistFiles Validators PointPen PropPointPen Glif GlifProofs GlifOutline GlifElements GlifRead GlifFiles GlifNotes GlifAccepted GlifAgain GlifFormat1 GlifFetch PropGlif PropSession GlyphRefs.
Import ListNotations.
Local Open Scope string_scope.
Local Open Scope list_scope.

Local Notation fetch := PropGlyphSet.fetch.
Local Notation contents := GlyphSet.contents.

(** * Specification *)
(** the glyphs asked for *)
Definition asked (l : list gaction) (names : option (list str)) (n : str) : Prop :=
  match names with Some ns => In n ns | None => get n (rememberedGlyphs l) <> None end.
(** [r] has an answer for each glyph asked for, and no other; if one of them is
    not in the glyph set, it is a KeyError *)
Definition answers {A} (l : list gaction) (names : option (list str)) (P : stored -> A -> Prop) (r : res (list (str * A))) : Prop :=
  ((exists n, asked l names n /\ get n (rememberedGlyphs l) = None) -> r = Err KeyError) /\
  ((forall n, asked l names n -> get n (rememberedGlyphs l) <> None) ->
   exists d, r = Ok d /\ dict_ok d /\ forall n, match get n d with Some a => asked l names n /\ exists x, get n (rememberedGlyphs l) = Some x /\ P x a | None => ~ asked l names n end).
Definition codesOfGlyph (x : stored) (us : list Z) : Prop := let '(g, _, _) := x in codesWritten g us.
Definition basesOfGlyph (x : stored) (bs : list str) : Prop := let '(_, items, _) := x in bs = basesWritten items.
(** GLIF 1 has no images *)
Definition imageOfGlyph (ufo : Z) (x : stored) (o : option str) : Prop :=
  let '(g, _, fv) := x in (versionOf ufo fv = 2%Z -> imageWritten g o) /\ (versionOf ufo fv = 1%Z -> o = None).

(** * Proofs *)
Lemma collect_spec {A} canon (ft : bytes -> res A) w : forall names d,
  collect canon ft names d w = (w, foldM (fun d n => do b <- fetch canon n w; do a <- ft b; Ok (set n a d)) d names).
Proof.
  induction names as [|n r IH]; intro d; [reflexivity|]. cbn [collect foldM]. unfold GlyphSet.mbind at 1. unfold fetch at 1. destruct (getGLIF canon n w) as [w1 rr] eqn:E. apply getGLIF_spec in E as (-> & _). cbn [snd]. destruct rr as [b|e]; [|reflexivity]. cbn [bind]. unfold GlyphSet.mbind, GlyphSet.lift. destruct (ft b) as [a|e]; [|reflexivity]. cbn [bind]. apply IH.
Qed.
Lemma loop_ok {A} (f : str -> res A) : forall names d, (forall n, In n names -> exists a, f n = Ok a) -> dict_ok d ->
  exists d', foldM (fun d n => do a <- f n; Ok (set n a d)) d names = Ok d' /\ dict_ok d' /\ forall n, get n d' = if mem n names then match f n with Ok a => Some a | Err _ => None end else get n d.
Proof.
  induction names as [|n r IH]; intros d H D; [exists d; auto|]. cbn [foldM]. destruct (H n (or_introl eq_refl)) as (a & E). rewrite E. cbn [bind]. destruct (IH (set n a d) (fun k I => H k (or_intror I)) (dict_ok_set _ _ _ D)) as (d' & E' & D' & G). exists d'. split; [exact E'|]. split; [exact D'|]. intro k. rewrite G, get_set. change (mem k (n :: r)) with (eqb k n || mem k r). destruct (mem k r); [rewrite orb_true_r; reflexivity|]. rewrite orb_false_r. destruct (eqb_spec k n) as [->|]; [rewrite E|]; reflexivity.
Qed.
Lemma loop_missing {A} (f : str -> res A) : forall names d, (forall n, In n names -> (exists a, f n = Ok a) \/ f n = Err KeyError) -> (exists n, In n names /\ f n = Err KeyError) ->
  foldM (fun d n => do a <- f n; Ok (set n a d)) d names = Err KeyError.
Proof.
  induction names as [|n r IH]; intros d H (k & I & K); [destruct I|]. cbn [foldM]. destruct (H n (or_introl eq_refl)) as [(a & E)|E]; rewrite E; [|reflexivity]. cbn [bind]. apply IH; [intros; apply H; right; assumption|]. exists k. split; [|exact K]. destruct I as [->|I]; [congruence|exact I].
Qed.
Lemma refs_answer {A} canon (ft : bytes -> res A) w l (P : stored -> A -> Prop) :
  (forall n, match get n (rememberedGlyphs l) with Some x => exists b a, fetch canon n w = Ok b /\ ft b = Ok a /\ P x a | None => fetch canon n w = Err KeyError end) ->
  forall names, fst (references canon ft names w) = w /\ answers l names P (snd (references canon ft names w)).
Proof.
  intros H names. unfold references, GlyphSet.mbind, getGs. rewrite collect_spec. cbn [fst snd]. split; [reflexivity|]. set (ns := match names with Some l => l | None => keys (contents (gs w)) end).
  set (f := fun n => do b <- fetch canon n w; ft b).
  assert (E : forall names d, foldM (fun d n => do b <- fetch canon n w; do a <- ft b; Ok (set n a d)) d names = foldM (fun d n => do a <- f n; Ok (set n a d)) d names).
  { clear. induction names as [|n r IH]; intro d; [reflexivity|]. cbn [foldM]. unfold f at 1. destruct (fetch canon n w) as [b|e]; [|reflexivity]. cbn [bind]. destruct (ft b) as [a|e]; [|reflexivity]. cbn [bind]. apply IH. }
  rewrite E. assert (A1 : forall n, In n ns <-> asked l names n).
  { intro n. subst ns. destruct names as [ns|]; [reflexivity|]. cbn [asked]. specialize (H n). rewrite fetch_eq in H. unfold fileOf in H. assert (GK := get_None n (contents (gs w))). destruct (get n (contents (gs w))) as [fl|].
    - destruct (get n (rememberedGlyphs l)); [split; [discriminate|intros _; destruct (in_dec (eq_decide (A := str)) n (keys (contents (gs w)))) as [I|I]; [exact I|]; apply GK in I; discriminate I]|]. destruct (get (canon fl) (dir w)); discriminate H.
    - destruct (get n (rememberedGlyphs l)) as [x|]; [destruct H as (b & a & X & _); discriminate X|]. split; [intro I; exfalso; apply (proj1 GK eq_refl); exact I|intro X; contradiction]. }
  assert (F : forall n, match get n (rememberedGlyphs l) with Some x => exists a, f n = Ok a /\ P x a | None => f n = Err KeyError end).
  { intro n. specialize (H n). unfold f. destruct (get n (rememberedGlyphs l)) as [x|]; [destruct H as (b & a & -> & Ea & Pa); exists a; split; assumption|rewrite H; reflexivity]. }
  split.
  - intros (n & An & Gn). apply loop_missing; [|exists n; split; [apply A1; exact An|specialize (F n); rewrite Gn in F; exact F]]. intros k _. specialize (F k). destruct (get k (rememberedGlyphs l)) as [x|]; [left; destruct F as (a & Ea & _); eauto|right; exact F].
  - intro K. destruct (loop_ok f ns []) as (d & Ed & Dd & G); [|constructor|].
    + intros n I. apply A1 in I. apply K in I. specialize (F n). destruct (get n (rememberedGlyphs l)) as [x|]; [destruct F as (a & Ea & _); eauto|contradiction].
    + exists d. split; [exact Ed|]. split; [exact Dd|]. intro n. rewrite G. destruct (mem n ns) eqn:M.
      * apply mem_In in M. apply A1 in M. specialize (F n). specialize (K n M). destruct (get n (rememberedGlyphs l)) as [x|]; [|contradiction]. destruct F as (a & -> & Pa). split; [exact M|]. exists x. auto.
      * cbn [get]. rewrite <- A1. apply mem_nIn. exact M.
Qed.
Lemma tree_parse T b root : glifTree T b = Ok root -> parseBytes b = Ok root.
Proof. unfold glifTree. intro G. apply bind_Ok in G as (x & E & G). destruct (eqb _ _); [|discriminate G]. destruct (blankText _ _); [|discriminate G]. apply Ok_inj in G. subst x. exact E. Qed.
Lemma written_refs T R ro ufo n g items fv b : pytext_laws T -> repr_laws T R -> storedAs (versionOf ufo fv) n g items -> gsWriteBytes T R ro ufo (PStr n) g (option_map gdrawing items) fv true = Ok b ->
  exists root, parseBytes b = Ok root /\ codesOfGlyph (g, items, fv) (fetchUnicodes T root) /\ basesOfGlyph (g, items, fv) (fetchComponents root) /\ imageOfGlyph ufo (g, items, fv) (fetchImage root).
Proof.
  intros LT LR St W. apply version_written in W as [W _]. unfold codesOfGlyph, basesOfGlyph, imageOfGlyph. destruct St as [[V St]|(V & l & -> & St)]; rewrite V in *.
  - destruct (C57_written T R ro n g items b LT LR W St) as (root & Gt & A & B & C). exists root. split; [eapply tree_parse; exact Gt|]. split; [exact A|]. split; [exact C|]. split; [intros _; exact B|discriminate].
  - destruct (C57_written_1 T R ro n g l b LT LR W St) as (root & Gt & A & B & C). exists root. split; [eapply tree_parse; exact Gt|]. split; [exact A|]. split; [exact C|]. split; [discriminate|intros _; exact B].
Qed.
Lemma session_refs T R ro ufo canon lower tf dumps loads l w : pytext_laws T -> repr_laws T R -> Forall (allowed ufo) l ->
  session canon lower tf dumps loads (map (compile T R ro ufo) l) = Ok w ->
  (forall n, fetch canon n w = match get n (remembered (map (compile T R ro ufo) l)) with Some b => Ok b | None => Err KeyError end) ->
  forall names,
    (fst (getUnicodes T canon names w) = w /\ answers l names codesOfGlyph (snd (getUnicodes T canon names w))) /\
    (fst (getComponentReferences canon names w) = w /\ answers l names basesOfGlyph (snd (getComponentReferences canon names w))) /\
    (fst (getImageReferences canon names w) = w /\ answers l names (imageOfGlyph ufo) (snd (getImageReferences canon names w))).
Proof.
  intros LT LR A S Fe names.
  assert (H : forall n, match get n (rememberedGlyphs l) with
    | Some x => exists b root, fetch canon n w = Ok b /\ parseBytes b = Ok root /\ codesOfGlyph x (fetchUnicodes T root) /\ basesOfGlyph x (fetchComponents root) /\ imageOfGlyph ufo x (fetchImage root)
    | None => fetch canon n w = Err KeyError end).
  { intro n. assert (H := proj2 (remembered_written T R ro ufo canon lower tf dumps loads l w A S) n). rewrite Fe. destruct (get n (rememberedGlyphs l)) as [[[g items] fv]|]; cbn [writtenAs] in H; [|rewrite H; reflexivity].
    destruct H as (St & b & -> & W). destruct (written_refs T R ro ufo n g items fv b LT LR St W) as (root & Er & X). exists b, root. auto. }
  split; [|split]; apply refs_answer; intro n; specialize (H n); (destruct (get n (rememberedGlyphs l)) as [x|]; [|exact H]); destruct H as (b & root & Eb & Er & A1 & A2 & A3); exists b; eexists; (split; [exact Eb|]); rewrite Er; cbn [bind]; (split; [reflexivity|assumption]).
Qed.

(** Proved: in every session (as in C85) the three functions answer for exactly
    the glyphs asked for, with what was last written: the distinct Unicode values
    in order, the base glyphs of the components in order, the file name of the
    image.  They change nothing. *)
Theorem C86_references_partial : forall T R ro ufo canon lower toFileName, pytext_laws T -> repr_laws T R ->
  case_only canon lower -> case_fresh canon lower toFileName -> good_names textOk toFileName ->
  forall l w, Forall (allowed ufo) l -> session canon lower toFileName (contentsDumps T R) (contentsLoads T) (map (compile T R ro ufo) l) = Ok w -> forall names,
    (fst (getUnicodes T canon names w) = w /\ answers l names codesOfGlyph (snd (getUnicodes T canon names w))) /\
    (fst (getComponentReferences canon names w) = w /\ answers l names basesOfGlyph (snd (getComponentReferences canon names w))) /\
    (fst (getImageReferences canon names w) = w /\ answers l names (imageOfGlyph ufo) (snd (getImageReferences canon names w))).
Proof.
  intros T R ro ufo canon lower tf LT LR CO CF GN l w A S. destruct (allowed_good T R ro ufo l A) as [GW NR].
  destruct (C84_sessions_partial canon lower tf _ _ _ (contents_codec_laws T R LT LR) (contents_total T R LT LR) CO CF GN _ w NR GW S) as [Fe _].
  eapply session_refs; eassumption.
Qed.
Print Assumptions C86_references_partial.
Theorem C86_lower_case_names_partial : forall T R ro ufo canon lower, pytext_laws T -> repr_laws T R -> lower_laws lower -> case_only canon lower ->
  forall l w, Forall (allowed ufo) l -> Forall lowerNamed l -> session canon lower (defaultFileName lower) (contentsDumps T R) (contentsLoads T) (map (compile T R ro ufo) l) = Ok w -> forall names,
    (fst (getUnicodes T canon names w) = w /\ answers l names codesOfGlyph (snd (getUnicodes T canon names w))) /\
    (fst (getComponentReferences canon names w) = w /\ answers l names basesOfGlyph (snd (getComponentReferences canon names w))) /\
    (fst (getImageReferences canon names w) = w /\ answers l names (imageOfGlyph ufo) (snd (getImageReferences canon names w))).
Proof.
  intros T R ro ufo canon lower LT LR L CO l w A Ln S. destruct (allowed_good T R ro ufo l A) as [GW NR].
  destruct (C84_lower_case_names_partial canon lower _ _ _ L (contents_codec_laws T R LT LR) (contents_total T R LT LR) CO (default_names_text lower) _ w NR GW (lower_writes T R ro ufo l A Ln) S) as [Fe _].
  eapply session_refs; eassumption.
Qed.
Print Assumptions C86_lower_case_names_partial.
Theorem C86_apart_names_partial : forall T R ro ufo canon lower S, pytext_laws T -> repr_laws T R -> lower_stable lower -> case_only canon lower -> apart_names lower S ->
  forall l w, Forall (allowed ufo) l -> Forall (named S) l -> session canon lower (defaultFileName lower) (contentsDumps T R) (contentsLoads T) (map (compile T R ro ufo) l) = Ok w -> forall names,
    (fst (getUnicodes T canon names w) = w /\ answers l names codesOfGlyph (snd (getUnicodes T canon names w))) /\
    (fst (getComponentReferences canon names w) = w /\ answers l names basesOfGlyph (snd (getComponentReferences canon names w))) /\
    (fst (getImageReferences canon names w) = w /\ answers l names (imageOfGlyph ufo) (snd (getImageReferences canon names w))).
Proof.
  intros T R ro ufo canon lower S LT LR L CO Ap l w A Ln E. destruct (allowed_good T R ro ufo l A) as [_ NR].
  destruct (C84_apart_names_partial canon lower _ _ _ _ L (contents_codec_laws T R LT LR) (contents_total T R LT LR) CO (default_names_text lower) (apart_sub lower S _ (fun n H => proj1 H) Ap) (fun n H => proj2 H) _ w NR (named_writes S T R ro ufo l A Ln) E) as [Fe _].
  eapply session_refs; eassumption.
Qed.
Print Assumptions C86_apart_names_partial.
(** a glyph of GLIF 2 and one of GLIF 1; all glyphs, a glyph twice, a missing glyph *)
Example C86_case :
  match session idName ascii_lower (carefulFileName ascii_lower) caseDumps caseLoads (map (compile toyText toyRepr roCase 3) sessionCase) with
  | Ok w => snd (getUnicodes toyText idName None w) = Ok [(u "a<", [65; 10]%Z); (u "c", [66]%Z)] /\
      snd (getComponentReferences idName (Some [u "c"; u "c"]) w) = Ok [(u "c", [u "b"])] /\
      snd (getImageReferences idName None w) = Ok [(u "a<", Some (u "i.png")); (u "c", None)] /\
      snd (getImageReferences idName (Some [u "c"; u "b"]) w) = Err KeyError
  | Err _ => False
  end.
Proof. vm_compute. repeat split; reflexivity. Qed.
