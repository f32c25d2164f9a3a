(** Properties C07 - C14: the state of a GlyphSet.
    All theorems hold for every file system identity [canon], every
    lower-casing function, every file name function and every plist codec
    unless a hypothesis says otherwise.  [codec_laws dumps loads good] says that
    the codec keeps the strings [good]; PropSession.v shows this for plistlib. *)
From Coq Require Import String NArith ZArith Bool Lia List.
From Verif Require Import Base LowerLaws Filenames FilenamesProofs GlyphSet GlyphSetProofs NamesApart.
Import ListNotations.
Local Open Scope string_scope.
Local Open Scope list_scope.

(** ** Vocabulary *)
(** the result of getGLIF *)
Definition fetch (canon : str -> str) (name : str) (w : world) : res bytes := snd (getGLIF canon name w).
(** [f] and [g] are different files *)
Definition other_file (canon : str -> str) (f g : str) : Prop := canon f <> canon g.
(** the file of a listed glyph *)
Definition fileOf (name : str) (w : world) : option str := get name (contents (gs w)).

Lemma fetch_eq canon n w : fetch canon n w =
  match fileOf n w with None => Err KeyError | Some f => match get (canon f) (dir w) with Some b => Ok b | None => Err GlifLibError end end.
Proof. unfold fetch. destruct (getGLIF canon n w) as [w' r] eqn:E. apply getGLIF_spec in E. apply E. Qed.

(** a small concrete codec used in the examples: length prefixed strings *)
Fixpoint encPairs (c : list (str * str)) : bytes :=
  match c with
  | [] => []
  | (n, f) :: r => N.of_nat (length n) :: n ++ N.of_nat (length f) :: f ++ encPairs r
  end.
Fixpoint decPairs (fuel : nat) (b : bytes) : option (list (str * str)) :=
  match fuel, b with
  | _, [] => Some []
  | O, _ => None
  | S k, l :: r =>
    let n := firstn (N.to_nat l) r in
    match skipn (N.to_nat l) r with
    | [] => None
    | m :: r' => match decPairs k (skipn (N.to_nat m) r') with
                 | Some c => Some ((n, firstn (N.to_nat m) r') :: c)
                 | None => None
                 end
    end
  end.
Definition toyDumps (c : list (str * str)) : res bytes := Ok (7%N :: encPairs c).
Definition toyLoads (b : bytes) : res (list (str * str)) :=
  match b with
  | 7%N :: r => match decPairs (length r) r with
                | Some c => if nodupb (keys c) then Ok c else Err PlistParseError
                | None => Err PlistParseError
                end
  | _ => Err PlistParseError
  end.
Lemma decPairs_enc c fuel : length c <= fuel -> decPairs fuel (encPairs c) = Some c.
Proof.
  revert fuel; induction c as [|[n f] c IH]; intros fuel H; [destruct fuel; reflexivity|].
  destruct fuel as [|fuel]; [cbn in H; lia|]. cbn [encPairs decPairs]. rewrite Nat2N.id.
  rewrite firstn_app, firstn_all, Nat.sub_diag, skipn_app, skipn_all, Nat.sub_diag. cbn [firstn skipn app].
  rewrite Nat2N.id. rewrite firstn_app, firstn_all, Nat.sub_diag, skipn_app, skipn_all, Nat.sub_diag. cbn [firstn skipn app].
  rewrite !app_nil_r. rewrite IH by (cbn in H; lia). reflexivity.
Qed.
Lemma encPairs_length c : length c <= length (encPairs c).
Proof. induction c as [|[n f] c IH]; cbn; [lia|]. rewrite app_length. cbn. rewrite app_length. lia. Qed.
Lemma toy_codec : codec_laws toyDumps toyLoads (fun _ => True).
Proof.
  constructor.
  - intros b c H. destruct b as [|x r]; [discriminate|]. cbn in H. destruct x as [|p]; [discriminate|].
    do 3 (destruct p as [p|p|]; try discriminate).
    destruct (decPairs (length r) r) as [c'|]; [|discriminate]. destruct (nodupb_spec (keys c')); inversion H; subst. assumption.
  - intros c b D _ H. inversion H; subst. cbn. rewrite decPairs_enc by apply encPairs_length.
    destruct (nodupb_spec (keys c)); [|contradiction]. exists c. split; [reflexivity|]. intro; reflexivity.
  - eexists. reflexivity.
Qed.
(** a concrete glyph set on a case-sensitive file system *)
Definition exCall := exec (fun f => f) ascii_lower (defaultFileName ascii_lower) toyDumps toyLoads.
Definition exRun := run (fun f => f) ascii_lower (defaultFileName ascii_lower) toyDumps toyLoads.
Definition emptyWorld : world := mkWorld (mkGset [] None None false) [] [].

(** ** C07 *)
Theorem C07_read_your_writes : forall canon lower toFileName name badVersion data w w',
  writeGlyph canon lower toFileName name badVersion data w = (w', Ok tt) ->
  exists bytes f, data = Ok bytes /\ fetch canon name w' = Ok bytes /\ fileOf name w' = Some f /\
    forall n g, n <> name -> fileOf n w = Some g -> other_file canon g f ->
      fileOf n w' = Some g /\ fetch canon n w' = fetch canon n w.
Proof.
  intros canon lower tf n bv d w w' E.
  apply writeGlyph_spec in E as [(_ & _ & E)|(_ & w1 & rf & F & E)]; [discriminate|].
  destruct (fileNameFor_spec _ _ _ _ _ _ F) as (D1 & L1 & F1).
  destruct rf as [f|e]; [|destruct E; discriminate]. destruct d as [data|e]; [|destruct E; discriminate].
  destruct E as (_ & Eg & E). exists data, f. split; [reflexivity|].
  assert (G : get n (contents (gs w')) = Some f).
  { rewrite Eg. destruct F1 as [(G & ->)|(_ & _ & ->)]; [exact G|]. cbn. apply get_set_same. }
  split; [|split; [exact G|]].
  - rewrite fetch_eq. unfold fileOf. rewrite G.
    destruct E as [(_ & Gd & -> & _)|(_ & -> & _)]; [rewrite Gd; reflexivity|rewrite get_set_same; reflexivity].
  - intros m g Hm Gm Hf. assert (Gm' : fileOf m w' = Some g).
    { unfold fileOf in *. rewrite Eg. destruct F1 as [(_ & ->)|(_ & _ & ->)]; [exact Gm|]. cbn. rewrite get_set_other by exact Hm. exact Gm. }
    split; [exact Gm'|]. rewrite !fetch_eq, Gm', Gm.
    destruct E as [(_ & _ & -> & _)|(_ & -> & _)]; [reflexivity|]. rewrite get_set_other by exact Hf. reflexivity.
Qed.
Print Assumptions C07_read_your_writes.
Example C07_case :
  let w := exRun [CWrite (u "a") false (Ok [1%N]); CWrite (u "B") false (Ok [2%N]); CWrite (u "a") false (Ok [3%N])] emptyWorld in
  fetch (fun f => f) (u "a") w = Ok [3%N] /\ fetch (fun f => f) (u "B") w = Ok [2%N] /\ fileOf (u "B") w = Some (u "B_.glif").
Proof. vm_compute. auto. Qed.

(** ** C08: false for the default file name function *)
(** [_existingFileNames] is keyed by the file names as they are, but the
    default function looks for lower-cased names in its keys: an upper-case
    clash goes unnoticed. *)
Lemma default_ascii lower n e : lower_laws lower -> asciis n -> defaultFileName lower n e = defaultFileName ascii_lower n e.
Proof. intros L A. unfold defaultFileName, glyphNameToFileName. apply userNameToFileName_ascii; [exact L|exact A|reflexivity..]. Qed.
Definition clashCalls : list call := [CWrite (u "A*") false (Ok [1%N]); CWrite (u "A_") false (Ok [2%N])].
Lemma clash_run canon lower dumps loads : lower_laws lower ->
  run canon lower (defaultFileName lower) dumps loads clashCalls emptyWorld =
  mkWorld (mkGset [(u "A*", u "A__.glif"); (u "A_", u "A__.glif")] (Some [(u "A__.glif", lower (u "A__.glif"))]) None false)
    [(canon (u "A__.glif"), [2%N])] [FSet (u "A__.glif") [1%N]; FSet (u "A__.glif") [2%N]].
Proof.
  intro L. unfold run, clashCalls. cbn [fold_left exec]. unfold writeGlyph at 2. unfold mbind, fileNameFor, mbind, getGs, lift, setGs, ret.
  cbn [emptyWorld gs contents get existingOf existing fold_left reverse havePrev dir log].
  rewrite default_ascii by (exact L || reflexivity).
  replace (defaultFileName ascii_lower (u "A*") []) with (@Ok str (u "A__.glif")) by (vm_compute; reflexivity).
  cbn [gs havePrev fst dir log fsSetbytes perform].
  unfold writeGlyph, mbind, fileNameFor, mbind, getGs, lift, setGs, ret, fsSetbytes, perform.
  cbn [gs contents existingOf existing reverse havePrev dir log fst].
  replace (get (u "A_") (set (u "A*") (u "A__.glif") [])) with (@None str) by (vm_compute; reflexivity).
  rewrite default_ascii by (exact L || reflexivity).
  replace (defaultFileName ascii_lower (u "A_") (set (u "A__.glif") (lower (u "A__.glif")) [])) with (@Ok str (u "A__.glif")) by (vm_compute; reflexivity).
  cbn [gs contents existingOf existing reverse havePrev dir log fst applyOp app set].
  rewrite !eqb_refl.
  replace (eqb (u "A_") (u "A*")) with false by (vm_compute; reflexivity). reflexivity.
Qed.
Theorem C08_distinct_files_refuted : forall canon lower dumps loads, lower_laws lower ->
  exists calls, let w := run canon lower (defaultFileName lower) dumps loads calls emptyWorld in
    allOk (exec canon lower (defaultFileName lower) dumps loads) calls emptyWorld /\
    fileOf (u "A*") w = fileOf (u "A_") w /\ fileOf (u "A_") w <> None /\
    (* writing A_ has overwritten A* *)
    fetch canon (u "A*") w = Ok [2%N].
Proof.
  intros canon lower dumps loads L. exists clashCalls. cbv zeta. rewrite clash_run by exact L. split.
  - cbn [allOk clashCalls exec]. split; [|split; [|exact I]].
    + unfold writeGlyph, mbind, fileNameFor, mbind, getGs, lift, setGs, ret. cbn [emptyWorld gs contents get existingOf existing fold_left reverse havePrev].
      rewrite default_ascii by (exact L || reflexivity).
      replace (defaultFileName ascii_lower (u "A*") []) with (@Ok str (u "A__.glif")) by (vm_compute; reflexivity). reflexivity.
    + unfold writeGlyph at 2. unfold mbind, fileNameFor, mbind, getGs, lift, setGs, ret.
      cbn [emptyWorld gs contents get existingOf existing fold_left reverse havePrev dir log].
      rewrite default_ascii by (exact L || reflexivity).
      replace (defaultFileName ascii_lower (u "A*") []) with (@Ok str (u "A__.glif")) by (vm_compute; reflexivity).
      cbn [gs havePrev fst dir log fsSetbytes perform].
      unfold writeGlyph, mbind, fileNameFor, mbind, getGs, lift, setGs, ret, fsSetbytes, perform.
      cbn [gs contents existingOf existing reverse havePrev dir log fst].
      replace (get (u "A_") (set (u "A*") (u "A__.glif") [])) with (@None str) by (vm_compute; reflexivity).
      rewrite default_ascii by (exact L || reflexivity).
      replace (defaultFileName ascii_lower (u "A_") (set (u "A__.glif") (lower (u "A__.glif")) [])) with (@Ok str (u "A__.glif")) by (vm_compute; reflexivity).
      reflexivity.
  - unfold fileOf. cbn [gs contents]. 
    replace (get (u "A*") [(u "A*", u "A__.glif"); (u "A_", u "A__.glif")]) with (Some (u "A__.glif")) by (vm_compute; reflexivity).
    replace (get (u "A_") [(u "A*", u "A__.glif"); (u "A_", u "A__.glif")]) with (Some (u "A__.glif")) by (vm_compute; reflexivity).
    split; [reflexivity|]. split; [discriminate|].
    rewrite fetch_eq. unfold fileOf. cbn [gs contents dir].
    replace (get (u "A*") [(u "A*", u "A__.glif"); (u "A_", u "A__.glif")]) with (Some (u "A__.glif")) by (vm_compute; reflexivity).
    cbn [get]. rewrite eqb_refl. reflexivity.
Qed.
Print Assumptions C08_distinct_files_refuted.

(** What holds: with a file name function whose results differ, ignoring case,
    from the existing names, different glyphs never share a file - after any
    history, including failing calls. *)
Definition names_apart (canon : str -> str) (w : world) : Prop :=
  forall n m f g, fileOf n w = Some f -> fileOf m w = Some g -> n <> m -> other_file canon f g.
Definition case_fresh (canon lower : str -> str) (toFileName : str -> list (str * str) -> res str) : Prop :=
  forall n e f, toFileName n e = Ok f -> ~ In (lower f) (map lower (keys e)) /\ other_file canon f contentsName.
(** the file name function keeps to the strings that the codec keeps *)
Definition good_names (good : str -> Prop) (toFileName : str -> list (str * str) -> res str) : Prop :=
  forall n e f, good n -> toFileName n e = Ok f -> good f.
Definition good_write (good : str -> Prop) (c : call) : Prop := match c with CWrite n _ _ => good n | _ => True end.
(** names of one file differ at most in case *)
Definition case_only (canon lower : str -> str) : Prop := forall f g, canon f = canon g -> lower f = lower g.

Lemma empty_distinct canon lower loads good P : distinctInv canon lower loads good P emptyWorld.
Proof.
  split; [split; [constructor|split; discriminate]|]. split; [split; [intros n m f g X; discriminate|intros n f X; discriminate]|].
  split; [discriminate|]. intros c X. inversion X; subst. split; [intros n m f g Y; discriminate|intros n f Y; discriminate].
Qed.
Theorem C08_distinct_files_partial : forall canon lower toFileName dumps loads good,
  codec_laws dumps loads good -> case_only canon lower -> case_fresh canon lower toFileName -> good_names good toFileName ->
  forall calls, Forall (good_write good) calls -> names_apart canon (run canon lower toFileName dumps loads calls emptyWorld).
Proof.
  intros canon lower tf dumps loads good C CO CF GN calls GW.
  assert (DI : distinctInv canon lower loads good (fun _ => good) (run canon lower tf dumps loads calls emptyWorld)).
  { apply (run_distinct canon lower tf dumps loads good C CO) with (ok := good); auto.
    - intros n e f G _ T. split; [exact (GN n e f G T)|]. apply (CF n e f T).
    - apply empty_distinct. }
  destruct DI as (_ & (Inj & _) & _). intros n m f g Gn Gm Ne E. apply Ne. eapply Inj; [exact Gn|exact Gm|]. apply CO. exact E.
Qed.
Print Assumptions C08_distinct_files_partial.
(** such a function exists: filenames.py given the lower-cased names *)
Theorem C08_careful_function : forall canon lower, case_only canon lower -> case_fresh canon lower (carefulFileName lower).
Proof. intros canon lower CO n e f T. eapply careful_fresh; eauto. Qed.
Print Assumptions C08_careful_function.
(** and with the default function the property holds for glyph names without
    upper-case letters *)
Definition lower_case_write (c : call) : Prop := match c with CWrite n _ _ => plainLower n | _ => True end.
Theorem C08_lower_case_names_partial : forall canon lower dumps loads good,
  lower_laws lower -> codec_laws dumps loads good -> case_only canon lower -> good_names good (defaultFileName lower) ->
  forall calls, Forall (good_write good) calls -> Forall lower_case_write calls ->
  names_apart canon (run canon lower (defaultFileName lower) dumps loads calls emptyWorld).
Proof.
  intros canon lower dumps loads good L C CO GN calls GW F.
  assert (DI : distinctInv canon lower loads good (fun _ f => plainLower f /\ good f) (run canon lower (defaultFileName lower) dumps loads calls emptyWorld)).
  { apply (run_distinct canon lower (defaultFileName lower) dumps loads good C CO) with (ok := fun n => plainLower n /\ good n).
    - intros n e f [On Gn] Pe T. destruct (default_fresh_plain canon lower L CO n e f On) as (A & B & D); [intros g Ig; destruct (Pe g Ig) as (m & _ & Pm); apply Pm|exact T|].
      split; [split; [exact A|exact (GN n e f Gn T)]|auto].
    - intros n [_ G]; exact G.
    - intros n f [_ G]; exact G.
    - rewrite Forall_forall in *. intros c Ic. specialize (GW c Ic). specialize (F c Ic). destruct c; try exact I. split; assumption.
    - apply empty_distinct. }
  destruct DI as (_ & (Inj & _) & _). intros n m f g Gn Gm Ne E. apply Ne. eapply Inj; [exact Gn|exact Gm|]. apply CO. exact E.
Qed.
Print Assumptions C08_lower_case_names_partial.
(** or for glyph names whose own file names - those they get when there is no
    other file - differ ignoring case; [apart_names], [ownFile] and [simpleName]
    are in NamesApart.v *)
Definition names_write (S : str -> Prop) (c : call) : Prop := match c with CWrite n _ _ => S n | _ => True end.
Lemma fresh_apart canon lower good S : lower_stable lower -> case_only canon lower -> good_names good (defaultFileName lower) -> apart_names lower S -> (forall n, S n -> good n) ->
  forall n e f, S n -> (forall g, In g (keys e) -> exists m, m <> n /\ (S m /\ ownFile lower m g) /\ good g) -> defaultFileName lower n e = Ok f ->
  ((S n /\ ownFile lower n f) /\ good f) /\ ~ In (lower f) (map lower (keys e)) /\ canon f <> canon contentsName.
Proof.
  intros L CO GN A SG n e f On He T. destruct (apart_fresh canon lower S L CO A n e f On) as (H1 & H2 & H3); [|exact T|].
  - intros g Ig. destruct (He g Ig) as (m & Nm & Pm & _). eauto.
  - split; [split; [exact H1|exact (GN n e f (SG n On) T)]|auto].
Qed.
Theorem C08_apart_names_partial : forall canon lower dumps loads good S,
  lower_stable lower -> codec_laws dumps loads good -> case_only canon lower -> good_names good (defaultFileName lower) ->
  apart_names lower S -> (forall n, S n -> good n) ->
  forall calls, Forall (names_write S) calls -> names_apart canon (run canon lower (defaultFileName lower) dumps loads calls emptyWorld).
Proof.
  intros canon lower dumps loads good S L C CO GN A SG calls F.
  assert (DI : distinctInv canon lower loads good (fun n f => (S n /\ ownFile lower n f) /\ good f) (run canon lower (defaultFileName lower) dumps loads calls emptyWorld)).
  { apply (run_distinct canon lower (defaultFileName lower) dumps loads good C CO) with (ok := S).
    - exact (fresh_apart canon lower good S L CO GN A SG).
    - exact SG.
    - intros n f [_ G]; exact G.
    - exact F.
    - apply empty_distinct. }
  destruct DI as (_ & (Inj & _) & _). intros n m f g Gn Gm Ne E. apply Ne. eapply Inj; [exact Gn|exact Gm|]. apply CO. exact E.
Qed.
Print Assumptions C08_apart_names_partial.
(** Names of ASCII characters without "_" and the characters of
    [illegalCharacters], of at most 125 characters and without reserved parts,
    upper-case letters or not, are such names *)
Theorem C08_simple_names : forall lower, lower_laws lower -> apart_names lower simpleName.
Proof. exact simple_apart. Qed.
Print Assumptions C08_simple_names.
Lemma simple_check n : eqb n [] = false -> forallb simpleChar n = true -> forallb (fun q => negb (mem q reservedFileNames)) (split1 period n) = true -> Nat.leb (length n) 125 = true -> simpleName n.
Proof.
  intros H1 H2 H3 H4. rewrite forallb_forall in H2, H3. constructor.
  - intros ->. discriminate H1.
  - exact H2.
  - intros q I J. apply H3 in I. apply negb_true_iff in I. apply mem_In in J. congruence.
  - apply Nat.leb_le. exact H4.
Qed.
Example C08_simple_case : simpleName (u "A.alt") /\ simpleName (u "a.alt") /\ simpleName (u ".notdef") /\ simpleName (u "Eth") /\
  contents (gs (exRun [CWrite (u "A.alt") false (Ok [1%N]); CWrite (u "a.alt") false (Ok [2%N]); CWrite (u "Eth") false (Ok [3%N]); CWrite (u ".notdef") false (Ok [4%N])] emptyWorld))
  = [(u "A.alt", u "A_.alt.glif"); (u "a.alt", u "a.alt.glif"); (u "Eth", u "E_th.glif"); (u ".notdef", u "_notdef.glif")].
Proof. repeat (split; [apply simple_check; vm_compute; reflexivity|]). vm_compute. reflexivity. Qed.
Example C08_case :
  contents (gs (run (fun f => f) ascii_lower (carefulFileName ascii_lower) toyDumps toyLoads clashCalls emptyWorld))
  = [(u "A*", u "A__.glif"); (u "A_", u "A__000000000000001.glif")] /\
  contents (gs (exRun [CWrite (u "a*") false (Ok [1%N]); CWrite (u "a_") false (Ok [2%N])] emptyWorld))
  = [(u "a*", u "a_.glif"); (u "a_", u "a_000000000000001.glif")].
Proof. vm_compute. auto. Qed.

(** ** C09: false for new glyphs *)
(** A failing writeGlyph leaves the new name in contents without a file; the
    contents.plist written afterwards can not be opened again. *)
Theorem C09_failed_write_refuted :
  let w := exRun [CWrite (u "a") false (Err GlifLibError)] emptyWorld in
  snd (exCall (CWrite (u "a") false (Err GlifLibError)) emptyWorld) = Err GlifLibError /\
  fileOf (u "a") emptyWorld = None /\ fileOf (u "a") w = Some (u "a.glif") /\ fetch (fun f => f) (u "a") w = Err GlifLibError /\
  exists w', exCall CWriteContents w = (w', Ok tt) /\ snd (openSet (fun f => f) toyLoads (dir w')) = Err GlifLibError.
Proof. repeat split; try (vm_compute; reflexivity). eexists. split; vm_compute; reflexivity. Qed.
Print Assumptions C09_failed_write_refuted.
(** What holds: no file changes and the stored data of every glyph is the same;
    contents is unchanged if the glyph was listed before or its name was refused. *)
Theorem C09_failed_write_partial : forall canon lower toFileName name badVersion data w w' e,
  writeGlyph canon lower toFileName name badVersion data w = (w', Err e) ->
  dir w' = dir w /\ log w' = log w /\
  (forall n, n <> name -> fileOf n w' = fileOf n w /\ fetch canon n w' = fetch canon n w) /\
  (fileOf name w <> None \/ (exists e', data = Ok e') \/ badVersion = true -> contents (gs w') = contents (gs w)).
Proof.
  intros canon lower tf n bv d w w' e E.
  apply writeGlyph_spec in E as [(_ & -> & E)|(Hb & w1 & rf & F & E)]; [repeat split; auto|].
  destruct (fileNameFor_spec _ _ _ _ _ _ F) as (D1 & L1 & F1).
  assert (X : w' = w1 /\ (contents (gs w1) = contents (gs w) \/ exists f, contents (gs w1) = set n f (contents (gs w)) /\ fileOf n w = None /\ exists x, d = Err x)).
  { destruct rf as [f|x].
    - destruct d as [data|x]; [destruct E; discriminate|]. split; [tauto|].
      destruct F1 as [(_ & ->)|(G & _ & ->)]; [auto|]. cbn [contents]. right. exists f. eauto.
    - split; [tauto|]. destruct F1 as (_ & _ & ->). auto. }
  destruct X as (-> & X). split; [exact D1|]. split; [exact L1|].
  assert (Y : forall m, m <> n -> fileOf m w1 = fileOf m w).
  { intros m Hm. unfold fileOf. destruct X as [->|(f & -> & _)]; [reflexivity|]. apply get_set_other. exact Hm. }
  split.
  - intros m Hm. split; [apply Y; exact Hm|]. rewrite !fetch_eq, (Y m Hm), D1. reflexivity.
  - destruct X as [->|(f & _ & G & x & ->)]; [reflexivity|]. intros [H|[(e' & H)|H]]; congruence.
Qed.
Print Assumptions C09_failed_write_partial.
Example C09_case :
  let w := exRun [CWrite (u "a") false (Ok [1%N])] emptyWorld in
  snd (exCall (CWrite (u "a") false (Err GlifLibError)) w) = Err GlifLibError /\
  gs (fst (exCall (CWrite (u "a") false (Err GlifLibError)) w)) = gs w.
Proof. vm_compute. auto. Qed.

(** ** C10: false with the default function (a consequence of C08) *)
Theorem C10_listed_glyphs_exist_refuted :
  let calls := [CWrite (u "A*") false (Ok [1%N]); CWrite (u "A_") false (Ok [2%N]); CDelete (u "A*")] in
  allOk exCall calls emptyWorld /\ fileOf (u "A_") (exRun calls emptyWorld) = Some (u "A__.glif") /\
  fetch (fun f => f) (u "A_") (exRun calls emptyWorld) = Err GlifLibError.
Proof. vm_compute. repeat split; reflexivity. Qed.
Print Assumptions C10_listed_glyphs_exist_refuted.
(** What holds: with a case-fresh file name function (C08) *)
Theorem C10_listed_glyphs_exist_partial : forall canon lower toFileName dumps loads good,
  codec_laws dumps loads good -> case_only canon lower -> case_fresh canon lower toFileName -> good_names good toFileName ->
  forall calls, Forall (good_write good) calls -> allOk (exec canon lower toFileName dumps loads) calls emptyWorld ->
  let w := run canon lower toFileName dumps loads calls emptyWorld in
  forall name, In name (keys (contents (gs w))) -> exists data, fetch canon name w = Ok data.
Proof.
  intros canon lower tf dumps loads good C CO CF GN calls GW A w name Hn.
  assert (FI : filesInv canon w).
  { unfold w. apply (run_files canon lower tf dumps loads good C CO good (fun _ => good)); auto.
    - intros n e f G _ T. split; [exact (GN n e f G T)|]. apply (CF n e f T).
    - apply empty_distinct.
    - intros n f X. discriminate.
    - constructor. }
  rewrite fetch_eq. unfold fileOf. destruct (get name (contents (gs w))) as [f|] eqn:G.
  - apply FI in G. unfold has in G. destruct (get (canon f) (dir w)) as [b|]; [eauto|discriminate].
  - exfalso. apply get_None in G. contradiction.
Qed.
Print Assumptions C10_listed_glyphs_exist_partial.
(** or with the default one and names that are apart (C08) *)
Theorem C10_apart_names_partial : forall canon lower dumps loads good S,
  lower_stable lower -> codec_laws dumps loads good -> case_only canon lower -> good_names good (defaultFileName lower) ->
  apart_names lower S -> (forall n, S n -> good n) ->
  forall calls, Forall (names_write S) calls -> allOk (exec canon lower (defaultFileName lower) dumps loads) calls emptyWorld ->
  let w := run canon lower (defaultFileName lower) dumps loads calls emptyWorld in
  forall name, In name (keys (contents (gs w))) -> exists data, fetch canon name w = Ok data.
Proof.
  intros canon lower dumps loads good S L C CO GN A SG calls F Al w name Hn.
  assert (FI : filesInv canon w).
  { unfold w. apply (run_files canon lower (defaultFileName lower) dumps loads good C CO S (fun n f => (S n /\ ownFile lower n f) /\ good f)); auto.
    - exact (fresh_apart canon lower good S L CO GN A SG).
    - intros n f [_ G]; exact G.
    - apply empty_distinct.
    - intros n f X. discriminate.
    - constructor. }
  rewrite fetch_eq. unfold fileOf. destruct (get name (contents (gs w))) as [f|] eqn:G.
  - apply FI in G. unfold has in G. destruct (get (canon f) (dir w)) as [b|]; [eauto|discriminate].
  - exfalso. apply get_None in G. contradiction.
Qed.
Print Assumptions C10_apart_names_partial.
(** Names that are not apart: "A" and "a_" have the files A_.glif and a_.glif.
    getReverseContents keeps one of them; deleting the other one raises after its
    file was removed, and it stays listed. *)
Theorem C10_delete_refuted :
  let calls := [CWrite (u "A") false (Ok [1%N]); CWrite (u "a_") false (Ok [2%N]); CReverse; CDelete (u "A")] in
  let w := fst (exCall (CDelete (u "a_")) (exRun calls emptyWorld)) in
  allOk exCall calls emptyWorld /\ snd (exCall (CDelete (u "a_")) (exRun calls emptyWorld)) = Err KeyError /\
  fileOf (u "a_") w = Some (u "a_.glif") /\ fetch (fun f => f) (u "a_") w = Err GlifLibError.
Proof. vm_compute. repeat split; reflexivity. Qed.
Print Assumptions C10_delete_refuted.
(** deleteGlyph removes exactly the glyph and its file *)
Theorem C10_delete_exactly : forall canon lower name w w',
  dict_ok (contents (gs w)) -> dict_ok (dir w) ->
  deleteGlyph canon lower name w = (w', Ok tt) ->
  exists f, fileOf name w = Some f /\ fileOf name w' = None /\ (forall n, n <> name -> fileOf n w' = fileOf n w) /\
    get (canon f) (dir w') = None /\ (forall x, x <> canon f -> get x (dir w') = get x (dir w)) /\
    (forall n g, fileOf n w = Some g -> other_file canon g f -> fetch canon n w' = fetch canon n w).
Proof.
  intros canon lower n w w' Dc Dd E. apply deleteGlyph_spec in E. unfold fileOf.
  destruct (get n (contents (gs w))) as [f|] eqn:G; [|destruct E; discriminate].
  destruct (has (canon f) (dir w)); [|destruct E; discriminate]. destruct E as (D & L & E & _).
  exists f. rewrite E, D. cbn [contents]. split; [reflexivity|]. split; [apply get_del_same; exact Dc|].
  assert (O : forall m, m <> n -> get m (del n (contents (gs w))) = get m (contents (gs w))) by (intros; apply get_del_other; assumption).
  split; [exact O|]. split; [apply get_del_same; exact Dd|]. split; [intros x Hx; apply get_del_other; exact Hx|].
  intros m g Gm Of. assert (m <> n) as Hm. { intros ->. rewrite G in Gm. inversion Gm; subst. apply Of. reflexivity. }
  rewrite !fetch_eq. unfold fileOf. rewrite E, D. cbn [contents]. rewrite (O m Hm), Gm, get_del_other by exact Of. reflexivity.
Qed.
Print Assumptions C10_delete_exactly.
Example C10_case :
  let calls := [CWrite (u "A*") false (Ok [1%N]); CWrite (u "A_") false (Ok [2%N]); CDelete (u "A*"); CWrite (u "b") false (Ok [5%N])] in
  let ex := exec (fun f => f) ascii_lower (carefulFileName ascii_lower) toyDumps toyLoads in
  allOk ex calls emptyWorld /\
  dir (run (fun f => f) ascii_lower (carefulFileName ascii_lower) toyDumps toyLoads calls emptyWorld)
  = [(u "A__000000000000001.glif", [2%N]); (u "b.glif", [5%N])].
Proof. vm_compute. repeat split; reflexivity. Qed.

(** ** C11 *)
Theorem C11_contents_round_trip_partial : forall canon dumps loads good w w',
  codec_laws dumps loads good -> dict_ok (contents (gs w)) -> (forall n f, fileOf n w = Some f -> good n /\ good f) ->
  (forall n f, fileOf n w = Some f -> has (canon f) (dir w) = true) ->
  writeContents canon dumps w = (w', Ok tt) ->
  exists w'', openSet canon loads (dir w') = (w'', Ok tt) /\ (forall n, fileOf n w'' = fileOf n w) /\ dir w'' = dir w'.
Proof.
  intros canon dumps loads good w w' C Dc Gm FI E. apply writeContents_spec in E as (Eg & b & Db & E).
  destruct (loads_dumps _ _ _ C _ _ Dc Gm Db) as (c & Lc & Eq).
  assert (Hd : get (canon contentsName) (dir w') = Some b /\ forall k, has k (dir w) = true -> has k (dir w') = true).
  { destruct E as [(_ & G & ->)|[(_ & -> & _)|(_ & -> & _)]]; [auto| |].
    - split; [apply get_set_same|]. intros k Hk. apply has_set. exact Hk.
    - split; [apply get_set_same|]. intros k Hk. apply has_set, has_set. exact Hk. }
  destruct Hd as (G & Hf).
  eexists. split; [apply openSet_ok with (c := c)|].
  - unfold diskContents. rewrite G. exact Lc.
  - intros n f I. apply Hf. apply (FI n). unfold fileOf. rewrite <- Eq. apply In_get; [eapply loads_dict; [exact C|exact Lc]|exact I].
  - split; [|reflexivity]. intro n. unfold fileOf. cbn [gs contents]. apply Eq.
Qed.
Print Assumptions C11_contents_round_trip_partial.
Example C11_case :
  let w := exRun [CWrite (u "a") false (Ok [1%N]); CWrite (u "B") false (Ok [2%N]); CWriteContents] emptyWorld in
  contents (gs (fst (openSet (fun f => f) toyLoads (dir w)))) = [(u "a", u "a.glif"); (u "B", u "B_.glif")].
Proof. vm_compute. reflexivity. Qed.

(** ** C12: false *)
(** files after a crash: the first [k] file system operations took place *)
Definition crashed (canon : str -> str) (d : dirT) (ops : list fsop) (k : nat) : dirT := fold_left (applyOp canon) (firstn k ops) d.
Definition exDir : dirT := dir (exRun [CWrite (u "a") false (Ok [1%N]); CWriteContents] emptyWorld).
(** deleting a glyph and crashing before writeContents *)
Theorem C12_crash_after_delete_refuted :
  exists w0, openSet (fun f => f) toyLoads exDir = (w0, Ok tt) /\
    allOk exCall [CDelete (u "a"); CWriteContents] w0 /\
    snd (openSet (fun f => f) toyLoads (crashed (fun f => f) exDir (log (exRun [CDelete (u "a"); CWriteContents] w0)) 1)) = Err GlifLibError.
Proof. eexists. split; [vm_compute; reflexivity|]. split; [vm_compute; repeat split|vm_compute; reflexivity]. Qed.
Print Assumptions C12_crash_after_delete_refuted.
(** a new glyph set: contents.plist is truncated before it is written *)
Theorem C12_crash_while_writing_contents_refuted :
  allOk exCall [CWriteContents] emptyWorld /\
  snd (openSet (fun f => f) toyLoads (crashed (fun f => f) [] (log (exRun [CWriteContents] emptyWorld)) 1)) = Err PlistParseError.
Proof. split; [vm_compute; repeat split|vm_compute; reflexivity]. Qed.
Print Assumptions C12_crash_while_writing_contents_refuted.
(** What holds: a session on an existing glyph set without deleteGlyph, whose
    calls return normally (setbytes is taken to be atomic). *)
Theorem C12_crash_partial : forall canon lower toFileName dumps loads good d w0 calls,
  codec_laws dumps loads good -> good_names good toFileName -> Forall (good_write good) calls ->
  (forall n e f, toFileName n e = Ok f -> other_file canon f contentsName) ->
  openSet canon loads d = (w0, Ok tt) -> has (canon contentsName) d = true ->
  (forall n f, fileOf n w0 = Some f -> other_file canon f contentsName /\ good n /\ good f) ->
  forallb (fun c => negb (isDelete c)) calls = true ->
  allOk (exec canon lower toFileName dumps loads) calls w0 ->
  forall k, exists w, openSet canon loads (crashed canon d (log (run canon lower toFileName dumps loads calls w0)) k) = (w, Ok tt) /\
    forall n, In n (keys (contents (gs w))) -> exists data, fetch canon n w = Ok data.
Proof.
  intros canon lower tf dumps loads good d w0 calls C GN GW NF O Hp NC Hd A k.
  destruct (openSet_spec canon lower dumps loads good C d w0 O) as (D & L & HP & c & Dk & Ec & Dc & _ & Hf).
  assert (S : safe canon loads d).
  { unfold diskContents in Dk. unfold has in Hp. destruct (get (canon contentsName) d) as [b|] eqn:G; [|discriminate].
    exists b, c. auto. }
  assert (CI : crashInv canon loads good w0).
  { unfold crashInv, filesInv. rewrite D, HP, Ec. split; [exact S|]. split; [|split; [exact Dc|split; [exact Hp|]]].
    - intros n f G. apply get_In in G. eapply Hf; exact G.
    - intros n f G. apply (NC n f). unfold fileOf. rewrite Ec. exact G. }
  destruct (run_crash canon lower tf dumps loads good C calls w0) as (ops & Lo & Safe); auto.
  { intros n e f G T. split; [exact (NF n e f T)|exact (GN n e f G T)]. }
  { intros b c' G Lb n f I. rewrite D in G. unfold diskContents in Dk. rewrite G in Dk. rewrite Lb in Dk. inversion Dk; subst c'.
    apply (NC n f). unfold fileOf. rewrite Ec. apply In_get; assumption. }
  rewrite Lo, L. cbn [app]. specialize (Safe k). rewrite D in Safe. unfold replay in Safe. fold (crashed canon d ops k) in Safe.
  destruct Safe as (b & c' & G & Lb & H).
  eexists. split; [apply openSet_ok with (c := c'); [unfold diskContents; rewrite G; exact Lb|exact H]|].
  intros n Hn. rewrite fetch_eq. unfold fileOf. cbn [gs contents dir] in *.
  destruct (get n c') as [f|] eqn:Gn.
  - apply get_In in Gn. apply H in Gn. unfold has in Gn. destruct (get (canon f) _) as [x|]; [eauto|discriminate].
  - exfalso. apply get_None in Gn. contradiction.
Qed.
Print Assumptions C12_crash_partial.
Example C12_case :
  let w0 := fst (openSet (fun f => f) toyLoads exDir) in
  let calls := [CWrite (u "b") false (Ok [4%N]); CWriteContents; CWrite (u "a") false (Ok [9%N])] in
  allOk exCall calls w0 /\ log (exRun calls w0) = [FSet (u "b.glif") [4%N]; FSet contentsName (7%N :: encPairs [(u "a", u "a.glif"); (u "b", u "b.glif")]); FSet (u "a.glif") [9%N]].
Proof. vm_compute. repeat split; reflexivity. Qed.

(** ** C13 *)
Theorem C13_unchanged_not_rewritten : forall canon lower toFileName name badVersion bytes w w',
  writeGlyph canon lower toFileName name badVersion (Ok bytes) w = (w', Ok tt) ->
  exists f, fileOf name w' = Some f /\
    (havePrev (gs w) = true -> get (canon f) (dir w) = Some bytes -> log w' = log w /\ dir w' = dir w) /\
    (log w' = log w \/ log w' = log w ++ [FSet f bytes]) /\
    (forall x, x <> canon f -> get x (dir w') = get x (dir w)).
Proof.
  intros canon lower tf n bv d w w' E.
  apply writeGlyph_spec in E as [(_ & _ & E)|(_ & w1 & rf & F & E)]; [discriminate|].
  destruct (fileNameFor_spec _ _ _ _ _ _ F) as (D1 & L1 & F1).
  destruct rf as [f|e]; [|destruct E; discriminate].
  destruct E as (_ & Eg & E). exists f.
  split; [unfold fileOf; rewrite Eg; destruct F1 as [(G & ->)|(_ & _ & ->)]; [exact G|]; cbn; apply get_set_same|].
  destruct E as [(Hp & G & -> & ->)|(Hn & -> & ->)].
  - split; [auto|]. split; [auto|]. reflexivity.
  - split; [intros Hp G; destruct Hn; auto|]. split; [auto|]. intros x Hx. apply get_set_other. exact Hx.
Qed.
Print Assumptions C13_unchanged_not_rewritten.
Example C13_case :
  let w0 := fst (openSet (fun f => f) toyLoads exDir) in
  havePrev (gs w0) = true /\ log (exRun [CWrite (u "a") false (Ok [1%N])] w0) = [] /\
  log (exRun [CWrite (u "a") false (Ok [2%N])] w0) = [FSet (u "a.glif") [2%N]].
Proof. vm_compute. auto. Qed.

(** ** C14 *)
(** histories in which no two glyphs share a lower-cased file name *)
Definition apart_lower (lower : str -> str) (w : world) : Prop :=
  forall n m f g, fileOf n w = Some f -> fileOf m w = Some g -> lower f = lower g -> n = m.
Inductive apart_history (canon lower : str -> str) toFileName dumps loads : world -> Prop :=
| ah_open d w : openSet canon loads d = (w, Ok tt) -> apart_lower lower w -> apart_history canon lower toFileName dumps loads w
| ah_call w c : apart_history canon lower toFileName dumps loads w ->
    apart_lower lower (fst (exec canon lower toFileName dumps loads c w)) ->
    apart_history canon lower toFileName dumps loads (fst (exec canon lower toFileName dumps loads c w)).

Theorem C14_reverse_contents : forall canon lower toFileName dumps loads good w, codec_laws dumps loads good -> case_only canon lower ->
  apart_history canon lower toFileName dumps loads w ->
  exists w' d, getReverseContents lower w = (w', Ok d) /\ contents (gs w') = contents (gs w) /\ dir w' = dir w /\
    forall l n, get l d = Some n <-> exists f, fileOf n w = Some f /\ lower f = l.
Proof.
  intros canon lower tf dumps loads good w C CO H.
  assert (K : caches_ok lower (gs w) /\ lower_inj lower (contents (gs w))).
  { induction H as [d w O A|w c H (IH1 & IH2) A].
    - destruct (openSet_spec canon lower dumps loads good C d w O) as (_ & _ & _ & c & _ & _ & _ & K & _). split; [exact K|exact A].
    - split; [|exact A]. apply (exec_caches canon lower tf dumps loads good C CO); assumption. }
  destruct K as ((Dc & _ & Hr) & Inj).
  destruct (getReverseContents lower w) as [w' r] eqn:E. apply reverse_spec in E as (D & _ & Ec & _ & _ & d & -> & _ & M).
  exists w', d. split; [reflexivity|]. split; [exact Ec|]. split; [exact D|].
  destruct (reverse (gs w)) as [x|] eqn:R; subst.
  - apply (Hr x eq_refl).
  - apply invert_spec; assumption.
Qed.
Print Assumptions C14_reverse_contents.
Example C14_case :
  let w := exRun [CWrite (u "a") false (Ok [1%N]); CReverse; CWrite (u "B") false (Ok [2%N]); CDelete (u "a")] emptyWorld in
  snd (getReverseContents ascii_lower w) = Ok [(u "b_.glif", u "B")].
Proof. vm_compute. reflexivity. Qed.
