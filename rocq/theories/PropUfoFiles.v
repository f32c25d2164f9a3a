(** Properties C32, C68, C69, C71, C72 and C77-C80: the other files of a UFO. *)
From Coq Require Import String NArith ZArith Bool Lia ZifyN List Permutation.
From Coq.Floats Require Import SpecFloat.
From Verif Require Import Base PyVal PyText Validators ValidatorsProofs PropValidators Kerning KerningProofs FS FSProofs Ufo UfoProofs ToyCodec PropUfo.
Import ListNotations.
Local Open Scope string_scope.
Local Open Scope list_scope.

(** ** C68 *)
(** A name without extension loses everything. *)
Theorem C68_extension_refuted : makeUFOPath (u "fonts/My Font") = u "fonts/.ufo".
Proof. vm_compute. reflexivity. Qed.
Print Assumptions C68_extension_refuted.
Lemma posixSplit_name name : ~ In slash name -> posixSplit name = ([], name).
Proof. intro H. unfold posixSplit. rewrite split1_none by exact H. reflexivity. Qed.
Lemma posixSplit_dir head name : ~ In slash name ->
  posixSplit (head ++ [slash] ++ name) = (match rstripSlash (head ++ [slash]) with [] => head ++ [slash] | h => h end, name).
Proof.
  intro H. unfold posixSplit. cbn [app]. rewrite split1_app_sep, (split1_none slash name H), rev_app_distr. cbn [rev app].
  destruct (rev (split1 slash head)) as [|x l] eqn:E.
  - apply (f_equal (@rev _)) in E. rewrite rev_involutive in E. destruct (split1_nonempty slash head E).
  - apply (f_equal (@rev _)) in E. rewrite rev_involutive in E. cbn [rev] in E. cbn [rev].
    rewrite <- E, join_split1. reflexivity.
Qed.
Lemma extension stem ext : ~ In dot ext -> join [dot] [join [dot] (removelast (split1 dot (stem ++ [dot] ++ ext))); u "ufo"] = stem ++ u ".ufo".
Proof.
  intro H. cbn [app]. rewrite split1_app_sep, (split1_none dot ext H), removelast_last, join_split1. reflexivity.
Qed.
Lemma lstrip_repeat k s : (match s with [] => True | c :: _ => c <> slash end) ->
  lstrip (fun c => N.eqb c slash) (repeat slash k ++ s) = s.
Proof.
  intro H. induction k as [|k IH]; cbn [repeat app].
  - destruct s as [|c s]; [reflexivity|]. cbn [lstrip]. destruct (N.eqb_spec c slash); [contradiction|reflexivity].
  - cbn [lstrip]. rewrite N.eqb_refl. exact IH.
Qed.
Lemma rev_repeat (A : Type) (x : A) k : rev (repeat x k) = repeat x k.
Proof. induction k as [|k IH]; [reflexivity|]. cbn [repeat rev]. rewrite IH. symmetry. apply repeat_cons. Qed.
Lemma rstrip_repeat s k : (match rev s with [] => True | c :: _ => c <> slash end) -> rstripSlash (s ++ repeat slash k) = s.
Proof. intro H. unfold rstripSlash. rewrite rev_app_distr, rev_repeat, lstrip_repeat by exact H. apply rev_involutive. Qed.
Lemma no_slash b : (match b with [] => True | c :: _ => c <> slash end) -> startswith [slash] b = false.
Proof.
  intro H. destruct b as [|c b]; [reflexivity|]. destruct (startswith_spec [slash] (c :: b)) as [(r & E)|_]; [|reflexivity].
  inversion E. congruence.
Qed.
Lemma join_name a b : (match b with [] => True | c :: _ => c <> slash end) -> (match rev a with [] => True | c :: _ => c <> slash end) ->
  posixJoin a b = match a with [] => b | _ => a ++ [slash] ++ b end.
Proof.
  intros B A. unfold posixJoin. rewrite no_slash by exact B.
  destruct (rev a) as [|c r] eqn:E.
  - apply (f_equal (@rev _)) in E. rewrite rev_involutive in E. rewrite E. reflexivity.
  - destruct (N.eqb_spec c slash); [contradiction|]. destruct a; [discriminate E|reflexivity].
Qed.
(** What holds, for a file name with an extension: directory without trailing
    slash, no directory, and the root directory. *)
Theorem C68_extension_partial : forall stem ext, ~ In slash (stem ++ ext) -> ~ In dot ext ->
  makeUFOPath (stem ++ [dot] ++ ext) = stem ++ u ".ufo" /\
  (forall dir c k, c <> slash -> makeUFOPath ((dir ++ [c]) ++ repeat slash (S k) ++ stem ++ [dot] ++ ext) = (dir ++ [c]) ++ [slash] ++ stem ++ u ".ufo") /\
  (forall k, makeUFOPath (repeat slash (S k) ++ stem ++ [dot] ++ ext) = repeat slash (S k) ++ stem ++ u ".ufo").
Proof.
  intros stem ext NS ND.
  assert (NS' : ~ In slash (stem ++ [dot] ++ ext)).
  { rewrite !in_app_iff in *. intros [H|[[H|[]]|H]]; [tauto|discriminate H|tauto]. }
  assert (St : match stem ++ u ".ufo" with [] => True | c :: _ => c <> slash end).
  { destruct stem as [|c stem]; cbn; [discriminate|]. intros ->. apply NS. left. reflexivity. }
  unfold makeUFOPath. split; [|split].
  - rewrite posixSplit_name, extension by assumption. rewrite join_name; [reflexivity|exact St|exact I].
  - intros dir c k Hc.
    replace ((dir ++ [c]) ++ repeat slash (S k) ++ stem ++ [dot] ++ ext) with (((dir ++ [c]) ++ repeat slash k) ++ [slash] ++ stem ++ [dot] ++ ext)
      by (cbn [repeat]; rewrite repeat_cons, <- !app_assoc; reflexivity).
    rewrite posixSplit_dir, extension by assumption. rewrite <- app_assoc, <- repeat_cons. change (slash :: repeat slash k) with (repeat slash (S k)).
    rewrite rstrip_repeat by (rewrite rev_app_distr; exact Hc).
    replace (match dir ++ [c] with [] => (dir ++ [c]) ++ repeat slash (S k) | h => h end) with (dir ++ [c]) by (destruct dir; reflexivity).
    rewrite join_name; [|exact St|rewrite rev_app_distr; exact Hc]. destruct dir; reflexivity.
  - intro k.
    replace (repeat slash (S k) ++ stem ++ [dot] ++ ext) with (repeat slash k ++ [slash] ++ stem ++ [dot] ++ ext)
      by (cbn [repeat]; rewrite repeat_cons, <- !app_assoc; reflexivity).
    rewrite posixSplit_dir, extension by assumption. rewrite <- repeat_cons. change (slash :: repeat slash k) with (repeat slash (S k)).
    replace (rstripSlash (repeat slash (S k))) with (@nil N) by (symmetry; apply (rstrip_repeat [] (S k)); exact I).
    unfold posixJoin. rewrite no_slash by exact St.
    rewrite rev_repeat. cbn [repeat]. rewrite N.eqb_refl. reflexivity.
Qed.
Print Assumptions C68_extension_partial.
Example C68_case : makeUFOPath (u "/home/a.b//My.Font.glyphs") = u "/home/a.b/My.Font.ufo".
Proof. vm_compute. reflexivity. Qed.

(** ** C69 *)
(** A text asking for a zip at a new path is not converted to the enumeration,
    so a package is made. *)
Theorem C69_structure_refuted : structureOf (AText (u "zip")) (Missing true) = Ok (false, AText (u "zip")).
Proof. vm_compute. reflexivity. Qed.
Print Assumptions C69_structure_refuted.
(** the argument asks for this structure *)
Definition asksFor (a : structArg) (s : structure) : Prop :=
  a = AEnum s \/ a = AText (match s with ZIP => u "zip" | PACKAGE => u "package" end).
Theorem C69_structure_partial : forall a d,
  (** existing UFOs: any kind of argument; the structure never changes *)
  (forall s, (d = AtZip /\ s = ZIP \/ d = AtDir /\ s = PACKAGE) ->
     (a = ANone \/ asksFor a s -> structureOf a d = Ok (match s with ZIP => true | PACKAGE => false end, AEnum s)) /\
     (~ (a = ANone \/ asksFor a s) -> structureOf a d = Err UFOLibError)) /\
  (** a file that is no zip archive is refused *)
  (d = AtFile -> structureOf a d = Err UFOLibError) /\
  (** new paths: arguments that are no texts *)
  (d = Missing false -> structureOf a d = Err UFOLibError) /\
  (d = Missing true -> (forall t, a <> AText t) ->
     exists z s, structureOf a d = Ok (z, AEnum s) /\ (z = true <-> asksFor a ZIP) /\ (s = ZIP <-> z = true)).
Proof.
  intros a d. split; [|split; [|split]].
  - intros s D. split.
    + intros A. destruct D as [[-> ->]|[-> ->]]; destruct A as [->|[->| ->]]; vm_compute; reflexivity.
    + intros A. unfold asksFor in A. destruct D as [[-> ->]|[-> ->]]; destruct a as [|[]|t]; try (vm_compute; reflexivity); try tauto.
      * unfold structureOf, toEnum. cbn [sniff bind]. destruct (eqb_spec t (u "zip")) as [->|N]; [tauto|].
        destruct (eqb t (u "package")); reflexivity.
      * unfold structureOf, toEnum. cbn [sniff bind]. destruct (eqb_spec t (u "zip")) as [->|N]; [reflexivity|].
        destruct (eqb_spec t (u "package")) as [->|N']; [tauto|reflexivity].
  - intros ->. reflexivity.
  - intros ->. reflexivity.
  - intros -> N. destruct a as [|[]|t]; [| | |destruct (N t eq_refl)]; eexists; eexists; (split; [reflexivity|]); unfold asksFor; split; split; try reflexivity; try (intro X; discriminate X); auto;
      intros [X|X]; discriminate X.
Qed.
Print Assumptions C69_structure_partial.
Example C69_case : structureOf (AEnum ZIP) (Missing true) = Ok (true, AEnum ZIP) /\
  structureOf (AText (u "zip")) AtZip = Ok (true, AEnum ZIP) /\ structureOf (AText (u "zip")) AtDir = Err UFOLibError.
Proof. vm_compute. auto. Qed.

(** ** C71 *)
Lemma writeBytes_kind prev p data s s' cs : components p = Ok cs -> writeBytesToPath prev p data s = (s', Ok tt) ->
  (forall q, kind (tree s') q = if eqb q cs then Some (Some data) else match FSProofs.strip q cs with Some _ => Some None | None => kind (tree s) q end) /\
  (forall q b, below q cs -> q <> cs -> kind (tree s) q <> Some (Some b)).
Proof.
  intros Hc H. unfold writeBytesToPath, mbind at 1, lift in H. rewrite Hc in H. unfold mbind at 1, getTree in H.
  assert (Above : forall t, kind t cs <> None -> forall q r, FSProofs.strip q cs = Some r -> q <> cs -> kind t q = Some None).
  { intros t K q r S N. apply strip_Some in S. apply kind_above with (r := r); [rewrite <- S; exact K|]. intros ->. apply N. rewrite S. symmetry. apply app_nil_r. }
  destruct (prev && match getbytes (tree s) cs with FOk old => eqb data old | FErr _ => false end) eqn:P.
  - inversion H; subst s'. apply andb_true_iff in P as [_ P]. rewrite getbytes_kind in P.
    destruct (kind (tree s) cs) as [[old|]|] eqn:K; try discriminate P. apply (proj1 (eqb_eq _ _)) in P. subst old. split.
    + intro q. destruct (eqb_spec q cs) as [->|N]; [exact K|]. destruct (FSProofs.strip q cs) as [r|] eqn:S; [|reflexivity].
      apply (Above _ ltac:(rewrite K; discriminate) _ _ S N).
    + intros q b (r & E) N X. rewrite (Above (tree s) ltac:(rewrite K; discriminate) q r) in X; [discriminate X|apply strip_Some; exact E|exact N].
  - destruct (setbytes (tree s) cs data) as [t'|e] eqn:B.
    + inversion H; subst s'. cbn [tree]. assert (K : kind t' cs <> None) by (rewrite (kind_setbytes _ _ _ _ cs B), eqb_refl; discriminate). split.
      * intro q. rewrite (kind_setbytes _ _ _ _ q B). destruct (eqb_spec q cs) as [->|N]; [reflexivity|].
        destruct (FSProofs.strip q cs) as [r|] eqn:S; [|reflexivity].
        pose proof (Above _ K _ _ S N) as A. rewrite (kind_setbytes _ _ _ _ q B) in A. destruct (eqb_spec q cs); [contradiction|exact A].
      * intros q b (r & E) N X. pose proof (Above t' K q r (proj2 (strip_Some _ _ _) E) N) as A.
        rewrite (kind_setbytes _ _ _ _ q B) in A. destruct (eqb_spec q cs); [contradiction|]. congruence.
    + destruct e; try discriminate H. destruct (components_dirname _ _ Hc) as (ps & Dp & Rel).
      unfold mbind at 1 in H. rewrite Dp in H. unfold makedirs in H. destruct (mkdirs ps (tree s)) as [t1|] eqn:M; [|discriminate H].
      unfold mbind, change in H. apply fsSetbytes_spec in H as [(t2 & B2 & -> & _)|(x & _ & _ & H)]; [|discriminate H]. cbn [tree] in *.
      assert (D1 : kind t1 cs <> Some None) by (unfold setbytes in B2; unfold kind; destruct (find t1 cs) as [[]|]; cbn; congruence).
      assert (R : exists c, cs = ps ++ [c]).
      { destruct Rel as [-> |[R|(c & ->)]]; [exfalso|exact R|exfalso]; apply D1; rewrite (kind_mkdirs _ _ _ _ M).
        - rewrite strip_self. reflexivity.
        - rewrite (proj2 (strip_Some cs (cs ++ [c]) [c]) eq_refl). reflexivity. }
      destruct R as (c & ->).
      assert (Pre : forall q r, FSProofs.strip q (ps ++ [c]) = Some r -> q <> ps ++ [c] -> exists r', FSProofs.strip q ps = Some r').
      { intros q r S N. apply strip_Some in S. destruct (rev r) as [|y r'] eqn:Er.
        - apply (f_equal (@rev _)) in Er. rewrite rev_involutive in Er. subst r. rewrite app_nil_r in S. congruence.
        - apply (f_equal (@rev _)) in Er. rewrite rev_involutive in Er. cbn [rev] in Er. subst r. rewrite app_assoc in S. apply app_inj_tail in S as [-> _].
          exists (rev r'). apply strip_Some. reflexivity. }
      split.
      * intro q. rewrite (kind_setbytes _ _ _ _ q B2). destruct (eqb_spec q (ps ++ [c])) as [->|N]; [reflexivity|].
        rewrite (kind_mkdirs _ _ _ q M). destruct (FSProofs.strip q (ps ++ [c])) as [r|] eqn:S.
        -- destruct (Pre q r S N) as (r' & ->). reflexivity.
        -- destruct (FSProofs.strip q ps) as [r|] eqn:S'; [|reflexivity]. exfalso. apply strip_Some in S'. subst ps.
           rewrite <- app_assoc in S. rewrite (proj2 (strip_Some q (q ++ r ++ [c]) (r ++ [c])) eq_refl) in S. discriminate S.
      * intros q b (r & E) N. destruct (Pre q r (proj2 (strip_Some _ _ _) E) N) as (r' & S). apply strip_Some in S.
        eapply mkdirs_files; [exact M|]. exists r'. exact S.
Qed.
(** After a successful write the data can be read, the directories on the way
    exist and nothing else has changed. *)
Theorem C71_read_back : forall prev p data s s' cs, components p = Ok cs ->
  writeBytesToPath prev p data s = (s', Ok tt) ->
  readBytesFromPath (tree s') p = Ok (Some data) /\
  (forall q, q <> cs -> fileAt (tree s') q = fileAt (tree s) q) /\
  (forall q, isdir (tree s') q = true <-> isdir (tree s) q = true \/ (q <> cs /\ below q cs)).
Proof.
  intros prev p data s s' cs Hc H. destruct (writeBytes_kind _ _ _ _ _ _ Hc H) as [K NF].
  assert (ND : kind (tree s) cs <> Some None).
  { intro D. unfold writeBytesToPath, mbind at 1, lift in H. rewrite Hc in H. unfold mbind at 1, getTree in H.
    rewrite getbytes_kind, D, andb_false_r in H. unfold setbytes in H. unfold kind in D. destruct (find (tree s) cs) as [[]|]; try discriminate D.
    discriminate H. }
  split; [|split].
  - unfold readBytesFromPath. rewrite Hc. cbn [bind]. rewrite getbytes_kind, K, eqb_refl. reflexivity.
  - intros q N. rewrite !kind_fileAt, K. destruct (eqb_spec q cs); [contradiction|]. destruct (FSProofs.strip q cs) as [r|] eqn:S; [|reflexivity].
    apply strip_Some in S. destruct (kind (tree s) q) as [[b|]|] eqn:E; try reflexivity. destruct (NF q b (ex_intro _ r S) N E).
  - intro q. rewrite !kind_isdir, K. destruct (eqb_spec q cs) as [->|N].
    + split; [intro X; discriminate X|]. intros [X|[X _]]; [|congruence]. destruct (kind (tree s) cs) as [[]|]; congruence.
    + destruct (FSProofs.strip q cs) as [r|] eqn:S.
      * split; [|reflexivity]. intros _. right. split; [exact N|]. exists r. apply strip_Some. exact S.
      * split; [auto|]. intros [X|[_ X]]; [exact X|]. apply strip_None in S. contradiction.
Qed.
Print Assumptions C71_read_back.
(** A write to a relative path made of plain names succeeds unless a directory
    is at the path or a file is in the way. *)
Theorem C71_write_succeeds : forall prev cs data s, roots s -> cs <> [] -> (forall c, In c cs -> plainName c) ->
  isdir (tree s) cs = false -> (forall q, below q cs -> q <> cs -> isfile (tree s) q = false) ->
  exists s', writeBytesToPath prev (join [slash] cs) data s = (s', Ok tt).
Proof.
  intros prev cs data s (es & R) NE PN ND NF.
  destruct (rev cs) as [|c r] eqn:Er; [apply (f_equal (@rev _)) in Er; rewrite rev_involutive in Er; contradiction|].
  apply (f_equal (@rev _)) in Er. rewrite rev_involutive in Er. cbn [rev] in Er. set (ps := rev r) in *. clearbody ps. clear r. subst cs.
  unfold writeBytesToPath, mbind at 1, lift. rewrite (components_join (ps ++ [c])) by assumption. unfold mbind at 1, getTree.
  destruct (prev && _); [eexists; reflexivity|].
  destruct (setbytes (tree s) (ps ++ [c]) data) as [t'|e] eqn:B; [eexists; reflexivity|].
  apply setbytes_errs in B as B'. destruct B' as [[-> X]|[-> _]]; [congruence|].
  assert (Dp : components (dirname (join [slash] (ps ++ [c]))) = Ok ps).
  { destruct ps as [|d ps]; [|rewrite dirname_join by (discriminate || assumption); apply components_join; [discriminate|]; intros x I; apply PN; apply in_or_app; left; exact I].
    cbn [app join]. assert (P : plainName c) by (apply PN; left; reflexivity). unfold dirname. rewrite split1_none by apply P. reflexivity. }
  unfold mbind at 1. rewrite Dp. unfold makedirs. destruct (mkdirs_Some ps (tree s)) as (t1 & M).
  { intros q (r & E). specialize (NF q). rewrite kind_isfile in NF. rewrite kind_fileAt. destruct (kind (tree s) q) as [[b|]|]; try reflexivity.
    discriminate NF; [exists (r ++ [c]); rewrite E, app_assoc; reflexivity|]. intros ->. apply (f_equal (@length _)) in E. rewrite !app_length in E. cbn in E. lia. }
  rewrite M. unfold mbind, change, fsSetbytes, mbind, getTree. cbn [tree].
  destruct (setbytes_ok t1 ps c data) as (t2 & B2).
  - rewrite kind_isdir, (kind_mkdirs _ _ _ _ M), strip_self. reflexivity.
  - rewrite kind_isdir, (kind_mkdirs _ _ _ _ M). destruct (FSProofs.strip (ps ++ [c]) ps) as [r|] eqn:S.
    + apply strip_Some in S. apply (f_equal (@length _)) in S. rewrite !app_length in S. cbn in S. lia.
    + rewrite kind_isdir in ND. exact ND.
  - rewrite B2. eexists. reflexivity.
Qed.
Print Assumptions C71_write_succeeds.
(** With a trailing slash the write fails, leaving a directory of that name;
    removing "a/b/" removes the file and then raises *)
Theorem C71_trailing_slash_refuted :
  (exists s', writeBytesToPath false (u "a/b/") [1%N] (newState (Dir [])) = (s', Err FSError) /\ isdir (tree s') [u "a"; u "b"] = true) /\
  (exists s', removePath (u "a/b/") false true (newState (Dir [(u "a", Dir [(u "b", File [1%N])])])) = (s', Err FSError)).
Proof. split; eexists; [split|]; vm_compute; reflexivity. Qed.
Print Assumptions C71_trailing_slash_refuted.
(** A successful removal removes the file or subtree and all parents that are
    empty then, and nothing else. *)
Theorem C71_remove : forall p force removeEmptyParents s s' cs, components p = Ok cs -> cs <> [] ->
  removePath p force removeEmptyParents s = (s', Ok tt) ->
  (force = false -> existsAt (tree s) cs = true) /\
  (forall q, below cs q -> existsAt (tree s') q = false) /\
  (forall q, ~ below cs q -> fileAt (tree s') q = fileAt (tree s) q) /\
  (forall q, isdir (tree s') q = true -> isdir (tree s) q = true) /\
  (forall q, ~ below cs q -> isdir (tree s) q = true -> isdir (tree s') q = false ->
     removeEmptyParents = true /\ q <> [] /\ below q cs /\
     forall x, below q x -> existsAt (tree s) x = true -> below cs x \/ below x cs) /\
  (removeEmptyParents = true -> forall q, q <> [] -> q <> cs -> below q cs -> isdir (tree s') q = true ->
     exists x, existsAt (tree s') (q ++ [x]) = true).
Proof.
  intros p force rem s s' cs Hc NE H. unfold removePath, mbind at 1, lift in H. rewrite Hc in H. unfold mbind at 1, getTree in H.
  unfold mbind at 1 in H.
  match type of H with (let '(_, _) := ?m in _) = _ => destruct m as [s1 r1] eqn:E1 end.
  assert (S1 : (force = false -> existsAt (tree s) cs = true) /\ forall q, r1 = Ok tt -> kind (tree s1) q = match FSProofs.strip cs q with Some _ => None | None => kind (tree s) q end).
  { unfold remove, removetree in E1. destruct (find (tree s) cs) as [[b|es]|] eqn:F.
    - inversion E1; subst. split; [intros _; unfold existsAt; rewrite F; reflexivity|]. intros q _. apply kind_cut. exact NE.
    - inversion E1; subst. split; [intros _; unfold existsAt; rewrite F; reflexivity|]. intros q _. apply kind_cut. exact NE.
    - destruct force; inversion E1; subst.
      + split; [discriminate|]. intros q _. destruct (FSProofs.strip cs q) as [r|] eqn:S; [|reflexivity]. apply strip_Some in S as ->.
        unfold kind. rewrite find_app, F. reflexivity.
      + discriminate H. }
  destruct r1 as [[]|]; [|discriminate H]. destruct S1 as [Ex K1]. split; [exact Ex|]. specialize (fun q => K1 q eq_refl) as K1'. clear K1.
  assert (Simple : (forall q, kind (tree s') q = match FSProofs.strip cs q with Some _ => None | None => kind (tree s) q end) ->
    (forall q, below cs q -> existsAt (tree s') q = false) /\
    (forall q, ~ below cs q -> fileAt (tree s') q = fileAt (tree s) q) /\
    (forall q, isdir (tree s') q = true -> isdir (tree s) q = true) /\
    (forall q, ~ below cs q -> isdir (tree s) q = true -> isdir (tree s') q = false -> False)).
  { intro K. split; [|split; [|split]].
    - intros q (r & E). rewrite kind_exists, K. rewrite (proj2 (strip_Some _ _ _) E). reflexivity.
    - intros q B. rewrite !kind_fileAt, K. apply strip_None in B. rewrite B. reflexivity.
    - intros q D. rewrite kind_isdir in *. rewrite K in D. destruct (FSProofs.strip cs q); [discriminate D|exact D].
    - intros q B D. rewrite !kind_isdir in *. rewrite K. apply strip_None in B. rewrite B, D. discriminate. }
  destruct rem.
  2: { inversion H; subst s1. destruct (Simple K1') as (A & B & D & E). split; [exact A|]. split; [exact B|]. split; [exact D|]. split; [|discriminate].
       intros q N1 N2 N3. destruct (E q N1 N2 N3). }
  destruct (components_dirname _ _ Hc) as (ps & Dp & Rel).
  destruct (dirname p) as [|d0 dn] eqn:Ed.
  { inversion H; subst s1. destruct (Simple K1') as (A & B & D & E). split; [exact A|]. split; [exact B|]. split; [exact D|]. split; [intros q N1 N2 N3; destruct (E q N1 N2 N3)|].
    vm_compute in Dp. inversion Dp; subst ps. intros _ q N1 N2 (r & R) _. exfalso.
    destruct Rel as [Rel|[(c & Rel)|(c & Rel)]].
    - congruence.
    - cbn in Rel. subst cs. destruct q as [|x q]; [congruence|]. inversion R as [[R1 R2]]. symmetry in R2. apply app_eq_nil in R2 as [-> _]. subst. congruence.
    - destruct cs; discriminate Rel. }
  unfold mbind at 1 in H. unfold lift in H. rewrite Dp in H. unfold mbind at 1, getTree in H.
  destruct (removeEmpty (tree s1) (rev ps)) as [t2 e2] eqn:RE. unfold mbind, change in H. destruct e2 as [e2|]; [discriminate H|].
  inversion H; subst s'. cbn [tree] in *. clear H Simple.
  assert (R : exists c, cs = ps ++ [c]).
  { assert (Z : kind (tree s1) ps <> Some None -> ps <> [] -> False).
    { intros N N2. destruct (rev ps) as [|y yr] eqn:Er; [apply (f_equal (@rev _)) in Er; rewrite rev_involutive in Er; contradiction|].
      cbn [removeEmpty] in RE. rewrite <- Er, rev_involutive in RE. unfold removedir in RE. unfold kind in N.
      destruct (find (tree s1) ps) as [[b|es]|]; cbn in N; try discriminate RE. congruence. }
    destruct Rel as [-> |[Rel|(c & Rel)]]; [exfalso; apply Z; [|exact NE]|exact Rel|exfalso; apply Z].
    - rewrite K1', strip_self. discriminate.
    - rewrite K1'. subst ps. rewrite (proj2 (strip_Some cs (cs ++ [c]) [c]) eq_refl). discriminate.
    - subst ps. destruct cs; discriminate. }
  destruct R as (c & ->). clear Rel.
  destruct (removeEmpty_spec _ _ _ RE) as (a & b & Eab & Non & B). rewrite rev_involutive in Eab.
  assert (K2 : forall q, kind t2 q = match b with [] => kind (tree s1) q | d :: _ => match FSProofs.strip (a ++ [d]) q with Some _ => None | None => kind (tree s1) q end end).
  { intro q. destruct b as [|d b]; [subst; reflexivity|apply B]. }
  assert (Gone : forall q, below (ps ++ [c]) q -> kind t2 q = None).
  { intros q (r & E). rewrite K2, K1', (proj2 (strip_Some _ _ _) E). destruct b; [reflexivity|]. destruct (FSProofs.strip _ q); reflexivity. }
  split; [intros q Bq; rewrite kind_exists, Gone by exact Bq; reflexivity|].
  assert (Keep : forall q, ~ below (ps ++ [c]) q -> kind t2 q = kind (tree s) q \/ (kind t2 q = None /\ below q ps /\ exists d b', b = d :: b' /\ below (a ++ [d]) q)
                 \/ (kind t2 q = None /\ kind (tree s) q = None)).
  { intros q N. rewrite K2. pose proof (K1' q) as Kq. rewrite (proj2 (strip_None _ _) N) in Kq. destruct b as [|d b]; [left; exact Kq|].
    destruct (FSProofs.strip (a ++ [d]) q) as [r|] eqn:S; [|left; exact Kq]. right. apply strip_Some in S.
    destruct B as [_ B2]. destruct (kind (tree s) q) eqn:Ek; [|right; auto]. left. split; [reflexivity|]. split.
    - rewrite rev_involutive in B2. apply B2; [exists r; exact S|rewrite Kq; discriminate].
    - exists d, b. split; [reflexivity|exists r; exact S]. }
  assert (PsDir : forall q, below q ps -> ps <> [] -> kind (tree s1) q = Some None).
  { intros q (r & E) N2. destruct (rev ps) as [|y yr] eqn:Er; [apply (f_equal (@rev _)) in Er; rewrite rev_involutive in Er; contradiction|].
    cbn [removeEmpty] in RE. rewrite <- Er, rev_involutive in RE. unfold removedir in RE.
    assert (Kp : kind (tree s1) ps = Some None) by (unfold kind; destruct (find (tree s1) ps) as [[]|]; [discriminate RE|reflexivity|discriminate RE]).
    destruct r as [|x r]; [rewrite app_nil_r in E; subst q; exact Kp|]. apply kind_above with (r := x :: r); [rewrite <- E, Kp; discriminate|discriminate]. }
  assert (Below1 : forall q, below q ps -> ~ below (ps ++ [c]) q).
  { intros q (r & E) (r' & E'). rewrite E' in E. apply (f_equal (@length _)) in E. rewrite !app_length in E. cbn in E. lia. }
  split; [|split; [|split]].
  - intros q N. rewrite !kind_fileAt. destruct (Keep q N) as [->|[(-> & Bq & d & b' & -> & Bd)|(-> & ->)]]; try reflexivity.
    assert (N2 : ps <> []) by (rewrite Eab; destruct a; discriminate). pose proof (PsDir q Bq N2) as P. rewrite K1', (proj2 (strip_None _ _) N) in P. rewrite P. reflexivity.
  - intros q D. rewrite kind_isdir in *. destruct (FSProofs.strip (ps ++ [c]) q) as [r|] eqn:S.
    + rewrite Gone in D by (exists r; apply strip_Some; exact S). discriminate D.
    + apply strip_None in S. destruct (Keep q S) as [E|[(E & _)|(E & _)]]; rewrite E in D; try discriminate D. exact D.
  - intros q N D D'. split; [reflexivity|]. rewrite kind_isdir in *. destruct (Keep q N) as [E|[(E & Bq & d & b' & Eb & Bd)|(E & E')]].
    + rewrite E, D in D'. discriminate D'.
    + subst b. split; [intros ->; destruct Bd as (r & Bd); destruct a; discriminate Bd|]. split; [destruct Bq as (r & ->); exists (r ++ [c]); symmetry; apply app_assoc|].
      intros x (r & Bx) Xx. destruct (FSProofs.strip (ps ++ [c]) x) as [r'|] eqn:S; [left; exists r'; apply strip_Some; exact S|right].
      destruct B as [_ B2]. rewrite rev_involutive in B2. assert (Z : below x ps).
      { apply B2; [destruct Bd as (r2 & Bd); exists (r2 ++ r); rewrite Bx, Bd, <- !app_assoc; reflexivity|].
        rewrite K1', S. rewrite kind_exists in Xx. destruct (kind (tree s) x); [discriminate|congruence]. }
      destruct Z as (r2 & Z). exists (r2 ++ [c]). rewrite Z. symmetry. apply app_assoc.
    + rewrite E' in D. discriminate D.
  - intros _ q N1 N2 (r & Bq) D. rewrite kind_isdir in D.
    assert (Bp : below q ps).
    { destruct (rev r) as [|y yr] eqn:Er; apply (f_equal (@rev _)) in Er; rewrite rev_involutive in Er; cbn [rev] in Er; subst r.
      - rewrite app_nil_r in Bq. congruence.
      - rewrite app_assoc in Bq. apply app_inj_tail in Bq as [-> _]. exists (rev yr). reflexivity. }
    destruct Bp as (r2 & Bp).
    assert (Cmp : (exists z, q = a ++ z) \/ (exists d z, a = q ++ d :: z)).
    { rewrite Bp in Eab. clear - Eab. revert a Eab. induction q as [|x q IH]; intros a E.
      - destruct a as [|y a]; [left; exists []; reflexivity|right; exists y, a; reflexivity].
      - destruct a as [|y a]; [left; exists (x :: q); reflexivity|]. inversion E; subst. destruct (IH a H1) as [(z & ->)|(d & z & ->)]; [left; exists z; reflexivity|right; exists d, z; reflexivity]. }
    destruct Cmp as [(z & ->)|(d & z & ->)].
    + destruct z as [|d z].
      * rewrite app_nil_r in *. destruct (Non N1) as (x & X). exists x. rewrite kind_exists. destruct (kind t2 (a ++ [x])); [reflexivity|congruence].
      * destruct b as [|d' b].
        -- rewrite app_nil_r in Eab. rewrite Eab in Bp. apply (f_equal (@length _)) in Bp. rewrite !app_length in Bp. cbn in Bp. lia.
        -- assert (d' = d).
           { rewrite Eab in Bp. rewrite <- app_assoc in Bp. apply app_inv_head in Bp. inversion Bp. reflexivity. }
           subst d'. rewrite K2 in D. rewrite (proj2 (strip_Some (a ++ [d]) (a ++ d :: z) z)) in D by (rewrite <- app_assoc; reflexivity). discriminate D.
    + exists d. rewrite kind_exists. destruct (Non ltac:(destruct q; discriminate)) as (x & X).
      assert (Y : kind t2 (q ++ [d]) = Some None).
      { apply kind_above with (r := z ++ [x]); [|destruct z; discriminate]. rewrite <- !app_assoc in *. cbn [app] in *. exact X. }
      rewrite Y. reflexivity.
Qed.
Print Assumptions C71_remove.
Example C71_case : let s := newState (Dir [(u "data", Dir [(u "x", File [7%N])])]) in
  let s1 := fst (writeBytesToPath true (u "data/a/b/c.txt") [1%N; 2%N] s) in
  readBytesFromPath (tree s1) (u "data/a/b/c.txt") = Ok (Some [1%N; 2%N]) /\
  tree (fst (removePath (u "data/a/b/c.txt") false true s1)) = tree s.
Proof. vm_compute. auto. Qed.

(** ** C32 *)
Definition pngSignatureBytes : bytes := [137; 80; 78; 71; 13; 10; 26; 10]%N.
Definition isPng (data : bytes) : Prop := exists rest, data = pngSignatureBytes ++ rest.
(** Names with slashes: the image is not listed, or not even in the images
    directory *)
Theorem C32_images_refuted : let data := pngSignatureBytes in let c := mkCfg 3 true PNone in
  (exists s', writeImage c (u "a/b.png") data true (newState (Dir [])) = (s', Ok tt) /\ getImageDirectoryListing 3 (tree s') true = Ok []) /\
  (exists s', writeImage c (u "../lib.plist") data true (newState (Dir [(u "images", Dir []); (u "lib.plist", plistFile (dict []))])) = (s', Ok tt) /\
              fileAt (tree s') [u "lib.plist"] = Some data).
Proof. split; eexists; (split; [vm_compute; reflexivity|]); vm_compute; reflexivity. Qed.
Print Assumptions C32_images_refuted.
Lemma imagePath_components f : plainName f -> components (imagePath f) = Ok [nImages; f].
Proof.
  intro P. change (imagePath f) with (join [slash] [nImages; f]). apply components_join; [discriminate|].
  intros c [<-|[<-|[]]]; [|exact P]. repeat split; try (vm_compute; discriminate). vm_compute. intuition discriminate.
Qed.
(** What holds: for file names, and every state *)
Theorem C32_images_partial : forall c s f data, ver c = 3%Z ->
  (~ isPng data -> writeImage c f data true s = (s, Err UFOLibError)) /\
  (isPng data -> plainName f -> roots s -> isfile (tree s) [u "images"] = false -> isdir (tree s) [u "images"; f] = false ->
     exists s', writeImage c f data true s = (s', Ok tt)) /\
  (forall s', plainName f -> writeImage c f data true s = (s', Ok tt) ->
     isPng data /\
     (forall validate, exists l, getImageDirectoryListing 3 (tree s') validate = Ok l /\ In f l) /\
     (forall validate, readImage 3 (tree s') f validate = Ok data)).
Proof.
  intros c s f data V.
  assert (Sig : pngValidator data = true <-> isPng data) by apply C76_png_signature.
  unfold writeImage. rewrite V. change (3 <? 3)%Z with false. cbv iota. split; [|split].
  - intro N. destruct (pngValidator data) eqn:E; [destruct N; apply Sig; reflexivity|]. reflexivity.
  - intros P Pf R NF ND. apply Sig in P. rewrite P. cbn [andb negb].
    change (imagePath f) with (join [slash] [nImages; f]). apply C71_write_succeeds; [exact R|discriminate| |exact ND|].
    + intros x [<-|[<-|[]]]; [|exact Pf]. repeat split; try (vm_compute; discriminate). vm_compute. intuition discriminate.
    + intros q (r & E) N. destruct q as [|a [|b q]].
      * destruct R as (es & ->). reflexivity.
      * inversion E; subst. exact NF.
      * inversion E as [[E1 E2 E3]]. symmetry in E3. apply app_eq_nil in E3 as [-> ->]. subst. congruence.
  - intros s' Pf H. destruct (pngValidator data) eqn:Ep; [|discriminate H]. cbn [andb negb] in H. split; [apply Sig; reflexivity|].
    pose proof (writeBytes_kind _ _ _ _ _ _ (imagePath_components f Pf) H) as [K _].
    assert (Ki : kind (tree s') [nImages] = Some None) by (rewrite K; reflexivity || (rewrite K; destruct (eqb_spec [nImages] [nImages; f]) as [X|_]; [discriminate X|reflexivity])).
    assert (Kf : kind (tree s') [nImages; f] = Some (Some data)) by (rewrite K, eqb_refl; reflexivity).
    unfold kind in Ki, Kf. destruct (find (tree s') [nImages]) as [[|es]|] eqn:Fi; try discriminate Ki.
    change [nImages; f] with ([nImages] ++ [f]) in Kf. rewrite find_app, Fi in Kf. cbn [find] in Kf.
    destruct (get f es) as [[b|ds]|] eqn:Gf; try discriminate Kf. inversion Kf; subst b.
    split; intro validate.
    + unfold getImageDirectoryListing. change (3 <? 3)%Z with false. cbv iota. rewrite Fi. eexists. split; [reflexivity|].
      apply in_map_iff. exists (f, File data). split; [reflexivity|]. apply filter_In. split; [apply get_In; exact Gf|].
      rewrite Ep. apply orb_true_r.
    + unfold readImage. change (3 <? 3)%Z with false. cbv iota. rewrite Fi. rewrite (components_plain f Pf). cbn [bind].
      unfold getbytes. cbn [find]. rewrite Gf, Ep. rewrite andb_false_r. reflexivity.
Qed.
Print Assumptions C32_images_partial.
Example C32_case : let data := pngSignatureBytes ++ [1%N] in let s := newState (Dir [(u "images", Dir [(u "x", File [])])]) in
  let s' := fst (writeImage (mkCfg 3 true PNone) (u "i.png") data true s) in
  getImageDirectoryListing 3 (tree s') true = Ok [u "i.png"] /\ readImage 3 (tree s') (u "i.png") true = Ok data /\
  snd (writeImage (mkCfg 3 true PNone) (u "i.png") [1%N] true s) = Err UFOLibError.
Proof. vm_compute. auto. Qed.

(** ** C72 *)
(** what is to be stored: a colour unless it is None, a lib unless it is None or empty *)
Definition storedInfo (info : list (str * pyval)) (a : str) : option pyval :=
  match get a info with
  | None | Some PNone => None
  | Some v => if eqb a (u "color") then Some v else if eqb a (u "lib") && truthy v then Some v else None
  end.
Lemma gather_spec info : let d := items (infoVal (gatherLayerInfo info)) in
  NoDup (map fst d) /\ (forall a, dget a d = storedInfo info a) /\ (forall k v, In (k, v) d -> exists a, k = PStr a).
Proof.
  cbv zeta. unfold gatherLayerInfo, infoVal, layerAttrs, storedInfo. cbn [items flat_map].
  assert (E : eqb (u "color") (u "lib") = false) by reflexivity. assert (E' : eqb (u "lib") (u "lib") = true) by reflexivity.
  assert (NE : u "lib" <> u "color") by (vm_compute; discriminate).
  rewrite E, E'. cbn [andb]. rewrite app_nil_r.
  set (gc := match get (u "color") info with None | Some PNone => [] | Some v => [(u "color", v)] end).
  set (gl := match get (u "lib") info with None | Some PNone => [] | Some v => if negb (truthy v) then [] else [(u "lib", v)] end).
  assert (Gc : gc = [] \/ exists v, gc = [(u "color", v)]) by (subst gc; destruct (get (u "color") info) as [[]|]; eauto).
  assert (Gl : gl = [] \/ exists v, gl = [(u "lib", v)]) by (subst gl; destruct (get (u "lib") info) as [[]|]; cbn [negb]; try destruct (negb _); eauto).
  split; [|split].
  - destruct Gc as [-> |(v & ->)], Gl as [-> |(w & ->)]; cbn [app map fst]; repeat constructor; cbn; try tauto.
    intros [X|[]]. discriminate X.
  - intro a. destruct (eqb_spec a (u "color")) as [->|Nc].
    + subst gc. destruct Gl as [-> |(w & ->)]; destruct (get (u "color") info) as [[]|]; cbn [app map dget]; rewrite ?E, ?eqb_refl; reflexivity.
    + assert (D : forall l, dget a (map (fun '(x, v) => (PStr x, v)) (gc ++ l)) = dget a (map (fun '(x, v) => (PStr x, v)) l)).
      { intro l. destruct Gc as [-> |(v & ->)]; [reflexivity|]. cbn [app map dget]. destruct (eqb_spec a (u "color")); [contradiction|reflexivity]. }
      rewrite D. destruct (eqb_spec a (u "lib")) as [->|Nl].
      * subst gl. destruct (get (u "lib") info) as [v|]; [|reflexivity]. destruct v; cbn [andb negb]; try reflexivity; destruct (truthy _); cbn [negb map dget]; rewrite ?eqb_refl; reflexivity.
      * assert (X : dget a (map (fun '(x, v) => (PStr x, v)) gl) = None).
        { destruct Gl as [G|(w & G)]; rewrite G; [reflexivity|]. cbn [map dget]. destruct (eqb_spec a (u "lib")); [contradiction|reflexivity]. }
        rewrite X. destruct (get a info) as [v|]; [|reflexivity]. destruct v; reflexivity.
  - intros k v I. apply in_map_iff in I as ([a w] & E1 & _). inversion E1. eauto.
Qed.
(** In a new glyph set writing empty info does not remove what an earlier call
    stored. *)
Theorem C72_layer_info_refuted : exists C faithful T s s', codec_laws C faithful /\
  writeLayerInfo C T 3 false [(u "lib", dict [("a", PInt 1)])] true (newState (Dir [])) = (s, Ok tt) /\
  writeLayerInfo C T 3 false [] true s = (s', Ok tt) /\
  readLayerInfo C T (tree s') true = Ok [(PStr (u "lib"), dict [("a", PInt 1)])].
Proof.
  exists toy, (fun _ => True), asciiText. do 2 eexists. split; [exact toy_laws|].
  split; [vm_compute; reflexivity|]. split; [vm_compute; reflexivity|]. vm_compute. reflexivity.
Qed.
Print Assumptions C72_layer_info_refuted.
Theorem C72_layer_info_partial : forall C faithful T prev s info, codec_laws C faithful -> roots s ->
  (** what is stored is set by the reader, and nothing else *)
  (forall s' validate, writeLayerInfo C T 3 prev info true s = (s', Ok tt) -> (exists a, storedInfo info a <> None) ->
     faithful (PDict (map (fun '(a, v) => (PStr a, v)) (gatherLayerInfo info))) ->
     exists l, readLayerInfo C T (tree s') validate = Ok l /\ NoDup (map fst l) /\ (forall k v, In (k, v) l -> exists a, k = PStr a) /\
     forall a, match storedInfo info a, dget a l with
               | None, None => True
               | Some v, Some w => psame v w
               | _, _ => False
               end) /\
  (** empty info of a glyph set opened on existing files *)
  (prev = true -> (forall a, storedInfo info a = None) -> isdir (tree s) [u "layerinfo.plist"] = false -> forall validate validate',
     exists s', writeLayerInfo C T 3 prev info validate s = (s', Ok tt) /\ readLayerInfo C T (tree s') validate' = Ok []) /\
  (** only layerinfo.plist is touched *)
  (forall s' r validate q, writeLayerInfo C T 3 prev info validate s = (s', r) -> q <> [u "layerinfo.plist"] -> isdir (tree s) [u "layerinfo.plist"] = false ->
     fileAt (tree s') q = fileAt (tree s) q /\ isdir (tree s') q = isdir (tree s) q).
Proof.
  intros C faithful T prev s info L R.
  assert (Gs := gather_spec info). cbv zeta in Gs. destruct Gs as (ND & Gt & Tk).
  unfold writeLayerInfo. change (3 <? 3)%Z with false. cbv iota.
  destruct (gatherLayerInfo info) as [|g gs] eqn:Eg.
  - assert (None_ : forall a, storedInfo info a = None) by (intro a; rewrite <- Gt; reflexivity).
    split; [intros s' validate _ (a & N) _; rewrite None_ in N; congruence|]. split.
    + intros -> _ NDir validate validate'. unfold mbind, getTree. cbn [andb].
      assert (Gone : forall s', kind (tree s') [nLayerinfo] = None -> readLayerInfo C T (tree s') validate' = Ok []).
      { intros s' K. unfold readLayerInfo, getPlist. rewrite getbytes_kind, K. destruct validate'; reflexivity. }
      rewrite kind_exists. rewrite kind_isdir in NDir. fold nLayerinfo in NDir. destruct (kind (tree s) [nLayerinfo]) as [[b|]|] eqn:K; [|discriminate NDir|].
      * unfold remove. unfold kind in K. destruct (find (tree s) [nLayerinfo]) as [[|]|] eqn:F; try discriminate K.
        eexists. split; [reflexivity|]. apply Gone. cbn [tree]. rewrite kind_cut by discriminate. reflexivity.
      * exists s. split; [reflexivity|]. apply Gone. exact K.
    + intros s' r validate q H N NDir. unfold mbind, getTree in H. destruct (prev && existsAt (tree s) [nLayerinfo]) eqn:E; [|inversion H; auto].
      rewrite kind_isdir in NDir. fold nLayerinfo in *. unfold remove in H. unfold kind in NDir.
      destruct (find (tree s) [nLayerinfo]) as [[b|ds]|] eqn:F; [|discriminate NDir|apply andb_true_iff in E as [_ E]; unfold existsAt in E; rewrite F in E; discriminate E].
      apply (f_equal (fun x => tree (fst x))) in H. cbn [fst tree change] in H. rewrite <- H. rewrite !kind_fileAt, !kind_isdir, !kind_cut by discriminate.
      destruct (FSProofs.strip [nLayerinfo] q) as [x|] eqn:S; [|auto]. apply strip_Some in S. destruct x; [subst q; destruct N; reflexivity|].
      subst q. unfold kind. rewrite find_app, F. auto.
  - assert (Some_ : exists a, storedInfo info a <> None).
    { destruct g as [a v]. exists a. rewrite <- Gt. cbn [infoVal map items dget]. rewrite eqb_refl. discriminate. }
    rewrite <- Eg in *. clear Eg g gs. split; [|split].
    + intros s' validate H (a0 & N0) F. destruct (layerInfoOk T (items (infoVal (gatherLayerInfo info)))) eqn:V; [|discriminate H]. cbn [andb negb] in H.
      apply writePlist_ok in H as (b & D & K & _ & _).
      destruct (loads_dumps _ _ L _ _ F D) as (w & Lw & S).
      destruct (psame_dict _ _ S ND) as (e & -> & P & A & B). exists e.
      assert (NDe : NoDup (map fst e)) by (eapply Permutation_NoDup; [apply Permutation_sym; exact P|exact ND]).
      assert (Te : forall k v, In (k, v) e -> exists a, k = PStr a).
      { intros k v I. assert (X : In k (map fst e)) by (change k with (fst (k, v)); apply in_map; exact I).
        apply (Permutation_in _ P) in X. apply in_map_iff in X as ([k' v'] & E & X). cbn in E. subst k'. eapply Tk. exact X. }
      split; [|split; [exact NDe|split; [exact Te|]]].
      * unfold readLayerInfo, getPlist. fold nLayerinfo in K. rewrite getbytes_kind, K, eqb_refl, Lw. cbn [bind].
        destruct validate; [|reflexivity]. assert (V' : layerInfoOk T e = true); [|rewrite V'; reflexivity].
        unfold layerInfoOk. apply forallb_forall. intros [k v] I. destruct (Te k v I) as (a & ->).
        destruct (B a v (In_dget a e v NDe I)) as (v0 & G0 & S0). apply dget_In in G0.
        unfold layerInfoOk in V. rewrite forallb_forall in V. specialize (V _ G0). cbv beta iota in V.
        destruct (eqb a (u "color")).
        { destruct v0; try discriminate V. apply psame_str in S0. subst v. exact V. }
        destruct (eqb a (u "lib")); [|discriminate V]. destruct v0; try discriminate V. inversion S0; reflexivity.
      * intro a. rewrite <- Gt. destruct (dget a (items (infoVal (gatherLayerInfo info)))) as [v|] eqn:E.
        -- destruct (A a v E) as (v' & -> & S'). exact S'.
        -- destruct (dget a e) as [w|] eqn:E'; [|exact I]. destruct (B a w E') as (v & X & _). unfold infoVal in E. cbn [items] in E. rewrite E in X. discriminate X.
    + intros _ Non. destruct Some_ as (a & N). rewrite Non in N. congruence.
    + intros s' r validate q H N _. destruct (validate && negb _); [inversion H; auto|].
      assert (K : kind (tree s') q = kind (tree s) q).
      { destruct r as [[]|e].
        - apply writePlist_ok in H as (b & _ & K & _). rewrite K. destruct (eqb_spec q [nLayerinfo]); [contradiction|reflexivity].
        - eapply writePlist_err; [exact H|exact N]. }
      rewrite !kind_fileAt, !kind_isdir, K. auto.
Qed.
Print Assumptions C72_layer_info_partial.
Example C72_case : let s := newState (Dir [(u "layerinfo.plist", plistFile (dict []))]) in
  let info := [(u "lib", dict [("a", PInt 1)]); (u "color", PStr (u "1,0,0,1")); (u "name", PInt 3)] in
  readLayerInfo toy asciiText (tree (fst (writeLayerInfo toy asciiText 3 true info true s))) true =
    Ok [(PStr (u "color"), PStr (u "1,0,0,1")); (PStr (u "lib"), dict [("a", PInt 1)])] /\
  readLayerInfo toy asciiText (tree (fst (writeLayerInfo toy asciiText 3 true [(u "lib", dict [])] true s))) true = Ok [].
Proof. vm_compute. auto. Qed.

(** ** C77: the feature text *)
Ltac Zify.zify_post_hook ::= Z.div_mod_to_equations.
Lemma utf8_1 a r : (a < 0x80)%N -> utf8Decode (a :: r) = do s <- utf8Decode r; Ok (a :: s).
Proof. intro H. cbn [utf8Decode]. rewrite (proj2 (N.ltb_lt _ _) H). reflexivity. Qed.
Lemma cont_range x : (0x80 <= x < 0xC0)%N -> cont x = true.
Proof. intro H. unfold cont. apply andb_true_iff. split; [apply N.leb_le|apply N.ltb_lt]; lia. Qed.
Lemma utf8_2 a x r c : (0xC2 <= a < 0xE0)%N -> (0x80 <= x < 0xC0)%N -> c = ((a - 0xC0) * 64 + (x - 0x80))%N ->
  utf8Decode (a :: x :: r) = do s <- utf8Decode r; Ok (c :: s).
Proof.
  intros H X ->. cbn [utf8Decode].
  destruct (N.ltb_spec a 0x80); [lia|]. destruct (N.ltb_spec a 0xC2); [lia|]. destruct (N.ltb_spec a 0xE0); [|lia].
  rewrite (cont_range _ X). reflexivity.
Qed.
Lemma utf8_3 a x y r c : (0xE0 <= a < 0xF0)%N -> (0x80 <= x < 0xC0)%N -> (0x80 <= y < 0xC0)%N ->
  c = ((a - 0xE0) * 4096 + (x - 0x80) * 64 + (y - 0x80))%N -> (0x800 <= c)%N -> ((0xD800 <=? c) && (c <? 0xE000))%N = false ->
  utf8Decode (a :: x :: y :: r) = do s <- utf8Decode r; Ok (c :: s).
Proof.
  intros H X Y E C1 C2. cbn [utf8Decode].
  destruct (N.ltb_spec a 0x80); [lia|]. destruct (N.ltb_spec a 0xC2); [lia|]. destruct (N.ltb_spec a 0xE0); [lia|]. destruct (N.ltb_spec a 0xF0); [|lia].
  rewrite (cont_range _ X), (cont_range _ Y), <- E, C2, (proj2 (N.leb_le _ _) C1). reflexivity.
Qed.
Lemma utf8_4 a x y z r c : (0xF0 <= a < 0xF5)%N -> (0x80 <= x < 0xC0)%N -> (0x80 <= y < 0xC0)%N -> (0x80 <= z < 0xC0)%N ->
  c = ((a - 0xF0) * 262144 + (x - 0x80) * 4096 + (y - 0x80) * 64 + (z - 0x80))%N -> (0x10000 <= c < 0x110000)%N ->
  utf8Decode (a :: x :: y :: z :: r) = do s <- utf8Decode r; Ok (c :: s).
Proof.
  intros H X Y Z E [C1 C2]. cbn [utf8Decode].
  destruct (N.ltb_spec a 0x80); [lia|]. destruct (N.ltb_spec a 0xC2); [lia|]. destruct (N.ltb_spec a 0xE0); [lia|]. destruct (N.ltb_spec a 0xF0); [lia|]. destruct (N.ltb_spec a 0xF5); [|lia].
  rewrite (cont_range _ X), (cont_range _ Y), (cont_range _ Z), <- E, (proj2 (N.leb_le _ _) C1), (proj2 (N.ltb_lt _ _) C2). reflexivity.
Qed.
Lemma utf8_char c b rest : utf8Char c = Some b -> utf8Decode (b ++ rest) = do s <- utf8Decode rest; Ok (c :: s).
Proof.
  unfold utf8Char. intro H.
  destruct (N.ltb_spec c 0x80) as [H1|H1]; [apply (f_equal (fun o => match o with Some x => x | None => [] end)) in H; subst b; apply utf8_1; exact H1|].
  destruct (N.ltb_spec c 0x800) as [H2|H2]; [apply (f_equal (fun o => match o with Some x => x | None => [] end)) in H; subst b; apply utf8_2; lia|].
  destruct ((0xD800 <=? c) && (c <? 0xE000))%N eqn:Sg; [discriminate|].
  destruct (N.ltb_spec c 0x10000) as [H3|H3]; [apply (f_equal (fun o => match o with Some x => x | None => [] end)) in H; subst b; apply utf8_3; try assumption; lia|].
  destruct (N.ltb_spec c 0x110000) as [H4|H4]; [|discriminate].
  apply (f_equal (fun o => match o with Some x => x | None => [] end)) in H; subst b; apply utf8_4; lia.
Qed.
Lemma utf8_round s b : utf8Encode s = Ok b -> utf8Decode b = Ok s.
Proof.
  revert b; induction s as [|c s IH]; intros b H; cbn [utf8Encode] in H; [inversion H; reflexivity|].
  destruct (utf8Char c) as [x|] eqn:E; [|discriminate]. destruct (utf8Encode s) as [r|]; [|discriminate]. cbn [bind] in H. inversion H; subst.
  rewrite (utf8_char _ _ _ E), (IH r eq_refl). reflexivity.
Qed.
(** a Unicode scalar value: no surrogate *)
Definition scalar (c : N) : Prop := (c < 0xD800 \/ 0xE000 <= c < 0x110000)%N.
Lemma utf8_total s : Forall scalar s <-> exists b, utf8Encode s = Ok b.
Proof.
  assert (Ch : forall c, scalar c <-> exists b, utf8Char c = Some b).
  { intro c. unfold scalar, utf8Char. destruct (N.ltb_spec c 0x80); [split; [eauto|lia]|]. destruct (N.ltb_spec c 0x800); [split; [eauto|lia]|].
    destruct (N.leb_spec 0xD800 c), (N.ltb_spec c 0xE000); cbn [andb]; try (destruct (N.ltb_spec c 0x10000)); try (destruct (N.ltb_spec c 0x110000)); split; try (eauto; fail); try lia; intros (b & X); try discriminate X; lia. }
  induction s as [|c s IH]; cbn [utf8Encode]; [split; [eauto|constructor]|]. split.
  - intro H. inversion H as [|? ? Hc Hs]; subst. apply Ch in Hc as (b & ->). apply IH in Hs as (r & ->). cbn [bind]. eauto.
  - intros (b & H). destruct (utf8Char c) as [x|] eqn:E; [|discriminate]. destruct (utf8Encode s) as [r|]; [|discriminate].
    constructor; [apply Ch; eauto|]. apply IH. eauto.
Qed.
Theorem C77_features : forall c s text validate, ver c <> 1%Z -> text <> [] -> roots s ->
  isdir (tree s) [u "features.fea"] = false ->
  (Forall scalar text -> exists s', writeFeatures c (PStr text) validate s = (s', Ok tt) /\ readFeatures (tree s') = Ok text /\
     forall q, q <> [u "features.fea"] -> fileAt (tree s') q = fileAt (tree s) q) /\
  (~ Forall scalar text -> writeFeatures c (PStr text) validate s = (s, Err ValueError)).
Proof.
  intros c s text validate V NE R ND. unfold writeFeatures. destruct (Z.eqb_spec (ver c) 1); [contradiction|].
  cbn [is_str negb]. rewrite andb_false_r. unfold truthy. destruct (eqb_spec text []); [contradiction|]. cbn [negb].
  split.
  - intro S. apply utf8_total in S as (b & E). unfold mbind, lift. rewrite E.
    assert (Pf : plainName nFeatures) by apply plain_names.
    destruct (C71_write_succeeds (hp c) [nFeatures] b s R ltac:(discriminate)) as (s' & H).
    + intros x [<-|[]]. exact Pf.
    + exact ND.
    + intros q (r & Eq) N. destruct q as [|a q]; [destruct R as (es & ->); reflexivity|]. inversion Eq as [[E1 E2]]. symmetry in E2. apply app_eq_nil in E2 as [-> ->]. subst. congruence.
    + cbn [join] in H. exists s'. split; [exact H|].
      destruct (C71_read_back _ _ _ _ _ _ (components_plain _ Pf) H) as (Rb & Other & _). split; [|exact Other].
      unfold readBytesFromPath in Rb. rewrite (components_plain _ Pf) in Rb. cbn [bind] in Rb. unfold readFeatures.
      destruct (getbytes (tree s') [nFeatures]) as [x|[]]; try discriminate Rb. inversion Rb; subst. apply utf8_round. exact E.
  - intro S. unfold mbind, lift. destruct (utf8Encode text) as [b|e] eqn:E; [destruct S; apply utf8_total; eauto|].
    f_equal. clear - E. revert e E. induction text as [|x t IH]; intros e E; cbn [utf8Encode] in E; [discriminate|].
    destruct (utf8Char x); [|inversion E; reflexivity]. destruct (utf8Encode t); [discriminate|]. cbn [bind] in E. inversion E; subst. apply IH. reflexivity.
Qed.
Print Assumptions C77_features.
Example C77_case : let text := [0x41; 0x20AC; 0x1F600; 0xE9]%N in
  readFeatures (tree (fst (writeFeatures (mkCfg 3 false PNone) (PStr text) true (newState (Dir []))))) = Ok text /\
  snd (writeFeatures (mkCfg 3 false PNone) (PStr [0xD800%N]) true (newState (Dir []))) = Err ValueError.
Proof. vm_compute. auto. Qed.

(** ** C78: what is written to groups.plist, kerning.plist and lib.plist of a UFO 3
    is read back *)
Lemma psame_seq v w : psame v w -> is_seq v = true -> is_seq w = true /\ Forall2 psame (elems v) (elems w).
Proof.
  intros H S. inversion H as [? X| | |]; subst; try discriminate S; [destruct w; discriminate|split; auto..].
Qed.
Lemma psame_strs l m : Forall2 psame l m -> (forall x, In x l -> exists s, x = PStr s) -> l = m.
Proof.
  induction 1 as [|x y l m S _ IH]; intro A; [reflexivity|]. destruct (A x (or_introl eq_refl)) as (s & ->). apply psame_str in S. subst y.
  rewrite IH; [reflexivity|]. intros z I. apply A. right. exact I.
Qed.
Lemma psame_strings l m : Forall2 psame l m -> strings l = strings m.
Proof.
  induction 1 as [|x y l m S _ IH]; [reflexivity|]. unfold strings in *. cbn [map List.concat]. rewrite IH. f_equal.
  inversion S; reflexivity.
Qed.
Lemma psame_num v w : psame v w -> isNum v -> w = v.
Proof. intros S [(z & ->)|[(b & ->)|(f & ->)]]; inversion S; reflexivity. Qed.
(** entries correspond *)
Lemma psame_entries d w : psame (PDict d) w -> exists e e', w = PDict e /\ Permutation e' e /\
  Forall2 (fun a b => fst a = fst b /\ psame (snd a) (snd b)) d e'.
Proof.
  intro H. inversion H as [? X| | |? e e']; subst.
  - discriminate X.
  - exists e, e'. auto.
Qed.
Lemma psame_lib v w : psame v w -> fontLibValidator v = true -> fontLibValidator w = true.
Proof.
  intros S H. unfold fontLibValidator in *. apply andb_true_iff in H as [D H]. destruct v; try discriminate D.
  destruct (psame_entries _ _ S) as (e & e' & -> & P & F). cbn [is_dict items andb] in *. apply forallb_forall. intros [k v] I.
  apply (Permutation_in _ (Permutation_sym P)) in I. clear P S. rewrite forallb_forall in H.
  induction F as [|[k1 v1] [k2 v2] d e' [E S] _ IH]; [contradiction|]. cbn in E, S. subst k2. destruct I as [I|I].
  - inversion I; subst. specialize (H (k, v1) (or_introl eq_refl)). cbv beta iota in H. destruct k; try discriminate H.
    destruct (eqb s (u "public.glyphOrder")); [|reflexivity]. apply andb_true_iff in H as [Q A]. destruct (psame_seq _ _ S Q) as [Q' F'].
    rewrite Q'. cbn [andb]. rewrite <- (psame_strs _ _ F'); [exact A|]. rewrite forallb_forall in A. intros x Ix. apply A in Ix. destruct x; try discriminate Ix. eauto.
  - apply IH; [|exact I]. intros x Ix. apply H. right. exact Ix.
Qed.
Lemma psame_groups v w : psame v w -> groupsValidator v = true -> groupsValidator w = true.
Proof.
  intros S H. apply C43_groups_rule in H as (d & -> & NG & KG & N1 & N2). destruct (psame_entries _ _ S) as (e & e' & -> & P & F).
  apply C43_groups_rule. exists e. split; [reflexivity|].
  assert (Mem : forall pre, Forall namedGlyphList d -> membersOf pre d = membersOf pre e').
  { intros pre NG'. clear -F NG'. unfold membersOf. f_equal. induction F as [|[k1 v1] [k2 v2] d e' [E S] _ IH]; [reflexivity|].
    inversion NG' as [|? ? (k & Ek & _ & Q) NG'']; subst. cbn [map fst snd] in *. subst. rewrite (IH NG''). f_equal. destruct (startswith pre k); [|reflexivity].
    apply psame_strings. apply psame_seq; assumption. }
  assert (A : Forall namedGlyphList e' /\ Forall goodKerningGroup e').
  { clear -F NG KG. induction F as [|[k1 v1] [k2 v2] d e' [E S] _ IH]; [split; constructor|]. inversion NG as [|? ? G1 G2]; subst. inversion KG as [|? ? K1 K2]; subst.
    destruct (IH G2 K2). cbn in E, S. subst k2. destruct G1 as (k & Ek & NEk & Q). cbn in Ek, Q. destruct (psame_seq _ _ S Q) as [Q' F'].
    split; constructor; try assumption.
    - exists k. auto.
    - intros k' rest side Ek' I R. destruct (K1 k' rest side Ek' I R) as [R1 R2]. split; [exact R1|]. cbn [snd] in *. rewrite <- (psame_strs _ _ F' R2). exact R2. }
  destruct A as [A1 A2]. split; [|split; [|split]].
  - eapply Permutation_Forall; [exact P|exact A1].
  - eapply Permutation_Forall; [exact P|exact A2].
  - rewrite (Mem _ NG) in N1. eapply Permutation_NoDup; [|exact N1]. unfold membersOf. rewrite <- !flat_map_concat_map. apply Permutation_flat_map. exact P.
  - rewrite (Mem _ NG) in N2. eapply Permutation_NoDup; [|exact N2]. unfold membersOf. rewrite <- !flat_map_concat_map. apply Permutation_flat_map. exact P.
Qed.
Lemma read_stored C faithful prev name v s s' default : codec_laws C faithful -> writePlist C prev name v s = (s', Ok tt) -> faithful v ->
  exists w, getPlist C (tree s') name default = Ok w /\ psame v w.
Proof.
  intros L H F. apply writePlist_ok in H as (b & D & K & _). destruct (loads_dumps _ _ L _ _ F D) as (w & Lw & S).
  exists w. split; [|exact S]. unfold getPlist. rewrite getbytes_kind, K, eqb_refl, Lw. reflexivity.
Qed.
(** the nested dictionary read is a reordering of the one written *)
Lemma asInner_vals i : asInner (map (fun '(b, x) => (PStr b, x)) i) = Some i.
Proof. induction i as [|[b x] i IH]; [reflexivity|]. cbn [map asInner]. rewrite IH. reflexivity. Qed.
Lemma nested_read (n : list (str * list (str * pyval))) w : nested_ok n -> (forall a i b x, In (a, i) n -> In (b, x) i -> isNum x) ->
  psame (nestedVal n) w -> exists d n', w = PDict d /\ asNested d = Some n' /\ nested_ok n' /\ (forall x y, klook x y n' = klook x y n) /\ kerningValidator w = true.
Proof.
  intros [D Di] Num S. destruct (psame_entries _ _ S) as (e & e' & -> & P & F). exists e.
  assert (In1 : forall i w, dict_ok i -> (forall b x, In (b, x) i -> isNum x) -> psame (PDict (map (fun '(b, x) => (PStr b, x)) i)) w ->
     exists i', w = PDict (map (fun '(b, x) => (PStr b, x)) i') /\ Permutation i' i).
  { clear. intros i w _ Num S. destruct (psame_entries _ _ S) as (e & e' & -> & P & F).
    assert (E : e' = map (fun '(b, x) => (PStr b, x)) i).
    { clear -F Num. revert e' F; induction i as [|[b x] i IH]; intros e' F; inversion F as [|? [k v] ? ? [E S] F']; subst; [reflexivity|]. cbn in *. subst k.
      rewrite (psame_num _ _ S) by (eapply Num; left; reflexivity). f_equal. apply IH; [|exact F']. intros b' x' I. eapply Num. right. exact I. }
    subst e'. apply Permutation_sym, Permutation_map_inv in P as (i' & -> & P). exists i'. split; [reflexivity|]. apply Permutation_sym. exact P. }
  assert (Out : exists n1, e' = map (fun '(a, i) => (PStr a, PDict (map (fun '(b, x) => (PStr b, x)) i))) n1 /\ Forall2 (fun p q => fst p = fst q /\ Permutation (snd q) (snd p)) n n1).
  { clear -F Num Di In1. revert e' F; induction n as [|[a i] n IH]; intros e' F; inversion F as [|? [k v] ? ? [E S] F']; subst; [exists []; split; [reflexivity|constructor]|].
    cbn in E, S. subst k. destruct (In1 i v) as (i' & -> & Pi); [eapply Di; left; reflexivity|intros b x I; eapply Num; [left; reflexivity|exact I]|exact S|].
    destruct (IH (fun a' i'' I => Di a' i'' (or_intror I)) (fun a' i'' b x I => Num a' i'' b x (or_intror I)) _ F') as (n1 & -> & F1).
    exists ((a, i') :: n1). split; [reflexivity|]. constructor; [split; [reflexivity|exact Pi]|exact F1]. }
  destruct Out as (n1 & -> & F1). apply Permutation_sym, Permutation_map_inv in P as (n' & -> & P). exists n'.
  assert (K1 : keys n1 = keys n) by (clear -F1; induction F1 as [|x y l m [E _] _ IH]; [reflexivity|]; unfold keys in *; cbn; congruence).
  assert (Dn' : dict_ok n').
  { unfold dict_ok in *. eapply Permutation_NoDup; [|exact D]. rewrite <- K1. unfold keys. apply Permutation_map. exact P. }
  assert (Dn1 : dict_ok n1) by (unfold dict_ok; rewrite K1; exact D).
  assert (In' : forall a i', In (a, i') n' -> exists i, In (a, i) n /\ Permutation i' i).
  { intros a i' I. apply (Permutation_in _ (Permutation_sym P)) in I. clear -F1 I. induction F1 as [|[a1 i1] [a2 i2] l m [E S] _ IH]; [contradiction|].
    destruct I as [I|I]; [inversion I; subst; cbn in *; subst; exists i1; split; [left; reflexivity|exact S]|]. destruct (IH I) as (i & X & Y). exists i. split; [right; exact X|exact Y]. }
  split; [reflexivity|]. split; [|split; [|split]].
  - clear. induction n' as [|[a i] n IH]; [reflexivity|]. cbn [map asNested]. rewrite asInner_vals, IH. reflexivity.
  - split; [exact Dn'|]. intros a i' I. destruct (In' a i' I) as (i & I0 & Pi). pose proof (Di a i I0) as X. unfold dict_ok in *.
    eapply Permutation_NoDup; [|exact X]. unfold keys. apply Permutation_map, Permutation_sym, Pi.
  - intros x y. unfold klook. destruct (get x n') as [i'|] eqn:G.
    + apply get_In in G. destruct (In' x i' G) as (i & I0 & Pi). rewrite (In_get _ _ _ D I0).
      assert (Do : dict_ok i) by (eapply Di; exact I0).
      assert (Do' : dict_ok i') by (unfold dict_ok in *; eapply Permutation_NoDup; [|exact Do]; unfold keys; apply Permutation_map, Permutation_sym, Pi).
      destruct (get y i') as [v|] eqn:G'.
      * apply get_In in G'. symmetry. apply In_get; [exact Do|]. eapply Permutation_in; [exact Pi|exact G'].
      * apply get_None in G'. symmetry. apply get_None. intro X. apply G'. unfold keys in *. eapply Permutation_in; [|exact X]. apply Permutation_map, Permutation_sym, Pi.
    + apply get_None in G. replace (get x n) with (@None (list (str * pyval))); [reflexivity|]. symmetry. apply get_None. intro X. apply G.
      unfold keys in *. rewrite <- K1 in X. eapply Permutation_in; [|exact X]. apply Permutation_map. exact P.
  - apply C75_kerning_rule. eexists. split; [reflexivity|]. intros k v I. apply in_map_iff in I as ([a i'] & E & I). inversion E; subst. split; [eauto|].
    eexists. split; [reflexivity|]. intros k2 v2 I2. apply in_map_iff in I2 as ([b x] & E2 & I2). inversion E2; subst. split; [eauto|].
    destruct (In' a i' I) as (i & I0 & Pi). eapply Num; [exact I0|]. eapply Permutation_in; [exact Pi|exact I2].
Qed.
Theorem C78_read_back : forall C faithful conv c s s' cache, codec_laws C faithful -> ver c = 3%Z ->
  (forall v, writeLib C c v true s = (s', Ok tt) -> faithful v -> v <> PDict [] ->
     exists w, readLib C (tree s') true = Ok w /\ psame v w) /\
  (forall l, let v := PDict (map (fun '(n, m) => (PStr n, PList m)) l) in
     writeGroups C c v true s = (s', Ok tt) -> faithful v -> l <> [] ->
     exists w, snd (readGroups C conv 3 (tree s') cache true) = Ok w /\ psame v w) /\
  (forall l, writeKerning C c (pairsVal l) true s = (s', Ok tt) -> dict_ok l -> l <> [] -> faithful (nestedVal (nest l)) ->
     exists l', snd (readKerning C conv 3 (tree s') cache true) = Ok (pairsVal l') /\ Permutation l' l).
Proof.
  intros C faithful conv c s s' cache L V. split; [|split].
  - intros v H F NE. unfold writeLib in H. destruct (fontLibValidator v) eqn:Val; [|discriminate H]. cbn [andb negb] in H.
    assert (Tr : truthy v = true).
    { unfold fontLibValidator in Val. apply andb_true_iff in Val as [D _]. destruct v as [| | | | | | | | |d|]; try discriminate D. destruct d; [congruence|reflexivity]. }
    rewrite Tr in H. destruct (read_stored _ _ _ _ _ _ _ (Some (PDict [])) L H F) as (w & G & S). exists w. split; [|exact S].
    unfold readLib. rewrite G. cbn [bind]. rewrite (psame_lib _ _ S Val). reflexivity.
  - intros l v H F NE.
    assert (Val : groupsValidator v = true) by (unfold writeGroups in H; destruct (groupsValidator v); [reflexivity|discriminate H]).
    pose proof (doWrite_stores C c s (WGroups v) true nGroups v) as W. cbn [doWrite storesAs] in W. rewrite W in H.
    2: { split; [intros _; exact Val|]. split; [reflexivity|]. split; [left; exact V|]. exists l. auto. }
    destruct (read_stored _ _ _ _ _ _ _ (Some (PDict [])) L H F) as (w & G & S). exists w. split; [|exact S].
    unfold readGroups, readGroupsRaw. change (3 <? 3)%Z with false. cbv iota. cbn [snd]. rewrite G. cbn [bind]. rewrite (psame_groups _ _ S Val). reflexivity.
  - intros l H Dl NE F.
    assert (Val : kerningArgOk (pairsVal l) = true) by (unfold writeKerning in H; destruct (kerningArgOk (pairsVal l)); [reflexivity|discriminate H]).
    destruct (nest_spec l Dl) as [No Nl].
    assert (NEn : nest l <> []).
    { destruct l as [|[[a b] x] l]; [congruence|]. intro E. specialize (Nl a b). rewrite E in Nl. cbn [get klook] in Nl. rewrite eqb_refl in Nl. discriminate Nl. }
    pose proof (doWrite_stores C c s (WKerning (pairsVal l)) true nKerning (nestedVal (nest l))) as W. cbn [doWrite storesAs] in W. rewrite W in H.
    2: { split; [intros _; exact Val|]. split; [reflexivity|]. split; [left; exact V|]. exists l. auto. }
    destruct (read_stored _ _ _ _ _ _ _ (Some (PDict [])) L H F) as (w & G & S).
    assert (Num : forall a i b x, In (a, i) (nest l) -> In (b, x) i -> isNum x).
    { intros a i b x I1 I2. pose proof (Nl a b) as E. unfold klook in E. destruct No as [N1 N2]. rewrite (In_get _ _ _ N1 I1), (In_get _ _ _ (N2 _ _ I1) I2) in E.
      symmetry in E. apply get_In in E. unfold kerningArgOk in Val. apply andb_true_iff in Val as [_ Val]. rewrite forallb_forall in Val.
      specialize (Val (PTuple [PStr a; PStr b], x)). cbv beta iota in Val.
      assert (X : is_number x = true).
      { apply andb_true_iff in Val; [apply Val|]. unfold pairsVal. cbn [items]. apply in_map_iff. exists ((a, b), x). auto. }
      unfold isNum. destruct x; try discriminate X; eauto. }
    destruct (nested_read _ _ No Num S) as (d & n' & -> & An & No' & Lk & KV).
    exists (flatten n'). split.
    + unfold readKerning, readKerningRaw. change (3 <? 3)%Z with false. cbv iota. cbn [snd]. rewrite G. cbn [bind]. rewrite KV. cbn [andb negb items]. rewrite An. reflexivity.
    + assert (ND : forall (m : list (str * str * pyval)), dict_ok m -> NoDup m).
      { intros m Dm. unfold dict_ok, keys in Dm. eapply NoDup_map_inv. exact Dm. }
      apply NoDup_Permutation; [apply ND, dict_ok_flatten|apply ND; exact Dl|].
      intros [[a b] x]. rewrite <- !get_In_iff by (apply dict_ok_flatten || exact Dl). rewrite get_flatten by exact No'. rewrite Lk, Nl. reflexivity.
Qed.
Print Assumptions C78_read_back.
Example C78_case : let c := mkCfg 3 false PNone in let s := newState (Dir []) in
  let k := [((u "A", u "V"), PInt (-20)); ((u "B", u "V"), PInt 3); ((u "A", u "T"), PInt 7)] in
  snd (readKerning toy (convPy (fun l => l)) 3 (tree (fst (writeKerning toy c (pairsVal k) true s))) None true) =
    Ok (pairsVal [((u "A", u "V"), PInt (-20)); ((u "A", u "T"), PInt 7); ((u "B", u "V"), PInt 3)]) /\
  snd (readGroups toy (convPy (fun l => l)) 3 (tree (fst (writeGroups toy c (PDict [(PStr (u "public.kern1.A"), PList [PStr (u "A")])]) true s))) None true) =
    Ok (PDict [(PStr (u "public.kern1.A"), PList [PStr (u "A")])]).
Proof. vm_compute. auto. Qed.

(** ** C79: copying from another UFO *)
Theorem C79_copy : forall src p q sp dp s s', components p = Ok sp -> components q = Ok dp ->
  (** never over something that exists, and nothing is copied that does not *)
  (existsAt src sp = false \/ existsAt (tree s) dp = true -> copyFromReader src p q s = (s, Err UFOLibError)) /\
  (copyFromReader src p q s = (s', Ok tt) ->
     (forall x, fileAt (tree s') (dp ++ x) = fileAt src (sp ++ x) /\ isdir (tree s') (dp ++ x) = isdir src (sp ++ x)) /\
     (forall x, ~ below dp x -> fileAt (tree s') x = fileAt (tree s) x /\
                                (isdir (tree s') x = true <-> isdir (tree s) x = true \/ below x dp))).
Proof.
  intros src p q sp dp s s' Hp Hq. split.
  - intro H. unfold copyFromReader, mbind, lift. rewrite Hp. unfold existsAt at 1 in H. destruct (find src sp) as [n|] eqn:F; [|reflexivity].
    destruct H as [H|H]; [discriminate H|]. rewrite Hq. unfold getTree. rewrite H. reflexivity.
  - intro H. unfold copyFromReader, mbind at 1, lift in H. rewrite Hp in H. destruct (find src sp) as [n|] eqn:F; [|discriminate H].
    unfold mbind at 1 in H. rewrite Hq in H. unfold mbind at 1, getTree in H. destruct (existsAt (tree s) dp) eqn:Ex; [discriminate H|].
    destruct (components_dirname _ _ Hq) as (ps & Dp & Rel). unfold mbind at 1 in H. rewrite Dp in H.
    unfold makedirs in H. destruct (mkdirs ps (tree s)) as [t1|] eqn:M; [|discriminate H]. unfold mbind, change in H. cbn [tree] in H.
    assert (P : exists t2, put dp n t1 = Some t2 /\ tree s' = t2).
    { destruct (put dp n t1) as [t2|] eqn:P.
      - exists t2. split; [reflexivity|]. destruct n, (find t1 dp) as [[|[|]]|]; try discriminate H;
          apply (f_equal (fun x => tree (fst x))) in H; symmetry; exact H.
      - destruct n, (find t1 dp) as [[|[|]]|]; discriminate H. }
    destruct P as (t2 & P & ->). clear H.
    assert (K : forall x, kind t2 x = match FSProofs.strip dp x with Some r => kind n r | None => kind t1 x end) by (intro x; apply kind_put; exact P).
    split.
    + intro x. rewrite !kind_fileAt, !kind_isdir, K. rewrite (proj2 (strip_Some _ _ _) eq_refl).
      unfold kind at 2 4. rewrite find_app, F. split; reflexivity.
    + intros x NB. rewrite !kind_fileAt, !kind_isdir, K. rewrite (proj2 (strip_None _ _) NB), (kind_mkdirs _ _ _ x M).
      assert (B : below x ps <-> below x dp).
      { destruct Rel as [->|[(c & ->)|(c & ->)]].
        - reflexivity.
        - split.
          + intros (r & ->). exists (r ++ [c]). rewrite app_assoc. reflexivity.
          + intros (r & E). destruct r as [|z r' _] using rev_ind.
            * destruct NB. exists []. rewrite app_nil_r in *. congruence.
            * rewrite app_assoc in E. apply app_inj_tail in E as [-> _]. exists r'. reflexivity.
        - split.
          + intros (r & E). destruct r as [|z r' _] using rev_ind.
            * destruct NB. exists [c]. rewrite app_nil_r in E. congruence.
            * rewrite app_assoc in E. apply app_inj_tail in E as [-> _]. exists r'. reflexivity.
          + intros (r & ->). exists (r ++ [c]). rewrite app_assoc. reflexivity. }
      destruct (FSProofs.strip x ps) as [r|] eqn:S.
      * apply strip_Some in S. assert (Bx : below x ps) by (exists r; exact S). split; [|split; [intros _; right; apply B; exact Bx|reflexivity]].
        destruct (kind (tree s) x) as [[b|]|] eqn:Kx; try reflexivity. destruct (mkdirs_files _ _ _ _ b M Bx Kx).
      * apply strip_None in S. split; [reflexivity|]. split; [auto|]. intros [H|H]; [exact H|]. destruct S. apply B. exact H.
Qed.
Print Assumptions C79_copy.
Example C79_case : let src := Dir [(u "data", Dir [(u "a", Dir [(u "b.txt", File [1%N])]); (u "c.txt", File [2%N])])] in
  let s := newState (Dir [(u "metainfo.plist", File [3%N])]) in
  fileAt (tree (fst (copyFromReader src (u "data/a") (u "data/x/y") s))) [u "data"; u "x"; u "y"; u "b.txt"] = Some [1%N] /\
  snd (copyFromReader src (u "data/c.txt") (u "metainfo.plist") s) = Err UFOLibError.
Proof. vm_compute. auto. Qed.

(** ** C80: the listing of the data directory *)
Lemma walk_spec n p : In p (walkFiles n) -> wf n -> fileAt n p <> None.
Proof.
  revert n p. fix IH 1. intros n p. destruct n as [b|es].
  - intros [<-|[]] _. discriminate.
  - intros H W. inversion W as [|? D A]; subst. cbn [walkFiles] in H.
    assert (X : exists k m q, In (k, m) es /\ p = k :: q /\ fileAt m q <> None).
    { clear W D. induction es as [|[k m] es IHe]; [contradiction|]. inversion A as [|? ? W1 W2]; subst. apply in_app_or in H as [H|H].
      - apply in_map_iff in H as (q & <- & H). exists k, m, q. split; [left; reflexivity|]. split; [reflexivity|]. apply IH; assumption.
      - destruct (IHe H W2) as (k' & m' & q & I & Y). exists k', m', q. split; [right; exact I|exact Y]. }
    destruct X as (k & m & q & I & -> & F). unfold fileAt in *. cbn [find]. rewrite (In_get _ _ _ D I). exact F.
Qed.
Lemma walk_all p n : fileAt n p <> None -> In p (walkFiles n).
Proof.
  revert n; induction p as [|k p IH]; intros [b|es] H; unfold fileAt in H; cbn [find] in H; try congruence.
  - left. reflexivity.
  - destruct (get k es) as [m|] eqn:G; [|congruence]. apply get_In in G. specialize (IH m H). cbn [walkFiles]. clear H.
    induction es as [|[k' m'] es IHe]; [contradiction|]. apply in_or_app. destruct G as [G|G].
    + inversion G; subst. left. apply in_map. exact IH.
    + right. apply IHe. exact G.
Qed.
Lemma walk_nodup n : wf n -> NoDup (walkFiles n).
Proof.
  revert n. fix IH 1. intros [b|es] W.
  - repeat constructor. intros [].
  - inversion W as [|? D A]; subst. cbn [walkFiles]. clear W. unfold dict_ok, keys in D.
    induction es as [|[k m] es IHe]; [constructor|]. inversion A as [|? ? W1 W2]; subst. cbn [map fst] in D. inversion D as [|? ? D1 D2]; subst.
    apply NoDup_app_intro.
    + apply FinFun.Injective_map_NoDup; [intros x y E; inversion E; reflexivity|]. apply IH. exact W1.
    + apply IHe; assumption.
    + intros x I1 I2. apply in_map_iff in I1 as (q & <- & _). apply D1. clear -I2.
      induction es as [|[k' m'] es IHe]; [contradiction|]. apply in_app_or in I2 as [I|I].
      * apply in_map_iff in I as (r & E & _). inversion E; subst. left. reflexivity.
      * right. apply IHe. exact I.
Qed.
(** The documentation says that the paths are relative to the UFO
    (__init__.py 687); they are relative to the data directory, so reading a
    listed path finds nothing. *)
Theorem C80_listing_refuted : exists t p, wf t /\ In p (getDataDirectoryListing t) /\
  readBytesFromPath t (join [slash] p) = Ok None.
Proof.
  exists (Dir [(u "data", Dir [(u "a.txt", File [1%N])])]), [u "a.txt"]. split.
  - repeat constructor; cbn; intuition.
  - vm_compute. auto.
Qed.
Print Assumptions C80_listing_refuted.
(** With the name of the data directory in front it lists exactly the files
    there, each once. *)
Theorem C80_listing_partial : forall t, wf t ->
  NoDup (getDataDirectoryListing t) /\
  forall p, p <> [] -> In p (getDataDirectoryListing t) <-> exists b, fileAt t (u "data" :: p) = Some b.
Proof.
  intros t W. unfold getDataDirectoryListing. change [nData] with ([nData] ++ []).
  destruct t as [b|es]; [split; [constructor|]; intros p _; split; [intros []|intros (x & E); discriminate E]|].
  cbn [app find]. change nData with (u "data"). inversion W as [|? D A]; subst.
  unfold fileAt. cbn [find]. destruct (get (u "data") es) as [m|] eqn:G.
  2: { split; [constructor|]. intros p _. split; [intros []|intros (x & E); discriminate E]. }
  assert (Wm : wf m) by (apply get_In in G; rewrite Forall_forall in A; exact (A _ G)).
  destruct m as [b|es'].
  - split; [constructor|]. intros p NE. split; [intros []|]. intros (x & E). destruct p; [congruence|]. discriminate E.
  - split; [apply walk_nodup; exact Wm|]. intros p _. split; intro H.
    + apply walk_spec in H; [|exact Wm]. unfold fileAt in H. destruct (find (Dir es') p) as [[x|]|]; try congruence. eauto.
    + apply walk_all. unfold fileAt. destruct H as (x & E). rewrite E. discriminate.
Qed.
Print Assumptions C80_listing_partial.
Example C80_case : getDataDirectoryListing (Dir [(u "data", Dir [(u "d", Dir [(u "a.txt", File [1%N])]); (u "empty", Dir []); (u "b", File [])])]) =
  [[u "d"; u "a.txt"]; [u "b"]].
Proof. vm_compute. reflexivity. Qed.

(** ** C70: the character mapping *)
Theorem C70_character_mapping : forall unicodes code,
  (forall n codes, In (n, codes) unicodes -> NoDup codes) ->
  get code (characterMapping unicodes) =
    match filter (fun nc => existsb (Z.eqb code) (snd nc)) unicodes with
    | [] => None
    | l => Some (map fst l)
    end.
Proof.
  assert (Inner : forall (n : str) codes (cmap : list (Z * list str)) code, NoDup codes ->
    get code (fold_left (fun cmap c => match get c cmap with Some l => set c (l ++ [n]) cmap | None => set c [n] cmap end) codes cmap) =
    if existsb (Z.eqb code) codes then Some (match get code cmap with Some l => l ++ [n] | None => [n] end) else get code cmap).
  { intros n codes. induction codes as [|c codes IH]; intros cmap code ND; [reflexivity|]. inversion ND as [|? ? NI ND']; subst. cbn [fold_left existsb].
    rewrite (IH _ code ND'). destruct (Z.eqb_spec code c) as [->|N].
    - cbn [orb]. replace (existsb (Z.eqb c) codes) with false.
      + destruct (get c cmap) eqn:G; rewrite get_set_same; reflexivity.
      + symmetry. destruct (existsb (Z.eqb c) codes) eqn:E; [|reflexivity]. apply existsb_exists in E as (x & I & E). apply Z.eqb_eq in E. subst. contradiction.
    - cbn [orb]. replace (get code (match get c cmap with Some l => set c (l ++ [n]) cmap | None => set c [n] cmap end)) with (get code cmap); [reflexivity|].
      destruct (get c cmap); rewrite get_set_other by congruence; reflexivity. }
  assert (Gen : forall unicodes (cmap : list (Z * list str)) code, (forall n codes, In (n, codes) unicodes -> NoDup codes) ->
    get code (fold_left (fun cmap '(glyphName, codes) => fold_left (fun cmap code => match get code cmap with Some l => set code (l ++ [glyphName]) cmap | None => set code [glyphName] cmap end) codes cmap) unicodes cmap) =
    match filter (fun nc => existsb (Z.eqb code) (snd nc)) unicodes with
    | [] => get code cmap
    | l => Some (match get code cmap with Some o => o | None => [] end ++ map fst l)
    end).
  { intro unicodes. induction unicodes as [|[n codes] r IH]; intros cmap code ND; [reflexivity|]. cbn [fold_left]. rewrite IH by (intros; eapply ND; right; eassumption).
    rewrite Inner by (eapply ND; left; reflexivity). cbn [filter snd]. destruct (existsb (Z.eqb code) codes).
    - destruct (filter _ r); destruct (get code cmap); cbn [map app fst]; rewrite ?app_nil_r; try reflexivity. rewrite <- app_assoc. reflexivity.
    - reflexivity. }
  intros unicodes code ND. unfold characterMapping. rewrite Gen by exact ND. destruct (filter _ unicodes); reflexivity.
Qed.
Print Assumptions C70_character_mapping.
Example C70_case : characterMapping [(u "A", [65; 913]%Z); (u "Alpha", [913]%Z); (u "B", [])] = [(65%Z, [u "A"]); (913%Z, [u "A"; u "Alpha"])].
Proof. vm_compute. reflexivity. Qed.

(** ** C81: opening a reader *)
(** metainfo.plist holds a dictionary that states a version the library knows *)
Definition statesVersion (C : codec) (t : node) (z : Z) : Prop :=
  exists b d w, fileAt t [u "metainfo.plist"] = Some b /\ loads C b = Ok (PDict d) /\
    dget (u "formatVersion") d = Some w /\ (w = PInt z \/ w = PBool true /\ z = 1%Z) /\ In z [1; 2; 3]%Z.
Definition hasVersionKey (C : codec) (t : node) : Prop :=
  forall b d, fileAt t [u "metainfo.plist"] = Some b -> loads C b = Ok (PDict d) -> dget (u "formatVersion") d <> None.
Theorem C81_version_partial : forall C t,
  (forall z, readMetaInfo C t true = Ok z <-> statesVersion C t z) /\
  (hasVersionKey C t -> forall e, readMetaInfo C t true = Err e -> e = UFOLibError).
Proof.
  intros C t.
  assert (G : forall v, getPlist C t nMetainfo None = Ok v <-> exists b, fileAt t [u "metainfo.plist"] = Some b /\ loads C b = Ok v).
  { intro v. unfold getPlist. rewrite getbytes_kind, kind_fileAt. fold nMetainfo. split.
    - destruct (kind t [nMetainfo]) as [[b|]|]; intro H; try discriminate H.
      exists b. split; [reflexivity|]. destruct (loads C b); [congruence|discriminate].
    - intros (b & F & L). destruct (kind t [nMetainfo]) as [[b'|]|]; try discriminate F. inversion F; subst. rewrite L. reflexivity. }
  split.
  - intro z. unfold readMetaInfo, statesVersion. split.
    + destruct (getPlist C t nMetainfo None) as [v|x] eqn:P; [|discriminate]. cbn [bind]. destruct (proj1 (G v) eq_refl) as (b & F & L).
      destruct v as [| | | | | | | | |d|]; try discriminate. cbn [is_dict negb andb]. destruct (dget (u "formatVersion") d) as [w|] eqn:D; [|discriminate].
      destruct w as [|bb|i| | | | | | | |]; try discriminate; cbn [andb negb].
      * destruct (mem (if bb then 1%Z else 0%Z) supported) eqn:M; [|discriminate]. intro H. inversion H; subst. apply mem_In in M.
        destruct bb; [|cbn in M; lia]. exists b, d, (PBool true). repeat split; auto.
      * destruct (mem i supported) eqn:M; [|discriminate]. intro H. inversion H; subst. apply mem_In in M. exists b, d, (PInt z). repeat split; auto.
    + intros (b & d & w & F & L & D & W & I). replace (getPlist C t nMetainfo None) with (Ok (PDict d) : res pyval) by (symmetry; apply G; eauto).
      cbn [bind is_dict negb andb]. rewrite D. apply mem_In in I. change (mem z supported = true) in I.
      destruct W as [->|[-> ->]]; [cbn [andb]; rewrite I; reflexivity|]. cbn [andb]. rewrite I. reflexivity.
  - intros K e. unfold readMetaInfo. destruct (getPlist C t nMetainfo None) as [v|x] eqn:P; cbn [bind].
    2:{ intro H. inversion H; subst. revert P. unfold getPlist. destruct (getbytes _ _) as [b|[]]; try (intro P; inversion P; reflexivity).
        destruct (loads C b); intro P; inversion P; reflexivity. }
    destruct (proj1 (G v) eq_refl) as (b & F & L).
    destruct v as [| | | | | | | | |d|]; try (intro H; inversion H; reflexivity). cbn [is_dict negb andb].
    specialize (K b d F L). destruct (dget (u "formatVersion") d) as [w|]; [|congruence].
    destruct w as [|bb|i| | | | | | | |]; try (intro H; inversion H; reflexivity); cbn [andb negb];
      match goal with |- context [mem ?a ?b] => destruct (mem a b) end; intro H; inversion H; reflexivity.
Qed.
Print Assumptions C81_version_partial.
(** a metainfo.plist without a version ends in a KeyError, also with validation *)
Theorem C81_version_refuted : forall C t b d, fileAt t [u "metainfo.plist"] = Some b -> loads C b = Ok (PDict d) ->
  dget (u "formatVersion") d = None -> forall validate, readMetaInfo C t validate = Err KeyError.
Proof.
  intros C t b d F L D validate. unfold readMetaInfo, getPlist. rewrite getbytes_kind. rewrite kind_fileAt in F. unfold nMetainfo.
  destruct (kind t [u "metainfo.plist"]) as [[b'|]|]; try discriminate F. inversion F; subst. rewrite L. cbn [bind is_dict negb]. rewrite andb_false_r, D. reflexivity.
Qed.
Print Assumptions C81_version_refuted.
(** below version 3 the reader hands out no images *)
Theorem C81_no_images : forall v t f validate, (v < 3)%Z ->
  readImage v t f validate = Err UFOLibError /\ getImageDirectoryListing v t validate = Ok [].
Proof. intros v t f validate L. apply Z.ltb_lt in L. unfold readImage, getImageDirectoryListing. rewrite L. split; reflexivity. Qed.
Print Assumptions C81_no_images.
Example C81_case : match dumps toy (PDict [(PStr (u "formatVersion"), PInt 2)]), dumps toy (PDict []) with
  | Ok b, Ok e => readMetaInfo toy (Dir [(u "metainfo.plist", File b)]) true = Ok 2%Z /\
                  readMetaInfo toy (Dir [(u "metainfo.plist", File e)]) true = Err KeyError /\ readMetaInfo toy (Dir []) true = Err UFOLibError
  | _, _ => False end.
Proof. vm_compute. repeat split. Qed.
