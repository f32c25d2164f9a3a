(** Property C90: file objects. *)
From Coq Require Import String NArith ZArith Bool Lia List.
From Verif Require Import Base PyVal FS FSProofs Ufo UfoProofs PropUfo PropUfoFiles FileObj.
Import ListNotations.
Local Open Scope string_scope.
Local Open Scope list_scope.

Lemma setbytes_err_kinds t p b e : setbytes t p b = FErr e -> e = FileExpected \/ e = ResourceNotFound.
Proof. intro H. apply setbytes_errs in H. tauto. Qed.
Lemma open_create t p m t' : m <> MRead -> (m = MAppend -> fileAt t p = None) -> fsOpen t p m = OOk t' -> setbytes t p [] = FOk t'.
Proof.
  intros N A H. unfold fsOpen in H. destruct m; [contradiction|..].
  - destruct (setbytes t p []) as [x|[]]; inversion H; reflexivity.
  - rewrite getbytes_kind in H. specialize (A eq_refl). rewrite kind_fileAt in A. destruct (kind t p) as [[b|]|]; [discriminate A|..];
      destruct (setbytes t p []) as [x|[]]; inversion H; reflexivity.
  - destruct (existsAt t p); [discriminate H|]. destruct (setbytes t p []) as [x|[]]; inversion H; reflexivity.
Qed.
Lemma open_notfound t p m : m <> MRead -> fsOpen t p m = ONotFound -> setbytes t p [] = FErr ResourceNotFound.
Proof.
  intros N H. unfold fsOpen in H. destruct m; [contradiction|..].
  - destruct (setbytes t p []) as [x|[]]; inversion H; reflexivity.
  - destruct (getbytes t p); [discriminate H|]; destruct (setbytes t p []) as [x|[]]; inversion H; reflexivity.
  - destruct (existsAt t p); [discriminate H|]. destruct (setbytes t p []) as [x|[]]; inversion H; reflexivity.
Qed.
Lemma below_file_None t ps t1 q : mkdirs ps t = Some t1 -> fileAt t q = None -> fileAt t1 q = None.
Proof.
  intros M F. rewrite kind_fileAt in *. rewrite (kind_mkdirs _ _ _ _ M). destruct (FSProofs.strip q ps); [reflexivity|exact F].
Qed.
(** opening a new or truncated file is like writing no bytes *)
Lemma object_bytes p m s s1 h cs : components p = Ok cs -> m <> MRead -> (m = MAppend -> fileAt (tree s) cs = None) ->
  getFileObjectForPath p m s = (s1, Ok h) -> h <> HError -> h = HFile cs /\ writeBytesToPath false p [] s = (s1, Ok tt).
Proof.
  intros Hc N A H He. unfold getFileObjectForPath, mbind at 1, lift in H. rewrite Hc in H. unfold mbind at 1, getTree in H.
  unfold writeBytesToPath, mbind at 1, lift. rewrite Hc. unfold mbind at 1, getTree. cbn [andb].
  destruct (fsOpen (tree s) cs m) as [t'| |] eqn:O.
  - apply open_create in O; [|assumption..]. rewrite O. assert (X : mbind (change (OWrite cs) t') (fun _ => ret (HFile cs)) s = (s1, Ok h)) by (destruct m; [contradiction|exact H..]).
    inversion X; subst. split; reflexivity.
  - apply open_notfound in O; [|assumption]. rewrite O.
    assert (X : mbind (lift (components (dirname p))) (fun ps => match makedirs (tree s) ps with FErr _ => raise FSError | FOk t1 =>
        let! _ := change (OMakedir ps) t1 in match fsOpen t1 cs m with OOk t2 => let! _ := change (OWrite cs) t2 in ret (HFile cs) | _ => raise FSError end end) s = (s1, Ok h)) by (destruct m; [contradiction|exact H..]).
    clear H. unfold mbind at 1, lift in X. unfold mbind at 1, lift. destruct (components (dirname p)) as [ps|]; [|discriminate X].
    destruct (makedirs (tree s) ps) as [t1|] eqn:Mk; [|discriminate X]. unfold mbind at 1 in X. cbn [change] in X. unfold mbind at 1, change.
    destruct (fsOpen t1 cs m) as [t2| |] eqn:O2; try discriminate X. apply open_create in O2; [|assumption|].
    + unfold fsSetbytes, mbind at 1, getTree. cbn [tree]. rewrite O2. inversion X; subst. split; reflexivity.
    + intro E. unfold makedirs in Mk. destruct (mkdirs ps (tree s)) as [x|] eqn:M; inversion Mk; subst. eapply below_file_None; [exact M|auto].
  - inversion H; subst. contradiction.
Qed.
Lemma hwrite_file cs data s old : fileAt (tree s) cs = Some old ->
  exists s', hwrite (HFile cs) data s = (s', Ok tt) /\ (forall q, kind (tree s') q = if eqb q cs then Some (Some (old ++ data)) else kind (tree s) q).
Proof.
  intro F. rewrite kind_fileAt in F. unfold hwrite, mbind, getTree. rewrite getbytes_kind. destruct (kind (tree s) cs) as [[b|]|] eqn:K; try discriminate F. injection F as ->.
  unfold fsSetbytes, mbind, getTree. destruct (setbytes (tree s) cs (old ++ data)) as [t'|e] eqn:B.
  - eexists. split; [reflexivity|]. intro q. cbn [tree]. rewrite (kind_setbytes _ _ _ _ q B). reflexivity.
  - exfalso. unfold setbytes in B. unfold kind in K. destruct (find (tree s) cs) as [n|] eqn:Fn; [|discriminate K].
    assert (P : forall p t n x, find t p = Some n -> exists t', put p x t = Some t').
    { clear. induction p as [|c p IH]; intros t n x F; [eexists; reflexivity|]. cbn [find] in F. destruct t as [b|es]; [discriminate F|].
      destruct (get c es) as [m|] eqn:G; [|discriminate F]. cbn [put]. destruct p; [eexists; reflexivity|]. rewrite G.
      destruct (IH m n x F) as (t' & E). rewrite E. eexists. reflexivity. }
    destruct (P cs (tree s) n (File (old ++ data)) Fn) as (t' & E). rewrite E in B. destruct n; [discriminate B|discriminate K].
Qed.

(** ** C90 *)
(** Writing data to a file object stores it after the old data in mode "a", alone in
    the other modes; "x" refuses paths where something is; no other file changes and
    only missing parents are made. *)
Theorem C90_file_objects_partial : forall p m s s1 h cs data, components p = Ok cs -> m <> MRead ->
  getFileObjectForPath p m s = (s1, Ok h) -> h <> HError ->
  exists s2, hwrite h data s1 = (s2, Ok tt) /\
  readBytesFromPath (tree s2) p = Ok (Some (match m, fileAt (tree s) cs with MAppend, Some old => old ++ data | _, _ => data end)) /\
  (m = MExclusive -> existsAt (tree s) cs = false) /\
  (forall q, q <> cs -> fileAt (tree s2) q = fileAt (tree s) q) /\
  (forall q, isdir (tree s2) q = true <-> isdir (tree s) q = true \/ (q <> cs /\ below q cs)).
Proof.
  intros p m s s1 h cs data Hc N H He.
  assert (Ex : m = MExclusive -> existsAt (tree s) cs = false).
  { intros ->. destruct (existsAt (tree s) cs) eqn:E; [|reflexivity]. exfalso. unfold getFileObjectForPath, mbind at 1, lift in H. rewrite Hc in H. unfold mbind at 1, getTree in H.
    unfold fsOpen in H. rewrite E in H. inversion H; subst. contradiction. }
  assert (D : (m = MAppend /\ exists old, fileAt (tree s) cs = Some old) \/ (m = MAppend -> fileAt (tree s) cs = None)).
  { destruct (fileAt (tree s) cs) as [old|]; [|auto]. destruct m; [contradiction|right; discriminate|left; eauto|right; discriminate]. }
  destruct D as [(-> & old & F)|A].
  - assert (X : h = HFile cs /\ tree s1 = tree s).
    { unfold getFileObjectForPath, mbind at 1, lift in H. rewrite Hc in H. unfold mbind at 1, getTree in H. unfold fsOpen in H. rewrite getbytes_kind in H.
      rewrite kind_fileAt in F. destruct (kind (tree s) cs) as [[b|]|]; try discriminate F. inversion H; subst. split; reflexivity. }
    destruct X as (-> & Et). rewrite <- Et in F |- *. destruct (hwrite_file cs data s1 old F) as (s2 & W & K). exists s2. split; [exact W|].
    split; [unfold readBytesFromPath; rewrite Hc; cbn [bind]; rewrite getbytes_kind, K, eqb_refl, F; reflexivity|]. split; [discriminate|]. split.
    + intros q Nq. rewrite !kind_fileAt, K. destruct (eqb_spec q cs); [contradiction|reflexivity].
    + intro q. rewrite !kind_isdir, K. destruct (eqb_spec q cs) as [->|Nq].
      * rewrite kind_fileAt in F. destruct (kind (tree s1) cs) as [[b|]|]; try discriminate F. split; [discriminate|]. intros [X|[X _]]; [discriminate X|contradiction].
      * split; [auto|]. intros [X|[_ (r & X)]]; [exact X|]. rewrite (kind_above (tree s1) q r); [reflexivity| |intros ->; rewrite app_nil_r in X; congruence].
        rewrite <- X. rewrite kind_fileAt in F. destruct (kind (tree s1) cs); [discriminate|discriminate F].
  - destruct (object_bytes p m s s1 h cs Hc N A H He) as (-> & W). destruct (C71_read_back false p [] s s1 cs Hc W) as (R & Fo & Di).
    assert (F1 : fileAt (tree s1) cs = Some []).
    { unfold readBytesFromPath in R. rewrite Hc in R. cbn [bind] in R. rewrite getbytes_kind in R. rewrite kind_fileAt. destruct (kind (tree s1) cs) as [[b|]|]; inversion R; reflexivity. }
    destruct (hwrite_file cs data s1 [] F1) as (s2 & W2 & K). exists s2. split; [exact W2|].
    split; [unfold readBytesFromPath; rewrite Hc; cbn [bind]; rewrite getbytes_kind, K, eqb_refl; destruct m; try reflexivity; rewrite (A eq_refl); reflexivity|].
    split; [exact Ex|]. split.
    + intros q Nq. rewrite <- (Fo q Nq), !kind_fileAt, K. destruct (eqb_spec q cs); [contradiction|reflexivity].
    + intro q. rewrite <- (Di q), !kind_isdir, K. destruct (eqb_spec q cs) as [->|Nq]; [|reflexivity].
      rewrite kind_fileAt in F1. destruct (kind (tree s1) cs) as [[b|]|]; try discriminate F1. reflexivity.
Qed.
Print Assumptions C90_file_objects_partial.
(** Mode "r" and the reader's method change nothing; they give a file object that
    reads the bytes of the file, and None exactly when nothing is at the path. *)
Theorem C90_reading : forall p s s1 h cs, components p = Ok cs -> getFileObjectForPath p MRead s = (s1, Ok h) ->
  s1 = s /\ (h = HNone <-> existsAt (tree s) cs = false) /\ (h = HError <-> isdir (tree s) cs = true) /\
  (forall b, readBytesFromPath (tree s) p = Ok (Some b) <-> h <> HNone /\ hread (tree s) h = Some b) /\
  (h <> HError -> getReadFileForPath (tree s) p = Ok h).
Proof.
  intros p s s1 h cs Hc H. unfold getFileObjectForPath, mbind at 1, lift in H. rewrite Hc in H. unfold mbind at 1, getTree in H.
  unfold getReadFileForPath, readBytesFromPath. rewrite Hc. cbn [bind]. unfold fsOpen in *. rewrite getbytes_kind in *. rewrite kind_exists, kind_isdir.
  destruct (kind (tree s) cs) as [[b|]|] eqn:K; inversion H; subst; (split; [reflexivity|]).
  - split; [split; discriminate|]. split; [split; discriminate|]. split; [|reflexivity]. intro b'. cbn [hread]. rewrite kind_fileAt, K.
    split; [intro X; inversion X; split; [discriminate|reflexivity]|intros (_ & X); inversion X; reflexivity].
  - split; [split; discriminate|]. split; [split; reflexivity|]. split; [|contradiction]. intro b'. split; [discriminate|]. intros (_ & X). discriminate X.
  - split; [split; reflexivity|]. split; [split; discriminate|]. split; [|reflexivity]. intro b'. split; [discriminate|]. intros (X & _). contradiction.
Qed.
Print Assumptions C90_reading.
(** An exception is returned, not raised, when a directory is at the path. *)
Theorem C90_returned_error_refuted : forall p m s cs, components p = Ok cs -> isdir (tree s) cs = true ->
  exists s1, getFileObjectForPath p m s = (s1, Ok HError).
Proof.
  intros p m s cs Hc D. unfold getFileObjectForPath, mbind at 1, lift. rewrite Hc. unfold mbind at 1, getTree. unfold fsOpen.
  rewrite getbytes_kind, kind_exists. unfold setbytes. rewrite kind_isdir in D. unfold kind in *. unfold isdir in D. destruct (find (tree s) cs) as [[b|es]|]; try discriminate D.
  cbn [option_map kindOf]. exists s. destruct m; reflexivity.
Qed.
Print Assumptions C90_returned_error_refuted.
Example C90_case :
  let s0 := newState (Dir [(u "data", Dir [(u "a", File (u "1"))])]) in
  let w p m d s := match getFileObjectForPath (u p) m s with (s1, Ok h) => match hwrite h (u d) s1 with (s2, Ok _) => tree s2 | _ => Dir [] end | _ => Dir [] end in
  w "data/a" MAppend "23" s0 = Dir [(u "data", Dir [(u "a", File (u "123"))])] /\
  w "data/a" MWrite "23" s0 = Dir [(u "data", Dir [(u "a", File (u "23"))])] /\
  w "data/b/c" MExclusive "x" s0 = Dir [(u "data", Dir [(u "a", File (u "1")); (u "b", Dir [(u "c", File (u "x"))])])] /\
  snd (getFileObjectForPath (u "data/a") MExclusive s0) = Ok HError /\
  getReadFileForPath (tree s0) (u "data/b") = Ok HNone /\ getReadFileForPath (tree s0) (u "data") = Err FSError.
Proof. vm_compute. repeat split. Qed.
