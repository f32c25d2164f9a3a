(** Property C114: the images of a UFO 3 behave like a dictionary. *)
From Coq Require Import String NArith ZArith Bool Lia List Permutation.
From Verif Require Import Base PyVal PyText LowerLaws Filenames FilenamesProofs FS FSProofs Validators ValidatorsProofs PropValidators Ufo UfoProofs ToyCodec PropUfo PropUfoFiles PropLayers FontProofs.
Import ListNotations.
Local Open Scope string_scope.
Local Open Scope list_scope.
Local Notation mbind := Ufo.mbind.
Local Notation lift := Ufo.lift.
Local Notation ret := Ufo.ret.
Local Notation raise := Ufo.raise.
Local Notation dict_ok := Base.dict_ok.
Local Notation find := FS.find.

(** * The statement *)
(** the images of a font in memory *)
Definition images := str -> option bytes.
Definition upd (m : images) (f : str) (v : option bytes) : images := fun g => if eqb g f then v else m g.
(** the UFO has these images; its image directory may be missing and holds nothing but files *)
Definition stores (s : ust) (m : images) : Prop :=
  exists es ies, tree s = Dir es /\ (get (u "images") es = None /\ ies = [] \/ get (u "images") es = Some (Dir ies)) /\ dict_ok ies /\
    (forall f n, get f ies = Some n -> exists b, n = File b) /\
    forall f, m f = match get f ies with Some (File b) => Some b | _ => None end.
(** the calls of a writer; [src] are the files of the reader of another UFO *)
Inductive imageCall :=
| IWrite (f : str) (data : bytes) (validate : bool)
| IRemove (f : str)
| ICopy (src : node) (f g : str).
Definition doImage (c : wcfg) (k : imageCall) : M unit :=
  match k with
  | IWrite f data v => writeImage c f data v
  | IRemove f => removeImage c f
  | ICopy src f g => copyImageFromReader c src f g
  end.
(** data begin with the signature of PNG files *)
Definition signed (data : bytes) : bool := eqb (firstn 8 data) [137; 80; 78; 71; 13; 10; 26; 10]%N.
(** what they do to the images in memory; None: the call is refused *)
Definition remember (m : images) (k : imageCall) : option images :=
  match k with
  | IWrite f data v => if v && negb (signed data) then None else Some (upd m f (Some data))
  | IRemove f => match m f with Some _ => Some (upd m f None) | None => None end
  | ICopy src f g => match fileAt src [u "images"; f], m g with Some b, None => Some (upd m g (Some b)) | _, _ => None end
  end.
(** file names, and no directory in place of the image to be copied *)
Definition plainCall (k : imageCall) : Prop :=
  match k with
  | IWrite f _ _ | IRemove f => plainName f
  | ICopy src f g => plainName f /\ plainName g /\ isdir src [u "images"; f] = false
  end.
(** nothing but the images is touched *)
Definition elsewhere (s s' : ust) : Prop := layers s' = layers s /\ forall x r, x <> u "images" -> find (tree s') (x :: r) = find (tree s) (x :: r).
(** a history; what a call raises is caught *)
Fixpoint runImages (c : wcfg) (ks : list imageCall) (s : ust) : ust := match ks with [] => s | k :: r => runImages c r (fst (doImage c k s)) end.
Fixpoint rememberAll (m : images) (ks : list imageCall) : images :=
  match ks with [] => m | k :: r => rememberAll (match remember m k with Some m' => m' | None => m end) r end.

(** * Proofs *)
Lemma Ok_eq {A} (a b : A) : Ok a = Ok b -> a = b.
Proof. intro H. injection H as ->. reflexivity. Qed.
Lemma png_iff b : pngValidator b = true <-> isPng b.
Proof. exact (C76_png_signature b). Qed.
Lemma elsewhere_es s s' es es' : layers s' = layers s -> tree s = Dir es -> tree s' = Dir es' -> (forall y, y <> u "images" -> get y es' = get y es) -> elsewhere s s'.
Proof. intros L E E' F. split; [exact L|]. intros x r N. rewrite E, E'. cbn [find]. rewrite (F x N). reflexivity. Qed.
Lemma at_images es ies g : get (u "images") es = None /\ ies = [] \/ get (u "images") es = Some (Dir ies) -> find (Dir es) [u "images"; g] = get g ies.
Proof. intro I. cbn [find]. destruct I as [(-> & ->)| ->]; [reflexivity|]. destruct (get g ies); reflexivity. Qed.
(** the images after one of them has been set *)
Lemma stores_set s m f b es es' ies s' : tree s = Dir es -> (get (u "images") es = None /\ ies = [] \/ get (u "images") es = Some (Dir ies)) -> dict_ok ies ->
  (forall f n, get f ies = Some n -> exists b, n = File b) -> (forall f, m f = match get f ies with Some (File b) => Some b | _ => None end) ->
  tree s' = Dir es' -> get (u "images") es' = Some (Dir (set f (File b) ies)) -> stores s' (upd m f (Some b)).
Proof.
  intros E I D Fl Mm E' G. exists es', (set f (File b) ies). split; [exact E'|]. split; [right; exact G|]. split; [apply dict_ok_set; exact D|]. split.
  - intros g n Gn. rewrite get_set in Gn. destruct (eqb_spec g f); [injection Gn as <-; eauto|eapply Fl; exact Gn].
  - intro g. unfold upd. rewrite get_set. destruct (eqb_spec g f); [reflexivity|apply Mm].
Qed.
Theorem C114_step : forall c k s m, ver c = 3%Z -> plainCall k -> stores s m ->
  match remember m k with
  | None => doImage c k s = (s, Err UFOLibError)
  | Some m' => exists s', doImage c k s = (s', Ok tt) /\ stores s' m' /\ elsewhere s s'
  end.
Proof.
  intros c k s m V P (es & ies & E & I & D & Fl & Mm). destruct k as [f b v|f|src f g]; cbn [plainCall remember doImage] in *.
  - unfold writeImage. rewrite V. change (3 <? 3)%Z with false. cbv iota. change (signed b) with (pngValidator b). destruct (v && negb (pngValidator b)); [reflexivity|].
    destruct (C71_write_succeeds (hp c) [u "images"; f] b s) as (s' & H).
    + exists es. exact E.
    + discriminate.
    + intros x [<-|[<-|[]]]; [exact images_plain|exact P].
    + unfold isdir. rewrite E, (at_images es ies f I). destruct (get f ies) as [[|]|] eqn:G; try reflexivity. destruct (Fl _ _ G) as (b' & X). discriminate X.
    + intros q (r & Eq) N. unfold isfile. rewrite E. destruct q as [|x q]; [reflexivity|]. pose proof (f_equal (hd []) Eq) as Ex. apply (f_equal (@tl _)) in Eq. cbn [app hd tl] in Ex, Eq. rewrite <- Ex in *. destruct q as [|y q]; [|exfalso; apply N; pose proof (f_equal (hd []) Eq) as Ey; apply (f_equal (@tl _)) in Eq; cbn [app hd tl] in Ey, Eq; rewrite <- Ey; symmetry in Eq; apply app_eq_nil in Eq as (-> & _); reflexivity].
      change (find (Dir es) [u "images"]) with (match get (u "images") es with Some n => find n [] | None => None end). destruct I as [(-> & _)| ->]; reflexivity.
    + change (join [slash] [u "images"; f]) with (imagePath f) in H. exists s'. split; [exact H|]. destruct (writeImage_es _ _ _ _ _ _ P E H) as (Ls & ies' & I' & es' & E' & G & F).
      assert (ies' = ies) as ->.
      { change nImages with (u "images") in I'. destruct I as [(I1 & ->)|I1], I' as [(I2 & ->)|I2]; try reflexivity; rewrite I1 in I2; try discriminate I2. injection I2 as ->. reflexivity. }
      split; [exact (stores_set s m f b es es' ies s' E I D Fl Mm E' G)|exact (elsewhere_es s s' es es' Ls E E' F)].
  - unfold removeImage. rewrite V. change (3 <? 3)%Z with false. cbv iota. pose proof (imagePath_components f P) as Cf. pose proof (images_dirname f P) as Cd. rewrite Mm.
    assert (At : find (tree s) [nImages; f] = get f ies) by (rewrite E; exact (at_images es ies f I)).
    destruct (get f ies) as [[b|ds]|] eqn:G.
    + destruct I as [(_ & ->)|I]; [discriminate G|].
      assert (X : exists s', removePath (imagePath f) false true s = (s', Ok tt)).
      { unfold removePath. unfold mbind at 1, lift at 1. rewrite Cf. unfold mbind at 1, getTree. unfold remove. rewrite At. unfold mbind at 1, change at 1.
        assert (Dn : exists c r, dirname (imagePath f) = c :: r).
        { change (imagePath f) with (join [slash] ([nImages] ++ [f])). rewrite dirname_join; [eexists _, _; reflexivity|discriminate|]. intros x J. cbn in J. destruct J as [<-|[<-|[]]]; [exact images_plain|exact P]. }
        destruct Dn as (c0 & r & Dn). rewrite Dn in Cd |- *. unfold mbind at 1, lift at 1. rewrite Cd. unfold mbind at 1, getTree. rewrite E. cbn [tree cut]. change nImages with (u "images"). rewrite I.
        cbn [rev app]. unfold removeEmpty, removedir. cbn [rev app find]. rewrite get_set_same. destruct (filter _ ies); unfold mbind, change, ret; eexists; reflexivity. }
      destruct X as (s' & H). exists s'. split; [exact H|]. destruct (removeImage_es f s s' es P E) as (Ls & ies' & b' & G1 & G2 & es' & E' & F & G'); [|exact H|].
      { intros ies' ds I' X. change nImages with (u "images") in I'. rewrite I in I'. injection I' as <-. rewrite G in X. discriminate X. }
      change nImages with (u "images") in G1, G'. rewrite I in G1. injection G1 as <-. split; [|exact (elsewhere_es s s' es es' Ls E E' F)].
      assert (Gf : forall g, get g (filter (fun e => negb (eqb f (fst e))) ies) = if eqb f g then None else get g ies) by (intro g; apply get_filter_name).
      exists es', (filter (fun e => negb (eqb f (fst e))) ies). split; [exact E'|]. split; [destruct (filter _ ies); [left; split; [exact G'|reflexivity]|right; exact G']|]. split.
      * clear -D. unfold Base.dict_ok, keys in *. induction ies as [|[k x] l IH]; [apply NoDup_nil|]. cbn [map fst filter] in *. inversion D as [|? ? N D']; subst. specialize (IH D'). destruct (negb (eqb f k)); [|exact IH]. cbn [map fst]. apply NoDup_cons; [|exact IH].
        intro J. apply N. apply in_map_iff in J as (p & Ep & J). apply filter_In in J as (J & _). apply in_map_iff. exists p. auto.
      * split; [intros g n; rewrite Gf; destruct (eqb f g); [discriminate|apply Fl]|]. intro g. unfold upd. rewrite Gf, Mm. destruct (eqb_spec g f) as [->|N]; [rewrite eqb_refl; reflexivity|]. destruct (eqb_spec f g) as [Q|]; [congruence|reflexivity].
    + destruct (Fl _ _ G) as (b' & X). discriminate X.
    + unfold removePath. unfold mbind at 1, lift at 1. rewrite Cf. unfold mbind at 1, getTree. unfold remove. rewrite At. reflexivity.
  - destruct P as (Pf & Pg & Nd). unfold copyImageFromReader. rewrite V. change (3 <? 3)%Z with false. cbv iota. pose proof (imagePath_components f Pf) as Cf. pose proof (imagePath_components g Pg) as Cg. pose proof (images_dirname g Pg) as Cd.
    assert (At : find (tree s) [nImages; g] = get g ies) by (rewrite E; exact (at_images es ies g I)).
    unfold fileAt. change nImages with (u "images") in *. unfold isdir in Nd. destruct (find src [u "images"; f]) as [[b|ds]|] eqn:Fs; [|discriminate Nd|unfold copyFromReader, mbind, lift; rewrite Cf, Fs; reflexivity].
    rewrite Mm. destruct (get g ies) as [[b'|ds]|] eqn:G; [unfold copyFromReader, mbind, lift; rewrite Cf, Fs, Cg; unfold getTree, existsAt; rewrite At; reflexivity|destruct (Fl _ _ G) as (b' & X); discriminate X|].
    unfold copyFromReader, mbind at 1, lift at 1. rewrite Cf, Fs. unfold mbind at 1, lift at 1. rewrite Cg. unfold mbind at 1, getTree. unfold existsAt. rewrite At.
    unfold mbind at 1, lift at 1. rewrite Cd. unfold makedirs. rewrite E.
    assert (Mk : exists es1, mkdirs [u "images"] (Dir es) = Some (Dir es1) /\ get (u "images") es1 = Some (Dir ies) /\ forall y, y <> u "images" -> get y es1 = get y es).
    { cbn [mkdirs]. destruct I as [(I1 & ->)|I1]; rewrite I1; (eexists; split; [reflexivity|]; split; [apply get_set_same|intros; apply get_set_other; assumption]). }
    destruct Mk as (es1 & Mk & G1 & F1). rewrite Mk. unfold mbind, change at 1. rewrite (at_images es1 ies g (or_intror G1)), G. cbn [put]. rewrite G1. unfold change. eexists. split; [reflexivity|]. split.
    + eapply (stores_set s m g b es (set (u "images") (Dir (set g (File b) ies)) es1) ies); try eassumption; [reflexivity|apply get_set_same].
    + eapply (elsewhere_es _ _ es (set (u "images") (Dir (set g (File b) ies)) es1)); [reflexivity|exact E|reflexivity|]. intros y N. rewrite get_set_other by exact N. apply F1. exact N.
Qed.
(** the reader finds the images *)
Theorem C114_found : forall s m, stores s m ->
  (forall v, exists l, getImageDirectoryListing 3 (tree s) v = Ok l /\ NoDup l /\ forall f, In f l <-> exists b, m f = Some b /\ (v = true -> isPng b)) /\
  (forall f v b, plainName f -> (readImage 3 (tree s) f v = Ok b <-> m f = Some b /\ (v = true -> isPng b))).
Proof.
  intros s m (es & ies & E & I & D & Fl & Mm). split.
  - intro v. unfold getImageDirectoryListing. change (3 <? 3)%Z with false. cbv iota. rewrite E. change nImages with (u "images").
    set (keep := fun e : str * node => let '(_, n) := e in match n with Dir _ => false | File b => negb v || pngValidator b end).
    exists (map fst (filter keep ies)). split; [destruct I as [(I1 & ->)|I1]; cbn [find]; rewrite I1; reflexivity|]. split.
    + clear -D. unfold Base.dict_ok, keys in D. induction ies as [|[k x] l IH]; [apply NoDup_nil|]. cbn [map fst filter] in *. inversion D as [|? ? N D']; subst. specialize (IH D'). destruct (keep (k, x)); [|exact IH]. cbn [map fst]. apply NoDup_cons; [|exact IH].
      intro J. apply N. apply in_map_iff in J as (p & Ep & J). apply filter_In in J as (J & _). apply in_map_iff. exists p. auto.
    + intro f. rewrite in_map_iff. split.
      * intros ([f' n] & Ef & J). cbn [fst] in Ef. subst f'. apply filter_In in J as (J & K). apply In_get in J; [|exact D]. destruct (Fl _ _ J) as (b & ->). exists b. rewrite Mm, J. split; [reflexivity|]. intros ->. cbn in K. apply png_iff. exact K.
      * intros (b & Mf & Pn). rewrite Mm in Mf. destruct (get f ies) as [[b'|]|] eqn:G; try discriminate Mf. injection Mf as ->. exists (f, File b). split; [reflexivity|]. apply filter_In. split; [apply get_In; exact G|]. cbn. destruct v; [apply png_iff; apply Pn; reflexivity|reflexivity].
  - intros f v b P. unfold readImage. change (3 <? 3)%Z with false. cbv iota. rewrite E. change nImages with (u "images"). destruct I as [(I1 & ->)|I1]; cbn [find]; rewrite I1.
    + split; [discriminate|]. intros (X & _). rewrite Mm in X. discriminate X.
    + rewrite (components_plain _ P). cbn [bind]. unfold getbytes. cbn [find]. rewrite Mm. destruct (get f ies) as [[b'|ds]|] eqn:G; [|destruct (Fl _ _ G) as (b' & X); discriminate X|split; [discriminate|intros (X & _); discriminate X]].
      cbn [find]. destruct v; cbn [andb negb].
      * destruct (pngValidator b') eqn:Pn; cbn [negb]; split.
        -- intro X. apply Ok_eq in X. subst b'. split; [reflexivity|]. intros _. apply png_iff. exact Pn.
        -- intros (X & _). injection X as ->. reflexivity.
        -- discriminate.
        -- intros (X & Y). injection X as ->. apply png_iff in Y; [|reflexivity]. congruence.
      * split; [intro X; apply Ok_eq in X; subst b'; split; [reflexivity|discriminate]|intros (X & _); injection X as ->; reflexivity].
Qed.
Theorem C114_histories : forall c ks s m, ver c = 3%Z -> Forall plainCall ks -> stores s m -> stores (runImages c ks s) (rememberAll m ks) /\ elsewhere s (runImages c ks s).
Proof.
  intros c ks. induction ks as [|k ks IH]; intros s m V P St; [split; [exact St|split; reflexivity]|]. inversion P as [|? ? P1 P2]; subst. cbn [runImages rememberAll]. pose proof (C114_step c k s m V P1 St) as X. destruct (remember m k) as [m'|].
  - destruct X as (s' & -> & S' & (L & F)). cbn [fst]. destruct (IH s' m' V P2 S') as (A & (L' & F')). split; [exact A|]. split; [congruence|]. intros x r N. rewrite F', F by exact N. reflexivity.
  - rewrite X. apply IH; assumption.
Qed.
Print Assumptions C114_step.
Print Assumptions C114_found.
Print Assumptions C114_histories.
Example C114_case :
  let png x := [137; 80; 78; 71; 13; 10; 26; 10; x]%N in let src := Dir [(u "images", Dir [(u "a", File (png 3%N)); (u "b", File [1%N])])] in
  let ks := [IWrite (u "x") (png 1%N) true; IWrite (u "y") [2%N] true; IWrite (u "x") (png 2%N) true; ICopy src (u "a") (u "x"); ICopy src (u "a") (u "z"); ICopy src (u "b") (u "b"); IRemove (u "x"); IRemove (u "x")] in
  let s := newState (Dir [(u "lib.plist", File [])]) in let c := mkCfg 3 false PNone in
  stores s (fun _ => None) /\ Forall plainCall ks /\
  tree (runImages c ks s) = Dir [(u "lib.plist", File []); (u "images", Dir [(u "z", File (png 3%N)); (u "b", File [1%N])])] /\
  getImageDirectoryListing 3 (tree (runImages c ks s)) true = Ok [u "z"] /\
  tree (runImages c (ks ++ [IRemove (u "z"); IRemove (u "b")]) s) = Dir [(u "lib.plist", File [])].
Proof.
  cbv zeta. split; [eexists _, []; split; [reflexivity|]; split; [left; split; reflexivity|]; split; [apply NoDup_nil|]; split; [intros f n X; discriminate X|reflexivity]|]. split; [|vm_compute; auto].
  assert (A : plainName (u "a") /\ plainName (u "b") /\ plainName (u "x") /\ plainName (u "y") /\ plainName (u "z")) by (repeat split; try discriminate; vm_compute; intuition discriminate).
  destruct A as (A1 & A2 & A3 & A4 & A5). repeat (apply Forall_cons; [cbn [plainCall]; auto|]). apply Forall_nil.
Qed.
