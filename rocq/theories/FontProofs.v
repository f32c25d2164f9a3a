(** Lemmas about the model of a whole font (Font.v): what each call does to the
    top level of the file system. *)
From Coq Require Import String NArith ZArith Bool Lia List Permutation.
From Coq.Floats Require Import SpecFloat.
From Verif Require Import Base PyVal PyText LowerLaws Filenames FilenamesProofs FS FSProofs GlyphSet GlyphSetProofs Ufo UfoProofs PropUfo PropUfoFiles PropLayers Font.
Import ListNotations.
Local Open Scope string_scope.
Local Open Scope list_scope.
Local Notation mbind := Ufo.mbind.
Local Notation lift := Ufo.lift.
Local Notation ret := Ufo.ret.
Local Notation raise := Ufo.raise.
Local Notation fsSetbytes := Ufo.fsSetbytes.

(** ** Directories that hold only files *)
Definition files (d : dirT) : list (str * node) := map (fun '(f, b) => (f, File b)) d.
Lemma get_files f d : get f (files d) = option_map File (get f d).
Proof. induction d as [|[g b] d IH]; [reflexivity|]. cbn [files map get]. destruct (eqb f g); [reflexivity|exact IH]. Qed.
Lemma set_files f b d : set f (File b) (files d) = files (set f b d).
Proof. induction d as [|[g x] d IH]; [reflexivity|]. cbn [files map set]. destruct (eqb f g); [reflexivity|]. cbn [files map]. f_equal. exact IH. Qed.
Lemma filter_files f d : filter (fun e : str * node => negb (eqb f (fst e))) (files d) = files (filter (fun e => negb (eqb f (fst e))) d).
Proof. induction d as [|[g x] d IH]; [reflexivity|]. cbn [files map filter fst]. destruct (eqb f g); cbn [negb]; [exact IH|]. cbn [files map]. f_equal. exact IH. Qed.
Lemma filesIn_files d : filesIn (Dir (files d)) = d.
Proof. induction d as [|[g x] d IH]; [reflexivity|]. unfold filesIn in *. cbn [entries files map flat_map app] in *. f_equal. exact IH. Qed.
Lemma no_dirs d : filter (fun '(_, m) => match m with Dir _ => true | File _ => false end) (files d) = [].
Proof. induction d as [|[g x] d IH]; [reflexivity|exact IH]. Qed.
Lemma withFiles_files d d' : withFiles (Dir (files d)) d' = Dir (files d').
Proof. unfold withFiles. cbn [entries]. rewrite no_dirs, app_nil_r. reflexivity. Qed.
Lemma keys_files d : keys (files d) = keys d.
Proof. unfold keys, files. rewrite map_map. apply map_ext. intros []. reflexivity. Qed.
Lemma dict_ok_filter {A} (p : str * A -> bool) (l : list (str * A)) : dict_ok l -> dict_ok (filter p l).
Proof.
  unfold dict_ok, keys. induction l as [|[k v] l IH]; intro D; [constructor|]. inversion D as [|? ? N D']; subst. cbn [filter].
  destruct (p (k, v)); [|apply IH; exact D']. cbn [map fst]. constructor; [|apply IH; exact D']. intro I. apply N.
  apply in_map_iff in I as (x & E & I). apply filter_In in I as [I _]. apply in_map_iff. exists x. auto.
Qed.
Lemma get_filter_name {A} f g (l : list (str * A)) : get g (filter (fun e => negb (eqb f (fst e))) l) = if eqb f g then None else get g l.
Proof.
  induction l as [|[k v] l IH]; cbn [filter fst get]; [destruct (eqb f g); reflexivity|]. destruct (eqb_spec f k) as [->|N]; cbn [negb get].
  - rewrite IH. destruct (eqb_spec k g) as [->|N']; [reflexivity|]. destruct (eqb_spec g k); [congruence|reflexivity].
  - rewrite IH. destruct (eqb_spec g k) as [->|N']; [|reflexivity]. destruct (eqb_spec f k); [congruence|reflexivity].
Qed.
Lemma set_twice {A} (k : str) (v w : A) l : set k v (set k w l) = set k v l.
Proof. induction l as [|[k' x] l IH]; cbn [set]; [rewrite eqb_refl; reflexivity|]. destruct (eqb_spec k k') as [->|N]; cbn [set]; [rewrite eqb_refl; reflexivity|]. destruct (eqb_spec k k'); [congruence|]. rewrite IH. reflexivity. Qed.

(** ** The top level of the file system *)
Lemma find_top es x : find (Dir es) [x] = get x es.
Proof. cbn [find]. destruct (get x es); reflexivity. Qed.
(** only the entry [x] is changed *)
Definition touches (x : str) (s s' : ust) : Prop :=
  layers s' = layers s /\ forall es, tree s = Dir es -> exists es', tree s' = Dir es' /\ forall y, y <> x -> get y es' = get y es.
Lemma touches_refl x s : touches x s s.
Proof. split; [reflexivity|]. intros es E. exists es. auto. Qed.

Lemma setbytes_es es x b t : setbytes (Dir es) [x] b = FOk t -> t = Dir (set x (File b) es).
Proof. unfold setbytes. destruct (find (Dir es) [x]) as [[|]|]; cbn [put]; congruence. Qed.
Lemma fsSetbytes_es es x b s s' : tree s = Dir es -> fsSetbytes [x] b s = (s', Ok tt) -> tree s' = Dir (set x (File b) es) /\ layers s' = layers s.
Proof. intros E H. apply fsSetbytes_spec in H as [(t & S & -> & _)|(e & _ & _ & H)]; [|discriminate H]. rewrite E in S. apply setbytes_es in S. subst t. auto. Qed.
Lemma writePlist_es C prev x v s s' es : tree s = Dir es -> writePlist C prev x v s = (s', Ok tt) ->
  exists b, dumps C v = Ok b /\ tree s' = Dir (set x (File b) es) /\ layers s' = layers s.
Proof.
  intros E H. unfold writePlist in H. destruct prev.
  - unfold mbind, lift, dumpsU, getTree in H. destruct (dumps C v) as [b|e]; [|discriminate H]. exists b. split; [reflexivity|].
    unfold existsAt, getbytes in H. rewrite E, find_top in H. destruct (get x es) as [[old|ds]|] eqn:G.
    + destruct (eqb_spec b old) as [->|N].
      * assert (s' = s) as -> by (apply (f_equal fst) in H; symmetry; exact H). rewrite (set_get_id _ _ _ G). auto.
      * apply (fsSetbytes_es es) in H; assumption.
    + discriminate H.
    + apply (fsSetbytes_es es) in H; assumption.
  - unfold mbind at 1 in H. destruct (fsSetbytes [x] [] s) as [s1 [[]|e]] eqn:E1; [|discriminate H]. apply (fsSetbytes_es es) in E1 as [T1 L1]; [|exact E].
    unfold mbind, lift, dumpsU in H. destruct (dumps C v) as [b|e]; [|discriminate H]. exists b. split; [reflexivity|].
    apply (fsSetbytes_es _ _ _ _ _ T1) in H as [T2 L2]. rewrite set_twice in T2. rewrite L2. auto.
Qed.
Lemma writePlist_layers C prev x v s s' r : writePlist C prev x v s = (s', r) -> layers s' = layers s.
Proof. intro H. apply writePlist_same in H. apply H. Qed.
Lemma writePlist_touches C prev x v s s' : writePlist C prev x v s = (s', Ok tt) -> touches x s s'.
Proof.
  intro H. split; [eapply writePlist_layers; exact H|]. intros es E. destruct (writePlist_es C prev x v s s' es E H) as (b & _ & -> & _).
  eexists. split; [reflexivity|]. intros y N. apply get_set_other. exact N.
Qed.
Lemma removePath_es x s s' es : plainName x -> tree s = Dir es -> removePath x true false s = (s', Ok tt) ->
  layers s' = layers s /\ tree s' = Dir (filter (fun e => negb (eqb x (fst e))) es).
Proof.
  intros P E H. apply removePath_top in H as (L & _ & H); [|exact P|exists es; exact E]. split; [exact L|].
  unfold kind in H. rewrite E, find_top in H. destruct (get x es) as [n|] eqn:G; cbn [option_map] in H.
  - destruct H as (_ & -> & _). reflexivity.
  - destruct H as (-> & _). rewrite E. f_equal. clear -G. induction es as [|[k v] es IH]; [reflexivity|]. cbn [get filter fst] in *. destruct (eqb_spec x k); [discriminate G|]. cbn [negb]. f_equal. apply IH. exact G.
Qed.
Lemma removePath_touches x s s' : plainName x -> removePath x true false s = (s', Ok tt) -> touches x s s'.
Proof.
  intros P H. split; [eapply removePath_layers; exact H|]. intros es E. destruct (removePath_es x s s' es P E H) as [_ ->]. eexists. split; [reflexivity|].
  intros y N. rewrite get_filter_name. destruct (eqb_spec x y); [congruence|reflexivity].
Qed.
Lemma removePath_gone x s s' es : plainName x -> tree s = Dir es -> removePath x true false s = (s', Ok tt) -> find (tree s') [x] = None.
Proof. intros P E H. destruct (removePath_es x s s' es P E H) as [_ ->]. rewrite find_top, get_filter_name, eqb_refl. reflexivity. Qed.

Lemma writeBytes_es prev x b s s' es : plainName x -> tree s = Dir es -> writeBytesToPath prev x b s = (s', Ok tt) ->
  layers s' = layers s /\ tree s' = Dir (set x (File b) es).
Proof.
  intros P E H. unfold writeBytesToPath in H. unfold mbind at 1, lift at 1 in H. rewrite (components_plain _ P) in H. unfold mbind at 1, getTree in H.
  destruct (prev && _) eqn:Sm.
  - apply andb_prop in Sm as [_ Sm]. unfold getbytes in Sm. rewrite E, find_top in Sm. destruct (get x es) as [[old|]|] eqn:G; try discriminate Sm.
    destruct (eqb_spec b old) as [->|]; [|discriminate Sm]. assert (s' = s) as -> by (apply (f_equal fst) in H; symmetry; exact H). rewrite (set_get_id _ _ _ G). auto.
  - rewrite E in H. destruct (setbytes (Dir es) [x] b) as [t|e] eqn:S.
    + apply setbytes_es in S. subst t. assert (s' = mkUst (Dir (set x (File b) es)) (Ufo.log s ++ [OWrite [x]]) (layers s) (remap s)) as -> by (apply (f_equal fst) in H; symmetry; exact H). auto.
    + unfold setbytes in S. rewrite find_top in S. cbn [put] in S. destruct (get x es) as [[|]|]; try discriminate S. inversion S; subst e. discriminate H.
Qed.

(** ** Images *)
Lemma images_plain : plainName nImages.
Proof. repeat split; try (vm_compute; discriminate). vm_compute. intuition discriminate. Qed.
Lemma images_dirname f : plainName f -> components (dirname (imagePath f)) = Ok [nImages].
Proof.
  intro P. change (imagePath f) with (join [slash] ([nImages] ++ [f])). rewrite dirname_join.
  - apply components_plain. exact images_plain.
  - discriminate.
  - intros x I. cbn in I. destruct I as [<-|[<-|[]]]; [exact images_plain|exact P].
Qed.
Lemma writeImage_es prev f b s s' es : plainName f -> tree s = Dir es -> writeBytesToPath prev (imagePath f) b s = (s', Ok tt) ->
  layers s' = layers s /\ exists ies, (get nImages es = None /\ ies = [] \/ get nImages es = Some (Dir ies)) /\
  exists es', tree s' = Dir es' /\ get nImages es' = Some (Dir (set f (File b) ies)) /\ forall y, y <> nImages -> get y es' = get y es.
Proof.
  intros P E H. unfold writeBytesToPath in H. unfold mbind at 1, lift at 1 in H. rewrite (imagePath_components f P) in H. unfold mbind at 1, getTree in H.
  destruct (prev && _) eqn:Sm.
  - apply andb_prop in Sm as [_ Sm]. unfold getbytes in Sm. rewrite E in Sm. cbn [find] in Sm. destruct (get nImages es) as [[|ies]|] eqn:G; try discriminate Sm.
    destruct (get f ies) as [[old|]|] eqn:Gf; try discriminate Sm. destruct (eqb_spec b old) as [->|]; [|discriminate Sm].
    assert (s' = s) as -> by (apply (f_equal fst) in H; symmetry; exact H). split; [reflexivity|]. exists ies. split; [right; reflexivity|]. exists es. rewrite (set_get_id _ _ _ Gf). auto.
  - rewrite E in H. unfold setbytes in H. cbn [find put] in H. destruct (get nImages es) as [[x|ies]|] eqn:G.
    + unfold mbind at 1, lift at 1 in H. rewrite (images_dirname f P) in H. unfold makedirs in H. cbn [mkdirs] in H. rewrite G in H. discriminate H.
    + destruct (get f ies) as [[old|ds]|] eqn:Gf; [|discriminate H|];
        (apply (f_equal fst) in H; cbn [change fst] in H; subst s'; split; [reflexivity|]; exists ies; split; [right; reflexivity|]; cbn [tree]; eexists; split; [reflexivity|]; split; [apply get_set_same|intros; apply get_set_other; assumption]).
    + unfold mbind at 1, lift at 1 in H. rewrite (images_dirname f P) in H. unfold makedirs in H. cbn [mkdirs] in H. rewrite G in H.
      unfold mbind, change in H. apply fsSetbytes_spec in H as [(t & S & -> & _)|(e & _ & _ & H)]; [|discriminate H]. cbn [tree] in S. cbn [layers]. split; [reflexivity|]. exists []. split; [left; auto|].
      unfold setbytes in S. cbn [find put] in S. rewrite get_set_same in S. cbn [get set] in S. inversion S; subst t. cbn [tree]. eexists. split; [reflexivity|].
      split; [apply get_set_same|]. intros y N. rewrite !get_set_other by exact N. reflexivity.
Qed.
Lemma removeImage_es f s s' es : plainName f -> tree s = Dir es -> (forall ies ds, get nImages es = Some (Dir ies) -> get f ies <> Some (Dir ds)) ->
  removePath (imagePath f) false true s = (s', Ok tt) ->
  layers s' = layers s /\ exists ies b, get nImages es = Some (Dir ies) /\ get f ies = Some (File b) /\
  exists es', tree s' = Dir es' /\ (forall y, y <> nImages -> get y es' = get y es) /\
  get nImages es' = match filter (fun e => negb (eqb f (fst e))) ies with [] => None | l => Some (Dir l) end.
Proof.
  intros P E ND H. split; [eapply removePath_layers; exact H|]. unfold removePath in H. unfold mbind at 1, lift at 1 in H. rewrite (imagePath_components f P) in H. unfold mbind at 1, getTree in H.
  unfold remove, removetree in H. rewrite E in H. cbn [find] in H. destruct (get nImages es) as [[x|ies]|] eqn:G; [discriminate H| |discriminate H].
  destruct (get f ies) as [[b|ds]|] eqn:Gf; [|destruct (ND ies ds eq_refl Gf)|discriminate H]. exists ies, b. split; [reflexivity|]. split; [exact Gf|].
  unfold mbind at 1, change in H.
  assert (Dn : exists c r, dirname (imagePath f) = c :: r).
  { change (imagePath f) with (join [slash] ([nImages] ++ [f])). rewrite dirname_join; [eexists _, _; reflexivity|discriminate|]. intros x I. cbn in I. destruct I as [<-|[<-|[]]]; [exact images_plain|exact P]. }
  destruct Dn as (c & r & Dn). pose proof (images_dirname f P) as Cd. rewrite Dn in H, Cd. unfold mbind at 1, lift at 1 in H. rewrite Cd in H. unfold mbind at 1, getTree in H. cbn [tree cut] in H. rewrite G in H.
  cbn [rev app] in H. unfold removeEmpty, removedir in H. cbn [rev app find] in H. rewrite get_set_same in H.
  destruct (filter (fun e => negb (eqb f (fst e))) ies) as [|e l] eqn:Fl; unfold mbind in H; apply (f_equal fst) in H; cbn [fst] in H; subst s'; cbn [tree].
  - cbn [cut]. eexists. split; [reflexivity|]. split; [|rewrite get_filter_name, eqb_refl; reflexivity]. intros y N. rewrite get_filter_name. destruct (eqb_spec nImages y); [congruence|]. apply get_set_other. exact N.
  - eexists. split; [reflexivity|]. split; [|apply get_set_same]. intros y N. apply get_set_other. exact N.
Qed.

(** ** Layers *)
Lemma makedir_es es d s s' : tree s = Dir es -> fsMakedir [d] s = (s', Ok tt) ->
  (exists ds, get d es = Some (Dir ds) /\ tree s' = Dir es) \/ (get d es = None /\ tree s' = Dir (set d (Dir []) es)).
Proof.
  intros E H. unfold fsMakedir, mbind, getTree in H. unfold makedir, existsAt in H. rewrite E, find_top in H. destruct (get d es) as [[b|ds]|].
  - discriminate H.
  - left. exists ds. split; [reflexivity|]. apply (f_equal (fun x => tree (fst x))) in H. cbn [fst ret] in H. rewrite <- H. exact E.
  - right. split; [reflexivity|]. cbn [put] in H. apply (f_equal (fun x => tree (fst x))) in H. symmetry. exact H.
Qed.
Lemma merge_empty es : dict_ok es -> merge (Dir es) (Dir []) = Some (Dir es).
Proof.
  intro D. cbn [merge].
  assert (G : forall l ds, dict_ok (ds ++ l) -> (fix go (es ds : list (str * node)) : option node :=
     match es with [] => Some (Dir ds) | (k, n) :: r => match get k ds with None => go r (set k n ds) | Some m => match merge n m with Some m' => go r (set k m' ds) | None => None end end end) l ds = Some (Dir (ds ++ l))).
  { induction l as [|[k n] l IH]; intros ds Dd; [rewrite app_nil_r; reflexivity|].
    assert (N : get k ds = None).
    { apply get_None. unfold dict_ok, keys in Dd. rewrite map_app in Dd. cbn [map fst] in Dd. apply NoDup_remove_2 in Dd. intro I. apply Dd. apply in_or_app. left. exact I. }
    rewrite N. replace (set k n ds) with (ds ++ [(k, n)]).
    - rewrite IH; rewrite <- app_assoc; [reflexivity|exact Dd].
    - clear -N. induction ds as [|[k' v] ds IH]; [reflexivity|]. cbn [get set app] in *. destruct (eqb_spec k k'); [discriminate N|]. f_equal. apply IH. exact N. }
  apply (G es []). exact D.
Qed.
Lemma movedir_es es old d ds t : get old es = Some (Dir ds) -> dict_ok ds -> get d es = None -> old <> d -> movedir (Dir es) [old] [d] = (t, None) ->
  exists es', t = Dir es' /\ get d es' = Some (Dir ds) /\ get old es' = None /\ forall y, y <> d -> y <> old -> get y es' = get y es.
Proof.
  intros G D N Ne H. unfold movedir, makedir in H. rewrite find_top, N in H. cbn [put] in H.
  rewrite !find_top in H. rewrite get_set_same in H. rewrite get_set_other in H by exact Ne. rewrite G in H. rewrite (merge_empty ds D) in H. cbn [put cut] in H.
  apply (f_equal fst) in H. cbn [fst] in H. subst t. eexists. split; [reflexivity|]. split; [|split].
  - rewrite get_filter_name. destruct (eqb_spec old d); [contradiction|]. apply get_set_same.
  - rewrite get_filter_name, eqb_refl. reflexivity.
  - intros y N1 N2. rewrite get_filter_name. destruct (eqb_spec old y); [congruence|]. rewrite !get_set_other by exact N1. reflexivity.
Qed.
(** renaming, when it succeeds *)
Lemma rename_ok lower c n b df s s' : ver c = 3%Z -> renameGlyphSet lower c (Some n) (Some b) df s = (s', Ok tt) ->
  (n = b /\ s' = s /\ exists d, get n (layers s) = Some d /\ (d = u "glyphs" <-> df = true)) \/
  exists old d, get n (layers s) = Some old /\ renamed lower (layers s) n (Some b) df b old d /\ layers s' = set b d (del n (layers s)) /\
    exists src dst, components old = Ok src /\ components d = Ok dst /\ movedir (tree s) src dst = (tree s', None).
Proof.
  intros V H. unfold renameGlyphSet in H. rewrite V in H. change (3 <? 3)%Z with false in H. cbv iota in H. unfold mbind at 1, getLayers in H.
  assert (Rest : forall d, (if df then d = u "glyphs" else newDirectory lower b (layers s) = Ok d) -> (forall old, get n (layers s) = Some old -> renamed lower (layers s) n (Some b) df b old d) ->
    (let! oldDirectory := lift (findDirectory (layers s) (Some n)) in
     if has n (layers s) then
      let! _ := setLayers (set b d (del n (layers s))) in
      let! src := lift (components oldDirectory) in
      let! dst := lift (components d) in
      let! t := getTree in
      let '(t', e) := movedir t src dst in
      let! _ := change (OMove src dst) t' in
      match e with None => ret tt | Some _ => raise FSError end
     else raise KeyError) s = (s', Ok tt) ->
    exists old d, get n (layers s) = Some old /\ renamed lower (layers s) n (Some b) df b old d /\ layers s' = set b d (del n (layers s)) /\
    exists src dst, components old = Ok src /\ components d = Ok dst /\ movedir (tree s) src dst = (tree s', None)).
  { clear H. intros d Hd Rn H. unfold mbind at 1, lift at 1 in H. destruct (findDirectory (layers s) (Some n)) as [old|] eqn:Fd; [|discriminate H]. apply findDirectory_get in Fd.
    exists old, d. split; [exact Fd|]. split; [apply Rn; exact Fd|]. destruct (has n (layers s)); [|discriminate H].
    unfold mbind at 1, setLayers in H. unfold mbind at 1, lift at 1 in H. destruct (components old) as [src|]; [|discriminate H]. unfold mbind at 1, lift at 1 in H. destruct (components d) as [dst|]; [|discriminate H].
    unfold mbind at 1, getTree in H. cbn [tree] in H. destruct (movedir (tree s) src dst) as [t' [e|]] eqn:Mv; unfold mbind, change in H; [discriminate H|].
    apply (f_equal fst) in H. cbn [fst] in H. subst s'. split; [reflexivity|]. exists src, dst. auto. }
  destruct (eqb_spec (Some n) (Some b)) as [E|Ne].
  - inversion E; subst b. clear E. destruct (get n (layers s)) as [old|] eqn:G; [|discriminate H]. unfold mbind at 1, ret at 1 in H.
    destruct (xorb (eqb old nGlyphs) df) eqn:X; cbn [negb] in H.
    + right. unfold mbind at 1, lift at 1 in H. destruct (findDirectory (layers s) (Some n)) as [old'|] eqn:Fd; [|discriminate H].
      unfold mbind at 1 in H.
      assert (Rn : forall d, (if df then d = u "glyphs" else newDirectory lower n (layers s) = Ok d) -> forall old0, Some old = Some old0 -> renamed lower (layers s) n (Some n) df n old0 d).
      { intros d Hd old0 E. injection E as <-. unfold renamed. rewrite eqb_refl. split; [reflexivity|]. split; [|exact Hd].
        destruct (eqb_spec old nGlyphs) as [->|N], df; try discriminate X; split; intro E; try reflexivity; try discriminate E; contradiction. }
      destruct df; [|destruct (newDirectory lower n (layers s)) as [d|] eqn:Nd; unfold lift at 1 in H; [|discriminate H]].
      * apply (Rest nGlyphs); [reflexivity|apply Rn; reflexivity|exact H].
      * apply (Rest d); [reflexivity|apply Rn; reflexivity|exact H].
    + left. split; [reflexivity|]. split; [apply (f_equal fst) in H; symmetry; exact H|]. exists old. split; [reflexivity|].
      destruct (eqb_spec old nGlyphs) as [->|N], df; try discriminate X; split; intro E'; try reflexivity; try discriminate E'; try contradiction.
  - right. destruct (has b (layers s)) eqn:Hs; [discriminate H|]. destruct (df && mem nGlyphs (values (layers s))) eqn:Df; [discriminate H|].
    unfold mbind at 1, ret at 1 in H. cbn [negb] in H. unfold mbind at 1, lift at 1 in H. destruct (findDirectory (layers s) (Some n)) as [old'|] eqn:Fd; [|discriminate H].
    unfold mbind at 1 in H.
    assert (Rn : forall d, (if df then d = u "glyphs" else newDirectory lower b (layers s) = Ok d) -> forall old0, get n (layers s) = Some old0 -> renamed lower (layers s) n (Some b) df b old0 d).
    { intros d Hd old0 E. unfold renamed. destruct (eqb_spec (Some n) (Some b)); [contradiction|]. split; [reflexivity|]. split; [unfold has in Hs; destruct (get b (layers s)); [discriminate Hs|reflexivity]|].
      destruct df; [|exact Hd]. split; [exact Hd|]. cbn [andb] in Df. intros m Gm. apply In_values in Gm. apply mem_nIn in Df. contradiction. }
    destruct df; [|destruct (newDirectory lower b (layers s)) as [d|] eqn:Nd; unfold lift at 1 in H; [|discriminate H]].
    + apply (Rest nGlyphs); [reflexivity|apply Rn; reflexivity|exact H].
    + apply (Rest d); [reflexivity|apply Rn; reflexivity|exact H].
Qed.
(** deleting, when it succeeds *)
Lemma delete_ok c n s s' es : ver c = 3%Z -> tree s = Dir es -> (forall d, get n (layers s) = Some d -> components d = Ok [d] /\ exists ds, get d es = Some (Dir ds)) ->
  deleteGlyphSet c (Some n) s = (s', Ok tt) ->
  exists d, get n (layers s) = Some d /\ layers s' = del n (layers s) /\ tree s' = Dir (filter (fun e => negb (eqb d (fst e))) es).
Proof.
  intros V E Hd H. apply delete_spec in H as [[_ H]|(n' & d & s1 & En & G & Rm & Tr & Ly)]; [congruence| |exact V]. injection En as <-. exists d. split; [exact G|]. split; [exact Ly|].
  destruct (Hd d G) as (Cd & ds & Gd). rewrite Tr. unfold removePath in Rm. unfold mbind at 1, lift at 1 in Rm. rewrite Cd in Rm. unfold mbind at 1, getTree in Rm.
  unfold remove, removetree in Rm. rewrite E, find_top, Gd in Rm. unfold mbind, change, ret in Rm. apply (f_equal (fun x => tree (fst x))) in Rm. cbn [fst tree cut] in Rm. symmetry. exact Rm.
Qed.
