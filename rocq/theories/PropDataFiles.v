(** Property C115: the files in the data directory of a UFO behave like a dictionary of paths. *)
From Coq Require Import String NArith ZArith Bool Lia List Permutation.
From Verif Require Import Base PyVal PyText FS FSProofs Ufo UfoProofs ToyCodec PropUfo PropUfoFiles PropLayers FontProofs Font FontData.
From Verif Require ZipProofs.
Import ListNotations.
Local Open Scope string_scope.
Local Open Scope list_scope.
Local Notation mbind := Ufo.mbind.
Local Notation lift := Ufo.lift.
Local Notation ret := Ufo.ret.
Local Notation raise := Ufo.raise.
Local Notation dict_ok := Base.dict_ok.
Local Notation find := FS.find.
Local Notation fileAt := FS.fileAt.

(** * The statement *)
(** the files of a font in memory, by their paths below the data directory *)
Definition dataFiles := list (path * bytes).
(** the UFO has these files; a data directory holds nothing else, in particular no empty directories *)
Definition keepsData (s : ust) (m : dataFiles) : Prop := exists es, tree s = Dir es /\ dataIn m (get (u "data") es).
(** the calls of a writer; [src] are the files of the reader of another UFO *)
Inductive dataCall :=
| DWrite (p : path) (data : bytes)
| DRemove (p : path)
| DCopy (src : node) (p q : path).
Definition inData (p : path) : str := join (u "/") (u "data" :: p).
Definition doData (prev : bool) (k : dataCall) : M unit :=
  match k with
  | DWrite p data => writeBytesToPath prev (inData p) data
  | DRemove p => removePath (inData p) false true
  | DCopy src p q => copyFromReader src (inData p) (inData q)
  end.
(** the path [p] is [q] or leads to it *)
Fixpoint leads (p q : path) : bool := match p, q with [], _ => true | _, [] => false | a :: p, b :: q => eqb a b && leads p q end.
Definition anyBelow (p : path) (m : dataFiles) : bool := existsb (fun e => leads p (fst e)) m.
Definition strictlyBelow (p : path) (m : dataFiles) : bool := existsb (fun e => leads p (fst e) && negb (eqb p (fst e))) m.
Definition strictlyAbove (p : path) (m : dataFiles) : bool := existsb (fun e => leads (fst e) p && negb (eqb p (fst e))) m.
(** the files of another UFO at a path or below it *)
Definition filesAt (n : node) : dataFiles := flat_map (fun r => match fileAt n r with Some b => [(r, b)] | None => [] end) (walkFiles n).
(** what the calls do to the files in memory *)
Definition recall (m : dataFiles) (k : dataCall) : res dataFiles :=
  match k with
  | DWrite p data => if strictlyBelow p m then Err UFOLibError else if strictlyAbove p m then Err FSError else Ok (set p data m)
  | DRemove p => if anyBelow p m then Ok (filter (fun e => negb (leads p (fst e))) m) else Err UFOLibError
  | DCopy src p q =>
    match find src (u "data" :: p) with
    | None => Err UFOLibError
    | Some n => if anyBelow q m then Err UFOLibError else if strictlyAbove q m then Err FSError else Ok (m ++ map (fun e => (q ++ fst e, snd e)) (filesAt n))
    end
  end.
Definition dataPathOk (p : path) : Prop := p <> [] /\ Forall plainName p.
(** a file, or a directory without empty directories; the names in it are plain *)
Definition goodSource (n : node) : Prop :=
  wf n /\ (forall r, isdir n r = true -> exists z b, fileAt n (r ++ z) = Some b) /\ forall r b, fileAt n r = Some b -> Forall plainName r.
Definition plainData (k : dataCall) : Prop :=
  match k with
  | DWrite p _ | DRemove p => dataPathOk p
  | DCopy src p q => dataPathOk p /\ dataPathOk q /\ forall n, find src (u "data" :: p) = Some n -> goodSource n
  end.
(** nothing but the data directory is touched *)
Definition apart (s s' : ust) : Prop := layers s' = layers s /\ forall x r, x <> u "data" -> find (tree s') (x :: r) = find (tree s) (x :: r).
(** a history; what a call raises is caught *)
Fixpoint runData (prev : bool) (ks : list dataCall) (s : ust) : ust := match ks with [] => s | k :: r => runData prev r (fst (doData prev k s)) end.
Fixpoint recallAll (m : dataFiles) (ks : list dataCall) : dataFiles :=
  match ks with [] => m | k :: r => recallAll (match recall m k with Ok m' => m' | Err _ => m end) r end.

(** * Proofs *)
Lemma leads_below p : forall q, leads p q = true <-> below p q.
Proof.
  induction p as [|a p IH]; intro q; [split; [intros _; exists q; reflexivity|reflexivity]|]. destruct q as [|b q]; cbn [leads].
  - split; [discriminate|]. intros (r & X). discriminate X.
  - rewrite andb_true_iff, eqb_eq, IH. split.
    + intros (-> & (r & ->)). exists r. reflexivity.
    + intros (r & X). pose proof (f_equal (hd []) X) as X1. apply (f_equal (@tl _)) in X. cbn in X1, X. split; [symmetry; congruence|exists r; exact X] || (split; [congruence|exists r; exact X]).
Qed.
Lemma leads_under p q : leads p q = under p q.
Proof.
  destruct (leads p q) eqn:A, (under p q) eqn:B; try reflexivity.
  - apply leads_below, under_below in A. congruence.
  - apply under_below, leads_below in B. congruence.
Qed.
Lemma apart_es s s' es es' : layers s' = layers s -> tree s = Dir es -> tree s' = Dir es' -> (forall y, y <> nData -> get y es' = get y es) -> apart s s'.
Proof. intros L E E' F. split; [exact L|]. intros x r N. rewrite E, E'. cbn [FS.find]. rewrite (F x N). reflexivity. Qed.
Lemma any_iff f (m : dataFiles) : dict_ok m -> (existsb (fun e => f (fst e)) m = true <-> exists q b, get q m = Some b /\ f q = true).
Proof.
  intro D. rewrite existsb_exists. split.
  - intros ([q b] & I & F). exists q, b. split; [apply In_get; assumption|exact F].
  - intros (q & b & G & F). exists (q, b). split; [apply get_In; exact G|exact F].
Qed.
Lemma any_not f (m : dataFiles) : dict_ok m -> existsb (fun e => f (fst e)) m = false -> forall q b, get q m = Some b -> f q = false.
Proof. intros D X q b G. destruct (f q) eqn:F; [|reflexivity]. rewrite (proj2 (any_iff f m D)) in X; [discriminate X|eauto]. Qed.
(** what is found at a path of the data directory *)
Lemma found_dir s m es p : tree s = Dir es -> dataIn m (get nData es) -> p <> [] -> strictlyBelow p m = true -> isdir (tree s) (nData :: p) = true.
Proof.
  intros E D N X. pose proof (data_files _ _ D) as Df. apply (any_iff (fun q => leads p q && negb (eqb p q))) in X as (q & b & G & X); [|apply D]. apply andb_prop in X as (X1 & X2). apply leads_below in X1 as (r & ->).
  destruct r as [|a r]; [rewrite app_nil_r, eqb_refl in X2; discriminate X2|]. specialize (Df (p ++ a :: r)). rewrite G in Df. unfold FS.fileAt in Df. change (nData :: p ++ a :: r) with ((nData :: p) ++ a :: r) in Df. rewrite find_app in Df. rewrite E. unfold isdir.
  destruct (find (Dir es) (nData :: p)) as [[y|ds]|]; [discriminate Df|reflexivity|discriminate Df].
Qed.
Lemma found_above s m es p : tree s = Dir es -> dataIn m (get nData es) -> strictlyAbove p m = true -> exists q b, below q p /\ q <> p /\ kind (tree s) (nData :: q) = Some (Some b).
Proof.
  intros E D X. pose proof (data_files _ _ D) as Df. apply (any_iff (fun q => leads q p && negb (eqb p q))) in X as (q & b & G & X); [|apply D]. apply andb_prop in X as (X1 & X2). apply leads_below in X1.
  exists q, b. split; [exact X1|]. split; [intros ->; rewrite eqb_refl in X2; discriminate X2|]. specialize (Df q). rewrite G in Df. rewrite E. rewrite kind_fileAt in Df. destruct (kind (Dir es) (nData :: q)) as [[|]|]; congruence.
Qed.
Lemma found_none s m es p : tree s = Dir es -> dataIn m (get nData es) -> p <> [] -> anyBelow p m = false -> find (tree s) (nData :: p) = None.
Proof.
  intros E D N X. pose proof (data_files _ _ D) as Df. pose proof (any_not (leads p) m (proj1 D) X) as Y. rewrite E. destruct (find (Dir es) (nData :: p)) as [[b|ds]|] eqn:F; [exfalso|exfalso|reflexivity].
  - specialize (Df p). unfold FS.fileAt in Df. rewrite F in Df. symmetry in Df. apply Y in Df. rewrite (proj2 (leads_below p p)) in Df; [discriminate Df|exists []; rewrite app_nil_r; reflexivity].
  - destruct D as (_ & _ & D). rewrite find_below in F. destruct (get nData es) as [[y|d0]|]; [contradiction| |discriminate F]. destruct D as (_ & _ & D). destruct (D p N) as (r & b & G); [unfold isdir; rewrite F; reflexivity|]. apply Y in G. rewrite (proj2 (leads_below p (p ++ r))) in G; [discriminate G|exists r; reflexivity].
Qed.
Lemma without_filter p (m : dataFiles) : filter (fun e => negb (leads p (fst e))) m = without p m.
Proof. unfold without. induction m as [|e m IH]; [reflexivity|]. cbn [filter]. rewrite leads_under, IH. reflexivity. Qed.
(** a file above the path is in the way of the directories *)
Lemma above_mkdirs t p q b : p <> [] -> below q p -> q <> p -> kind t (nData :: q) = Some (Some b) -> mkdirs (nData :: removelast p) t = None.
Proof.
  intros N (r & E) Nq K. destruct (mkdirs (nData :: removelast p) t) as [t'|] eqn:M; [exfalso|reflexivity]. apply (mkdirs_files _ _ _ (nData :: q) b M); [|exact K].
  destruct r as [|a r]; [exfalso; apply Nq; rewrite app_nil_r in E; congruence|]. exists (removelast (a :: r)). cbn [app]. f_equal. rewrite E. apply removelast_app. discriminate.
Qed.
Lemma above_none t p q b : below q p -> q <> p -> kind t (nData :: q) = Some (Some b) -> find t (nData :: p) = None.
Proof.
  intros (r & ->) Nq K. change (nData :: q ++ r) with ((nData :: q) ++ r). rewrite find_app. unfold kind in K. destruct (find t (nData :: q)) as [[y|ds]|]; try discriminate K. destruct r as [|a r]; [exfalso; apply Nq; symmetry; apply app_nil_r|reflexivity].
Qed.
Lemma set_id {V} k (v : V) (d : list (str * V)) : get k d = Some v -> set k v d = d.
Proof.
  induction d as [|[k' v'] d IH]; [discriminate|]. cbn [get set]. destruct (eqb_spec k k') as [E|N]; intro G; [injection G as ->; reflexivity|]. f_equal. apply IH. exact G.
Qed.
Lemma mkdirs_id p : forall t, isdir t p = true -> mkdirs p t = Some t.
Proof.
  induction p as [|c p IH]; intros t D; unfold isdir in D.
  - cbn in D |- *. destruct t; [discriminate D|reflexivity].
  - destruct t as [b|es]; [discriminate D|]. cbn [FS.find] in D. cbn [mkdirs]. destruct (get c es) as [n|] eqn:G; [|discriminate D]. rewrite (IH n); [|exact D]. rewrite (set_id c n es G). reflexivity.
Qed.
(** the files of the source *)
Lemma get_files n : wf n -> forall r, get r (filesAt n) = fileAt n r.
Proof.
  intros W r. unfold filesAt. destruct (fileAt n r) as [b|] eqn:F.
  - assert (I : In r (walkFiles n)) by (apply walk_all; congruence). induction (walkFiles n) as [|z l IH]; [destruct I|]. cbn [flat_map]. destruct (eqb_spec r z) as [Q|Q].
    + rewrite <- Q, F. cbn [app get]. rewrite eqb_refl. reflexivity.
    + assert (Il : In r l) by (destruct I as [I|I]; [congruence|exact I]). destruct (fileAt n z) as [x|]; cbn [app get]; [destruct (eqb_spec r z); [congruence|]|]; apply IH; exact Il.
  - induction (walkFiles n) as [|z l IH]; [reflexivity|]. cbn [flat_map]. destruct (fileAt n z) as [x|] eqn:Z; [|exact IH]. cbn [app get]. destruct (eqb_spec r z) as [Q|Q]; [congruence|exact IH].
Qed.
Lemma files_nodup n : wf n -> NoDup (map fst (filesAt n)).
Proof.
  intro W. assert (E : map fst (filesAt n) = walkFiles n); [|rewrite E; apply walk_nodup; exact W].
  unfold filesAt. assert (A : forall r, In r (walkFiles n) -> fileAt n r <> None) by (intros r I; apply walk_spec; assumption).
  induction (walkFiles n) as [|z l IH]; [reflexivity|]. cbn [flat_map]. destruct (fileAt n z) as [x|] eqn:Z; [|exfalso; apply (A z); [left; reflexivity|exact Z]]. cbn [app map fst]. f_equal. apply IH. intros r I. apply A. right. exact I.
Qed.
Definition moved (q : path) (l : dataFiles) : dataFiles := map (fun e => (q ++ fst e, snd e)) l.
Lemma get_moved q l : forall z, get z (moved q l) = match strip q z with Some r => get r l | None => None end.
Proof.
  intro z. induction l as [|[k b] l IH]; [destruct (strip q z); reflexivity|]. unfold moved in *. cbn [map fst snd get]. rewrite IH. destruct (strip q z) as [r|] eqn:S.
  - apply strip_Some in S. subst z. destruct (eqb_spec (q ++ r) (q ++ k)) as [Q|Q], (eqb_spec r k) as [Q'|Q']; try reflexivity; [apply app_inv_head in Q; congruence|congruence].
  - destruct (eqb_spec z (q ++ k)) as [Q|Q]; [|reflexivity]. apply strip_Some in Q. congruence.
Qed.
Lemma get_both (a b : dataFiles) z : get z (a ++ b) = match get z a with Some x => Some x | None => get z b end.
Proof. induction a as [|[k x] a IH]; [reflexivity|]. cbn [app get]. destruct (eqb z k); [reflexivity|exact IH]. Qed.
Lemma copy_data src sp q n s m es pre : components sp = Ok pre -> find src pre = Some n -> goodSource n -> dataPathOk q -> tree s = Dir es -> dataIn m (get nData es) ->
  anyBelow q m = false -> strictlyAbove q m = false ->
  exists s', copyFromReader src sp (dataPath q) s = (s', Ok tt) /\ layers s' = layers s /\ exists es', tree s' = Dir es' /\ (forall y, y <> nData -> get y es' = get y es) /\ dataIn (m ++ moved q (filesAt n)) (get nData es').
Proof.
  intros Cs Fs (Wn & Gd & Gp) (N & F) E D B A. pose proof (found_none s m es q E D N B) as Nx. destruct (dataPath_dirname q N F) as (Dp & _).
  set (m0 := match get nData es with Some x => x | None => Dir [] end).
  assert (W0 : wf m0) by (unfold m0; destruct D as (_ & _ & D); destruct (get nData es) as [[|]|]; [contradiction|apply D|apply (proj1 ZipProofs.good_empty)]).
  assert (K0 : forall z, fileAt m0 z = get z m).
  { intro z. destruct D as (_ & _ & D). unfold m0. destruct (get nData es) as [[|ds]|]; [contradiction|apply D|rewrite D; destruct z; reflexivity]. }
  assert (D0 : forall z, z <> [] -> isdir m0 z = true -> exists r b, get (z ++ r) m = Some b).
  { intros z Nz I. destruct D as (_ & _ & D). unfold m0 in I. destruct (get nData es) as [[|ds]|]; [contradiction|apply D; assumption|destruct z; [congruence|discriminate I]]. }
  assert (Ab : forall z, below z q -> z <> q -> get z m = None).
  { intros z Bz Nz. destruct (get z m) as [b|] eqn:G; [exfalso|reflexivity]. pose proof (any_not (fun z => leads z q && negb (eqb q z)) m (proj1 D) A z b G) as Y. cbn in Y. rewrite (proj2 (leads_below z q) Bz) in Y. destruct (eqb_spec q z); [congruence|discriminate Y]. }
  assert (Be : forall r, get (q ++ r) m = None).
  { intro r. destruct (get (q ++ r) m) as [b|] eqn:G; [exfalso|reflexivity]. pose proof (any_not (leads q) m (proj1 D) B _ b G) as Y. rewrite (proj2 (leads_below q (q ++ r))) in Y; [discriminate Y|exists r; reflexivity]. }
  assert (Pa : forall z, below z (removelast q) -> below z q /\ z <> q).
  { intros z (r & X). pose proof (app_removelast_last [] N) as El. split; [exists (r ++ [last q []]); rewrite app_assoc, <- X; exact El|]. intros ->. apply (f_equal (@length str)) in X, El. rewrite app_length in X, El. cbn in El. lia. }
  destruct (mkdirs_Some (removelast q) m0) as (m1 & M1); [intros z Bz; rewrite K0; apply Ab; apply Pa; exact Bz|].
  assert (M : mkdirs (nData :: removelast q) (Dir es) = Some (Dir (set nData m1 es))) by (cbn [mkdirs]; fold m0; rewrite M1; reflexivity).
  assert (Up : isdir m1 (removelast q) = true). { rewrite kind_isdir, (kind_mkdirs _ _ _ _ M1), strip_self. reflexivity. }
  destruct (put_Some (removelast q) (last q []) n m1 Up) as (m2 & P2). rewrite <- (app_removelast_last [] N) in P2.
  assert (N1 : find (Dir (set nData m1 es)) (nData :: q) = None).
  { rewrite find_below, get_set_same. assert (X : kind m1 q = None).
    { rewrite (kind_mkdirs _ _ _ _ M1). destruct (strip q (removelast q)) as [z|] eqn:S; [apply strip_Some in S; exfalso; apply (proj2 (Pa q (ex_intro _ z S))); reflexivity|]. rewrite E in Nx. rewrite find_below in Nx. unfold kind, m0. destruct (get nData es); [rewrite Nx; reflexivity|destruct q; [congruence|reflexivity]]. }
    unfold kind in X. destruct (find m1 q); [discriminate X|reflexivity]. }
  assert (P3 : put (nData :: q) n (Dir (set nData m1 es)) = Some (Dir (set nData m2 (set nData m1 es)))).
  { destruct q as [|c q]; [congruence|]. cbn [put] in P2 |- *. rewrite get_set_same. cbn [put]. rewrite P2. reflexivity. }
  unfold copyFromReader. unfold mbind at 1, lift at 1. rewrite Cs, Fs. unfold mbind at 1, lift at 1. rewrite (dataPath_components q F). unfold mbind at 1, getTree at 1. unfold existsAt at 1. rewrite Nx. unfold mbind at 1, lift at 1. rewrite Dp. unfold makedirs. rewrite E, M. unfold mbind, change at 1. rewrite N1.
  exists (mkUst (Dir (set nData m2 (set nData m1 es))) (log (fst (change (OWrite (nData :: q)) (Dir (set nData m2 (set nData m1 es))) (fst (change (OMakedir (nData :: removelast q)) (Dir (set nData m1 es)) s))))) (layers s) (remap s)).
  split; [rewrite P3; destruct n; reflexivity|]. split; [reflexivity|]. eexists. split; [reflexivity|]. split; [intros y Ny; rewrite !get_set_other by exact Ny; reflexivity|]. rewrite get_set_same.
  assert (K2 : forall z, kind m2 z = match strip q z with Some r => kind n r | None => match strip z (removelast q) with Some _ => Some None | None => kind m0 z end end).
  { intro z. rewrite (kind_put _ _ _ _ z P2). destruct (strip q z); [reflexivity|]. apply (kind_mkdirs _ _ _ _ M1). }
  assert (Ga : forall z, get z (m ++ moved q (filesAt n)) = match strip q z with Some r => fileAt n r | None => get z m end).
  { intro z. rewrite get_both, get_moved. destruct (strip q z) as [r|] eqn:S; [|destruct (get z m); reflexivity]. apply strip_Some in S. subst z. rewrite Be. apply get_files. exact Wn. }
  split.
  { unfold Base.dict_ok, keys. rewrite map_app. assert (Ek : map fst (moved q (filesAt n)) = map (app q) (map fst (filesAt n))) by (unfold moved; rewrite !map_map; reflexivity).
    pose proof (files_nodup n Wn) as Nf. assert (Nk : NoDup (map fst (moved q (filesAt n)))) by (rewrite Ek; apply FinFun.Injective_map_NoDup; [intros a b X; apply app_inv_head in X; exact X|exact Nf]).
    destruct D as (Dk & _). unfold Base.dict_ok, keys in Dk. assert (Dj : forall z, In z (map fst m) -> ~ In z (map fst (moved q (filesAt n)))).
    { intros z I J. rewrite Ek in J. apply in_map_iff in J as (r & <- & _). apply in_map_iff in I as ([k b] & Ek' & I). cbn [fst] in Ek'. subst k. apply In_get in I; [|exact Dk]. rewrite Be in I. discriminate I. }
    clear -Dk Nk Dj. induction (map fst m) as [|a l IH]; [exact Nk|]. inversion Dk as [|? ? X Y]; subst. cbn [app]. apply NoDup_cons; [intro I; apply in_app_or in I as [I|I]; [exact (X I)|exact (Dj a (or_introl eq_refl) I)]|]. apply IH; [exact Y|]. intros z I. apply Dj. right. exact I. }
  split.
  { intros z b G. rewrite Ga in G. destruct (strip q z) as [r|] eqn:S; [|destruct D as (_ & Pl & _); eapply Pl; exact G]. apply strip_Some in S. subst z. split; [destruct q; [congruence|discriminate]|]. apply Forall_app. split; [exact F|eapply Gp; exact G]. }
  assert (Dm : kind m2 [] = Some None). { rewrite K2. destruct q; [congruence|reflexivity]. }
  destruct m2 as [y|ds]; [discriminate Dm|]. split; [eapply ZipProofs.wf_put; [|exact Wn|exact P2]; eapply ZipProofs.wf_mkdirs; [exact W0|exact M1]|]. split.
  - intro z. rewrite Ga. rewrite (kind_fileAt (Dir ds) z), K2. destruct (strip q z) as [r|] eqn:S; [symmetry; apply kind_fileAt|]. destruct (strip z (removelast q)) as [r|] eqn:S'.
    + apply strip_Some in S'. destruct (Pa z (ex_intro _ r S')) as (X & Y). symmetry. apply Ab; assumption.
    + rewrite <- K0. symmetry. apply kind_fileAt.
  - intros z Nz I. rewrite kind_isdir, K2 in I. destruct (strip q z) as [r|] eqn:S.
    + apply strip_Some in S. subst z. assert (I' : isdir n r = true) by (rewrite kind_isdir; exact I). destruct (Gd r I') as (w & b & X). exists w, b. rewrite Ga, <- app_assoc. rewrite (proj2 (strip_Some q (q ++ r ++ w) (r ++ w)) eq_refl). exact X.
    + destruct (strip z (removelast q)) as [r|] eqn:S'.
      * apply strip_Some in S'. destruct (Pa z (ex_intro _ r S')) as ((w & X) & _). assert (Y : exists v b, fileAt n v = Some b) by (destruct n as [y|ns]; [exists [], y; reflexivity|apply (Gd []); reflexivity]). destruct Y as (v & b & Y).
        exists (w ++ v), b. rewrite Ga. rewrite app_assoc, <- X. rewrite (proj2 (strip_Some q (q ++ v) v) eq_refl). exact Y.
      * destruct (D0 z Nz) as (r & b & G); [rewrite kind_isdir; exact I|]. exists r, b. rewrite Ga. destruct (strip q (z ++ r)) as [w|] eqn:S2; [|exact G]. apply strip_Some in S2. rewrite S2, Be in G. discriminate G.
Qed.
Theorem C115_step : forall prev k s m, plainData k -> keepsData s m ->
  match recall m k with
  | Err e => doData prev k s = (s, Err e)
  | Ok m' => exists s', doData prev k s = (s', Ok tt) /\ keepsData s' m' /\ apart s s'
  end.
Proof.
  intros prev k s m P (es & E & D). change (u "data") with nData in *.
  assert (Fine : forall p, strictlyBelow p m = false -> strictlyAbove p m = false -> forall q x, get q m = Some x -> below q p \/ below p q -> q = p).
  { intros p B A q x G [I|I]; apply leads_below in I.
    - pose proof (any_not (fun q => leads q p && negb (eqb p q)) m (proj1 D) A q x G) as Y. cbn in Y. rewrite I in Y. destruct (eqb_spec p q); [congruence|discriminate Y].
    - pose proof (any_not (fun q => leads p q && negb (eqb p q)) m (proj1 D) B q x G) as Y. cbn in Y. rewrite I in Y. destruct (eqb_spec p q); [congruence|discriminate Y]. }
  destruct k as [p b|p|src p q]; cbn [plainData recall doData] in *; change inData with dataPath in *; change (u "data") with nData in *.
  - destruct P as (N & F). destruct (strictlyBelow p m) eqn:B; [|destruct (strictlyAbove p m) eqn:A].
    + pose proof (found_dir s m es p E D N B) as X. unfold isdir in X. unfold writeBytesToPath, mbind, lift. rewrite (dataPath_components p F). unfold getTree, getbytes, setbytes. destruct (find (tree s) (nData :: p)) as [[|]|]; try discriminate X. rewrite andb_false_r. reflexivity.
    + destruct (found_above s m es p E D A) as (q & x & Bq & Nq & K). pose proof (above_none _ _ _ _ Bq Nq K) as X. pose proof (above_mkdirs _ _ _ _ N Bq Nq K) as Y. destruct (dataPath_dirname p N F) as (Dp & _).
      unfold writeBytesToPath, mbind at 1, lift at 1. rewrite (dataPath_components p F). unfold mbind at 1, getTree at 1. unfold getbytes, setbytes. rewrite X, andb_false_r.
      destruct (put (nData :: p) (File b) (tree s)) as [t|] eqn:Pt.
      * exfalso. rewrite (app_removelast_last [] N) in Pt. change (nData :: removelast p ++ [last p []]) with ((nData :: removelast p) ++ [last p []]) in Pt. apply put_parent in Pt. apply mkdirs_id in Pt. congruence.
      * unfold mbind at 1, lift at 1. rewrite Dp. unfold makedirs. rewrite Y. reflexivity.
    + destruct (data_total prev p b s es m N F E D (Fine p B A)) as (s' & H). exists s'. split; [exact H|]. destruct (data_write _ _ _ _ _ _ _ N F E D H) as (L & es' & E' & Fr & D'). split; [exists es'; auto|exact (apart_es s s' es es' L E E' Fr)].
  - destruct P as (N & F). destruct (anyBelow p m) eqn:B.
    + apply (any_iff (leads p)) in B as (q & x & G & B); [|apply D]. apply leads_below in B. destruct (data_remove_total p s es m q x N F E D G B) as (s' & H). exists s'. split; [exact H|]. rewrite without_filter. destruct (data_remove _ _ _ _ _ N F E D H) as (L & es' & E' & Fr & D'). split; [exists es'; auto|exact (apart_es s s' es es' L E E' Fr)].
    + pose proof (found_none s m es p E D N B) as X. unfold removePath, mbind at 1, lift at 1. rewrite (dataPath_components p F). unfold mbind at 1, getTree at 1. unfold remove. rewrite X. reflexivity.
  - destruct P as ((N & F) & (N' & F') & Gs). destruct (find src (nData :: p)) as [n|] eqn:Fs; [|unfold copyFromReader, mbind, lift; rewrite (dataPath_components p F), Fs; reflexivity]. specialize (Gs n eq_refl).
    destruct (anyBelow q m) eqn:B; [|destruct (strictlyAbove q m) eqn:A].
    + assert (X : existsAt (tree s) (nData :: q) = true).
      { apply (any_iff (leads q)) in B as (z & x & G & B); [|apply D]. apply leads_below in B as (r & ->). pose proof (data_files _ _ D (q ++ r)) as Y. rewrite G in Y. unfold FS.fileAt in Y. change (nData :: q ++ r) with ((nData :: q) ++ r) in Y. rewrite find_app in Y. rewrite E. unfold existsAt. destruct (find (Dir es) (nData :: q)); [reflexivity|discriminate Y]. }
      unfold copyFromReader, mbind, lift. rewrite (dataPath_components p F), Fs, (dataPath_components q F'). unfold getTree. rewrite X. reflexivity.
    + destruct (found_above s m es q E D A) as (z & x & Bq & Nq & K). pose proof (above_none _ _ _ _ Bq Nq K) as X. pose proof (above_mkdirs _ _ _ _ N' Bq Nq K) as Y. destruct (dataPath_dirname q N' F') as (Dp & _).
      unfold copyFromReader, mbind, lift. rewrite (dataPath_components p F), Fs, (dataPath_components q F'). unfold getTree, existsAt. rewrite X, Dp. unfold makedirs. rewrite Y. reflexivity.
    + destruct (copy_data src _ q n s m es _ (dataPath_components p F) Fs Gs (conj N' F') E D B A) as (s' & H & L & es' & E' & Fr & D'). exists s'. split; [exact H|]. split; [exists es'; auto|exact (apart_es s s' es es' L E E' Fr)].
Qed.
(** the reader finds the files *)
Theorem C115_found : forall s m, keepsData s m ->
  NoDup (getDataDirectoryListing (tree s)) /\ (forall p, In p (getDataDirectoryListing (tree s)) <-> exists b, get p m = Some b) /\
  forall p, dataPathOk p -> readBytesFromPath (tree s) (inData p) = match get p m with Some b => Ok (Some b) | None => if strictlyBelow p m then Err FSError else Ok None end.
Proof.
  intros s m (es & E & D). change (u "data") with nData in *. pose proof D as D0. assert (Dt : dataIn m (find (tree s) [nData])) by (rewrite E; cbn [FS.find]; destruct (get nData es); exact D). apply data_read in Dt as ((A & B) & R). split; [exact A|]. split.
  - intro p. rewrite B. destruct (get p m); split; [eauto|discriminate|intro X; congruence|intros (b & X); discriminate X].
  - intros p (N & F). destruct (get p m) as [b|] eqn:G; [apply R; exact G|]. unfold readBytesFromPath. change inData with dataPath. rewrite (dataPath_components p F). cbn [bind]. unfold getbytes. destruct (strictlyBelow p m) eqn:S.
    + pose proof (found_dir s m es p E D0 N S) as X. unfold isdir in X. destruct (find (tree s) (nData :: p)) as [[|]|]; try discriminate X. reflexivity.
    + rewrite (found_none s m es p E D0 N); [reflexivity|]. destruct (anyBelow p m) eqn:Y; [|reflexivity]. apply (any_iff (leads p)) in Y as (z & x & Gz & Y); [|apply D0]. pose proof (any_not (fun q => leads p q && negb (eqb p q)) m (proj1 D0) S z x Gz) as Z. cbn in Z. rewrite Y in Z. destruct (eqb_spec p z) as [Q|]; [congruence|discriminate Z].
Qed.
Theorem C115_histories : forall prev ks s m, Forall plainData ks -> keepsData s m -> keepsData (runData prev ks s) (recallAll m ks) /\ apart s (runData prev ks s).
Proof.
  intros prev ks. induction ks as [|k ks IH]; intros s m P St; [split; [exact St|split; reflexivity]|]. inversion P as [|? ? P1 P2]; subst. cbn [runData recallAll]. pose proof (C115_step prev k s m P1 St) as X. destruct (recall m k) as [m'|e].
  - destruct X as (s' & -> & S' & (L & F)). cbn [fst]. destruct (IH s' m' P2 S') as (A & (L' & F')). split; [exact A|]. split; [congruence|]. intros x r N. rewrite F', F by exact N. reflexivity.
  - rewrite X. apply IH; assumption.
Qed.
(** a UFO without a data directory has no files *)
Theorem C115_start : forall s es, tree s = Dir es -> get (u "data") es = None -> keepsData s [].
Proof. intros s es E G. exists es. split; [exact E|]. rewrite G. split; [apply NoDup_nil|]. split; [intros p b X; discriminate X|reflexivity]. Qed.
Print Assumptions C115_step.
Print Assumptions C115_found.
Print Assumptions C115_histories.
Print Assumptions C115_start.
Example C115_case :
  let a := u "a" in let b := u "b" in let src := Dir [(u "data", Dir [(a, File [3%N]); (b, Dir [(b, File [5%N])])])] in
  let ks := [DWrite [a; b; a] [1%N]; DWrite [a; b] [2%N]; DWrite [a; b; a; b] [2%N]; DCopy src [a] [a; b; b]; DCopy src [a] [a]; DCopy src [a; a] [b]; DRemove [b]; DCopy src [b] [b; a]; DWrite [b] [4%N]; DRemove [a; b; a]] in
  let s := newState (Dir [(u "lib.plist", File [])]) in
  Forall plainData ks /\ keepsData s [] /\ recallAll [] ks = [([a; b; b], [3%N]); ([b; a; b], [5%N])] /\
  tree (runData false ks s) = Dir [(u "lib.plist", File []); (u "data", Dir [(a, Dir [(b, Dir [(b, File [3%N])])]); (b, Dir [(a, Dir [(b, File [5%N])])])])] /\
  tree (runData false (ks ++ [DRemove [a]; DRemove [b]]) s) = Dir [(u "lib.plist", File [])].
Proof.
  cbv zeta. assert (A : plainName (u "a") /\ plainName (u "b")) by (repeat split; try discriminate; vm_compute; intuition discriminate). destruct A as (A & B).
  split; [|split; [eapply C115_start; reflexivity|vm_compute; auto]].
  assert (K : forall l, l <> [] -> (forall x, In x l -> x = u "a" \/ x = u "b") -> dataPathOk l) by (intros l N H; split; [exact N|]; apply Forall_forall; intros x I; destruct (H x I) as [-> | ->]; assumption).
  assert (G1 : forall b, goodSource (File b)) by (intro b; split; [apply wf_file|]; split; intros [|c r]; try discriminate; intros; apply Forall_nil).
  assert (G2 : goodSource (Dir [(u "b", File [5%N])])).
  { split; [apply wf_dir; [apply NoDup_cons; [intros []|apply NoDup_nil]|apply Forall_cons; [apply wf_file|apply Forall_nil]]|]. split.
    - intros [|c r] I; [exists [u "b"], [5%N]; reflexivity|]. unfold isdir in I. cbn [FS.find get] in I. destruct (eqb c (u "b")); [destruct r; discriminate I|discriminate I].
    - intros [|c r] x I; [apply Forall_nil|]. unfold FS.fileAt in I. cbn [FS.find get] in I. destruct (eqb_spec c (u "b")) as [Q|Q]; [|discriminate I]. destruct r; [|discriminate I]. rewrite Q. apply Forall_cons; [exact B|apply Forall_nil]. }
  repeat (apply Forall_cons; [cbn [plainData];
    first [apply K; [discriminate|cbn; intuition]
          |split; [apply K; [discriminate|cbn; intuition]|]; split; [apply K; [discriminate|cbn; intuition]|]; intros n X; vm_compute in X; first [discriminate X|injection X as <-; first [apply G1|exact G2]]]|]).
  apply Forall_nil.
Qed.
