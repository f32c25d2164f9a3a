(** Property C113: which calls on layers a UFOWriter of version 3 accepts, and what they do. *)
From Coq Require Import String NArith ZArith Bool Lia List Permutation.
From Coq.Floats Require Import SpecFloat.
From Verif Require Import Base PyVal PyText FloatRepr LowerLaws Filenames FilenamesProofs FS FSProofs Validators ValidatorsProofs PropValidators Ufo UfoProofs ToyCodec PropUfo PropUfoFiles PropLayers FontProofs.
Import ListNotations.
Local Open Scope string_scope.
Local Open Scope list_scope.
Local Notation mbind := Ufo.mbind.
Local Notation lift := Ufo.lift.
Local Notation ret := Ufo.ret.
Local Notation raise := Ufo.raise.
Local Notation dict_ok := Base.dict_ok.
Local Notation find := FS.find.

(** * The statement *)
(** what is at the top of the UFO under a name *)
Definition entry (s : ust) (x : str) : option node := find (tree s) [x].
(** Every layer has a directory of its own, named like a layer directory and not
    the same as another one when case is ignored; nothing else in the UFO has such
    a name. *)
Definition settled (lower : str -> str) (s : ust) : Prop :=
  (exists es, tree s = Dir es) /\ layered lower (layers s) /\
  (forall n d, get n (layers s) = Some d -> components d = Ok [d] /\ exists ds, entry s d = Some (Dir ds) /\ dict_ok ds) /\
  (forall x, ownDir x -> entry s x <> None -> exists n, get n (layers s) = Some x).
(** the layer is the default layer *)
Definition isDefault (s : ust) (n : str) : Prop := get n (layers s) = Some (u "glyphs").

(** more names than this are not to be expected: file names are found by counting *)
Definition fewNames {A} (l : list A) : Prop := (N.of_nat (length l) < 10 ^ 15 - 3)%N.

(** * Proofs *)
Lemma own_nonempty d : ownDir d -> d <> [].
Proof. intros [->|(r & ->)]; discriminate. Qed.
Lemma listed l n d : get n l = Some d -> d <> [] -> findDirectory l (Some n) = Ok d.
Proof.
  intros G N. induction l as [|[m e] l IH]; [discriminate G|]. cbn [findDirectory get] in *. destruct (eqb_spec n m) as [->|Nm].
  - rewrite eqb_refl. injection G as ->. destruct d; [congruence|reflexivity].
  - destruct (eqb_spec m n); [congruence|]. apply IH. exact G.
Qed.
Lemma movedir_total es old d ds : get old es = Some (Dir ds) -> dict_ok ds -> get d es = None -> old <> d -> exists t, movedir (Dir es) [old] [d] = (t, None).
Proof.
  intros G D Gd Ne. unfold movedir, makedir. rewrite find_top, Gd. cbn [put]. rewrite !find_top, get_set_same. rewrite get_set_other by exact Ne. rewrite G, (merge_empty ds D). eexists. reflexivity.
Qed.
Section LayerCalls.
Variable lower : str -> str.
Hypothesis LL : lower_laws lower.
Hypothesis keeps : lower_keeps lower.
Variable C : codec.

Lemma free l (es : list (str * node)) d : (forall x, ownDir x -> get x es <> None -> exists n : str, get n l = Some x) -> ownDir d -> (forall m e, get m l = Some e -> lower d <> lower e) -> get d es = None.
Proof.
  intros A O F. destruct (get d es) eqn:G; [|reflexivity]. exfalso. destruct (A d O) as (k & Gn); [congruence|]. exact (F k d Gn eq_refl).
Qed.
Lemma found l name : fewNames (keys l) -> exists d, newDirectory lower name l = Ok d.
Proof.
  intro F. apply (always_found lower LL); [right; discriminate|]. unfold fewNames in F. unfold values, keys in *. rewrite !map_length in *. change (10 ^ 15 - 3)%N with 999999999999997%N in F. lia.
Qed.

(** ** Deleting *)
Theorem C113_delete : forall c s n, ver c = 3%Z -> settled lower s ->
  match get n (layers s) with
  | None => deleteGlyphSet c (Some n) s = (s, Err UFOLibError)
  | Some d => exists s', deleteGlyphSet c (Some n) s = (s', Ok tt) /\ settled lower s' /\
      (forall k, get k (layers s') = if eqb k n then None else get k (layers s)) /\
      (forall x, entry s' x = if eqb x d then None else entry s x)
  end.
Proof.
  intros c s n V ((es & E) & Lyd & Has & All). pose proof Lyd as (Dl & Own & Apart). destruct (get n (layers s)) as [d|] eqn:G.
  - destruct (Has n d G) as (Cd & ds & B1 & _). pose proof (Own _ _ G) as Od. unfold entry in B1. rewrite E, find_top in B1.
    assert (X : exists w, deleteGlyphSet c (Some n) s = (w, Ok tt) /\ tree w = cut [d] (Dir es) /\ layers w = del n (layers s)).
    { unfold deleteGlyphSet. rewrite V. change (3 <? 3)%Z with false. cbv iota. unfold mbind at 1, getLayers. unfold mbind at 1, lift. rewrite (listed _ _ _ G (own_nonempty _ Od)). unfold removePath, mbind, lift. rewrite Cd. unfold getTree, remove, removetree. rewrite E, find_top, B1. unfold change, ret, has. rewrite G. unfold setLayers. eexists. repeat split; reflexivity. }
    destruct X as (w & X & Tw & Lw). exists w. split; [exact X|].
    assert (Gl : forall k, get k (layers w) = if eqb k n then None else get k (layers s)).
    { intro k. rewrite Lw. destruct (eqb_spec k n) as [->|N]; [apply get_del_same; exact Dl|apply get_del_other; exact N]. }
    assert (Ge : forall x, entry w x = if eqb x d then None else entry s x).
    { intro x. unfold entry. rewrite Tw, E. cbn [cut]. rewrite !find_top, get_filter_name. destruct (eqb_spec d x) as [E0|N], (eqb_spec x d) as [E1|E1]; try congruence; reflexivity. }
    split; [|split; assumption]. split; [exists (filter (fun e => negb (eqb d (fst e))) es); exact Tw|]. split; [rewrite Lw; apply layered_del; exact Lyd|]. split.
    + intros k e Gk. rewrite Gl in Gk. destruct (eqb_spec k n) as [|N]; [discriminate Gk|]. destruct (Has k e Gk) as (Ce & B2). split; [exact Ce|]. rewrite Ge. destruct (eqb_spec e d) as [Ed|]; [|exact B2].
      exfalso. exact (Apart k n e d N Gk G (f_equal lower Ed)).
    + intros x Ox Nx. rewrite Ge in Nx. destruct (eqb_spec x d) as [|Nd]; [congruence|]. destruct (All x Ox Nx) as (k & Gk). exists k. rewrite Gl. destruct (eqb_spec k n) as [->|]; [congruence|exact Gk].
  - unfold deleteGlyphSet. rewrite V. change (3 <? 3)%Z with false. cbv iota. unfold mbind at 1, getLayers. unfold mbind at 1, lift.
    assert (X : findDirectory (layers s) (Some n) = Err UFOLibError); [|rewrite X; reflexivity].
    clear -G. induction (layers s) as [|[m e] l IH]; [reflexivity|]. cbn [findDirectory get] in *. destruct (eqb_spec n m) as [->|N]; [discriminate G|]. destruct (eqb_spec m n); [congruence|]. apply IH. exact G.
Qed.
Lemma find_default l : (exists n, In (n, u "glyphs") l) -> findDirectory l None = Ok (u "glyphs").
Proof.
  induction l as [|[m e] l IH]; [intros (n & [])|]. intros (n & I). cbn [findDirectory]. destruct (eqb_spec e nGlyphs) as [->|N]; [reflexivity|]. apply IH. exists n. destruct I as [I|I]; [|exact I]. exfalso. apply N. exact (f_equal snd I).
Qed.
(** None raises KeyError, after the files of the default layer have been removed *)
Theorem C113_delete_none_refuted : forall c s n, ver c = 3%Z -> settled lower s -> isDefault s n ->
  entry s (u "glyphs") <> None /\ exists s', deleteGlyphSet c None s = (s', Err KeyError) /\ layers s' = layers s /\ entry s' (u "glyphs") = None.
Proof.
  intros c s n V ((es & E) & Lyd & Has & All) G. destruct (Has _ _ G) as (Cd & ds & B1 & _). split; [rewrite B1; discriminate|]. unfold entry in *. rewrite E, find_top in B1.
  unfold deleteGlyphSet. rewrite V. change (3 <? 3)%Z with false. cbv iota. unfold mbind at 1, getLayers. unfold mbind at 1, lift. rewrite find_default by (exists n; apply get_In; exact G).
  unfold removePath, mbind, lift. rewrite Cd. unfold getTree, remove, removetree. rewrite E, find_top, B1. unfold change, ret. eexists. split; [reflexivity|]. split; [reflexivity|]. cbn [tree cut]. rewrite find_top, get_filter_name, eqb_refl. reflexivity.
Qed.

(** ** Renaming *)
Definition renames (s : ust) (n m : str) (df : bool) : Prop :=
  get n (layers s) <> None /\ (m = n \/ get m (layers s) = None /\ (df = true -> forall k, ~ isDefault s k)).
(** what a renaming does: the directory of the layer moves, and nothing else *)
Definition moved (s s' : ust) (n m : str) (df : bool) : Prop :=
  exists old d, get n (layers s) = Some old /\ (d = u "glyphs" <-> df = true) /\
    (forall k, get k (layers s') = if eqb k m then Some d else if eqb k n then None else get k (layers s)) /\
    (forall x, entry s' x = if eqb x d then entry s old else if eqb x old then None else entry s x).
Lemma move_settled s s' n m df old d : settled lower s -> get n (layers s) = Some old -> renamed lower (layers s) n (Some m) df m old d -> safeCall (CRename (Some n) (Some m) df) (layers s) ->
  components d = Ok [d] -> layers s' = set m d (del n (layers s)) -> movedir (tree s) [old] [d] = (tree s', None) ->
  settled lower s' /\ (forall k, get k (layers s') = if eqb k m then Some d else if eqb k n then None else get k (layers s)) /\
  (forall x, entry s' x = if eqb x d then entry s old else if eqb x old then None else entry s x).
Proof.
  intros ((es & E) & Lyd & Has & All) G Rn Sf Cn Ls Mv. pose proof Lyd as (Dl & Own & Apart).
  destruct (renamed_layered lower keeps _ _ _ _ _ _ _ Lyd G Rn Sf) as [Lyd' Nlo]. pose proof Lyd' as (Dl' & Own' & Apart').
  assert (Gnew : get m (set m d (del n (layers s))) = Some d) by apply get_set_same. assert (Od' : ownDir d) by (eapply Own'; exact Gnew). assert (Nod : old <> d) by (intros ->; apply Nlo; reflexivity).
  assert (Mn : forall k, k <> n -> get k (layers s) <> None -> k <> m).
  { intros k Nn Gk ->. unfold renamed in Rn. destruct (eqb_spec (Some n) (Some m)) as [X|X]; [injection X as ->; contradiction|]. destruct Rn as (_ & Rn & _). congruence. }
  assert (Fd : forall k e, k <> n -> get k (layers s) = Some e -> e <> d).
  { intros k e Nn Ge. assert (Nw : k <> m) by (apply Mn; [exact Nn|congruence]). intros ->. apply (Apart' k m d d Nw); [rewrite get_set_other by exact Nw; rewrite get_del_other by exact Nn; exact Ge|exact Gnew|reflexivity]. }
  unfold entry in All. rewrite E in All. setoid_rewrite find_top in All.
  assert (Gde : get d es = None).
  { destruct (get d es) eqn:X; [|reflexivity]. exfalso. destruct (All d Od') as (k & Y); [congruence|]. destruct (eqb_spec k n) as [Ek|Nk]; [rewrite Ek in Y; congruence|]. exact (Fd _ _ Nk Y eq_refl). }
  destruct (Has n old G) as (_ & ds & B1 & Dds). unfold entry in B1. rewrite E, find_top in B1. rewrite E in Mv. apply (movedir_es es old d ds) in Mv; [|assumption..]. destruct Mv as (es' & Et & M1 & M2 & M3).
  assert (Gl : forall k, get k (layers s') = if eqb k m then Some d else if eqb k n then None else get k (layers s)).
  { intro k. rewrite Ls, get_set. destruct (eqb_spec k m); [reflexivity|]. destruct (eqb_spec k n) as [->|N]; [apply get_del_same; exact Dl|apply get_del_other; exact N]. }
  assert (Ge : forall x, entry s' x = if eqb x d then entry s old else if eqb x old then None else entry s x).
  { intro x. unfold entry. rewrite Et, E, !find_top. destruct (eqb_spec x d) as [->|N1]; [congruence|]. destruct (eqb_spec x old) as [->|N2]; [exact M2|]. apply M3; assumption. }
  split; [|split; assumption]. split; [exists es'; exact Et|]. split; [rewrite Ls; exact Lyd'|]. split.
  - intros k e Gk. rewrite Gl in Gk. rewrite Ge. destruct (eqb_spec k m) as [->|Nm].
    + injection Gk as <-. rewrite eqb_refl. split; [exact Cn|]. exists ds. split; [unfold entry; rewrite E, find_top; exact B1|exact Dds].
    + destruct (eqb_spec k n) as [|Nn]; [discriminate Gk|]. destruct (Has k e Gk) as (Ce & B2). split; [exact Ce|]. destruct (eqb_spec e d) as [Ed|]; [exfalso; exact (Fd k e Nn Gk Ed)|]. destruct (eqb_spec e old) as [Eo|]; [exfalso; exact (Apart k n e old Nn Gk G (f_equal lower Eo))|exact B2].
  - intros x Ox Nx. rewrite Ge in Nx. destruct (eqb_spec x d) as [->|N1]; [exists m; rewrite Gl, eqb_refl; reflexivity|]. destruct (eqb_spec x old) as [|N2]; [congruence|]. unfold entry in Nx. rewrite E, find_top in Nx. destruct (All x Ox Nx) as (k & Gk).
    exists k. rewrite Gl. assert (Nn : k <> n) by (intros ->; congruence). destruct (eqb_spec k m) as [Em|]; [exfalso; apply (Mn k Nn); [congruence|exact Em]|]. destruct (eqb_spec k n); [contradiction|exact Gk].
Qed.
Theorem C113_rename_partial : forall c s n m df, ver c = 3%Z -> settled lower s -> fewNames (keys (layers s)) ->
  (m = n -> df = true -> forall k, isDefault s k -> k = n) ->
  (renames s n m df /\ exists s', renameGlyphSet lower c (Some n) (Some m) df s = (s', Ok tt) /\ settled lower s' /\ moved s s' n m df) \/
  (~ renames s n m df /\ exists e, renameGlyphSet lower c (Some n) (Some m) df s = (s, Err e)).
Proof.
  intros c s n m df V St Few Sole. pose proof St as ((es & E) & Lyd & Has & All). pose proof Lyd as (Dl & Own & Apart).
  assert (Sf : safeCall (CRename (Some n) (Some m) df) (layers s)).
  { cbn [safeCall]. destruct df; [|exact Logic.I]. intros Eq k N X. injection Eq as ->. apply N. apply Sole; [reflexivity|reflexivity|exact X]. }
  assert (Dx : exists d, (if df then Ok nGlyphs else newDirectory lower m (layers s)) = Ok d /\ components d = Ok [d]).
  { destruct df; [exists nGlyphs; split; [reflexivity|apply glyphs_components]|]. destruct (found (layers s) m Few) as (d & Ed). exists d. split; [exact Ed|eapply newDirectory_components; exact Ed]. }
  destruct Dx as (d & Ed & Cn). destruct (get n (layers s)) as [old|] eqn:G.
  - pose proof (Own _ _ G) as Od. destruct (Has n old G) as (Cd & ds & B1 & Dds). unfold entry in B1. rewrite E, find_top in B1.
    assert (Tail : renamed lower (layers s) n (Some m) df m old d -> (d = u "glyphs" <-> df = true) -> exists s',
      (let! oldDirectory := lift (findDirectory (layers s) (Some n)) in
       let! directory := (if df then ret nGlyphs else lift (newDirectory lower m (layers s))) in
       if has n (layers s) then
         let! _ := setLayers (set m directory (del n (layers s))) in
         let! src := lift (components oldDirectory) in
         let! dst := lift (components directory) in
         let! t := getTree in
         let '(t', e) := movedir t src dst in
         let! _ := change (OMove src dst) t' in
         match e with None => ret tt | Some _ => raise FSError end
       else raise KeyError) s = (s', Ok tt) /\ settled lower s' /\ moved s s' n m df).
    { intros Rn Dd. destruct (renamed_layered lower keeps _ _ _ _ _ _ _ Lyd G Rn Sf) as [Lyd' Nlo]. pose proof Lyd' as (Dl' & Own' & Apart').
      assert (Gnew : get m (set m d (del n (layers s))) = Some d) by apply get_set_same. assert (Od' : ownDir d) by (eapply Own'; exact Gnew). assert (Nod : old <> d) by (intros ->; apply Nlo; reflexivity).
      assert (Gde : get d es = None).
      { destruct (get d es) eqn:X; [|reflexivity]. exfalso. destruct (All d Od') as (k & Y); [unfold entry; rewrite E, find_top; congruence|]. destruct (eqb_spec k n) as [Ek|Nk]; [rewrite Ek in Y; congruence|].
        assert (Nw : k <> m). { intros ->. unfold renamed in Rn. destruct (eqb_spec (Some n) (Some m)) as [Z|Z]; [injection Z as ->; contradiction|]. destruct Rn as (_ & Rn & _). congruence. }
        apply (Apart' k m d d Nw); [rewrite get_set_other by exact Nw; rewrite get_del_other by exact Nk; exact Y|exact Gnew|reflexivity]. }
      destruct (movedir_total es old d ds B1 Dds Gde Nod) as (t & Mv).
      unfold mbind at 1, lift at 1. rewrite (listed _ _ _ G (own_nonempty _ Od)).
      assert (Y : forall k, mbind (if df then ret nGlyphs else lift (newDirectory lower m (layers s))) k s = k d s :> (ust * res unit)).
      { intro k. destruct df; unfold mbind, ret, lift; [injection Ed as ->; reflexivity|rewrite Ed; reflexivity]. }
      rewrite Y. unfold has. rewrite G. unfold mbind, setLayers, lift, getTree. cbn [tree]. rewrite Cd, Cn, E, Mv. unfold change, ret. eexists. split; [reflexivity|].
      edestruct (move_settled s) as (S1 & S2 & S3); [exact St|exact G|exact Rn|exact Sf|exact Cn| | |split; [exact S1|exists old, d; split; [exact G|]; split; [exact Dd|]; split; [exact S2|exact S3]]]; cbn [layers tree]; [reflexivity|rewrite E; exact Mv]. }
    assert (Dd : d = u "glyphs" <-> df = true).
    { destruct df; [injection Ed as <-; tauto|]. split; [|discriminate]. intros ->. apply newDirectory_fresh in Ed as [(r & Er & _) _]. apply (f_equal (@length _)) in Er. rewrite app_length in Er. vm_compute in Er. discriminate Er. }
    destruct (eqb_spec n m) as [<-|Ne].
    + left. split; [split; [congruence|left; reflexivity]|]. unfold renameGlyphSet. rewrite V. change (3 <? 3)%Z with false. cbv iota. unfold mbind at 1, getLayers. rewrite eqb_refl, G. unfold mbind at 1, ret at 1. destruct (xorb (eqb old nGlyphs) df) eqn:Xo; cbn [negb].
      * apply Tail; [|exact Dd]. unfold renamed. rewrite eqb_refl. split; [reflexivity|]. split.
        -- destruct (eqb_spec old nGlyphs) as [->|No]; destruct df; try discriminate Xo; split; intro Z; try reflexivity; try discriminate Z. contradiction.
        -- destruct df; [injection Ed as <-; reflexivity|exact Ed].
      * exists s. split; [reflexivity|]. split; [exact St|]. exists old, old. split; [exact G|]. split.
        -- destruct (eqb_spec old nGlyphs) as [->|No]; destruct df; try discriminate Xo; split; intro Z; try reflexivity; try discriminate Z. contradiction.
        -- split; [intro k; destruct (eqb_spec k n) as [->|]; [exact G|reflexivity]|]. intro x. destruct (eqb_spec x old) as [->|]; reflexivity.
    + assert (Nnm : m <> n) by congruence. destruct (get m (layers s)) as [dm|] eqn:Gm.
      * right. split; [intros (_ & [X|(X & _)]); [contradiction|congruence]|]. unfold renameGlyphSet. rewrite V. change (3 <? 3)%Z with false. cbv iota. unfold mbind at 1, getLayers. destruct (eqb_spec (Some n) (Some m)) as [X|_]; [congruence|]. unfold has at 1. rewrite Gm. eexists. reflexivity.
      * destruct (df && mem nGlyphs (values (layers s))) eqn:Df.
        -- right. split.
           ++ intros (_ & [X|(_ & X)]); [contradiction|]. apply andb_true_iff in Df as (-> & M). destruct (mem_spec nGlyphs (values (layers s))) as [M1|]; [clear M; rename M1 into M|discriminate M]. apply in_map_iff in M as ([k e] & Ee & M). cbn [snd] in Ee. subst e. apply (X eq_refl k). apply In_get; assumption.
           ++ unfold renameGlyphSet. rewrite V. change (3 <? 3)%Z with false. cbv iota. unfold mbind at 1, getLayers. destruct (eqb_spec (Some n) (Some m)) as [X|_]; [congruence|]. unfold has at 1. rewrite Gm, Df. eexists. reflexivity.
        -- left. assert (Nd : df = true -> forall k, ~ isDefault s k).
           { intros -> k X. cbn [andb] in Df. apply mem_nIn in Df. apply Df. eapply In_values. exact X. }
           split; [split; [congruence|right; split; [exact Gm|exact Nd]]|]. unfold renameGlyphSet. rewrite V. change (3 <? 3)%Z with false. cbv iota. unfold mbind at 1, getLayers. destruct (eqb_spec (Some n) (Some m)) as [X|_]; [congruence|]. unfold has at 1. rewrite Gm, Df. unfold mbind at 1, ret at 1. cbn [negb]. apply Tail; [|exact Dd]. unfold renamed. destruct (eqb_spec (Some n) (Some m)) as [X|_]; [congruence|]. split; [reflexivity|]. split; [exact Gm|]. destruct df; [|exact Ed]. injection Ed as <-. split; [reflexivity|]. intros k X. exact (Nd eq_refl k X).
  - right. split; [intros (X & _); congruence|].
    assert (X : findDirectory (layers s) (Some n) = Err UFOLibError).
    { clear -G. induction (layers s) as [|[k e] l IH]; [reflexivity|]. cbn [findDirectory get] in *. destruct (eqb_spec n k) as [->|N]; [discriminate G|]. destruct (eqb_spec k n); [congruence|]. apply IH. exact G. }
    unfold renameGlyphSet. rewrite V. change (3 <? 3)%Z with false. cbv iota. unfold mbind at 1, getLayers. destruct (eqb_spec (Some n) (Some m)) as [Eq|Ne].
    + rewrite G. unfold mbind, raise. eexists. reflexivity.
    + destruct (has m (layers s)); [unfold mbind, raise; eexists; reflexivity|]. destruct (df && _); [unfold mbind, raise; eexists; reflexivity|]. unfold mbind at 1, ret at 1. cbn [negb]. unfold mbind at 1, lift at 1. rewrite X. eexists. reflexivity.
Qed.
(** None as the new name is the name of the default layer, None as the old one is
    refused; the two names are not compared in that form *)
Theorem C113_rename_none : forall c s df, ver c = 3%Z ->
  (forall n, n <> u "public.default" -> renameGlyphSet lower c (Some n) None df s = renameGlyphSet lower c (Some n) (Some (u "public.default")) df s) /\
  (get (u "public.default") (layers s) <> None -> renameGlyphSet lower c (Some (u "public.default")) None df s = (s, Err UFOLibError)) /\
  (forall b, exists e, renameGlyphSet lower c None b df s = (s, Err e)).
Proof.
  intros c s df V. split; [|split].
  - intros n N. unfold renameGlyphSet. rewrite V. change (3 <? 3)%Z with false. cbv iota. unfold mbind at 1 4, getLayers.
    destruct (eqb_spec (Some n) None) as [X|_]; [discriminate X|]. destruct (eqb_spec (Some n) (Some (u "public.default"))) as [X|_]; [congruence|]. reflexivity.
  - intro G. unfold renameGlyphSet. rewrite V. change (3 <? 3)%Z with false. cbv iota. unfold mbind at 1, getLayers. destruct (eqb_spec (Some (u "public.default")) None) as [X|_]; [discriminate X|].
    unfold has. change nDefault with (u "public.default"). destruct (get (u "public.default") (layers s)); [reflexivity|congruence].
  - intro b. unfold renameGlyphSet. rewrite V. change (3 <? 3)%Z with false. cbv iota. unfold mbind at 1, getLayers. destruct (eqb_spec None b) as [<-|N]; [eexists; reflexivity|].
    destruct (has _ (layers s)); [eexists; reflexivity|]. destruct (df && _); [eexists; reflexivity|]. unfold mbind at 1, ret at 1. cbn [negb]. unfold mbind at 1, lift at 1. destruct (findDirectory (layers s) None); [|eexists; reflexivity].
    unfold mbind. destruct df; [eexists; reflexivity|]. unfold lift. destruct (newDirectory lower _ (layers s)); eexists; reflexivity.
Qed.

(** ** Opening *)
Definition opens (s : ust) (n : str) (df : bool) : Prop := df = true -> forall k, isDefault s k -> k = n.
Theorem C113_new_layer : forall c s n df vr, ver c = 3%Z -> settled lower s -> fewNames (keys (layers s)) -> get n (layers s) = None -> opens s n df ->
  exists s' d, getGlyphSet C lower c (Some n) df vr s = (s', Ok (d, PDict [])) /\ settled lower s' /\ (d = u "glyphs" <-> df = true) /\
    (forall k, get k (layers s') = if eqb k n then Some d else get k (layers s)) /\
    (forall x, entry s' x = if eqb x d then Some (Dir []) else entry s x).
Proof.
  intros c s n df vr V ((es & E) & Lyd & Has & All) Few G Op. pose proof Lyd as (Dl & Own & Apart). rewrite (getGlyphSet_3 C lower c (Some n)) by (auto; left; discriminate). cbn [resolved].
  assert (Dx : exists d, (if df then ret nGlyphs else lift (newDirectory lower n (layers s))) = ret d /\ components d = Ok [d] /\ (d = u "glyphs" <-> df = true) /\ chosen lower n df (layers s) d).
  { destruct df.
    - exists nGlyphs. split; [reflexivity|]. split; [apply glyphs_components|]. split; [tauto|]. split; [reflexivity|]. intros m N X. apply N. apply Op; [reflexivity|exact X].
    - destruct (found (layers s) n Few) as (d & Ed). exists d. split; [rewrite Ed; reflexivity|]. split; [eapply newDirectory_components; exact Ed|]. split; [|exact Ed]. split; [|discriminate].
      intros ->. apply newDirectory_fresh in Ed as [(r & Er & _) _]. apply (f_equal (@length _)) in Er. rewrite app_length in Er. vm_compute in Er. discriminate Er. }
  destruct Dx as (d & Ed & Cd & Dd & Ch). destruct (chosen_fresh lower keeps _ _ _ _ Lyd Ch) as [Od F].
  assert (F' : forall m e, get m (layers s) = Some e -> lower d <> lower e) by (intros m e Gm; apply (F m); [congruence|exact Gm]).
  assert (Gde : get d es = None).
  { apply (free (layers s)); [|exact Od|exact F']. intros x Ox Nx. apply All; [exact Ox|]. unfold entry. rewrite E, find_top. exact Nx. }
  assert (Ck : df && existsb (fun '(k, e) => if eqb e nGlyphs then negb (eqb k n) else eqb k n) (layers s) = false).
  { destruct df; [|reflexivity]. cbn [andb]. destruct (existsb _ (layers s)) eqn:X; [|reflexivity]. exfalso. apply existsb_exists in X as ([k e] & I & X). apply In_get in I; [|exact Dl].
    destruct (eqb_spec e nGlyphs) as [->|Ne]; [|destruct (eqb_spec k n) as [->|]; [congruence|discriminate X]]. destruct (eqb_spec k n) as [->|N]; [discriminate X|]. apply N. apply Op; [reflexivity|exact I]. }
  unfold getGlyphSet3. unfold mbind at 1, getLayers. rewrite Ck, G, Ed. unfold mbind at 1, ret at 1. unfold mbind at 1, lift at 1. rewrite Cd. unfold fsMakedir. unfold mbind at 1 2, getTree.
  unfold makedir, existsAt. rewrite E, find_top, Gde. cbn [put]. unfold change. unfold mbind, setLayers, openDir, getTree. unfold mbind. cbn [tree layers remap log]. rewrite find_top, get_set_same.
  assert (Oe : openGlyphSet C (Dir []) vr = Ok (PDict [])) by (destruct vr; reflexivity). rewrite Oe. unfold lift, ret. eexists. exists d. split; [reflexivity|].
  assert (Ge : forall s2, tree s2 = Dir (set d (Dir []) es) -> forall x, entry s2 x = if eqb x d then Some (Dir []) else entry s x).
  { intros s2 E2 x. unfold entry. rewrite E2, E, !find_top. apply get_set. }
  split; [|split; [exact Dd|split; [intro k; cbn [layers]; apply get_set|apply Ge; reflexivity]]].
  split; [eexists; reflexivity|]. cbn [layers]. split; [apply layered_set; [exact Lyd|exact Od|exact F]|]. split.
  - intros k e Gk. rewrite get_set in Gk. rewrite Ge by reflexivity. destruct (eqb_spec k n) as [->|N].
    + injection Gk as <-. rewrite eqb_refl. split; [exact Cd|]. exists []. split; [reflexivity|apply NoDup_nil].
    + destruct (Has k e Gk) as (Ce & B). split; [exact Ce|]. destruct (eqb_spec e d) as [Ee|]; [|exact B]. exfalso. exact (F k e N Gk (f_equal lower (eq_sym Ee))).
  - intros x Ox Nx. rewrite Ge in Nx by reflexivity. destruct (eqb_spec x d) as [->|N]; [exists n; apply get_set_same|]. destruct (All x Ox Nx) as (k & Gk). exists k. rewrite get_set_other; [exact Gk|]. intros ->. congruence.
Qed.
(** a layer that is there is found as it is; asking for another default layer is refused *)
Theorem C113_old_layer : forall c s n df vr d, ver c = 3%Z -> settled lower s -> get n (layers s) = Some d ->
  ((df = true -> isDefault s n) -> exists ds, entry s d = Some (Dir ds) /\
     getGlyphSet C lower c (Some n) df vr s = (s, do contents <- openGlyphSet C (Dir ds) vr; Ok (d, contents))) /\
  (df = true -> ~ isDefault s n -> getGlyphSet C lower c (Some n) df vr s = (s, Err UFOLibError)).
Proof.
  intros c s n df vr d V ((es & E) & Lyd & Has & All) G. pose proof Lyd as (Dl & Own & Apart). rewrite (getGlyphSet_3 C lower c (Some n)) by (auto; left; discriminate). cbn [resolved]. split.
  - intro Df. destruct (Has n d G) as (Cd & ds & B1 & _). exists ds. split; [exact B1|]. unfold entry in B1. rewrite E, find_top in B1.
    assert (Ck : df && existsb (fun '(k, e) => if eqb e nGlyphs then negb (eqb k n) else eqb k n) (layers s) = false).
    { destruct df; [|reflexivity]. cbn [andb]. specialize (Df eq_refl). destruct (existsb _ (layers s)) eqn:X; [|reflexivity]. exfalso. apply existsb_exists in X as ([k e] & I & X). apply In_get in I; [|exact Dl].
      destruct (eqb_spec e nGlyphs) as [->|Ne].
      - destruct (eqb_spec k n) as [->|N]; [discriminate X|]. exact (Apart k n _ _ N I Df eq_refl).
      - destruct (eqb_spec k n) as [->|]; [|discriminate X]. apply Ne. unfold isDefault in Df. rewrite Df in I. exact (f_equal (fun o => match o with Some z => z | None => [] end) (eq_sym I)). }
    unfold getGlyphSet3. unfold mbind at 1, getLayers. rewrite Ck, G. unfold mbind at 1, ret at 1. unfold mbind at 1, lift at 1. rewrite Cd. unfold fsMakedir. unfold mbind at 1 2, getTree. unfold makedir, existsAt. rewrite E, find_top, B1. unfold ret at 1.
    unfold mbind, setLayers, openDir, getTree. unfold mbind. cbn [tree layers remap log]. rewrite (set_get_id _ _ _ G), E, find_top, B1. destruct s as [t lg ly rm]. cbn [tree] in E. subst t. unfold lift. destruct (openGlyphSet C (Dir ds) vr); reflexivity.
  - intros -> N. assert (Ck : existsb (fun '(k, e) => if eqb e nGlyphs then negb (eqb k n) else eqb k n) (layers s) = true); [|unfold getGlyphSet3; unfold mbind at 1, getLayers; cbn [andb]; rewrite Ck; reflexivity].
    apply existsb_exists. exists (n, d). split; [apply get_In; exact G|]. destruct (eqb_spec d nGlyphs) as [->|]; [exfalso; apply N; exact G|apply eqb_refl].
Qed.
Theorem C113_other_default : forall c s n vr k, ver c = 3%Z -> isDefault s k -> k <> n -> getGlyphSet C lower c (Some n) true vr s = (s, Err UFOLibError).
Proof.
  intros c s n vr k V D N. rewrite (getGlyphSet_3 C lower c (Some n)) by (auto; left; discriminate). cbn [resolved]. unfold getGlyphSet3. unfold mbind at 1, getLayers.
  assert (Ck : existsb (fun '(k, e) => if eqb e nGlyphs then negb (eqb k n) else eqb k n) (layers s) = true); [|cbn [andb]; rewrite Ck; reflexivity].
  apply existsb_exists. exists (k, u "glyphs"). split; [apply get_In; exact D|]. change nGlyphs with (u "glyphs"). rewrite eqb_refl. destruct (eqb_spec k n); [contradiction|reflexivity].
Qed.
Theorem C113_no_name : forall c s vr, ver c = 3%Z -> dict_ok (layers s) ->
  getGlyphSet C lower c None false vr s = (s, Err UFOLibError) /\
  (forall n, isDefault s n -> (forall k, isDefault s k -> k = n) -> getGlyphSet C lower c None true vr s = getGlyphSet C lower c (Some n) true vr s) /\
  ((forall k, ~ isDefault s k) -> getGlyphSet C lower c None true vr s = getGlyphSet C lower c (Some (u "public.default")) true vr s).
Proof.
  intros c s vr V Dl.
  assert (A : forall l acc, (forall k, In (k, u "glyphs") l -> False) -> fold_left (fun acc '(n, d) => if eqb d nGlyphs then Some n else acc) l acc = acc :> option str).
  { induction l as [|[k e] l IH]; intros acc H; [reflexivity|]. cbn [fold_left]. destruct (eqb_spec e nGlyphs) as [->|]; [exfalso; apply (H k); left; reflexivity|]. apply IH. intros k' I. apply (H k'). right. exact I. }
  assert (B : forall n l acc, In (n, u "glyphs") l -> (forall k, In (k, u "glyphs") l -> k = n) -> fold_left (fun acc '(n, d) => if eqb d nGlyphs then Some n else acc) l acc = Some n :> option str).
  { intros n l. induction l as [|[k e] l IH]; intros acc I H; [destruct I|]. cbn [fold_left]. destruct (in_dec (fun a b => match eqb_spec a b with ReflectT _ p => left p | ReflectF _ p => right p end) n (map fst (filter (fun p => eqb (snd p) nGlyphs) l))) as [J|J].
    - apply in_map_iff in J as ([n' e'] & En & J). apply filter_In in J as (J & Ee). cbn [fst snd] in *. destruct (eqb_spec e' nGlyphs) as [Eg|]; [|discriminate Ee]. subst n'. rewrite Eg in J. apply IH; [exact J|]. intros k' I'. apply H. right. exact I'.
    - assert (No : forall k', In (k', u "glyphs") l -> False).
      { intros k' I'. apply J. apply in_map_iff. exists (k', u "glyphs"). split; [cbn [fst]; apply H; right; exact I'|]. apply filter_In. split; [exact I'|]. apply eqb_refl. }
      rewrite A by exact No. destruct I as [I|I]; [|exfalso; exact (No n I)]. rewrite (f_equal fst I : k = n), (f_equal snd I : e = nGlyphs), eqb_refl. reflexivity. }
  split; [|split].
  - unfold getGlyphSet. rewrite V. reflexivity.
  - intros n D U. rewrite !getGlyphSet_3 by auto. cbn [resolved]. unfold lastDefault. rewrite (B n); [reflexivity|apply get_In; exact D|]. intros k I. apply U. apply In_get; assumption.
  - intro N. rewrite !getGlyphSet_3 by auto. cbn [resolved]. unfold lastDefault. rewrite A; [reflexivity|]. intros k I. apply (N k). apply In_get; assumption.
Qed.

(** ** Histories *)
(** the calls that keep the layers settled: not deleteGlyphSet(None), and not
    making a second default layer under its own name (C28) *)
Definition tidyCall (s : ust) (k : layerCall) : Prop :=
  fewNames (keys (layers s)) /\
  match k with
  | CDelete None => False
  | CRename (Some n) (Some m) true => m = n -> forall k, isDefault s k -> k = n
  | _ => True
  end.
Fixpoint tidyCalls (c : wcfg) (ks : list layerCall) (s : ust) : Prop :=
  match ks with [] => True | k :: r => tidyCall s k /\ tidyCalls c r (fst (doCall C lower c k s)) end.
Lemma default_unique s : settled lower s -> (exists n, isDefault s n /\ forall k, isDefault s k -> k = n) \/ forall k, ~ isDefault s k.
Proof.
  intros (_ & (Dl & _ & Apart) & _). destruct (mem (u "glyphs") (values (layers s))) eqn:M.
  - left. apply mem_In in M. apply in_map_iff in M as ([n e] & Ee & M). cbn [snd] in Ee. subst e. apply In_get in M; [|exact Dl]. exists n. split; [exact M|]. intros k Dk. destruct (eqb_spec k n) as [|N]; [assumption|]. exfalso. exact (Apart k n _ _ N Dk M eq_refl).
  - right. intros k Dk. apply mem_nIn in M. apply M. eapply In_values. exact Dk.
Qed.
Lemma get_settled c s n df vr : ver c = 3%Z -> settled lower s -> fewNames (keys (layers s)) -> settled lower (fst (doCall C lower c (CGet (Some n) df vr) s)).
Proof.
  intros V St Few. cbn [doCall]. unfold mbind. destruct (get n (layers s)) as [d|] eqn:G.
  - destruct (C113_old_layer c s n df vr d V St G) as (A & B). destruct df; [destruct (eqb_spec d (u "glyphs")) as [Ed|Nd]|].
    + destruct A as (ds & _ & ->); [intros _; unfold isDefault; rewrite G, Ed; reflexivity|]. destruct (openGlyphSet C (Dir ds) vr); exact St.
    + rewrite B; [exact St|reflexivity|]. unfold isDefault. rewrite G. intro X. apply Nd. exact (f_equal (fun o => match o with Some z => z | None => [] end) X).
    + destruct A as (ds & _ & ->); [discriminate|]. destruct (openGlyphSet C (Dir ds) vr); exact St.
  - destruct df.
    + destruct (default_unique s St) as [(k & Dk & _)|No].
      * rewrite (C113_other_default c s n vr k V Dk); [exact St|]. intros ->. unfold isDefault in Dk. congruence.
      * destruct (C113_new_layer c s n true vr V St Few G) as (s' & d & -> & S' & _); [intros _ k Dk; exfalso; exact (No k Dk)|exact S'].
    + destruct (C113_new_layer c s n false vr V St Few G) as (s' & d & -> & S' & _); [discriminate|exact S'].
Qed.
Theorem C113_histories_partial : forall c ks s, ver c = 3%Z -> settled lower s -> tidyCalls c ks s -> settled lower (runCalls C lower c ks s).
Proof.
  intros c ks. induction ks as [|k ks IH]; intros s V St Td; [exact St|]. cbn [tidyCalls runCalls] in *. destruct Td as ((Few & Tk) & Td). apply IH; [exact V| |exact Td]. clear IH Td.
  destruct k as [[n|] df vr|[n|] [m|] df|[n|]].
  - apply get_settled; assumption.
  - destruct (C113_no_name c s vr V (proj1 (proj1 (proj2 St)))) as (N1 & N2 & N3). destruct df; [|cbn [doCall]; unfold mbind; rewrite N1; exact St].
    destruct (default_unique s St) as [(n & Dn & U)|No].
    + pose proof (get_settled c s n true vr V St Few) as X. cbn [doCall] in *. unfold mbind in *. rewrite (N2 n Dn U). exact X.
    + pose proof (get_settled c s (u "public.default") true vr V St Few) as X. cbn [doCall] in *. unfold mbind in *. rewrite (N3 No). exact X.
  - cbn [doCall]. destruct (C113_rename_partial c s n m df V St Few) as [(_ & s' & -> & S' & _)|(_ & e & ->)]; [|exact S'|exact St]. intros Em -> . exact (Tk Em).
  - cbn [doCall]. destruct (C113_rename_none c s df V) as (R1 & R2 & _). destruct (eqb_spec n (u "public.default")) as [->|N].
    + destruct (get (u "public.default") (layers s)) eqn:G; [rewrite R2 by congruence; exact St|].
      assert (X : exists e, renameGlyphSet lower c (Some (u "public.default")) None df s = (s, Err e)); [|destruct X as (e & ->); exact St].
      assert (F : findDirectory (layers s) (Some (u "public.default")) = Err UFOLibError).
      { clear -G. induction (layers s) as [|[k e] l IH]; [reflexivity|]. cbn [findDirectory get] in *. destruct (eqb_spec (u "public.default") k) as [E|N]; [discriminate G|]. destruct (eqb_spec k (u "public.default")) as [E|_]; [exfalso; apply N; symmetry; exact E|]. apply IH. exact G. }
      unfold renameGlyphSet. rewrite V. change (3 <? 3)%Z with false. cbv iota. unfold mbind at 1, getLayers. destruct (eqb_spec (Some (u "public.default")) None) as [X|_]; [discriminate X|].
      destruct (has nDefault (layers s)); [eexists; reflexivity|]. destruct (df && _); [eexists; reflexivity|]. unfold mbind at 1, ret at 1. cbn [negb]. unfold mbind at 1, lift at 1. rewrite F. eexists. reflexivity.
    + rewrite (R1 n N). destruct (C113_rename_partial c s n (u "public.default") df V St Few) as [(_ & s' & -> & S' & _)|(_ & e & ->)]; [|exact S'|exact St]. intros Em. exfalso. apply N. symmetry. exact Em.
  - cbn [doCall]. destruct (C113_rename_none c s df V) as (_ & _ & R3). destruct (R3 (Some m)) as (e & ->). exact St.
  - cbn [doCall]. destruct (C113_rename_none c s df V) as (_ & _ & R3). destruct (R3 None) as (e & ->). exact St.
  - cbn [doCall]. pose proof (C113_delete c s n V St) as X. destruct (get n (layers s)); [destruct X as (s' & -> & S' & _); exact S'|rewrite X; exact St].
  - destruct Tk.
Qed.
End LayerCalls.

Print Assumptions C113_delete.
Print Assumptions C113_delete_none_refuted.
Print Assumptions C113_rename_partial.
Print Assumptions C113_rename_none.
Print Assumptions C113_new_layer.
Print Assumptions C113_old_layer.
Print Assumptions C113_other_default.
Print Assumptions C113_no_name.
Print Assumptions C113_histories_partial.
(** a new UFO, two layers, a renaming and the deletion of the default layer *)
Definition layersOf (s : ust) : list (str * str) * list str := (layers s, match tree s with Dir es => keys es | File _ => [] end).
Example C113_case :
  settled ascii_lower (newState (Dir [])) /\
  (let c := mkCfg 3 false PNone in let run ks := runCalls toy ascii_lower c ks (newState (Dir [])) in
   let two := [CGet None true true; CGet (Some (u "Back")) false true] in
   layersOf (run two) = ([(u "public.default", u "glyphs"); (u "Back", u "glyphs.B_ack")], [u "glyphs"; u "glyphs.B_ack"]) /\
   layersOf (run (two ++ [CRename (Some (u "Back")) (Some (u "x")) false])) = ([(u "public.default", u "glyphs"); (u "x", u "glyphs.x")], [u "glyphs"; u "glyphs.x"]) /\
   layersOf (run (two ++ [CDelete (Some (u "public.default")); CRename (Some (u "Back")) None true])) = ([(u "public.default", u "glyphs")], [u "glyphs"]) /\
   layersOf (run (two ++ [CRename (Some (u "public.default")) (Some (u "x")) true; CRename (Some (u "x")) (Some (u "y")) false])) = layersOf (run two) /\
   layersOf (run (two ++ [CDelete None])) = ([(u "public.default", u "glyphs"); (u "Back", u "glyphs.B_ack")], [u "glyphs.B_ack"])).
Proof.
  split.
  - split; [eexists; reflexivity|]. split; [split; [apply NoDup_nil|split; intros; discriminate]|]. split; [intros n d G; discriminate G|]. intros x _ N. exfalso. apply N. reflexivity.
  - vm_compute. repeat split.
Qed.
