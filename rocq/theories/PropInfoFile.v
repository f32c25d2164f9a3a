(** C37 over files: the font info read from the fontinfo.plist written with
    plistlib is the one written, dictionaries in any order and lists for tuples. *)
From Coq Require Import String NArith ZArith Bool Lia List Permutation.
From Coq.Floats Require Import SpecFloat.
From Verif Require Import Base PyVal PyText FloatRepr Xml FS Ufo UfoProofs PropUfo PropUfoFiles Plist PlistProofs PropPlist Etree EtreeProofs PropEtree PlistFiles PropSession Validators ValidatorsProofs FontInfoTables FontInfo FontInfoProofs PropFontInfo InfoFile.
Import ListNotations.
Local Open Scope string_scope.
Local Open Scope list_scope.

(** [w] has exactly the version 3 attributes set in [info], with the same values *)
Definition sameInfo (T : pytext) (info w : infoT) : Prop :=
  (forall a v, In a (fontInfoAttributesVersion3 T) -> setTo info a v -> exists x, get a w = Some x /\ psame v x) /\
  (forall a x, get a w = Some x -> In a (fontInfoAttributesVersion3 T) /\ exists v, setTo info a v /\ psame v x).

Lemma asDict_map d : asDict d = PDict (map (fun '(k, x) => (PStr k, x)) d).
Proof. unfold asDict. f_equal. apply map_ext. intros []. reflexivity. Qed.
Lemma asDict_plistable d : dict_ok d -> (forall a v, get a d = Some v -> plistable v) -> plistable (asDict d).
Proof. intros D P. rewrite asDict_map. constructor; [exact D|]. apply Forall_forall. intros [a v] I. cbn [snd]. eapply P. apply In_get; [exact D|exact I]. Qed.
Lemma gather_plistable T info : (forall a v, setTo info a v -> plistable v) -> plistable (asDict (gather T info)).
Proof. intro P. apply asDict_plistable; [apply gather_ok|]. intros a v I. apply gather_get in I as [_ I]. exact (P a v I). Qed.
Lemma attrs_text T a : In a (fontInfoAttributesVersion3 T) -> textOk a.
Proof.
  assert (F : forallb (forallb (fun c => (c =? 10) || ((32 <=? c) && (c <? 128)))%N) (fontInfoAttributesVersion3 T) = true) by (vm_compute; reflexivity).
  intro I. rewrite forallb_forall in F. apply text_check. apply F. exact I.
Qed.
Lemma asDict_faithful d : dict_ok d -> (forall a v, get a d = Some v -> textOk a /\ plistFaithful v) -> plistFaithful (asDict d).
Proof.
  intros D P. split; [apply asDict_plistable; [exact D|]; intros a v S; apply (P a v S)|].
  assert (K : forall a v, In (PStr a, v) (map (fun kv : str * pyval => (PStr (fst kv), snd kv)) d) -> textOk a /\ textsOk v).
  { intros a v I. apply in_map_iff in I as ([b x] & E & I). cbn [fst snd] in E. inversion E; subst. apply In_get in I; [|exact D]. apply P in I as [I [_ S]]. split; assumption. }
  assert (K' : forall k v, In (k, v) (map (fun kv : str * pyval => (PStr (fst kv), snd kv)) d) -> exists a, k = PStr a).
  { intros k v I. apply in_map_iff in I as ([b x] & E & I). cbn [fst snd] in E. inversion E; subst. eauto. }
  split.
  - intros s I. inversion I as [|l x J1 J2|l x J1 J2|d' k x J1 J2]; subst. destruct (K' _ _ J1) as [a ->]. apply K in J1 as [_ [J1 _]]. apply J1. exact J2.
  - intros d' k x I J. inversion I as [|l y J1 J2|l y J1 J2|d'' k' y J1 J2]; subst.
    + apply K in J as [J _]. exact J.
    + destruct (K' _ _ J1) as [a ->]. apply K in J1 as [_ [_ J1]]. eapply J1; eassumption.
Qed.
Lemma gather_faithful T info : (forall a v, setTo info a v -> plistFaithful v) -> plistFaithful (asDict (gather T info)).
Proof. intro P. apply asDict_faithful; [apply gather_ok|]. intros a v I. apply gather_get in I as [I S]. split; [exact (attrs_text T a I)|exact (P a v S)]. Qed.
Lemma vget_gather T info a : vget a (asDict (gather T info)) = match get a (gather T info) with Some v => v | None => PNone end.
Proof. apply vget_asDict. Qed.
Lemma not_none v : is_none v = true <-> v = PNone.
Proof. destruct v; split; intro H; try discriminate; reflexivity. Qed.
Lemma psame_asDict d w : psame (asDict d) w -> is_dict w = true.
Proof. unfold asDict. intro S. inversion S; subst; [discriminate|reflexivity]. Qed.
(** whatever the reader got, if it is the written dictionary up to the order *)
Lemma info_read T perm validate info d w : (forall a v, setTo info a v -> plistable v) ->
  writeInfo T 3 validate info = Ok d -> psame (asDict d) w -> is_dict w = true /\ exists d', readInfo T perm 3 validate w = Ok d' /\ sameInfo T info d'.
Proof.
  intros P W S. rewrite writeInfo_3 in W. cbv zeta in W.
  assert (d = gather T info /\ (validate = true -> Forall (fun kv => valid3 T (fst kv) (snd kv)) (gather T info))) as (-> & F).
  { destruct validate; [|apply Ok_inj in W; split; [symmetry; exact W|intro Q; discriminate Q]]. apply validate_3 in W as (-> & F); [|apply gather_ok]. split; [reflexivity|auto]. }
  pose proof (gather_plistable T info P) as PD.
  assert (ID : is_dict w = true) by exact (psame_asDict _ _ S). split; [exact ID|].
  assert (R : readInfo T perm 3 validate w = (if validate then validateInfoVersion3Data T (collect (fontInfoAttributesVersion3 T) w []) else Ok (collect (fontInfoAttributesVersion3 T) w []))).
  { unfold readInfo. rewrite ID. cbn [negb]. rewrite andb_false_r. reflexivity. }
  rewrite R. clear R.
  set (c := collect (fontInfoAttributesVersion3 T) w []).
  assert (NA : NoDup (fontInfoAttributesVersion3 T)) by (apply nodup_dec; vm_compute; reflexivity).
  assert (Gc : forall a, get a c = if mem a (fontInfoAttributesVersion3 T) then (if is_none (vget a w) then None else Some (vget a w)) else None).
  { intro a. unfold c. apply collect_get; [intros []|exact NA|intros k _ []]. }
  assert (Dc : dict_ok c) by (apply collect_keys; constructor). clearbody c.
  assert (SI : sameInfo T info c).
  { split.
    - intros a v I St. pose proof (proj2 (gather_get T info a v) (conj I St)) as G. destruct (same_get _ _ a PD S) as (Sg & _ & _). rewrite vget_gather, G in Sg.
      exists (vget a w). split; [|exact Sg]. rewrite Gc. apply mem_In in I. rewrite I, (same_none _ _ Sg). destruct (is_none v) eqn:N; [apply not_none in N; destruct St; contradiction|reflexivity].
    - intros a x G. rewrite Gc in G. destruct (mem_spec a (fontInfoAttributesVersion3 T)) as [I|I]; [|discriminate G]. split; [exact I|].
      destruct (same_get _ _ a PD S) as (Sg & _ & _). destruct (is_none (vget a w)) eqn:N; [discriminate G|]. injection G as <-. rewrite (same_none _ _ Sg) in N. rewrite vget_gather in Sg, N.
      destruct (get a (gather T info)) as [v|] eqn:Q; [|discriminate N]. apply gather_get in Q as [_ Q]. eauto. }
  exists c. split; [|exact SI]. destruct validate; [|reflexivity]. specialize (F eq_refl).
  apply validate_3_ok; [exact Dc|]. apply Forall_forall. intros [a x] Hin. cbn [fst snd].
  apply In_get in Hin; [|exact Dc]. destruct SI as [_ SI]. destruct (SI _ _ Hin) as (I & v & St & Sv).
  pose proof (proj2 (gather_get T info a v) (conj I St)) as G. apply get_In in G. rewrite Forall_forall in F. apply F in G. cbn [fst snd] in G.
  unfold valid3, validateFontInfoVersion3ValueForAttribute, validateForAttribute in *. destruct (get a (fontInfoAttributesVersion3ValueData T)) as [f|] eqn:E; [|discriminate G].
  eapply (all_keep T a f E); [|exact Sv|exact G]. eapply P. exact St.
Qed.

Theorem C37_file : forall T R perm validate c s s' info d, pytext_laws T -> repr_laws T R ->
  (forall a v, setTo info a v -> plistFaithful v) ->
  writeInfo T 3 validate info = Ok d ->
  writeInfoFile (plistCodec T R) c (asDict d) s = (s', Ok tt) ->
  exists v d', readInfoFile (plistCodec T R) (tree s') validate = Ok v /\ readInfo T perm 3 validate v = Ok d' /\ sameInfo T info d'.
Proof.
  intros T R perm validate c s s' info d LT LR F W H.
  assert (Fd : plistFaithful (asDict d)).
  { rewrite writeInfo_3 in W. cbv zeta in W. assert (d = gather T info) as -> by (destruct validate; [apply validate_3 in W; [apply W|apply gather_ok]|apply Ok_inj in W; symmetry; exact W]). apply gather_faithful. exact F. }
  unfold writeInfoFile in H. destruct (read_stored _ _ _ _ _ _ _ (Some (PDict [])) (plist_codec_laws T R LT LR) H Fd) as (w & G & S).
  destruct (info_read T perm validate info d w) as (ID & d' & R' & SI); [intros a v St; apply (F a v St)|exact W|exact S|].
  exists w, d'. split; [|split; assumption]. unfold readInfoFile. rewrite G. cbn [bind]. rewrite ID. cbn [negb]. rewrite andb_false_r. reflexivity.
Qed.
Print Assumptions C37_file.
(** a guideline whose keys come back sorted and a list given as a tuple *)
Example C37_file_case :
  let info := [(u "familyName", PStr (u "F")); (u "notAnAttribute", PInt 1); (u "note", PNone);
    (u "postscriptBlueValues", PTuple [PInt 0; PInt 10]);
    (u "guidelines", PList [PDict [(PStr (u "y"), PInt 3); (PStr (u "x"), PInt 2); (PStr (u "angle"), PInt 45)]])] in
  let C := plistCodec toyText toyRepr in
  (do d <- writeInfo toyText 3 true info;
   let '(s, r) := writeInfoFile C (mkCfg 3 false PNone) (asDict d) (newState (Dir [])) in
   do _ <- r; do v <- readInfoFile C (tree s) true; readInfo toyText (fun l => l) 3 true v)
  = Ok [(u "familyName", PStr (u "F")); (u "postscriptBlueValues", PList [PInt 0; PInt 10]);
    (u "guidelines", PList [PDict [(PStr (u "angle"), PInt 45); (PStr (u "x"), PInt 2); (PStr (u "y"), PInt 3)]])].
Proof. vm_compute. reflexivity. Qed.
