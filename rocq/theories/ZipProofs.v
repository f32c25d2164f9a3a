(** Proofs about Zip.v: the methods of a writer keep its files a well-formed tree,
    and copying a well-formed tree gives the same tree. *)
From Coq Require Import String NArith ZArith Bool Lia List.
From Verif Require Import Base Filenames PyVal PyText Kerning FS FSProofs Ufo Zip.
Import ListNotations.
Local Open Scope string_scope.
Local Open Scope list_scope.

(** well-formed trees whose root is a directory *)
Definition good (t : node) : Prop := wf t /\ exists es, t = Dir es.
Lemma good_empty : good (Dir []).
Proof. split; [constructor; constructor|eauto]. Qed.
Lemma good_dir es : dict_ok es -> Forall (fun e => wf (snd e)) es -> good (Dir es).
Proof. intros D F. split; [constructor; assumption|eauto]. Qed.

Lemma set_new {V} k (v : V) (d : list (str * V)) : get k d = None -> set k v d = d ++ [(k, v)].
Proof.
  induction d as [|[a b] d IH]; intro G; [reflexivity|]. cbn [get set] in *. destruct (eqb k a) eqn:E; [discriminate G|].
  rewrite IH by exact G. reflexivity.
Qed.
Lemma wf_get es k n : wf (Dir es) -> get k es = Some n -> wf n.
Proof. intros W G. inversion W as [|? D F]; subst. apply get_In in G. rewrite Forall_forall in F. apply (F _ G). Qed.
Lemma wf_set es k n : wf (Dir es) -> wf n -> wf (Dir (set k n es)).
Proof.
  intros W N. inversion W as [|? D F]; subst. constructor; [apply dict_ok_set; exact D|].
  clear D W. induction es as [|[a b] es IH]; cbn [set]; [constructor; [exact N|constructor]|].
  inversion F; subst. destruct (eqb k a); constructor; auto.
Qed.
Lemma wf_find t p n : wf t -> find t p = Some n -> wf n.
Proof.
  revert t. induction p as [|c q IH]; intros t W F; cbn [find] in F; [injection F as <-; exact W|].
  destruct t as [b|es]; [discriminate F|]. destruct (get c es) as [m|] eqn:G; [|discriminate F]. exact (IH m (wf_get es c m W G) F).
Qed.
Lemma wf_put p n t t' : wf t -> wf n -> put p n t = Some t' -> wf t'.
Proof.
  revert t t'. induction p as [|c q IH]; intros t t' W N P; cbn [put] in P; [injection P as <-; exact N|].
  destruct t as [b|es]; [discriminate P|]. destruct q as [|d q']; [injection P as <-; apply wf_set; assumption|].
  destruct (get c es) as [m|] eqn:G; [|discriminate P]. destruct (put (d :: q') n m) as [m'|] eqn:P'; [|discriminate P]. injection P as <-.
  apply wf_set; [exact W|]. exact (IH m m' (wf_get es c m W G) N P').
Qed.
Lemma wf_cut p t : wf t -> wf (cut p t).
Proof.
  revert t. induction p as [|c q IH]; intros t W; cbn [cut]; [constructor; constructor|].
  destruct t as [b|es]; [exact W|]. destruct q as [|d q'].
  - inversion W as [|? D F]; subst. constructor.
    + unfold dict_ok, keys in *. clear F W. induction es as [|[a b] es IHe]; [exact D|]. cbn [filter map fst] in *. inversion D; subst.
      destruct (negb (eqb c a)); [|exact (IHe H2)]. cbn [map fst]. constructor; [|exact (IHe H2)].
      intro X. apply H1. apply in_map_iff in X as (e & <- & X). apply filter_In in X as (X & _). apply in_map. exact X.
    + rewrite Forall_forall in *. intros e X. apply filter_In in X as (X & _). exact (F e X).
  - destruct (get c es) as [m|] eqn:G; [|exact W]. apply wf_set; [exact W|]. exact (IH m (wf_get es c m W G)).
Qed.
Lemma wf_mkdirs p t t' : wf t -> mkdirs p t = Some t' -> wf t'.
Proof.
  revert t t'. induction p as [|c q IH]; intros t t' W M; cbn [mkdirs] in M; (destruct t as [b|es]; [discriminate M|]); [injection M as <-; exact W|].
  destruct (mkdirs q _) as [m|] eqn:E; [|discriminate M]. injection M as <-. apply wf_set; [exact W|]. apply (IH _ _) in E; [exact E|].
  destruct (get c es) as [n|] eqn:G; [exact (wf_get es c n W G)|constructor; constructor].
Qed.
Lemma put_dir p n t t' : p <> [] -> put p n t = Some t' -> exists es, t' = Dir es.
Proof.
  destruct p as [|c q]; [contradiction|]. intros _ P. cbn [put] in P. destruct t as [b|es]; [discriminate P|].
  destruct q; [injection P as <-; eauto|]. destruct (get c es); [|discriminate P]. destruct (put _ n n0); [injection P as <-; eauto|discriminate P].
Qed.
Lemma cut_dir p t : (exists es, t = Dir es) -> exists es, cut p t = Dir es.
Proof. intros (es & ->). destruct p as [|c [|d q]]; cbn [cut]; eauto. destruct (get c es); eauto. Qed.
Lemma mkdirs_dir p t t' : mkdirs p t = Some t' -> exists es, t' = Dir es.
Proof. destruct p, t; cbn [mkdirs]; intro M; try discriminate M; [injection M as <-; eauto|]. destruct (mkdirs p _); [injection M as <-; eauto|discriminate M]. Qed.

(** the operations of the file system *)
Lemma good_setbytes t p b t' : good t -> setbytes t p b = FOk t' -> good t'.
Proof.
  intros (W & es & ->) S. unfold setbytes in S. destruct (find (Dir es) p) as [[b'|es']|] eqn:F; try discriminate S;
    (destruct (put p (File b) (Dir es)) as [x|] eqn:P; [injection S as <-|discriminate S]);
    (split; [eapply wf_put; [exact W|constructor|exact P]|]); (apply put_dir in P; [exact P|]); intros ->; cbn in F; discriminate F.
Qed.
Lemma good_remove t p t' : good t -> remove t p = FOk t' -> good t'.
Proof. intros (W & D) R. unfold remove in R. destruct (find t p) as [[]|]; try discriminate R. injection R as <-. split; [apply wf_cut; exact W|apply cut_dir; exact D]. Qed.
Lemma good_removetree t p t' : good t -> removetree t p = FOk t' -> good t'.
Proof. intros (W & D) R. unfold removetree in R. destruct (find t p) as [[]|]; try discriminate R. injection R as <-. split; [apply wf_cut; exact W|apply cut_dir; exact D]. Qed.
Lemma good_removedir t p t' : good t -> removedir t p = FOk t' -> good t'.
Proof. intros (W & D) R. unfold removedir in R. destruct (find t p) as [[|[]]|]; try discriminate R. injection R as <-. split; [apply wf_cut; exact W|apply cut_dir; exact D]. Qed.
Lemma good_makedir t p t' : good t -> makedir t p = FOk t' -> good t'.
Proof.
  intros (W & es & ->) R. unfold makedir in R. destruct (find (Dir es) p) as [[]|] eqn:F; try discriminate R; [injection R as <-; split; eauto|].
  destruct (put p (Dir []) (Dir es)) as [x|] eqn:P; [injection R as <-|discriminate R]. split; [eapply wf_put; [exact W|exact (proj1 good_empty)|exact P]|].
  apply put_dir in P; [exact P|]. intros ->. discriminate F.
Qed.
Lemma good_makedirs t p t' : good t -> makedirs t p = FOk t' -> good t'.
Proof.
  intros (W & D) R. unfold makedirs in R. destruct (mkdirs p t) as [x|] eqn:M; [injection R as <-|discriminate R].
  split; [eapply wf_mkdirs; [exact W|exact M]|eapply mkdirs_dir; exact M].
Qed.
Lemma good_removeEmpty p t t' e : good t -> removeEmpty t p = (t', e) -> good t'.
Proof.
  revert t. induction p as [|c q IH]; intros t G R; cbn [removeEmpty] in R; [injection R as <- _; exact G|].
  destruct (removedir t (rev (c :: q))) as [x|x] eqn:D; [apply (IH x); [eapply good_removedir; [exact G|exact D]|exact R]|].
  destruct x; injection R as <- _; exact G.
Qed.
(** merging *)
Fixpoint mergeAll (es ds : list (str * node)) : option node :=
  match es with
  | [] => Some (Dir ds)
  | (k, n) :: r =>
    match get k ds with
    | None => mergeAll r (set k n ds)
    | Some m => match merge n m with Some m' => mergeAll r (set k m' ds) | None => None end
    end
  end.
Lemma merge_dirs es ds : merge (Dir es) (Dir ds) = mergeAll es ds.
Proof. revert ds. induction es as [|[k n] r IH]; intro ds; [reflexivity|]. cbn [merge mergeAll]. destruct (get k ds) as [m|]; [destruct (merge n m); [|reflexivity]|]; exact (IH _). Qed.
Lemma wf_rect (Q : node -> Prop) : (forall b, Q (File b)) -> (forall es, dict_ok es -> Forall (fun e => wf (snd e) /\ Q (snd e)) es -> Q (Dir es)) -> forall t, wf t -> Q t.
Proof.
  intros HF HD. fix F 2. intros t W. destruct W as [b|es D A]; [apply HF|]. apply HD; [exact D|].
  clear D. induction A as [|e es' X A IH]; constructor; [split; [exact X|exact (F (snd e) X)]|exact IH].
Qed.
Lemma wf_merge src : wf src -> forall dst t, wf dst -> merge src dst = Some t -> wf t /\ exists es, t = Dir es \/ (exists b, t = File b).
Proof.
  intro W. induction W as [b|es D A] using wf_rect; intros dst t Wd M.
  - destruct dst; [injection M as <-; split; [constructor|exists []; eauto]|discriminate M].
  - destruct dst as [b|ds]; [discriminate M|]. rewrite merge_dirs in M. clear D. revert ds Wd M. induction A as [|[k n] es (Wn & Q) A IH]; intros ds Wd M; cbn [mergeAll] in M; [injection M as <-; split; [exact Wd|eauto]|].
    cbn [snd] in *. destruct (get k ds) as [m|] eqn:G.
    + destruct (merge n m) as [m'|] eqn:Mn; [|discriminate M]. apply (Q m m' (wf_get ds k m Wd G)) in Mn as (Wm & _). exact (IH _ (wf_set ds k m' Wd Wm) M).
    + exact (IH _ (wf_set ds k n Wd Wn) M).
Qed.
Lemma merge_isdir es ds t : merge (Dir es) (Dir ds) = Some t -> exists x, t = Dir x.
Proof.
  rewrite merge_dirs. revert ds. induction es as [|[k n] es IH]; intros ds M; cbn [mergeAll] in M; [injection M as <-; eauto|].
  destruct (get k ds); [destruct (merge n n0); [|discriminate M]|]; exact (IH _ M).
Qed.
Lemma good_movedir t src dst t' e : good t -> movedir t src dst = (t', e) -> good t'.
Proof.
  intros G M. unfold movedir in M. destruct (makedir t dst) as [t1|x] eqn:D; [|injection M as <- _; exact G].
  pose proof (good_makedir t dst t1 G D) as G1. destruct (find t1 src) as [[b|es]|] eqn:S; destruct (find t1 dst) as [[b'|ds]|] eqn:S'; try (injection M as <- _; exact G1).
  destruct (merge (Dir es) (Dir ds)) as [m|] eqn:Mg; [|injection M as <- _; exact G1].
  destruct (put dst m t1) as [t2|] eqn:P; injection M as <- _; [|exact G1]. pose proof G1 as (W1 & D1).
  pose proof (wf_merge _ (wf_find t1 src _ W1 S) _ m (wf_find t1 dst _ W1 S') Mg) as (Wm & _).
  assert (G2 : good t2).
  { split; [eapply wf_put; [exact W1|exact Wm|exact P]|]. destruct dst as [|c q]; [|apply put_dir in P; [exact P|discriminate]].
    cbn [put] in P. injection P as <-. exact (merge_isdir es ds m Mg). }
  destruct G2 as (W2 & D2). split; [apply wf_cut; exact W2|apply cut_dir; exact D2].
Qed.
(** copying a well-formed tree gives the same tree *)
Lemma mergeAll_app es ds : dict_ok (ds ++ es) -> mergeAll es ds = Some (Dir (ds ++ es)).
Proof.
  revert ds. induction es as [|[k n] es IH]; intros ds D; cbn [mergeAll]; [rewrite app_nil_r; reflexivity|].
  assert (G : get k ds = None).
  { apply get_None. unfold dict_ok, keys in D. rewrite map_app in D. cbn [map fst] in D. apply NoDup_remove_2 in D. intro X. apply D. apply in_or_app. left. exact X. }
  rewrite G, set_new by exact G. rewrite IH; rewrite <- app_assoc; [reflexivity|exact D].
Qed.
Lemma copyFs_good t : good t -> copyFs t = Ok t.
Proof. intros (W & es & ->). unfold copyFs. rewrite merge_dirs, mergeAll_app; [reflexivity|]. inversion W; assumption. Qed.

(** computations that keep the files a good tree *)
Definition keeps {A} (m : M A) : Prop := forall s, good (tree s) -> good (tree (fst (m s))).
Lemma keeps_ret {A} (a : A) : keeps (ret a).
Proof. intros s G. exact G. Qed.
Lemma keeps_raise {A} e : keeps (@raise A e).
Proof. intros s G. exact G. Qed.
Lemma keeps_lift {A} (r : res A) : keeps (lift r).
Proof. intros s G. exact G. Qed.
Lemma keeps_getLayers : keeps getLayers.
Proof. intros s G. exact G. Qed.
Lemma keeps_setLayers l : keeps (setLayers l).
Proof. intros s G. exact G. Qed.
Lemma keeps_getRemap : keeps getRemap.
Proof. intros s G. exact G. Qed.
Lemma keeps_setRemap l : keeps (setRemap l).
Proof. intros s G. exact G. Qed.
Lemma keeps_bind {A B} (m : M A) (k : A -> M B) : keeps m -> (forall a, keeps (k a)) -> keeps (mbind m k).
Proof.
  intros Km Kk s G. unfold mbind. specialize (Km s G). destruct (m s) as [s' [a|e]]; cbn [fst] in *; [apply Kk; exact Km|exact Km].
Qed.
Lemma keeps_tree {B} (k : node -> M B) : (forall t, good t -> keeps (k t)) -> keeps (mbind getTree k).
Proof. intros Kk s G. exact (Kk (tree s) G s G). Qed.
Lemma keeps_change o t : good t -> keeps (change o t).
Proof. intros G s _. exact G. Qed.

Create HintDb keeps.
#[export] Hint Resolve keeps_ret keeps_raise keeps_lift keeps_getLayers keeps_setLayers keeps_getRemap keeps_setRemap keeps_change
  good_setbytes good_remove good_removetree good_makedir good_makedirs : keeps.
Ltac keep :=
  repeat first
    [ progress intros
    | solve [eauto with keeps]
    | apply keeps_tree
    | apply keeps_ret | apply keeps_raise | apply keeps_lift | apply keeps_getLayers | apply keeps_setLayers | apply keeps_getRemap | apply keeps_setRemap
    | apply keeps_change; eauto with keeps; fail
    | apply keeps_bind
    | match goal with |- keeps (match ?x with _ => _ end) => destruct x eqn:? end ].
Section Methods.
Variable C : codec.
Variable T : pytext.
Variable lower : str -> str.
Lemma keeps_fsSetbytes p b : keeps (fsSetbytes p b).
Proof. unfold fsSetbytes. keep. Qed.
Hint Resolve keeps_fsSetbytes : keeps.
Lemma keeps_writePlist prev n v : keeps (writePlist C prev n v).
Proof. unfold writePlist. keep. Qed.
Hint Resolve keeps_writePlist : keeps.
Lemma keeps_removePath p f e : keeps (removePath p f e).
Proof.
  unfold removePath. keep.
  match goal with H : removeEmpty _ _ = _ |- _ => apply good_removeEmpty in H; [|assumption] end. apply keeps_change. assumption.
Qed.
Hint Resolve keeps_removePath : keeps.
Lemma keeps_writeBytes prev p d : keeps (writeBytesToPath prev p d).
Proof. unfold writeBytesToPath. keep. Qed.
Hint Resolve keeps_writeBytes : keeps.
Lemma keeps_copy src a b : wf src -> keeps (copyFromReader src a b).
Proof.
  intro W. unfold copyFromReader. apply keeps_bind; [apply keeps_lift|]. intro sp. destruct (find src sp) as [n|] eqn:F; [|apply keeps_raise].
  pose proof (wf_find src sp n W F) as Wn. apply keeps_bind; [apply keeps_lift|]. intro dp. apply keeps_tree. intros t G.
  destruct (existsAt t dp) eqn:Ex; [apply keeps_raise|]. apply keeps_bind; [apply keeps_lift|]. intro ps.
  destruct (makedirs t ps) as [t1|e] eqn:Mk; [|apply keeps_raise]. pose proof (good_makedirs t ps t1 G Mk) as G1.
  apply keeps_bind; [apply keeps_change; exact G1|]. intros _.
  assert (P : keeps (match put dp n t1 with Some t2 => change (OWrite dp) t2 | None => raise FSError end)).
  { destruct (put dp n t1) as [t2|] eqn:P; [|apply keeps_raise]. apply keeps_change. destruct G1 as (W1 & D1). split; [eapply wf_put; [exact W1|exact Wn|exact P]|].
    apply put_dir in P; [exact P|]. intros ->. discriminate Ex. }
  destruct n as [b'|es]; destruct (find t1 dp) as [[|[]]|]; try exact P; apply keeps_raise.
Qed.
Lemma keeps_makedir p : keeps (fsMakedir p).
Proof. unfold fsMakedir. keep. Qed.
Lemma keeps_openDir p v : keeps (openDir C p v).
Proof. unfold openDir. keep. Qed.
Hint Resolve keeps_makedir keeps_openDir : keeps.
Definition methodOk (m : wmethod) : Prop :=
  match m with
  | WCopyImage src _ _ | WCopy src _ _ => wf src
  | WOther f => forall t, good t -> good (f t)
  | _ => True
  end.
Lemma keeps_rename c n m d : keeps (renameGlyphSet lower c n m d).
Proof.
  unfold renameGlyphSet. keep.
  match goal with H : movedir _ _ _ = _ |- _ => apply good_movedir in H; [|assumption] end. apply keeps_change. assumption.
Qed.
Hint Resolve keeps_rename keeps_copy : keeps.
Lemma keeps_method m c : methodOk m -> keeps (wcall C lower m c).
Proof.
  intro Hm. destruct m; cbn [wcall methodOk] in *; eauto with keeps;
    unfold setRenameMaps, writeGroups, writeKerning, writeLib, writeFeatures, writeInfoFile, getGlyphSet, getGlyphSet3, deleteGlyphSet,
      writeLayerContents, writeImage, removeImage, copyImageFromReader; keep.
Qed.
Lemma keeps_init c v : keeps (initWriter C T c v).
Proof. unfold initWriter, writeMetaInfo. keep. Qed.
End Methods.
