(** Properties C28 and C29: the layers of a UFO 3. *)
From Coq Require Import String NArith ZArith Bool Lia List Permutation.
From Verif Require Import Base PyVal PyText LowerLaws Filenames FilenamesProofs Validators ValidatorsProofs PropValidators FS FSProofs Ufo UfoProofs ToyCodec PropUfo PropUfoFiles.
Import ListNotations.
Local Open Scope string_scope.
Local Open Scope list_scope.

(** the calls that change the layers of a writer *)
Inductive layerCall :=
| CGet (layerName : option str) (defaultLayer validateRead : bool)
| CRename (layerName newLayerName : option str) (defaultLayer : bool)
| CDelete (layerName : option str).
Definition doCall C lower (c : wcfg) (k : layerCall) : M unit :=
  match k with
  | CGet n d v => let! _ := getGlyphSet C lower c n d v in ret tt
  | CRename n m d => renameGlyphSet lower c n m d
  | CDelete n => deleteGlyphSet c n
  end.
(** a history; what a call raises is caught *)
Fixpoint runCalls C lower c (ks : list layerCall) (s : ust) : ust :=
  match ks with [] => s | k :: r => runCalls C lower c r (fst (doCall C lower c k s)) end.

(** different layers, different directories when case is ignored *)
Definition layersApart (lower : str -> str) (s : ust) : Prop :=
  forall n m d e, n <> m -> get n (layers s) = Some d -> get m (layers s) = Some e -> lower d <> lower e.

(** ** C28 *)
(** Making a layer the default layer under its own name does not look at the
    other layers (__init__.py 1489-1495): both end up in "glyphs". *)
Theorem C28_apart_refuted : exists ks,
  let s := runCalls toy ascii_lower (mkCfg 3 false PNone) ks (newState (Dir [])) in
  get (u "public.default") (layers s) = Some (u "glyphs") /\ get (u "bg") (layers s) = Some (u "glyphs").
Proof.
  exists [CGet None true true; CGet (Some (u "bg")) false true; CRename (Some (u "bg")) (Some (u "bg")) true].
  vm_compute. auto.
Qed.
Print Assumptions C28_apart_refuted.

(** str.lower never drops a character: the prefix and a dot stay longer *)
Definition lower_keeps (lower : str -> str) : Prop := forall r, lower (u "glyphs." ++ r) <> lower (u "glyphs").
Lemma ascii_keeps : lower_keeps ascii_lower.
Proof. intros r H. unfold ascii_lower in H. apply (f_equal (@length _)) in H. rewrite !map_length, app_length in H. vm_compute in H. lia. Qed.

Section Layers.
Variable C : codec.
Variable lower : str -> str.
Hypothesis keeps : lower_keeps lower.

Definition ownDir (d : str) : Prop := d = u "glyphs" \/ exists r, d = u "glyphs." ++ r.
(** the layers of a writer *)
Definition layered (l : list (str * str)) : Prop :=
  dict_ok l /\ (forall n d, get n l = Some d -> ownDir d) /\
  (forall n m d e, n <> m -> get n l = Some d -> get m l = Some e -> lower d <> lower e).
Lemma set_get_id {A B} `{Eqb A} (k : A) (v : B) l : get k l = Some v -> set k v l = l.
Proof.
  induction l as [|[k' v'] l IH]; cbn [get set]; [discriminate|]. destruct (eqb_spec k k') as [->|N]; intro E; [inversion E; subst; reflexivity|].
  rewrite IH by exact E. reflexivity.
Qed.
Lemma In_values {A B} `{Eqb A} (k : A) (v : B) l : get k l = Some v -> In v (values l).
Proof. intro G. apply get_In in G. unfold values. apply in_map_iff. exists (k, v). auto. Qed.
(** a new directory lies under "glyphs." and is fresh *)
Lemma newDirectory_fresh name l d : newDirectory lower name l = Ok d ->
  (exists r, d = u "glyphs." ++ r /\ ~ In slash r) /\ (forall n e, get n l = Some e -> lower d <> lower e).
Proof.
  intro H. unfold newDirectory in H. split.
  - apply legal_result in H as (b & E & L). exists b. rewrite app_nil_r in E. split; [exact E|].
    intro I. rewrite Forall_forall in L. apply L in I. apply I. vm_compute. tauto.
  - intros n e G E. apply (fresh lower) in H. apply H. rewrite E. apply in_map. eapply In_values. exact G.
Qed.
Lemma layered_set l n d : layered l -> ownDir d -> (forall m e, m <> n -> get m l = Some e -> lower d <> lower e) -> layered (set n d l).
Proof.
  intros (D & O & A) Od F. split; [apply dict_ok_set; exact D|]. split.
  - intros m e G. rewrite get_set in G. destruct (eqb_spec m n); [inversion G; subst; exact Od|]. eapply O. exact G.
  - intros m m' e e' N G G'. rewrite get_set in G, G'. destruct (eqb_spec m n) as [->|N1], (eqb_spec m' n) as [->|N2].
    + destruct N. reflexivity.
    + inversion G; subst. exact (F _ _ N2 G').
    + inversion G'; subst. intro E. symmetry in E. exact (F _ _ N1 G E).
    + exact (A _ _ _ _ N G G').
Qed.
Lemma layered_del l n : layered l -> layered (del n l).
Proof.
  intros (D & O & A). split; [apply dict_ok_del; exact D|].
  assert (G : forall m e, get m (del n l) = Some e -> get m l = Some e).
  { intros m e G. destruct (eq_decide m n) as [->|N]; [rewrite get_del_same in G by exact D; discriminate G|]. rewrite get_del_other in G by exact N. exact G. }
  split; [intros m e H; eapply O; apply G; exact H|]. intros m m' e e' N H H'. exact (A _ _ _ _ N (G _ _ H) (G _ _ H')).
Qed.
(** "glyphs" differs from every other directory *)
Lemma glyphs_apart d : ownDir d -> d <> u "glyphs" -> lower (u "glyphs") <> lower d.
Proof. intros [->|(r & ->)] N; [destruct N; reflexivity|]. intro E. symmetry in E. apply keeps in E. exact E. Qed.

(** *** what the calls do to the layers *)
Lemma fsMakedir_layers p s s' r : fsMakedir p s = (s', r) -> layers s' = layers s.
Proof.
  unfold fsMakedir, mbind, getTree. destruct (makedir (tree s) p); [|intro H; inversion H; reflexivity].
  destruct (existsAt (tree s) p); intro H; inversion H; reflexivity.
Qed.
Lemma openDir_state p v s s' r : openDir C p v s = (s', r) -> s' = s.
Proof. unfold openDir, mbind, getTree. destruct (find (tree s) p); intro H; inversion H; reflexivity. Qed.
(** how a layer gets its directory *)
Definition chosen (name : str) (defaultLayer : bool) (l : list (str * str)) (d : str) : Prop :=
  if defaultLayer then d = u "glyphs" /\ forall m, m <> name -> get m l <> Some (u "glyphs") else newDirectory lower name l = Ok d.
Lemma chosen_fresh l name df d : layered l -> chosen name df l d -> ownDir d /\ forall m e, m <> name -> get m l = Some e -> lower d <> lower e.
Proof.
  intros (D & O & A) H. unfold chosen in H. destruct df.
  - destruct H as [-> H]. split; [left; reflexivity|]. intros m e N G. apply glyphs_apart; [eapply O; exact G|]. intros ->. exact (H m N G).
  - apply newDirectory_fresh in H as [(r & -> & _) H]. split; [right; eauto|]. intros m e _ G. eapply H. exact G.
Qed.
Lemma get3_spec name df vr s s' r : dict_ok (layers s) -> getGlyphSet3 C lower name df vr s = (s', r) ->
  (layers s' = layers s /\ (forall a, r <> Ok a)) \/
  exists d cs s1, (get name (layers s) = Some d \/ get name (layers s) = None /\ chosen name df (layers s) d) /\
    components d = Ok cs /\ fsMakedir cs s = (s1, Ok tt) /\ tree s' = tree s1 /\ layers s' = set name d (layers s) /\
    (df = true -> d = u "glyphs").
Proof.
  intros Dk. unfold getGlyphSet3. unfold mbind at 1, getLayers.
  destruct (df && existsb _ (layers s)) eqn:Ck; [intro H; inversion H; left; split; [reflexivity|discriminate]|].
  assert (Df : df = true -> forall n d, get n (layers s) = Some d -> (d = u "glyphs" <-> n = name)).
  { intros -> n d G. cbn [andb] in Ck. apply get_In in G. split; intro E.
    - subst d. destruct (eqb_spec n name) as [|N]; [assumption|]. exfalso. rewrite (proj2 (existsb_exists _ _)) in Ck; [discriminate|].
      exists (n, nGlyphs). split; [exact G|]. rewrite eqb_refl. destruct (eqb_spec n name); [contradiction|reflexivity].
    - subst n. destruct (eqb_spec d nGlyphs) as [|N]; [assumption|]. exfalso. rewrite (proj2 (existsb_exists _ _)) in Ck; [discriminate|].
      exists (name, d). split; [exact G|]. destruct (eqb_spec d nGlyphs); [contradiction|]. apply eqb_refl. }
  assert (X : forall d, (get name (layers s) = Some d \/ get name (layers s) = None /\ chosen name df (layers s) d) ->
    (let! cs := lift (components d) in let! _ := fsMakedir cs in let! _ := setLayers (set name d (layers s)) in let! contents := openDir C cs vr in ret (d, contents)) s = (s', r) ->
    (layers s' = layers s /\ (forall a, r <> Ok a)) \/
    exists d cs s1, (get name (layers s) = Some d \/ get name (layers s) = None /\ chosen name df (layers s) d) /\
    components d = Ok cs /\ fsMakedir cs s = (s1, Ok tt) /\ tree s' = tree s1 /\ layers s' = set name d (layers s) /\ (df = true -> d = u "glyphs")).
  { intros d Ch. unfold mbind, lift. destruct (components d) as [cs|] eqn:Ec; [|intro H; inversion H; left; split; [reflexivity|discriminate]].
    destruct (fsMakedir cs s) as [s1 [[]|e]] eqn:Em; [|intro H; inversion H; subst; apply fsMakedir_layers in Em; left; split; [exact Em|discriminate]].
    unfold setLayers. destruct (openDir C cs vr _) as [s2 r2] eqn:Eo. apply openDir_state in Eo. intro H.
    assert (s' = s2) by (destruct r2; inversion H; reflexivity). subst s'. right. exists d, cs, s1. subst s2.
    split; [exact Ch|]. split; [exact Ec|]. split; [exact Em|]. split; [reflexivity|]. split; [reflexivity|].
    intro E. destruct Ch as [G|[_ Ch]]; [apply (Df E _ _ G); reflexivity|]. rewrite E in Ch. apply Ch. }
  destruct (get name (layers s)) as [d|] eqn:G.
  - unfold mbind at 1, ret at 1. intro H. apply X in H; [exact H|left; reflexivity].
  - destruct df.
    + unfold mbind at 1, ret at 1. intro H. apply X in H; [exact H|]. right. split; [reflexivity|]. split; [reflexivity|].
      intros m N Gm. apply N. apply (Df eq_refl _ _ Gm). reflexivity.
    + unfold mbind at 1, lift at 1. destruct (newDirectory lower name (layers s)) as [d|e] eqn:Nd; [|intro H; inversion H; left; split; [reflexivity|discriminate]].
      intro H. apply X in H; [exact H|]. right. split; [reflexivity|exact Nd].
Qed.
(** the layer name that getGlyphSet uses *)
Definition resolved (n : option str) (l : list (str * str)) : str :=
  match n with Some n => n | None => match lastDefault l with Some n => n | None => u "public.default" end end.
Lemma getGlyphSet_3 c n df vr s : ver c = 3%Z -> (n <> None \/ df = true) ->
  getGlyphSet C lower c n df vr s = getGlyphSet3 C lower (resolved n (layers s)) df vr s.
Proof.
  intros V H. unfold getGlyphSet. rewrite V. change (3 <? 3)%Z with false. cbn [andb]. unfold mbind at 1, getLayers.
  destruct n as [n|]; [reflexivity|]. destruct H as [H| ->]; [congruence|]. reflexivity.
Qed.
Lemma call_get c n df vr s : ver c = 3%Z -> layered (layers s) -> layered (layers (fst (doCall C lower c (CGet n df vr) s))).
Proof.
  intros V L. cbn [doCall]. unfold mbind. destruct (getGlyphSet C lower c n df vr s) as [s' r] eqn:E.
  assert (X : layered (layers s')); [|destruct r; exact X].
  assert (Nn : n <> None \/ df = true \/ n = None /\ df = false) by (destruct n, df; auto; left; discriminate).
  destruct Nn as [Nn|[Nn|[-> ->]]].
  3: { unfold getGlyphSet in E. rewrite V in E. cbn in E. inversion E; subst. exact L. }
  1, 2: rewrite getGlyphSet_3 in E by auto; apply get3_spec in E; [|apply L]; destruct E as [[-> _]|(d & cs & s1 & Ch & _ & _ & _ & -> & _)]; [exact L|];
    destruct Ch as [G|[G Ch]]; [rewrite set_get_id by exact G; exact L|]; destruct (chosen_fresh _ _ _ _ L Ch) as [O F]; apply layered_set; assumption.
Qed.
Lemma findDirectory_get l n d : findDirectory l (Some n) = Ok d -> get n l = Some d.
Proof.
  induction l as [|[m e] l IH]; cbn [findDirectory get]; [discriminate|]. destruct (eqb_spec m n) as [->|N].
  - rewrite eqb_refl. destruct e; intro H; inversion H; reflexivity.
  - destruct (eqb_spec n m); [congruence|]. exact IH.
Qed.
Definition renamed (l : list (str * str)) (n : str) (b : option str) (df : bool) (new old d : str) : Prop :=
  if eqb (Some n) b then new = n /\ (old = u "glyphs" <-> df = false) /\ (if df then d = u "glyphs" else newDirectory lower new l = Ok d)
  else new = match b with Some m => m | None => u "public.default" end /\ get new l = None /\
       (if df then d = u "glyphs" /\ forall m, get m l <> Some (u "glyphs") else newDirectory lower new l = Ok d).
Lemma rename_spec c a b df s s' r : ver c = 3%Z -> renameGlyphSet lower c a b df s = (s', r) ->
  (layers s' = layers s /\ tree s' = tree s) \/
  exists n new old d, a = Some n /\ get n (layers s) = Some old /\ renamed (layers s) n b df new old d /\
    layers s' = set new d (del n (layers s)) /\
    (r = Ok tt -> exists src dst, components old = Ok src /\ components d = Ok dst /\ movedir (tree s) src dst = (tree s', None)).
Proof.
  intros V. unfold renameGlyphSet. rewrite V. change (3 <? 3)%Z with false. cbv iota. unfold mbind at 1, getLayers.
  assert (Rest : forall new n, a = Some n -> (forall old d, get n (layers s) = Some old -> (if df then d = u "glyphs" else newDirectory lower new (layers s) = Ok d) -> renamed (layers s) n b df new old d) ->
    (let! oldDirectory := lift (findDirectory (layers s) (Some n)) in
     let! directory := (if df then ret nGlyphs else lift (newDirectory lower new (layers s))) in
     if has n (layers s) then
      let! _ := setLayers (set new directory (del n (layers s))) in
      let! src := lift (components oldDirectory) in
      let! dst := lift (components directory) in
      let! t := getTree in
      let '(t', e) := movedir t src dst in
      let! _ := change (OMove src dst) t' in
      match e with None => ret tt | Some _ => raise FSError end
    else raise KeyError) s = (s', r) ->
    (layers s' = layers s /\ tree s' = tree s) \/
  exists n new old d, a = Some n /\ get n (layers s) = Some old /\ renamed (layers s) n b df new old d /\
    layers s' = set new d (del n (layers s)) /\
    (r = Ok tt -> exists src dst, components old = Ok src /\ components d = Ok dst /\ movedir (tree s) src dst = (tree s', None))).
  { intros new n Ea Ren. unfold mbind at 1, lift at 1. destruct (findDirectory (layers s) (Some n)) as [old|] eqn:Fd; [|intro H; inversion H; left; auto].
    apply findDirectory_get in Fd.
    assert (Y : forall d, (if df then d = u "glyphs" else newDirectory lower new (layers s) = Ok d) ->
      (if has n (layers s) then
      let! _ := setLayers (set new d (del n (layers s))) in
      let! src := lift (components old) in
      let! dst := lift (components d) in
      let! t := getTree in
      let '(t', e) := movedir t src dst in
      let! _ := change (OMove src dst) t' in
      match e with None => ret tt | Some _ => raise FSError end
      else raise KeyError) s = (s', r) ->
      (layers s' = layers s /\ tree s' = tree s) \/
      exists n new old d, a = Some n /\ get n (layers s) = Some old /\ renamed (layers s) n b df new old d /\
      layers s' = set new d (del n (layers s)) /\
      (r = Ok tt -> exists src dst, components old = Ok src /\ components d = Ok dst /\ movedir (tree s) src dst = (tree s', None))).
    { intros d Hd. destruct (has n (layers s)); [|intro H; inversion H; left; auto]. unfold mbind at 1, setLayers. unfold mbind at 1, lift at 1.
      intro H. right. exists n, new, old, d. split; [exact Ea|]. split; [exact Fd|]. split; [apply Ren; assumption|].
      destruct (components old) as [src|]; [|inversion H; split; [reflexivity|discriminate]]. unfold mbind at 1, lift at 1 in H.
      destruct (components d) as [dst|]; [|inversion H; split; [reflexivity|discriminate]]. unfold mbind at 1, getTree in H. cbn [tree] in H.
      destruct (movedir (tree s) src dst) as [t' e] eqn:Mv. unfold mbind, change in H.
      destruct e; inversion H; (split; [reflexivity|]); [discriminate|]. intros _. exists src, dst. cbn [tree]. auto. }
    destruct df; unfold mbind at 1.
    - unfold ret at 1. apply Y. reflexivity.
    - unfold lift at 1. destruct (newDirectory lower new (layers s)) as [d|] eqn:Nd; [|intro H; inversion H; left; auto]. apply Y. reflexivity. }
  destruct (eqb_spec a b) as [<-|Nab].
  - destruct a as [n|]; [|unfold mbind; intro H; inversion H; left; auto].
    destruct (get n (layers s)) as [old|] eqn:G; [|unfold mbind; intro H; inversion H; left; auto].
    unfold mbind at 1, ret at 1. destruct (xorb (eqb old nGlyphs) df) eqn:X; cbn [negb]; [|intro H; inversion H; left; auto].
    intro H. apply (Rest n n eq_refl) in H; [exact H|]. intros old' d G' Hd. rewrite G in G'. inversion G'; subst old'. unfold renamed. rewrite eqb_refl. split; [reflexivity|]. split; [|exact Hd].
    destruct (eqb_spec old nGlyphs) as [->|N], df; try discriminate X; split; intro E; try reflexivity; try discriminate E; contradiction.
  - destruct (has _ (layers s)) eqn:Hs; [unfold mbind; intro H; inversion H; left; auto|].
    destruct (df && mem nGlyphs (values (layers s))) eqn:Df; [unfold mbind; intro H; inversion H; left; auto|].
    unfold mbind at 1, ret at 1. cbn [negb]. destruct a as [n|].
    + intro H. eapply (Rest _ n eq_refl) in H; [exact H|]. intros old d G Hd. unfold renamed. destruct (eqb_spec (Some n) b); [contradiction|].
      split; [reflexivity|]. split.
      * unfold has in Hs. fold nDefault. destruct (get _ (layers s)); [discriminate Hs|reflexivity].
      * destruct df; [|exact Hd]. split; [exact Hd|]. cbn [andb] in Df. intros m Gm. apply In_values in Gm. apply mem_nIn in Df. contradiction.
    + unfold mbind at 1, lift at 1. destruct (findDirectory (layers s) None); [|intro H; inversion H; left; auto].
      unfold mbind. destruct df; [intro H; inversion H; left; auto|]. unfold lift. destruct (newDirectory lower _ (layers s)); intro H; inversion H; left; auto.
Qed.
Lemma removePath_layers p f e s s' r : removePath p f e s = (s', r) -> layers s' = layers s.
Proof.
  unfold removePath, mbind, lift, getTree, change, raise, ret. destruct (components p) as [cs|]; [|intro H; inversion H; reflexivity].
  destruct (remove (tree s) cs) as [t1|[]]; repeat (match goal with |- context [match ?x with _ => _ end] => lazymatch x with context [match _ with _ => _ end] => fail | _ => destruct x end end);
    intro H; inversion H; reflexivity.
Qed.
Lemma delete_spec c a s s' r : ver c = 3%Z -> deleteGlyphSet c a s = (s', r) ->
  (layers s' = layers s /\ r <> Ok tt) \/
  exists n d s1, a = Some n /\ get n (layers s) = Some d /\ removePath d false false s = (s1, Ok tt) /\ tree s' = tree s1 /\ layers s' = del n (layers s).
Proof.
  intros V. unfold deleteGlyphSet. rewrite V. change (3 <? 3)%Z with false. cbv iota. unfold mbind at 1, getLayers. unfold mbind at 1, lift at 1.
  destruct (findDirectory (layers s) a) as [d|] eqn:Fd; [|intro H; inversion H; left; split; [reflexivity|discriminate]].
  unfold mbind at 1. destruct (removePath d false false s) as [s1 [[]|e]] eqn:Rm; [|intro H; inversion H; subst; left; split; [eapply removePath_layers; exact Rm|discriminate]].
  destruct a as [n|]; [|intro H; inversion H; subst; left; split; [eapply removePath_layers; exact Rm|discriminate]].
  destruct (has n (layers s)) eqn:Hs; [|intro H; inversion H; subst; left; split; [eapply removePath_layers; exact Rm|discriminate]].
  intro H. inversion H. right. exists n, d, s1. apply findDirectory_get in Fd. auto.
Qed.

(** making a layer the default layer under its own name is safe when no other
    layer is the default layer *)
Definition safeCall (k : layerCall) (l : list (str * str)) : Prop :=
  match k with
  | CRename (Some n) b true => b = Some n -> forall m, m <> n -> get m l <> Some (u "glyphs")
  | _ => True
  end.
Fixpoint safeCalls (c : wcfg) (ks : list layerCall) (s : ust) : Prop :=
  match ks with [] => True | k :: r => safeCall k (layers s) /\ safeCalls c r (fst (doCall C lower c k s)) end.
Lemma renamed_layered l n b df new old d : layered l -> get n l = Some old -> renamed l n b df new old d ->
  safeCall (CRename (Some n) b df) l -> layered (set new d (del n l)) /\ lower d <> lower old.
Proof.
  intros L G R Sf. assert (L' := L). destruct L' as (D & O & A). unfold renamed in R.
  assert (F : ownDir d /\ (forall m e, m <> n -> get m l = Some e -> lower d <> lower e) /\ lower d <> lower old).
  { assert (New : newDirectory lower new l = Ok d -> ownDir d /\ (forall m e, m <> n -> get m l = Some e -> lower d <> lower e) /\ lower d <> lower old).
    { intro Nd. apply newDirectory_fresh in Nd as [(r & -> & _) F]. split; [right; eauto|]. split; [intros m e _ Gm; eapply F; exact Gm|eapply F; exact G]. }
    assert (Gl : forall m e, get m l = Some e -> e <> u "glyphs" -> lower (u "glyphs") <> lower e).
    { intros m e Gm N. apply glyphs_apart; [eapply O; exact Gm|exact N]. }
    destruct (eqb_spec (Some n) b) as [<-|Nb].
    - destruct R as (-> & Old & Hd). destruct df; [|apply New; exact Hd]. subst d. split; [left; reflexivity|]. split.
      + intros m e N Gm. apply (Gl m e Gm). intros ->. exact (Sf eq_refl m N Gm).
      + apply (Gl n old G). intro E. apply Old in E. discriminate E.
    - destruct R as (_ & Gn & Hd). destruct df; [|apply New; exact Hd]. destruct Hd as [-> Hd]. split; [left; reflexivity|]. split.
      + intros m e N Gm. apply (Gl m e Gm). intros ->. exact (Hd m Gm).
      + apply (Gl n old G). intros ->. exact (Hd n G). }
  destruct F as (O' & F & Fo). split; [|exact Fo]. apply layered_set; [apply layered_del; exact L|exact O'|].
  intros m e N Gm. destruct (eq_decide m n) as [->|Nm]; [rewrite get_del_same in Gm by exact D; discriminate Gm|]. rewrite get_del_other in Gm by exact Nm. eapply F; eassumption.
Qed.
Lemma call_layered c k s : ver c = 3%Z -> layered (layers s) -> safeCall k (layers s) -> layered (layers (fst (doCall C lower c k s))).
Proof.
  intros V L Sf. destruct k as [n df vr|a b df|a].
  - apply call_get; assumption.
  - cbn [doCall]. destruct (renameGlyphSet lower c a b df s) as [s' r] eqn:E. cbn [fst].
    apply rename_spec in E; [|exact V]. destruct E as [[-> _]|(n & new & old & d & -> & G & R & -> & _)]; [exact L|]. eapply renamed_layered; eassumption.
  - cbn [doCall]. destruct (deleteGlyphSet c a s) as [s' r] eqn:E. cbn [fst].
    apply delete_spec in E; [|exact V]. destruct E as [[-> _]|(n & d & s1 & _ & _ & _ & _ & ->)]; [exact L|]. apply layered_del. exact L.
Qed.
End Layers.
(** Every other history keeps the layers apart, also when calls raise. *)
Theorem C28_apart_partial : forall C lower c ks s, lower_keeps lower -> ver c = 3%Z ->
  dict_ok (layers s) -> (forall n d, get n (layers s) = Some d -> ownDir d) -> layersApart lower s ->
  safeCalls C lower c ks s ->
  let s' := runCalls C lower c ks s in
  layersApart lower s' /\
  forall n m, get n (layers s') = Some (u "glyphs") -> get m (layers s') = Some (u "glyphs") -> n = m.
Proof.
  intros C lower c ks s K V D O A Sf s'.
  assert (L : layered lower (layers s')).
  { unfold s'. clear s'. assert (L : layered lower (layers s)) by (split; [exact D|split; [exact O|exact A]]). clear D O A.
    revert s L Sf. induction ks as [|k ks IH]; intros s L Sf; [exact L|]. cbn [runCalls]. destruct Sf as [S1 S2]. apply IH; [|exact S2]. apply call_layered; assumption. }
  destruct L as (_ & _ & A'). split; [exact A'|]. intros n m G1 G2. destruct (eq_decide n m) as [|N]; [assumption|]. destruct (A' n m _ _ N G1 G2). reflexivity.
Qed.
Print Assumptions C28_apart_partial.
Example C28_case : let c := mkCfg 3 false PNone in
  let ks := [CGet None true true; CGet (Some (u "bg")) false true; CGet (Some (u "Bg")) false true; CRename (Some (u "bg")) (Some (u "BG")) false; CDelete (Some (u "none"))] in
  layers (runCalls toy ascii_lower c ks (newState (Dir []))) = [(u "public.default", u "glyphs"); (u "Bg", u "glyphs.B_g"); (u "BG", u "glyphs.B_G_")].
Proof. vm_compute. reflexivity. Qed.

(** ** C29 *)
(** every call succeeds *)
Fixpoint allOk C lower c (ks : list layerCall) (s s' : ust) : Prop :=
  match ks with [] => s' = s | k :: r => exists s1, doCall C lower c k s = (s1, Ok tt) /\ allOk C lower c r s1 s' end.
(** Validated writing followed by validated reading fails for an order with a
    repeated name, for a layer without name, for a layer that is not the default
    layer but has its name, and for two layers in one directory. *)
Theorem C29_accepted_refuted :
  let refused ks order := exists s s', allOk toy ascii_lower (mkCfg 3 false PNone) ks (newState (Dir [])) s /\
    writeLayerContents toy (mkCfg 3 false PNone) order true s = (s', Ok tt) /\
    getLayerNames toy 3 (tree s') true = Err UFOLibError in
  let def := CGet None true true in
  let name := u "public.default" in
  refused [def] (Some [Some name; Some name]) /\
  refused [def; CGet (Some []) false true] None /\
  refused [CGet (Some (u "main")) true true; CGet (Some name) false true] None /\
  refused [def; CGet (Some (u "bg")) false true; CRename (Some (u "bg")) (Some (u "bg")) true] None.
Proof.
  cbv zeta. repeat split; do 2 eexists; cbn [allOk].
  - split; [eexists; split; [vm_compute; reflexivity|reflexivity]|]. split; vm_compute; reflexivity.
  - split; [eexists; split; [vm_compute; reflexivity|eexists; split; [vm_compute; reflexivity|reflexivity]]|]. split; vm_compute; reflexivity.
  - split; [eexists; split; [vm_compute; reflexivity|eexists; split; [vm_compute; reflexivity|reflexivity]]|]. split; vm_compute; reflexivity.
  - split; [eexists; split; [vm_compute; reflexivity|eexists; split; [vm_compute; reflexivity|eexists; split; [vm_compute; reflexivity|reflexivity]]]|]. split; vm_compute; reflexivity.
Qed.
Print Assumptions C29_accepted_refuted.

(** the names given in a call: none is empty, and only the default layer is
    called "public.default" *)
Definition goodLayerName (n : str) (isDefault : bool) : Prop := n <> [] /\ (n = u "public.default" -> isDefault = true).
Definition namedWell (k : layerCall) : Prop :=
  match k with
  | CGet (Some n) d _ => goodLayerName n d
  | CRename _ (Some n) d => goodLayerName n d
  | CRename _ None d => d = true
  | CGet None _ _ | CDelete _ => True
  end.
(** a history of successful calls that avoids what C28 and C29 refute *)
Fixpoint wellRun C lower c (ks : list layerCall) (s s' : ust) : Prop :=
  match ks with
  | [] => s' = s
  | k :: r => safeCall k (layers s) /\ namedWell k /\ exists s1, doCall C lower c k s = (s1, Ok tt) /\ wellRun C lower c r s1 s'
  end.
(** the layers of a writer fit its file system *)
Definition fits lower (s : ust) : Prop :=
  layered lower (layers s) /\
  forall n d, get n (layers s) = Some d -> goodLayerName n (eqb d (u "glyphs")) /\ components d = Ok [d] /\ isdir (tree s) [d] = true.

Lemma glyphs_components : components (u "glyphs") = Ok [u "glyphs"].
Proof. vm_compute. reflexivity. Qed.
Lemma newDirectory_components lower name l d : newDirectory lower name l = Ok d -> components d = Ok [d].
Proof.
  intro H. apply newDirectory_fresh in H as [(r & -> & N) _]. apply components_plain.
  repeat split; try (intro E; apply (f_equal (@length _)) in E; rewrite app_length in E; vm_compute in E; lia);
    try (intro E; discriminate E); intro I; apply in_app_or in I as [I|I]; [vm_compute in I; intuition discriminate|contradiction].
Qed.
Lemma isdir1 t e : isdir t [e] = match kind t [e] with Some None => true | _ => false end.
Proof. apply kind_isdir. Qed.
Lemma makedir_isdir t d t' e : makedir t [d] = FOk t' -> isdir t' [e] = (eqb e d || isdir t [e])%bool.
Proof.
  unfold makedir. intro H. destruct (find t [d]) as [[b|es]|] eqn:F; [discriminate H| |].
  - inversion H; subst. destruct (eqb_spec e d) as [->|]; [|reflexivity]. unfold isdir. rewrite F. reflexivity.
  - destruct (put [d] (Dir []) t) as [t1|] eqn:P; [|discriminate H]. inversion H; subst. rewrite !isdir1, (kind_put _ _ _ _ _ P).
    cbn [FSProofs.strip]. destruct (eqb_spec d e) as [->|N]; [rewrite eqb_refl; reflexivity|]. destruct (eqb_spec e d); [congruence|reflexivity].
Qed.
Lemma movedir_isdir t old d t' e : movedir t [old] [d] = (t', None) -> e <> old -> isdir t' [e] = (eqb e d || isdir t [e])%bool.
Proof.
  unfold movedir. intros H N. destruct (makedir t [d]) as [t1|] eqn:M; [|discriminate H].
  rewrite <- (makedir_isdir _ _ _ e M). destruct (find t1 [old]) as [[|es]|]; [destruct (find t1 [d]); discriminate H| |discriminate H].
  destruct (find t1 [d]) as [m|] eqn:Fd; [|discriminate H]. destruct (merge (Dir es) m) as [m'|] eqn:Mg; [|discriminate H].
  destruct (put [d] m' t1) as [t2|] eqn:P; [|discriminate H]. apply (f_equal fst) in H. cbn [fst] in H. subst t'. rewrite !isdir1, kind_cut by discriminate.
  cbn [FSProofs.strip]. destruct (eqb_spec old e); [congruence|]. rewrite (kind_put _ _ _ _ _ P). cbn [FSProofs.strip].
  destruct (eqb_spec d e) as [->|Nd]; [|reflexivity].
  destruct m as [b|ds]; [discriminate Mg|]. unfold kind. rewrite Fd. cbn [option_map kindOf find].
  assert (exists x, m' = Dir x) as (x & ->); [|reflexivity]. clear -Mg. cbn [merge] in Mg. revert ds Mg. induction es as [|[k n] es IH]; intros ds Mg; [inversion Mg; eauto|].
  destruct (get k ds) as [m|]; [|eapply IH; exact Mg]. destruct (merge n m) as [m2|]; [|discriminate Mg]. eapply IH; exact Mg.
Qed.
Lemma removePath_isdir d s s' e : components d = Ok [d] -> removePath d false false s = (s', Ok tt) -> e <> d -> isdir (tree s') [e] = isdir (tree s) [e].
Proof.
  intros Hc H N. unfold removePath in H. unfold mbind at 1, lift in H. rewrite Hc in H. unfold mbind at 1, getTree in H.
  unfold remove, removetree in H. assert (X : tree s' = tree s \/ tree s' = cut [d] (tree s)).
  { destruct (find (tree s) [d]) as [[b|es]|]; unfold mbind, change, ret, raise in H; try discriminate H; right; apply (f_equal (fun x => tree (fst x))) in H; symmetry; exact H. }
  destruct X as [->| ->]; [reflexivity|]. rewrite !isdir1, kind_cut by discriminate. cbn [FSProofs.strip]. destruct (eqb_spec d e); [congruence|reflexivity].
Qed.
Lemma fits_call C lower c k s s' : lower_keeps lower -> ver c = 3%Z -> fits lower s -> safeCall k (layers s) -> namedWell k ->
  doCall C lower c k s = (s', Ok tt) -> fits lower s'.
Proof.
  intros K V [L F] Sf Nw H. split; [pose proof (call_layered C lower K c k s V L Sf) as X; rewrite H in X; exact X|].
  assert (L' := L). destruct L' as (D & O & A). destruct k as [n df vr|a b df|a].
  - cbn [doCall] in H. unfold mbind in H. destruct (getGlyphSet C lower c n df vr s) as [s1 r1] eqn:E.
    assert (s1 = s' /\ exists x, r1 = Ok x) as [-> (x & Ex)] by (destruct r1; inversion H; subst; eauto). clear H.
    assert (Nn : n <> None \/ df = true).
    { destruct n; [left; discriminate|]. destruct df; [right; reflexivity|]. unfold getGlyphSet in E. rewrite V in E. cbn in E. inversion E; subst; discriminate. }
    rewrite getGlyphSet_3 in E by assumption. apply get3_spec in E; [|exact D]. destruct E as [[_ E]|(d & cs & s1 & Ch & Hc & Mk & Tr & Ly & Def)]; [destruct (E x Ex)|].
    set (name := resolved n (layers s)) in *.
    assert (Cd : components d = Ok [d]).
    { destruct Ch as [G|[_ Ch]]; [apply (F _ _ G)|]. unfold chosen in Ch. destruct df; [destruct Ch as [-> _]; apply glyphs_components|eapply newDirectory_components; exact Ch]. }
    rewrite Cd in Hc. inversion Hc; subst cs. clear Hc.
    assert (Is : forall e, isdir (tree s') [e] = (eqb e d || isdir (tree s) [e])%bool).
    { intro e. rewrite Tr. unfold fsMakedir, mbind, getTree in Mk. destruct (makedir (tree s) [d]) as [t'|] eqn:Md; [|discriminate Mk].
      rewrite <- (makedir_isdir _ _ _ e Md). unfold makedir in Md. unfold existsAt in Mk. destruct (find (tree s) [d]) as [[|]|]; [discriminate Md|inversion Mk; subst; inversion Md; reflexivity|].
      inversion Mk; reflexivity. }
    intros m e G. rewrite Ly, get_set in G. rewrite Is. destruct (eqb_spec m name) as [->|Nm].
    + inversion G; subst e. rewrite eqb_refl. split; [|split; [exact Cd|reflexivity]].
      destruct Ch as [G'|[G' Ch]]; [apply (F _ _ G')|]. unfold name, resolved in *. destruct n as [n|].
      * destruct Nw as [N1 N2]. split; [exact N1|]. intro E. specialize (N2 E). apply (proj2 (eqb_eq _ _)). apply Def. exact N2.
      * destruct Nn as [Nn|Nn]; [congruence|]. split; [|intros _; apply (proj2 (eqb_eq _ _)); apply Def; exact Nn].
        pose proof (lastDefault_spec (layers s)) as Ld. destruct (lastDefault (layers s)) as [z|]; [|discriminate].
        apply (In_get _ _ _ D) in Ld. apply (F _ _ Ld).
    + destruct (F _ _ G) as (F1 & F2 & F3). rewrite F3, orb_true_r. auto.
  - cbn [doCall] in H. apply rename_spec in H; [|exact V]. destruct H as [[Ly Tr]|(n & new & old & d & -> & G & R & Ly & Fs)].
    + rewrite Ly, Tr. exact F.
    + destruct (Fs eq_refl) as (src & dst & Cs & Cd & Mv). destruct (F _ _ G) as (_ & Co & _). rewrite Co in Cs. inversion Cs; subst src. clear Cs.
      assert (Cd' : components d = Ok [d]).
      { unfold renamed in R. destruct (eqb (Some n) b); destruct R as (_ & _ & R); destruct df; try (eapply newDirectory_components; exact R); [subst d|destruct R as [-> _]]; apply glyphs_components. }
      rewrite Cd' in Cd. inversion Cd; subst dst. clear Cd.
      destruct (renamed_layered lower K _ _ _ _ _ _ _ L G R Sf) as [L2 Nod].
      intros m e Gm. rewrite Ly, get_set in Gm. destruct (eqb_spec m new) as [->|Nm].
      * inversion Gm; subst e. split; [|split; [exact Cd'|]].
        -- assert (Nb : goodLayerName new df).
           { unfold renamed in R. destruct (eqb_spec (Some n) b) as [<-|Nb]; destruct R as (-> & _); [exact Nw|]. destruct b; [exact Nw|]. split; [discriminate|intros _; exact Nw]. }
           destruct Nb as [N1 N2]. split; [exact N1|]. intro E. specialize (N2 E). subst df. apply (proj2 (eqb_eq _ _)).
           unfold renamed in R. destruct (eqb (Some n) b); apply R.
        -- rewrite (movedir_isdir _ _ _ _ _ Mv) by (intros ->; apply Nod; reflexivity). rewrite eqb_refl. reflexivity.
      * destruct (eq_decide m n) as [->|Nmn]; [rewrite get_del_same in Gm by exact D; discriminate Gm|]. rewrite get_del_other in Gm by exact Nmn.
        destruct (F _ _ Gm) as (F1 & F2 & F3). split; [exact F1|]. split; [exact F2|].
        rewrite (movedir_isdir _ _ _ _ _ Mv), F3, orb_true_r; [reflexivity|]. intros ->. apply (A m n old old Nmn Gm G). reflexivity.
  - cbn [doCall] in H. apply delete_spec in H; [|exact V]. destruct H as [[_ H]|(n & d & s1 & -> & G & Rm & Tr & Ly)]; [congruence|].
    intros m e Gm. rewrite Ly in Gm. destruct (eq_decide m n) as [->|Nmn]; [rewrite get_del_same in Gm by exact D; discriminate Gm|]. rewrite get_del_other in Gm by exact Nmn.
    destruct (F _ _ Gm) as (F1 & F2 & F3). split; [exact F1|]. split; [exact F2|]. rewrite Tr.
    rewrite (removePath_isdir d s s1 e); [exact F3|apply (F _ _ G)|exact Rm|]. intros ->. apply (A m n d d Nmn Gm G). reflexivity.
Qed.
Lemma fits_run C lower c ks s s' : lower_keeps lower -> ver c = 3%Z -> fits lower s -> wellRun C lower c ks s s' -> fits lower s'.
Proof.
  intros K V. revert s. induction ks as [|k ks IH]; intros s F W; cbn [wellRun] in W; [subst; exact F|].
  destruct W as (Sf & Nw & s1 & E & W). eapply IH; [|exact W]. eapply fits_call; eassumption.
Qed.
Lemma mapM_pairs (l : list (str * str)) names pairs :
  mapM (fun n => match get n l with Some d => Ok (PTuple [PStr n; PStr d]) | None => Err KeyError end) names = Ok pairs ->
  exists nds, map fst nds = names /\ (forall n d, In (n, d) nds -> get n l = Some d) /\ pairs = map (fun nd => PTuple [PStr (fst nd); PStr (snd nd)]) nds.
Proof.
  revert pairs; induction names as [|n names IH]; intros pairs H; cbn [mapM] in H; [inversion H; exists []; repeat split; auto; intros ? ? []|].
  destruct (get n l) as [d|] eqn:G; [|discriminate H]. cbn [bind] in H. destruct (mapM _ names) as [ps|]; [|discriminate H]. inversion H; subst.
  destruct (IH ps eq_refl) as (nds & E1 & E2 & ->). exists ((n, d) :: nds). cbn [map fst snd]. rewrite E1. split; [reflexivity|]. split; [|reflexivity].
  intros m e [I|I]; [inversion I; subst; exact G|apply E2; exact I].
Qed.
Lemma psame_pairs (nds : list (str * str)) w : psame (PList (map (fun nd => PTuple [PStr (fst nd); PStr (snd nd)]) nds)) w ->
  w = PList (map (fun nd => PList [PStr (fst nd); PStr (snd nd)]) nds).
Proof.
  intro S. inversion S as [? X|? m F| |]; subst; [discriminate X|]. f_equal. clear S.
  revert m F; induction nds as [|[n d] nds IH]; intros m F; inversion F as [|? y ? ys' Sy F']; subst; [reflexivity|]. cbn [map fst snd] in *. f_equal; [|apply IH; exact F'].
  inversion Sy as [? X| |? q F2|]; subst; [discriminate X|]. inversion F2 as [|? ? ? ? S1 F3]; subst. inversion F3 as [|? ? ? ? S2 F4]; subst. inversion F4; subst.
  apply psame_str in S1, S2. subst. reflexivity.
Qed.
Lemma asPairs_lists (nds : list (str * str)) : asPairs (map (fun nd => PList [PStr (fst nd); PStr (snd nd)]) nds) = Some nds.
Proof. induction nds as [|[n d] nds IH]; [reflexivity|]. cbn [map asPairs fst snd]. rewrite IH. reflexivity. Qed.
(** what writeLayerContents stores, as the reader finds it *)
Lemma layers_read C faithful lower c s s' order : codec_laws C faithful -> ver c = 3%Z -> fits lower s ->
  (forall l, (forall n d, In (n, d) l -> get n (layers s) = Some d) -> faithful (PList (map (fun nd => PTuple [PStr (fst nd); PStr (snd nd)]) l))) ->
  (exists n, get n (layers s) = Some (u "glyphs")) ->
  writeLayerContents C c order true s = (s', Ok tt) ->
  let names := match order with
               | Some o => map (fun n => match n with Some n => n | None => u "public.default" end) o
               | None => keys (layers s)
               end in
  NoDup names ->
  exists nds, map fst nds = names /\ (forall n d, In (n, d) nds <-> get n (layers s) = Some d) /\
    readLayersR C 3 (tree s') true = Ok nds /\ readLayersW C (tree s') true = Ok (fold_left (fun l '(n, d) => set n d l) nds []).
Proof.
  intros L V [Ly F] Fa (def & Hdef) H names ND. destruct Ly as (D & O & A).
  unfold writeLayerContents in H. rewrite V in H. change (3 <? 3)%Z with false in H. cbv iota in H. unfold mbind at 1, getLayers in H.
  change (match order with Some o => _ | None => _ end) with names in H.
  destruct (forallb (fun n => mem n (keys (layers s))) names && forallb (fun n => mem n names) (keys (layers s))) eqn:Ck; [|discriminate H]. cbn [negb andb] in H.
  unfold mbind, lift in H. destruct (mapM _ names) as [pairs|] eqn:Mp; [|discriminate H]. apply mapM_pairs in Mp as (nds & En & Gn & ->).
  destruct (writePlist_ok _ _ _ _ _ _ H) as (b & Db & Kd & _). destruct (loads_dumps _ _ L _ _ (Fa nds Gn) Db) as (w & Lw & S). apply psame_pairs in S. subst w.
  apply andb_true_iff in Ck as [_ Ck]. rewrite forallb_forall in Ck.
  assert (All : forall n d, get n (layers s) = Some d -> In (n, d) nds).
  { intros n d G. assert (I : In n (map fst nds)).
    { rewrite En. apply mem_In. apply Ck. apply get_In in G. unfold keys. apply in_map_iff. exists (n, d). auto. }
    apply in_map_iff in I as ([x y] & Ex & I). cbn in Ex. subst x. pose proof (Gn _ _ I) as G'. rewrite G in G'. inversion G'; subst y. exact I. }
  assert (Idef : In (def, u "glyphs") nds) by (apply All; exact Hdef).
  exists nds. split; [exact En|]. split; [intros n d; split; [apply Gn|apply All]|].
  assert (Vd : layersValid (tree s') (PList (map (fun nd => PList [PStr (fst nd); PStr (snd nd)]) nds)) = Ok true).
  { apply C30_layer_contents_rule. exists nds. split; [reflexivity|]. split; [rewrite En; exact ND|]. split; [|split].
    - clear -Gn A ND En. rewrite <- En in ND. clear En. induction nds as [|[n d] nds IH]; cbn [map snd fst] in *; [constructor|]. inversion ND as [|? ? N1 N2]; subst.
      constructor; [|apply IH; [intros; apply Gn; right; assumption|exact N2]]. intro I. apply in_map_iff in I as ([m e] & E & I). cbn in E. subst e.
      apply (A n m d d); [|apply Gn; left; reflexivity|apply Gn; right; exact I|reflexivity]. intros ->. apply N1. apply in_map_iff. exists (m, d). auto.
    - apply in_map_iff. exists (def, u "glyphs"). auto.
    - intros n d I. apply Gn in I. destruct (F _ _ I) as ([F1 F1'] & F2 & F3). split; [exact F1|]. split; [|split].
      + rewrite F2. cbn [bind]. f_equal. rewrite kind_exists, Kd. rewrite kind_isdir in F3.
        destruct (eqb_spec [d] [nLayercontents]); [reflexivity|]. destruct (kind (tree s) [d]); [reflexivity|discriminate F3].
      + exact (O _ _ I).
      + intro E. apply F1' in E. apply (proj1 (eqb_eq _ _)) in E. exact E. }
  split; [unfold readLayersR; change (3 <? 3)%Z with false; cbv iota|unfold readLayersW];
    unfold getPlist; rewrite getbytes_kind, Kd, eqb_refl, Lw; cbn [bind]; rewrite Vd; cbn [bind elems]; rewrite asPairs_lists; reflexivity.
Qed.
(** the default layer *)
Lemma defaultName_In nds : (exists n, In (n, u "glyphs") nds) -> exists n, defaultName nds = Ok n /\ In (n, u "glyphs") nds.
Proof.
  intros (def & Idef). induction nds as [|[n d] nds IH]; [contradiction|]. cbn [defaultName]. destruct (eqb_spec d nGlyphs) as [->|N].
  - exists n. split; [reflexivity|left; reflexivity].
  - destruct Idef as [I|I]; [inversion I; subst; contradiction|]. destruct (IH I) as (x & E & J). exists x. split; [exact E|right; exact J].
Qed.
(** After every other history, what writeLayerContents stores is accepted by the
    reader and reports the names in the given order and the same default layer. *)
Theorem C29_accepted_partial : forall C faithful lower c ks s0 s s' order,
  codec_laws C faithful -> (forall l, faithful (PList (map (fun nd => PTuple [PStr (fst nd); PStr (snd nd)]) l))) ->
  lower_keeps lower -> ver c = 3%Z -> fits lower s0 -> wellRun C lower c ks s0 s ->
  (exists n, get n (layers s) = Some (u "glyphs")) ->
  writeLayerContents C c order true s = (s', Ok tt) ->
  let names := match order with
               | Some o => map (fun n => match n with Some n => n | None => u "public.default" end) o
               | None => keys (layers s)
               end in
  NoDup names ->
  getLayerNames C 3 (tree s') true = Ok names /\
  exists n, getDefaultLayerName C 3 (tree s') true = Ok n /\ get n (layers s) = Some (u "glyphs").
Proof.
  intros C faithful lower c ks s0 s s' order L Fa K V F0 W Hdef H names ND.
  pose proof (fits_run _ _ _ _ _ _ K V F0 W) as F.
  destruct (layers_read C faithful lower c s s' order L V F (fun l _ => Fa l) Hdef H ND) as (nds & En & Gn & Rd & _).
  split.
  - unfold getLayerNames. rewrite Rd. cbn [bind]. rewrite En. reflexivity.
  - unfold getDefaultLayerName. rewrite Rd. cbn [bind].
    destruct (defaultName_In nds) as (n & E & I); [destruct Hdef as (def & Hdef); exists def; apply Gn; exact Hdef|]. exists n. split; [exact E|apply Gn; exact I].
Qed.
Print Assumptions C29_accepted_partial.
(** a new writer fits, and a history that the theorem speaks about *)
Lemma new_fits lower : fits lower (newState (Dir [])).
Proof. split; [split; [constructor|split; [intros n d G; discriminate G|intros n m d e _ G; discriminate G]]|intros n d G; discriminate G]. Qed.
Example C29_case : let c := mkCfg 3 false PNone in
  let s := runCalls toy ascii_lower c [CGet None true true; CGet (Some (u "bg")) false true; CRename (Some (u "bg")) (Some (u "back")) false] (newState (Dir [])) in
  let s' := fst (writeLayerContents toy c (Some [Some (u "back"); None]) true s) in
  getLayerNames toy 3 (tree s') true = Ok [u "back"; u "public.default"] /\ getDefaultLayerName toy 3 (tree s') true = Ok (u "public.default").
Proof. vm_compute. auto. Qed.
