(** The elements of a GLIF file other than the outline: what the reader makes of
    what the writer has written. *)
From Coq Require Import String NArith ZArith Bool Lia List.
From Coq.Floats Require Import SpecFloat.
From Verif Require Import Base PyVal PyText FloatRepr Xml FS Ufo UfoProofs PropUfoFiles Plist PlistProofs PropPlist Etree EtreeProofs PropEtree PlistFiles Validators PointPen PropPointPen Glif GlifProofs GlifOutline.
Import ListNotations.
Local Open Scope string_scope.
Local Open Scope list_scope.

Local Notation walk := Plist.walk.

(** * Trees after writing and parsing *)
Section Like.
Variable T : pytext.
Hypothesis LT : pytext_laws T.
Inductive like : elem -> elem -> Prop :=
| like_leaf tag at' text t1 t2 : like (Elem tag at' text [] t1) (Elem tag at' (normText text) [] t2)
| like_node tag at' text' ch ch' t1 t2 : ch <> [] -> blankText T text' = true -> Forall2 like ch ch' ->
    like (Elem tag at' None ch t1) (Elem tag at' text' ch' t2).
(** only elements without children have a text *)
Inductive leafTexts : elem -> Prop :=
| leafTexts_leaf tag at' text t : leafTexts (Elem tag at' text [] t)
| leafTexts_node tag at' ch t : ch <> [] -> Forall leafTexts ch -> leafTexts (Elem tag at' None ch t).
Lemma respaced_like e : leafTexts e -> forall f, respaced T e f -> like e (norm f).
Proof.
  induction e as [tag at' text ch tail IH] using elem_ind'. intros L f H. inversion H as [? ? ? ? tail' Tl|? ? ? text' ? ch' ? tail' NE Tx Tl K]; subst; cbn [norm map].
  - constructor.
  - inversion L as [|? ? ? ? NE' FL]; subst; [contradiction|]. constructor; [exact NE| |].
    + destruct Tx as [->|[_ (s & -> & F)]]; [reflexivity|]. destruct s as [|c s]; [reflexivity|]. apply white_blank; assumption.
    + clear - IH K FL. induction K as [|e f l l' H K IHK]; [constructor|]. inversion IH; inversion FL; subst. cbn [map]. constructor; auto.
Qed.
Lemma like_tail e f t : like e f -> like e (setTail t f).
Proof. intro H. destruct H; constructor; assumption. Qed.
Lemma like_shape e : forall f, like e f -> shape e f.
Proof.
  induction e as [tag at' text ch tail IH] using elem_ind'. intros f H. inversion H as [|? ? ? ? ? ? ? NE B K]; subst; constructor; [constructor|].
  clear - IH K. induction K as [|e f l l' H K IHK]; constructor; inversion IH; subst; auto.
Qed.
Fixpoint walks (l : list elem) : list event := match l with [] => [] | x :: r => walk x ++ walks r end.
Lemma walk_eq tag at' text ch tail : walk (Elem tag at' text ch tail) =
  EvStart tag :: walks ch ++ (match ch with [] => [EvData (if textTruthy text then match text with Some x => x | None => XS [] end else XS [])] | _ => [] end) ++ [EvEnd tag].
Proof. reflexivity. Qed.
Lemma like_trace e : forall f, like e f -> trace e (walk f).
Proof.
  induction e as [tag at' text ch tail IH] using elem_ind'. intros f H. inversion H as [|? ? ? ? ? ? ? NE B K]; subst; rewrite walk_eq.
  - cbn [walks app]. apply (tr_leaf tag at' text tail [_]). destruct text as [[[|]|[|]]|]; cbn; rewrite ?app_nil_r; reflexivity.
  - destruct ch' as [|k ch']; [inversion K; subst; contradiction|]. change (EvStart tag :: walks (k :: ch') ++ [] ++ [EvEnd tag]) with (EvStart tag :: [] ++ walks (k :: ch') ++ [EvEnd tag]).
    apply tr_node; [exact NE|constructor|]. clear - IH K. induction K as [|e f l l' H K IHK]; [constructor|]. inversion IH; subst. cbn [walks].
    change (walk f ++ walks l') with (walk f ++ [] ++ walks l'). apply kt_cons; [auto|constructor|auto].
Qed.
End Like.

(** * Dictionaries *)
Lemma dget_map {A} (f : A -> pyval) k (d : list (str * A)) : dget k (map (fun '(k, v) => (PStr k, f v)) d) = option_map f (get k d).
Proof. induction d as [|[k' v] d IH]; [reflexivity|]. cbn [map dget get]. destruct (eqb k k'); [reflexivity|exact IH]. Qed.
Lemma vget_toPDict k d : vget k (toPDict d) = match get k d with Some v => v | None => PNone end.
Proof.
  unfold vget, toPDict. cbn [items]. replace (map (fun '(k0, v) => (PStr k0, v)) d) with (map (fun '(k0, v) => (PStr k0, (fun x : pyval => x) v)) d) by reflexivity.
  rewrite (dget_map (fun x : pyval => x)). destruct (get k d); reflexivity.
Qed.
Lemma vhas_toPDict k d : vhas k (toPDict d) = has k d.
Proof.
  unfold vhas, toPDict, has. cbn [items]. replace (map (fun '(k0, v) => (PStr k0, v)) d) with (map (fun '(k0, v) => (PStr k0, (fun x : pyval => x) v)) d) by reflexivity.
  rewrite (dget_map (fun x : pyval => x)). destruct (get k d); reflexivity.
Qed.
Lemma dget_In k d v : dget k d = Some v -> In (PStr k, v) d.
Proof.
  induction d as [|[k' v'] d IH]; cbn [dget]; [discriminate|]. destruct k'; try (intro H; right; exact (IH H)).
  destruct (eqb_spec k s) as [->|N]; [intro H; inversion H; left; reflexivity|intro H; right; exact (IH H)].
Qed.
Lemma generic_vget v proto k t rq : genericDictValidator v proto = true -> get k proto = Some (t, rq) ->
  (vget k v = PNone /\ rq = false) \/ isinstance (vget k v) t = true.
Proof.
  unfold genericDictValidator. destruct (is_dict v); cbn [negb]; [|discriminate]. destruct (forallb _ proto) eqn:F1; cbn [negb]; [|discriminate].
  destruct (forallb _ (items v)) eqn:F2; cbn [negb]; [|discriminate]. intros F3 G. unfold vget. destruct (dget k (items v)) as [x|] eqn:E.
  - apply dget_In in E. rewrite forallb_forall in F3. specialize (F3 _ E). cbn [fst snd] in F3. rewrite G in F3. destruct (is_none x && negb rq) eqn:B; [|right; exact F3].
    apply andb_true_iff in B as [B1 B2]. left. destruct x; try discriminate B1. destruct rq; [discriminate B2|auto].
  - left. split; [reflexivity|]. destruct rq; [|reflexivity]. exfalso. rewrite forallb_forall in F1. apply get_In in G. specialize (F1 _ G). cbn in F1. unfold vhas in F1. rewrite E in F1. discriminate F1.
Qed.
Lemma generic_dict v proto : genericDictValidator v proto = true -> is_dict v = true.
Proof. unfold genericDictValidator. destruct (is_dict v); [reflexivity|discriminate]. Qed.
Lemma generic_make d proto : (forall k v, In (k, v) d -> exists t rq, get k proto = Some (t, rq) /\ isinstance v t = true) ->
  (forall k t, In (k, (t, true)) proto -> has k d = true) -> genericDictValidator (toPDict d) proto = true.
Proof.
  intros A B. unfold genericDictValidator. cbn [is_dict toPDict negb].
  assert (F1 : forallb (fun p : str * (pytype * bool) => if snd (snd p) then vhas (fst p) (toPDict d) else true) proto = true).
  { apply forallb_forall. intros [k [t [|]]] I; cbn [fst snd]; [|reflexivity]. rewrite vhas_toPDict. eapply B. exact I. }
  assert (F2 : forallb (fun kv => match fst kv with PStr k => has k proto | _ => false end) (items (toPDict d)) = true).
  { apply forallb_forall. intros [k v] I. unfold toPDict in I. cbn [items] in I. apply in_map_iff in I as ([k' v'] & E & I). inversion E; subst. cbn [fst]. destruct (A _ _ I) as (t & rq & G & _). unfold has. rewrite G. reflexivity. }
  unfold toPDict in *. rewrite F1, F2. cbn [negb]. apply forallb_forall. intros [k v] I. cbn [items] in I. apply in_map_iff in I as ([k' v'] & E & I). inversion E; subst. cbn [fst snd].
  destruct (A _ _ I) as (t & rq & -> & H). rewrite H. destruct (is_none v && negb rq); reflexivity.
Qed.
Lemma get_attribDict k e : get k (attribDict e) = option_map PStr (eget k e).
Proof. unfold attribDict, eget. induction (eattrib e) as [|[k' v] d IH]; [reflexivity|]. cbn [map get]. destruct (eqb k k'); [reflexivity|exact IH]. Qed.
Lemma keys_attribDict e : keys (attribDict e) = map fst (eattrib e).
Proof. unfold attribDict, keys. rewrite map_map. apply map_ext. intros [? ?]; reflexivity. Qed.
Lemma keys_set_in {V} (k : str) (v : V) d : In k (keys d) -> keys (set k v d) = keys d.
Proof.
  unfold keys. induction d as [|[k' v'] d IH]; cbn [set map fst]; intro I; [destruct I|]. destruct (eqb_spec k k') as [->|N]; cbn [map fst]; [reflexivity|]. f_equal. apply IH. destruct I as [->|I]; [congruence|exact I].
Qed.

Section Dicts.
Variable T : pytext.
Lemma attribNumbers_spec e names : forall d0 d, (forall k, eget k e <> None -> In k (keys d0)) -> attribNumbers T names e d0 = Ok d ->
  keys d = keys d0 /\ forall k, get k d = if mem k names then (match eget k e with Some s => (match number T (Some s) with Ok v => Some v | Err _ => get k d0 end) | None => get k d0 end) else get k d0.
Proof.
  induction names as [|a names IH]; intros d0 d Hk; cbn [attribNumbers].
  - intro H. inversion H; subst. split; [reflexivity|]. intro k. reflexivity.
  - destruct (eget a e) as [s|] eqn:Ea.
    + intro H. apply bind_Ok in H as (v & Hv & H). assert (Ia : In a (keys d0)) by (apply Hk; congruence).
      assert (Hk' : forall k, eget k e <> None -> In k (keys (set a v d0))) by (intros k Ek; rewrite keys_set_in by exact Ia; apply Hk; exact Ek).
      destruct (IH _ _ Hk' H) as (K & G).
      split; [rewrite K; apply keys_set_in; exact Ia|]. intro k. rewrite G. change (mem k (a :: names)) with (eqb k a || mem k names).
      destruct (eqb_spec k a) as [->|N].
      * cbn [orb]. rewrite Ea, Hv, get_set_same. destruct (mem a names); reflexivity.
      * cbn [orb]. rewrite get_set_other by exact N. reflexivity.
    + intro H. destruct (IH _ _ Hk H) as (K & G). split; [exact K|]. intro k. rewrite G. change (mem k (a :: names)) with (eqb k a || mem k names). destruct (eqb_spec k a) as [->|N]; [|reflexivity]. rewrite Ea. destruct (mem a names); reflexivity.
Qed.
Lemma attribNumbers_total e names : forall d0, (forall k s, In k names -> eget k e = Some s -> exists v, number T (Some s) = Ok v) -> exists d, attribNumbers T names e d0 = Ok d.
Proof.
  induction names as [|a names IH]; intros d0 H; cbn [attribNumbers]; [eauto|]. destruct (eget a e) as [s|] eqn:Ea; [|apply IH; intros; eapply H; [right; eassumption|eassumption]].
  destruct (H a s (or_introl eq_refl) Ea) as (v & ->). cbn [bind]. apply IH. intros; eapply H; [right; eassumption|eassumption].
Qed.
End Dicts.

(** * Guidelines, anchors and images *)
Definition numOrNone (v : pyval) : Prop := v = PNone \/ isNum v.
Definition strOrNone (v : pyval) : Prop := v = PNone \/ exists s, v = PStr s.
Definition gid (v : pyval) : option str := match vget (u "identifier") v with PStr s => Some s | _ => None end.
(** new identifiers *)
Fixpoint fresh (l : list (option str)) (ids ids' : list str) : Prop :=
  match l with [] => ids' = ids | None :: r => fresh r ids ids' | Some i :: r => ~ In i ids /\ fresh r (i :: ids) ids' end.
Lemma fresh_app l m ids ids' : fresh (l ++ m) ids ids' <-> exists ids1, fresh l ids ids1 /\ fresh m ids1 ids'.
Proof.
  revert ids. induction l as [|[i|] l IH]; intro ids; cbn [app fresh].
  - split; [intro H; exists ids; auto|intros (x & -> & H); exact H].
  - rewrite IH. split; [intros (A & x & C & D); exists x; tauto|intros (x & (A & C) & D); eauto 6].
  - apply IH.
Qed.
Definition somes (l : list (option str)) : list str := flat_map (fun o => match o with Some i => [i] | None => [] end) l.
Lemma fresh_iff l : forall ids ids', fresh l ids ids' <-> ids' = rev (somes l) ++ ids /\ NoDup (somes l) /\ (forall i, In i (somes l) -> ~ In i ids).
Proof.
  induction l as [|[i|] l IH]; intros ids ids'; cbn [fresh somes flat_map app rev].
  - split; [intros ->; repeat split; [constructor|intros i []]|intros (-> & _); reflexivity].
  - fold (somes l). rewrite IH. split.
    + intros (A & -> & B & C). split; [rewrite <- app_assoc; reflexivity|]. split; [constructor; [|exact B]|].
      * intro I. apply (C i I). left. reflexivity.
      * intros j [<-|I]; [exact A|]. intro X. apply (C j I). right. exact X.
    + intros (-> & B & C). inversion B; subst. split; [apply C; left; reflexivity|]. split; [rewrite <- app_assoc; reflexivity|]. split; [assumption|].
      intros j I [->|X]; [contradiction|]. apply (C j); [right; exact I|exact X].
  - apply IH.
Qed.
Lemma idsSeq_fresh l : forall ids ids', idsSeq l ids ids' <-> fresh l ids ids' /\ (forall i, In i (somes l) -> identifierOk i = true).
Proof.
  induction l as [|[i|] l IH]; intros ids ids'; cbn [idsSeq fresh somes flat_map app].
  - split; [intro; split; [assumption|intros i []]|tauto].
  - fold (somes l). rewrite IH. split; [intros (A & B & C & D); repeat split; auto; intros j [<-|I]; auto|]. intros ((A & C) & D). repeat split; auto; [apply D; left; reflexivity|]. intros j I. apply D. right. exact I.
  - apply IH.
Qed.
Lemma uniqueLoop_iff V l : forall ids ids', uniqueLoop V l ids = (true, ids') <-> Forall (fun g => V g = true) l /\ fresh (map gid l) ids ids'.
Proof.
  induction l as [|g l IH]; intros ids ids'; cbn [uniqueLoop map fresh].
  - split; [intro H; inversion H; auto|intros [_ ->]; reflexivity].
  - destruct (V g) eqn:Vg; cbn [negb].
    + unfold gid at 1. destruct (vget (u "identifier") g) as [| | | |s| | | | | |]; cbn [fresh];
        try (rewrite IH; split; [intros [A B]; split; [constructor; assumption|exact B]|intros [A B]; inversion A; auto]).
      destruct (mem_spec s ids) as [M|M]; [split; [discriminate|tauto]|]. rewrite IH. split; [intros [A B]; split; [constructor; assumption|auto]|intros [A B]; inversion A; tauto].
    + split; [discriminate|]. intros [A _]. inversion A; congruence.
Qed.

Section Parts.
Variable T : pytext.
Hypothesis LT : pytext_laws T.
Variable R : spec_float -> str.
Hypothesis LR : repr_laws T R.
Variable ro : pyval -> str.
Notation repr := (reprOf R ro).

(** the attributes [A] are those of the dictionary [g] *)
Record described (nums strs : list str) (g : pyval) (A : list (str * str)) : Prop := {
  d_nodup : NoDup (map fst A);
  d_keys : forall k, In k (map fst A) -> In k (nums ++ strs);
  d_nums : forall k, In k nums -> get k A = if is_none (vget k g) then None else Some (repr (vget k g));
  d_strs : forall k, In k strs -> get k A = match vget k g with PStr s => Some s | _ => None end }.
Lemma described_read nums strs g e : described nums strs g (eattrib e) -> (forall k, In k nums -> ~ In k strs) ->
  (forall k, In k nums -> numOrNone (vget k g)) -> (forall k, In k strs -> strOrNone (vget k g)) ->
  exists d, attribNumbers T nums e (attribDict e) = Ok d /\ (forall k, vget k (toPDict d) = if mem k (nums ++ strs) then vget k g else PNone) /\
    (forall k v, In (k, v) d -> In k (nums ++ strs) /\ v = vget k g /\ v <> PNone).
Proof.
  intros [ND DK DN DS] Dj N S.
  destruct (attribNumbers_total T e nums (attribDict e)) as (d & E).
  { intros k s I E. unfold eget in E. rewrite DN in E by exact I. destruct (N k I) as [Z|Z]; [rewrite Z in E; discriminate E|]. rewrite (isNum_none _ Z) in E. inversion E; subst. exists (vget k g). apply number_repr; assumption. }
  destruct (attribNumbers_spec T e nums (attribDict e) d) as (K & G); [|exact E|].
  { intros k X. rewrite keys_attribDict. unfold eget in X. destruct (in_dec (list_eq_dec N.eq_dec) k (map fst (eattrib e))) as [I|I]; [exact I|]. exfalso. apply X. apply get_not. exact I. }
  assert (V : forall k, get k d = if mem k (nums ++ strs) then (if is_none (vget k g) then None else Some (vget k g)) else None).
  { intro k. rewrite G, get_attribDict. unfold eget. destruct (mem_spec k nums) as [I|I].
    - assert (M : mem k (nums ++ strs) = true) by (apply mem_In; apply in_or_app; auto). rewrite M, DN by exact I. destruct (N k I) as [Z|Z]; [rewrite Z; reflexivity|].
      rewrite (isNum_none _ Z). rewrite (number_repr T LT R LR ro) by exact Z. reflexivity.
    - destruct (mem_spec k strs) as [I'|I'].
      + assert (M : mem k (nums ++ strs) = true) by (apply mem_In; apply in_or_app; auto). rewrite M, DS by exact I'. destruct (S k I') as [Z|(s & Z)]; rewrite Z; reflexivity.
      + assert (M : mem k (nums ++ strs) = false) by (apply mem_nIn; intro X; apply in_app_or in X; tauto). rewrite M.
        rewrite get_not; [reflexivity|]. intro X. apply DK in X. apply in_app_or in X. tauto. }
  exists d. split; [exact E|]. split.
  - intro k. rewrite vget_toPDict, V. destruct (mem k (nums ++ strs)); [|reflexivity]. destruct (vget k g); reflexivity.
  - intros k v I. assert (ND' : dict_ok d) by (unfold dict_ok; rewrite K, keys_attribDict; exact ND). pose proof (In_get _ _ _ ND' I) as Gk. rewrite V in Gk.
    destruct (mem_spec k (nums ++ strs)) as [M|M]; [|discriminate Gk]. split; [exact M|]. destruct (is_none (vget k g)) eqn:Z; [discriminate Gk|]. inversion Gk; subst. split; [reflexivity|]. intro X. rewrite X in Z. discriminate Z.
Qed.
Lemma isinstance_num v : isinstance v TNumber = true -> is_none v = false.
Proof. destruct v; reflexivity || discriminate. Qed.
Definition guideNums : list str := [u "x"; u "y"; u "angle"].
Definition anchorNums : list str := [u "x"; u "y"].
Definition itemStrs : list str := [u "name"; u "color"; u "identifier"].
Lemma optAttr_str k v a : optAttr k v = Ok a -> strOrNone v /\ a = match v with PStr s => [(k, s)] | _ => [] end.
Proof. unfold optAttr, strOrNone. destruct v; cbn; intro H; inversion H; subst; eauto. Qed.
Lemma writeIdentifier_inv v ids a ids' : writeIdentifier true v ids = Ok (a, ids') ->
  strOrNone v /\ a = match v with PStr s => [(u "identifier", s)] | _ => [] end /\ fresh [match v with PStr s => Some s | _ => None end] ids ids'.
Proof.
  unfold writeIdentifier, strOrNone. destruct v; cbn; intro H; try discriminate H; try (inversion H; subst; eauto).
  destruct (mem_spec s ids); cbn in H; inversion H; subst. eauto 6.
Qed.
(** attributes that may be missing *)
Definition present (l : list (str * option str)) : list (str * str) := flat_map (fun p => match snd p with Some s => [(fst p, s)] | None => [] end) l.
Lemma present_keys l k : In k (map fst (present l)) -> In k (map fst l).
Proof.
  induction l as [|[k' [s|]] l IH]; cbn [present flat_map map app fst snd]; [intros []| |].
  - intros [->|I]; [left; reflexivity|right; exact (IH I)].
  - intro I. right. exact (IH I).
Qed.
Lemma present_get l k o : NoDup (map fst l) -> In (k, o) l -> get k (present l) = o.
Proof.
  induction l as [|[k' o'] l IH]; intros ND I; [destruct I|]. cbn [map fst] in ND. inversion ND as [|? ? NI ND']; subst. destruct I as [I|I].
  - inversion I; subst. cbn [present flat_map fst snd]. destruct o as [s|]; cbn [app get]; [rewrite eqb_refl; reflexivity|]. apply get_not. intro X. apply present_keys in X. contradiction.
  - cbn [present flat_map fst snd]. fold (present l). destruct o' as [s|]; cbn [app get]; [|exact (IH ND' I)].
    assert (k <> k') by (intros ->; apply NI; apply (in_map fst) in I; exact I). rewrite (proj2 (eqb_neq k k')) by assumption. exact (IH ND' I).
Qed.
Lemma present_nodup l : NoDup (map fst l) -> NoDup (map fst (present l)).
Proof.
  induction l as [|[k' o'] l IH]; cbn [map fst present flat_map snd]; intro ND; [constructor|]. inversion ND; subst. fold (present l). destruct o'; cbn [app map fst]; [|auto]. constructor; [|auto]. intro X. apply present_keys in X. contradiction.
Qed.
Definition numAttr (g : pyval) (k : str) : str * option str := (k, if is_none (vget k g) then None else Some (repr (vget k g))).
Definition strAttr (g : pyval) (k : str) : str * option str := (k, match vget k g with PStr s => Some s | _ => None end).
Lemma described_present nums strs g : NoDup (nums ++ strs) -> described nums strs g (present (map (numAttr g) nums ++ map (strAttr g) strs)).
Proof.
  intro ND. assert (K : map fst (map (numAttr g) nums ++ map (strAttr g) strs) = nums ++ strs) by (rewrite map_app, !map_map; cbn; rewrite !map_id; reflexivity).
  constructor.
  - apply present_nodup. rewrite K. exact ND.
  - intros k I. apply present_keys in I. rewrite K in I. exact I.
  - intros k I. apply present_get; [rewrite K; exact ND|]. apply in_or_app. left. apply in_map_iff. exists k. split; [reflexivity|exact I].
  - intros k I. apply present_get; [rewrite K; exact ND|]. apply in_or_app. right. apply in_map_iff. exists k. split; [reflexivity|exact I].
Qed.
Lemma litNoDup (l : list str) : nodupb l = true -> NoDup l.
Proof. intro H. destruct (nodupb_spec l); [assumption|discriminate]. Qed.
Lemma optRepr_present g k : optRepr R ro k (vget k g) = present [numAttr g k].
Proof. unfold optRepr, present, numAttr. cbn [flat_map fst snd]. destruct (is_none (vget k g)); reflexivity. Qed.
Lemma optStr_present g k : (match vget k g with PStr s => [(k, s)] | _ => [] end) = present [strAttr g k].
Proof. unfold present, strAttr. cbn [flat_map fst snd]. destruct (vget k g); reflexivity. Qed.
Lemma present_app l m : present (l ++ m) = present l ++ present m.
Proof. apply flat_map_app. Qed.
Lemma writeGuideline_inv g ids e ids' : writeGuideline R ro true g ids = Ok (e, ids') ->
  e = sub (u "guideline") (present (map (numAttr g) guideNums ++ map (strAttr g) itemStrs)) /\ (forall k, In k itemStrs -> strOrNone (vget k g)) /\ fresh [gid g] ids ids'.
Proof.
  unfold writeGuideline. destruct (is_dict g); [|discriminate]. intro H. apply bind_Ok in H as (n & Hn & H). apply bind_Ok in H as (c & Hc & H). apply bind_Ok in H as ((i, ids1) & Hi & H).
  apply Ok_inj in H. injection H as <- <-. apply optAttr_str in Hn as [Sn ->]. apply optAttr_str in Hc as [Sc ->]. apply writeIdentifier_inv in Hi as (Si & -> & Fr).
  split; [|split; [|exact Fr]].
  2:{ intros k [<-|[<-|[<-|[]]]]; assumption. }
  f_equal. rewrite !optRepr_present, !optStr_present, <- !present_app. reflexivity.
Qed.
Lemma anchor_xy g : anchorValidator T g = true -> is_none (vget (u "x") g) = false /\ is_none (vget (u "y") g) = false.
Proof.
  unfold anchorValidator. destruct (genericDictValidator _ _); [|discriminate]. cbn [negb]. destruct (is_none (vget (u "x") g)); [discriminate|]. destruct (is_none (vget (u "y") g)); [discriminate|auto].
Qed.
Lemma writeAnchor_inv g ids e ids' : writeAnchor R ro true g ids = Ok (e, ids') -> anchorValidator T g = true ->
  e = sub (u "anchor") (present (map (numAttr g) anchorNums ++ map (strAttr g) itemStrs)) /\ (forall k, In k itemStrs -> strOrNone (vget k g)) /\ fresh [gid g] ids ids'.
Proof.
  unfold writeAnchor. destruct (is_dict g); [|discriminate]. destruct (vhas (u "x") g); [|discriminate]. destruct (vhas (u "y") g); [|discriminate]. intros H AV. apply bind_Ok in H as (n & Hn & H). apply bind_Ok in H as (c & Hc & H). apply bind_Ok in H as ((i, ids1) & Hi & H).
  apply Ok_inj in H. injection H as <- <-. apply optAttr_str in Hn as [Sn ->]. apply optAttr_str in Hc as [Sc ->]. apply writeIdentifier_inv in Hi as (Si & -> & Fr).
  split; [|split; [|exact Fr]].
  2:{ intros k [<-|[<-|[<-|[]]]]; assumption. }
  destruct (anchor_xy g AV) as [X Y]. f_equal. rewrite !optStr_present, <- !present_app. unfold anchorNums, present, numAttr. cbn [map app flat_map fst snd]. rewrite X, Y. reflexivity.
Qed.

Lemma mem_keys_has {A} k (d : list (str * A)) : mem k (map fst d) = has k d.
Proof.
  unfold has. destruct (mem_spec k (map fst d)) as [I|I].
  - destruct (get k d) eqn:E; [reflexivity|]. apply get_None in E. contradiction.
  - rewrite get_not by exact I. reflexivity.
Qed.
(** the same entries *)
Definition sameEntries (v w : pyval) : Prop := forall k, vget k w = vget k v.
Lemma generic_other v proto k : genericDictValidator v proto = true -> get k proto = None -> vget k v = PNone.
Proof.
  unfold genericDictValidator. destruct (is_dict v); cbn [negb]; [|discriminate]. destruct (forallb _ proto); cbn [negb]; [|discriminate].
  destruct (forallb _ (items v)) eqn:F2; cbn [negb]; [|discriminate]. intros _ G. unfold vget. destruct (dget k (items v)) as [x|] eqn:E; [|reflexivity].
  apply dget_In in E. rewrite forallb_forall in F2. specialize (F2 _ E). cbn [fst] in F2. unfold has in F2. rewrite G in F2. discriminate F2.
Qed.
Lemma noneOr v : v = PNone \/ v <> PNone.
Proof. destruct v; (left; reflexivity) || (right; discriminate). Qed.
Lemma described_same nums strs g e proto : genericDictValidator g proto = true -> described nums strs g (eattrib e) -> (forall k, In k nums -> ~ In k strs) ->
  (forall k, In k nums -> numOrNone (vget k g)) -> (forall k, In k strs -> strOrNone (vget k g)) ->
  (forall k, mem k (nums ++ strs) = has k proto) -> (forall k x, In (k, x) proto -> snd x = false) ->
  exists d, attribNumbers T nums e (attribDict e) = Ok d /\ sameEntries g (toPDict d) /\ genericDictValidator (toPDict d) proto = true.
Proof.
  intros GV D Dj N S MP Op. destruct (described_read nums strs g e D Dj N S) as (d & E & V & I). exists d. split; [exact E|]. split.
  - intro k. rewrite V, MP. unfold has. destruct (get k proto) as [[t rq]|] eqn:G; [reflexivity|]. symmetry. exact (generic_other _ _ _ GV G).
  - apply generic_make.
    + intros k v Iv. destruct (I k v Iv) as (M & Ev & Nv). apply mem_In in M. rewrite MP in M. unfold has in M. destruct (get k proto) as [[t rq]|] eqn:G; [|discriminate M]. exists t, rq. split; [reflexivity|].
      destruct (generic_vget g proto k t rq GV G) as [[X _]|X]; [congruence|]. rewrite Ev. exact X.
    + intros k t Ik. apply Op in Ik. discriminate Ik.
Qed.
Lemma guideline_read g e : guidelineValidator T g = true -> eattrib e = present (map (numAttr g) guideNums ++ map (strAttr g) itemStrs) ->
  (forall k, In k guideNums -> numOrNone (vget k g)) -> (forall k, In k itemStrs -> strOrNone (vget k g)) ->
  exists d, attribNumbers T [u "x"; u "y"; u "angle"] e (attribDict e) = Ok d /\ sameEntries g (toPDict d) /\ guidelineValidator T (toPDict d) = true.
Proof.
  intros GV E N S. assert (GD : genericDictValidator g guidelineProto = true) by (unfold guidelineValidator in GV; destruct (genericDictValidator g guidelineProto); [reflexivity|discriminate GV]).
  destruct (described_same guideNums itemStrs g e guidelineProto GD) as (d & E1 & V & G); try assumption.
  - rewrite E. apply described_present. apply litNoDup. reflexivity.
  - intros k I. apply mem_nIn. destruct I as [<-|[<-|[<-|[]]]]; reflexivity.
  - intro k. apply (mem_keys_has k guidelineProto).
  - intros k x I. repeat (destruct I as [I|I]; [inversion I; reflexivity|]). destruct I.
  - exists d. split; [exact E1|]. split; [exact V|]. unfold guidelineValidator. rewrite G. unfold optionalIdentifierOk, optionalColorOk. rewrite !V. unfold guidelineValidator in GV. rewrite GD in GV. exact GV.
Qed.
Lemma anchor_read g e : anchorValidator T g = true -> eattrib e = present (map (numAttr g) anchorNums ++ map (strAttr g) itemStrs) ->
  (forall k, In k anchorNums -> numOrNone (vget k g)) -> (forall k, In k itemStrs -> strOrNone (vget k g)) ->
  exists d, attribNumbers T [u "x"; u "y"] e (attribDict e) = Ok d /\ sameEntries g (toPDict d) /\ anchorValidator T (toPDict d) = true.
Proof.
  intros GV E N S. assert (GD : genericDictValidator g anchorProto = true) by (unfold anchorValidator in GV; destruct (genericDictValidator g anchorProto); [reflexivity|discriminate GV]).
  destruct (described_same anchorNums itemStrs g e anchorProto GD) as (d & E1 & V & G); try assumption.
  - rewrite E. apply described_present. apply litNoDup. reflexivity.
  - intros k I. apply mem_nIn. destruct I as [<-|[<-|[]]]; reflexivity.
  - intro k. apply (mem_keys_has k anchorProto).
  - intros k x I. repeat (destruct I as [I|I]; [inversion I; reflexivity|]). destruct I.
  - exists d. split; [exact E1|]. split; [exact V|]. unfold anchorValidator. rewrite G. unfold optionalIdentifierOk, optionalColorOk. rewrite !V. unfold anchorValidator in GV. rewrite GD in GV. exact GV.
Qed.

(** ** The image *)
Definition imageNumber (image : pyval) (x : str * Z) : pyval := defaultGet (fst x) (PInt (snd x)) image.
Definition imageAttr (image : pyval) (x : str * Z) : str * option str :=
  (fst x, if py_eq (imageNumber image x) (PInt (snd x)) then None else Some (repr (imageNumber image x))).
Definition imageAttrs (image : pyval) : list (str * option str) :=
  strAttr image (u "fileName") :: map (imageAttr image) transformationInfo ++ [strAttr image (u "color")].
Lemma imageAttrs_keys image : map fst (imageAttrs image) = u "fileName" :: map fst transformationInfo ++ [u "color"].
Proof. reflexivity. Qed.
Lemma imageAttrs_nodup image : NoDup (map fst (imageAttrs image)).
Proof. rewrite imageAttrs_keys. apply litNoDup. reflexivity. Qed.
Lemma transformAttr_present image l : flat_map (transformAttr R ro image) l = present (map (imageAttr image) l).
Proof.
  induction l as [|[k d] l IH]; [reflexivity|]. cbn [flat_map map present transformAttr]. rewrite IH. unfold imageAttr at 2 3, imageNumber. cbn [fst snd]. destruct (py_eq (defaultGet k (PInt d) image) (PInt d)); reflexivity.
Qed.
(** the image as it is read back *)
Definition imageEntry (image : pyval) (k : str) : pyval :=
  match get k transformationInfo with Some d => dflt d (defaultGet k (PInt d) image) | None => vget k image end.
Lemma imageNumbers_spec e info : forall d0, NoDup (map fst info) -> dict_ok d0 -> (forall k dd, In (k, dd) info -> exists v, numberOr T dd (eget k e) = Ok v) ->
  exists d, imageNumbers T info e d0 = Ok d /\ dict_ok d /\ forall k, get k d = match get k info with Some dd => (match numberOr T dd (eget k e) with Ok v => Some v | Err _ => None end) | None => get k d0 end.
Proof.
  induction info as [|[a dd] info IH]; intros d0 ND D0 H; cbn [imageNumbers].
  - exists d0. auto.
  - destruct (H a dd (or_introl eq_refl)) as (v & Ev). rewrite Ev. cbn [bind]. cbn [map fst] in ND. inversion ND as [|? ? NI ND']; subst.
    destruct (IH (set a v d0) ND' (dict_ok_set _ _ _ D0)) as (d & E & D & G); [intros; eapply H; right; eassumption|].
    exists d. split; [exact E|]. split; [exact D|]. intro k. rewrite G. cbn [get]. destruct (eqb_spec k a) as [->|N].
    + rewrite get_not by exact NI. rewrite get_set_same, Ev. reflexivity.
    + rewrite get_set_other by exact N. reflexivity.
Qed.
Lemma writeImage_inv g l : writeImage T R ro g 2 true = Ok l ->
  (truthy (getattr g (u "image")) = false /\ l = []) \/
  (truthy (getattr g (u "image")) = true /\ imageValidator T (getattr g (u "image")) = true /\ l = [sub (u "image") (present (imageAttrs (getattr g (u "image"))))]).
Proof.
  unfold writeImage. cbn [Z.leb Z.compare Pos.compare Pos.compare_cont andb negb]. destruct (truthy (getattr g (u "image"))) eqn:Tr; cbn [negb]; [|intro H; inversion H; auto].
  right. set (image := getattr g (u "image")) in *. cbn [orb] in H. destruct (imageValidator T image) eqn:V; [|discriminate H]. destruct (is_dict image); [|discriminate H]. destruct (vhas (u "fileName") image); [|discriminate H].
  apply bind_Ok in H as (f & Hf & H). apply bind_Ok in H as (c & Hc & H). apply Ok_inj in H. subst l. apply optAttr_str in Hc as [_ ->]. split; [reflexivity|]. split; [reflexivity|]. do 3 f_equal.
  unfold imageAttrs. change (strAttr image (u "fileName") :: map (imageAttr image) transformationInfo ++ [strAttr image (u "color")]) with ([strAttr image (u "fileName")] ++ map (imageAttr image) transformationInfo ++ [strAttr image (u "color")]).
  rewrite !present_app, transformAttr_present, optStr_present. unfold attrStr in Hf. unfold present at 3, strAttr. cbn [flat_map fst snd]. destruct (vget (u "fileName") image); try discriminate Hf. inversion Hf. reflexivity.
Qed.
Lemma image_read image e : imageValidator T image = true -> eattrib e = present (imageAttrs image) ->
  (forall k, In k (map fst transformationInfo) -> vhas k image = true -> isNum (vget k image)) ->
  exists d, imageNumbers T transformationInfo e (attribDict e) = Ok d /\ (forall k, vget k (toPDict d) = imageEntry image k) /\ imageValidator T (toPDict d) = true.
Proof.
  intros IV E N. assert (GD : genericDictValidator image imageProto = true) by (unfold imageValidator in IV; destruct (genericDictValidator image imageProto); [reflexivity|discriminate IV]).
  assert (ND : NoDup (map fst transformationInfo)) by (apply litNoDup; reflexivity).
  assert (Nu : forall k dd, In (k, dd) transformationInfo -> isNum (dflt dd (defaultGet k (PInt dd) image))).
  { intros k dd I. unfold dflt. destruct (py_eq _ _); [left; eauto|]. unfold defaultGet. destruct (vhas k image) eqn:Vh; [|left; eauto]. apply N; [apply (in_map fst) in I; exact I|exact Vh]. }
  assert (Nn : forall k dd, In (k, dd) transformationInfo -> numberOr T dd (eget k e) = Ok (dflt dd (defaultGet k (PInt dd) image))).
  { intros k dd I. unfold eget. rewrite E. rewrite (present_get (imageAttrs image) k (snd (imageAttr image (k, dd)))).
    - unfold imageAttr, imageNumber, dflt. cbn [fst snd]. destruct (py_eq (defaultGet k (PInt dd) image) (PInt dd)); [reflexivity|]. cbn [numberOr]. apply (number_repr T LT R LR ro).
      unfold defaultGet. destruct (vhas k image) eqn:Vh; [|left; eauto]. apply N; [apply (in_map fst) in I; exact I|exact Vh].
    - apply imageAttrs_nodup.
    - unfold imageAttrs. right. apply in_or_app. left. apply in_map_iff. exists (k, dd). split; [reflexivity|exact I]. }
  assert (S : forall k, In k [u "fileName"; u "color"] -> get k transformationInfo = None /\ strOrNone (vget k image) /\ eget k e = match vget k image with PStr s => Some s | _ => None end).
  { intros k I. assert (G : exists rq, get k imageProto = Some (TStr, rq)) by (destruct I as [<-|[<-|[]]]; eexists; reflexivity). destruct G as (rq & G).
    split; [destruct I as [<-|[<-|[]]]; reflexivity|]. split.
    - destruct (generic_vget _ _ _ _ _ GD G) as [[X _]|X]; [left; exact X|]. right. destruct (vget k image); try discriminate X. eauto.
    - unfold eget. rewrite E. apply present_get; [apply imageAttrs_nodup|]. unfold imageAttrs. destruct I as [<-|[<-|[]]]; [left; reflexivity|]. right. apply in_or_app. right. left. reflexivity. }
  destruct (imageNumbers_spec e transformationInfo (attribDict e) ND) as (d & Ed & OKd & G).
  - unfold dict_ok. rewrite keys_attribDict, E. apply present_nodup. apply imageAttrs_nodup.
  - intros k dd I. rewrite (Nn _ _ I). eauto.
  - assert (V : forall k, get k d = match get k transformationInfo with Some dd => Some (dflt dd (defaultGet k (PInt dd) image)) | None => match vget k image with PNone => None | v => Some v end end).
    { intro k. rewrite G. destruct (get k transformationInfo) as [dd|] eqn:Gt.
      - apply get_In in Gt. rewrite (Nn _ _ Gt). reflexivity.
      - rewrite get_attribDict. destruct (mem_spec k [u "fileName"; u "color"]) as [M|M].
        + destruct (S k M) as (_ & [X|(s & X)] & Y); rewrite Y, X; reflexivity.
        + assert (Z : get k imageProto = None).
          { apply get_not. intro I. apply M. revert I. change (map fst imageProto) with (u "fileName" :: map fst transformationInfo ++ [u "color"]). intros [<-|I]; [left; reflexivity|]. apply in_app_or in I as [I|[<-|[]]]; [|right; left; reflexivity].
            exfalso. revert I. apply (proj1 (get_None _ _)). exact Gt. }
          rewrite (generic_other _ _ _ GD Z). unfold eget. rewrite E. rewrite get_not; [reflexivity|]. intro I. apply present_keys in I. rewrite imageAttrs_keys in I. revert I. change (u "fileName" :: map fst transformationInfo ++ [u "color"]) with (map fst imageProto). apply (proj1 (get_None _ _)). exact Z. }
    assert (V' : forall k, vget k (toPDict d) = imageEntry image k).
    { intro k. rewrite vget_toPDict, V. unfold imageEntry. destruct (get k transformationInfo); [reflexivity|]. destruct (vget k image); reflexivity. }
    exists d. split; [exact Ed|]. split; [exact V'|]. unfold imageValidator.
    assert (GG : genericDictValidator (toPDict d) imageProto = true).
    { apply generic_make.
      - intros k v I. apply (In_get _ _ _ OKd) in I. rewrite V in I. destruct (get k transformationInfo) as [dd|] eqn:Gt.
        + inversion I; subst. apply get_In in Gt. pose proof (isNum_number _ (Nu _ _ Gt)) as X. exists TNumber, false. split; [|exact X].
          clear - Gt. repeat (destruct Gt as [Gt|Gt]; [inversion Gt; reflexivity|]). destruct Gt.
        + destruct (get k imageProto) as [[t rq]|] eqn:Gp; [|rewrite (generic_other _ _ _ GD Gp) in I; discriminate I]. exists t, rq. split; [reflexivity|].
          destruct (generic_vget _ _ _ _ _ GD Gp) as [[X _]|X]; [rewrite X in I; discriminate I|]. destruct (vget k image); inversion I; subst; exact X.
      - intros k t I. destruct I as [I|I].
        + inversion I; subst. unfold has. rewrite V. change (get (u "fileName") transformationInfo) with (@None Z). cbv iota. destruct (generic_vget image imageProto (u "fileName") TStr true GD eq_refl) as [[_ X]|X]; [discriminate X|]. destruct (vget (u "fileName") image); try discriminate X. reflexivity.
        + exfalso. repeat (destruct I as [I|I]; [inversion I|]). destruct I. }
    rewrite GG. cbn [negb]. unfold optionalColorOk. rewrite !V'. unfold imageValidator in IV. rewrite GD in IV. exact IV.
Qed.
End Parts.
