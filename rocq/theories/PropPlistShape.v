(** C87: plistlib reads exactly the well formed property lists.  [denotes T e v]
    says what an element stands for, independently of the parser's stack. *)
From Coq Require Import String NArith ZArith Bool Lia List Permutation.
From Coq.Floats Require Import SpecFloat.
From Verif Require Import Base PyVal PyText FloatRepr Xml Ufo UfoProofs Plist PlistProofs PropPlist.
Import ListNotations.
Local Open Scope string_scope.
Local Open Scope list_scope.

(** the value of an element without children *)
Inductive holds (T : pytext) : str -> str -> pyval -> Prop :=
| h_true s : holds T (u "true") s (PBool true)
| h_false s : holds T (u "false") s (PBool false)
| h_integer s z : parseInt T s = Some z -> holds T (u "integer") s (PInt z)
| h_real s f : parseFloat T s = Some f -> holds T (u "real") s (PFloat f)
| h_string s : holds T (u "string") s (PStr s)
| h_data s b : b64decode s = Ok b -> holds T (u "data") s (PBytes b)
| h_date s v : dateFromString s = Ok v -> holds T (u "date") s v.
(** the text of an element *)
Definition textOf (text : option etext) : str := match text with Some (XS s) => s | Some (XB s) => s | None => [] end.
(** a dictionary given these items one after the other *)
Definition dictOf (kvs : list (str * pyval)) : pyval :=
  PDict (map (fun '(k, x) => (PStr k, x)) (fold_left (fun d kv => set (fst kv) (snd kv) d) kvs [])).
Inductive denotes (T : pytext) : elem -> pyval -> Prop :=
| dn_leaf tag at' text tail v : holds T tag (textOf text) v -> denotes T (Elem tag at' text [] tail) v
| dn_array at' text ch tail vs : itemsAre T ch vs -> denotes T (Elem (u "array") at' text ch tail) (PList vs)
| dn_dict at' text ch tail kvs : entriesAre T ch kvs -> denotes T (Elem (u "dict") at' text ch tail) (dictOf kvs)
with itemsAre (T : pytext) : list elem -> list pyval -> Prop :=
| ia_nil : itemsAre T [] []
| ia_cons e v l vs : denotes T e v -> itemsAre T l vs -> itemsAre T (e :: l) (v :: vs)
with entriesAre (T : pytext) : list elem -> list (str * pyval) -> Prop :=
| ea_nil : entriesAre T [] []
| ea_cons at' text tail e v l kvs : denotes T e v -> entriesAre T l kvs ->
    entriesAre T (Elem (u "key") at' text [] tail :: e :: l) ((textOf text, v) :: kvs).
Scheme denotes_min := Minimality for denotes Sort Prop
with items_min := Minimality for itemsAre Sort Prop
with entries_min := Minimality for entriesAre Sort Prop.
Combined Scheme denotes_mut from denotes_min, items_min, entries_min.
(** the elements of property lists, anywhere; keys are not empty *)
Definition leafTags : list str := [u "true"; u "false"; u "integer"; u "real"; u "string"; u "data"; u "date"].
Inductive plistElem : elem -> Prop :=
| pe_leaf tag at' text tail : In tag leafTags -> plistElem (Elem tag at' text [] tail)
| pe_key at' text tail : textOf text <> [] -> plistElem (Elem (u "key") at' text [] tail)
| pe_node tag at' text ch tail : tag = u "dict" \/ tag = u "array" -> Forall plistElem ch -> plistElem (Elem tag at' text ch tail).

Section Shape.
Variable T : pytext.
Notation st := (step T).
Lemma textOf_asStr x : textOf x = asStr x.
Proof. destruct x as [[|]|]; reflexivity. Qed.
Lemma dset_set k v (d : list (str * pyval)) : dset k v (map (fun '(k, x) => (PStr k, x)) d) = map (fun '(k, x) => (PStr k, x)) (set k v d).
Proof. induction d as [|[a b] d IH]; [reflexivity|]. cbn [map dset set]. destruct (eqb k a); [reflexivity|]. cbn [map]. rewrite IH. reflexivity. Qed.
Definition asItems (d : list (str * pyval)) : list (pyval * pyval) := map (fun '(k, x) => (PStr k, x)) d.
Definition fill (kvs : list (str * pyval)) (d : list (str * pyval)) := fold_left (fun d kv => set (fst kv) (snd kv) d) kvs d.
(** how the end of a leaf acts *)
Definition leafFun (tag : str) : str -> res pyval :=
  if eqb tag (u "true") then fun _ => Ok (PBool true) else if eqb tag (u "false") then fun _ => Ok (PBool false)
  else if eqb tag (u "integer") then fun s => match parseInt T s with Some z => Ok (PInt z) | None => Err ValueError end
  else if eqb tag (u "real") then fun s => match parseFloat T s with Some f => Ok (PFloat f) | None => Err ValueError end
  else if eqb tag (u "string") then fun s => Ok (PStr s)
  else if eqb tag (u "data") then fun s => do b <- b64decode s; Ok (PBytes b) else dateFromString.
Lemma leafFun_holds tag s v : In tag leafTags -> leafFun tag s = Ok v <-> holds T tag s v.
Proof.
  intro I. unfold leafTags in I. cbn [In] in I. repeat (destruct I as [<-|I]; [|]); try contradiction.
  - change (leafFun (u "true") s) with (@Ok pyval (PBool true)). split; intro H; [injection H as <-; constructor|inversion H; reflexivity].
  - change (leafFun (u "false") s) with (@Ok pyval (PBool false)). split; intro H; [injection H as <-; constructor|inversion H; reflexivity].
  - change (leafFun (u "integer") s) with (match parseInt T s with Some z => Ok (PInt z) | None => Err ValueError end). split; intro H.
    + destruct (parseInt T s) eqn:E; [injection H as <-; constructor; exact E|discriminate H].
    + inversion H as [| |? ? E| | | |]; subst. rewrite E. reflexivity.
  - change (leafFun (u "real") s) with (match parseFloat T s with Some z => Ok (PFloat z) | None => Err ValueError end). split; intro H.
    + destruct (parseFloat T s) eqn:E; [injection H as <-; constructor; exact E|discriminate H].
    + inversion H as [| | |? ? E| | |]; subst. rewrite E. reflexivity.
  - change (leafFun (u "string") s) with (Ok (PStr s)). split; intro H; [injection H as <-; constructor|inversion H; reflexivity].
  - change (leafFun (u "data") s) with (do b <- b64decode s; Ok (PBytes b)). split; intro H.
    + destruct (b64decode s) eqn:E; [injection H as <-; constructor; exact E|discriminate H].
    + inversion H as [| | | | |? ? E|]; subst. rewrite E. reflexivity.
  - change (leafFun (u "date") s) with (dateFromString s). split; intro H; [constructor; exact H|inversion H as [| | | | | |? ? E]; subst; exact E].
Qed.
Lemma leafTags_not tag : In tag leafTags -> eqb tag (u "dict") = false /\ eqb tag (u "array") = false /\ eqb tag (u "key") = false.
Proof. intro I. unfold leafTags in I. cbn [In] in I. repeat (destruct I as [<-|I]; [repeat split|]). destruct I. Qed.
Lemma slot_data t d : slotFor (mkTarget (tstack t) (tkey t) (troot t) d) = slotFor t.
Proof. reflexivity. Qed.
Lemma leaf_acts tag xs s t : In tag leafTags -> joinTexts xs = Ok s ->
  (forall v sl, leafFun tag s = Ok v -> slotFor t = Ok sl -> exists d, endTag T tag (setData t xs) = Ok (setData (place sl v t) d)) /\
  (forall t', endTag T tag (setData t xs) = Ok t' -> exists v sl d, leafFun tag s = Ok v /\ slotFor t = Ok sl /\ t' = setData (place sl v t) d).
Proof.
  intros I J.
  assert (W : forall k, (forall t, endTag T tag t = withData t k) -> (forall s, leafFun tag s = k s) ->
    (forall v sl, leafFun tag s = Ok v -> slotFor t = Ok sl -> exists d, endTag T tag (setData t xs) = Ok (setData (place sl v t) d)) /\
    (forall t', endTag T tag (setData t xs) = Ok t' -> exists v sl d, leafFun tag s = Ok v /\ slotFor t = Ok sl /\ t' = setData (place sl v t) d)).
  { intros k E1 E2. rewrite E1, E2. split; [intros v sl; apply withData_run; exact J|].
    intros t' H. pose proof H as H0. unfold withData, getData, setData in H. cbn [tdata] in H. rewrite J in H. cbn [bind] in H. destruct (k s) as [v|] eqn:K; [|discriminate H]. cbn [bind] in H.
    unfold addObject in H. cbn [tstack tkey troot] in H. rewrite slot_data in H. destruct (slotFor t) as [sl|] eqn:S; [|discriminate H].
    destruct (withData_run t xs s v k sl J K S) as (d & Ed). rewrite Ed in H0. injection H0 as <-. eauto 6. }
  assert (A : forall v0, (forall t, endTag T tag t = addObject v0 t) -> (forall s, leafFun tag s = Ok v0) ->
    (forall v sl, leafFun tag s = Ok v -> slotFor t = Ok sl -> exists d, endTag T tag (setData t xs) = Ok (setData (place sl v t) d)) /\
    (forall t', endTag T tag (setData t xs) = Ok t' -> exists v sl d, leafFun tag s = Ok v /\ slotFor t = Ok sl /\ t' = setData (place sl v t) d)).
  { intros v0 E1 E2. rewrite E1, E2. split.
    - intros v sl E S. injection E as <-. unfold addObject. rewrite slotFor_data, S. cbn [bind]. destruct (place_data sl v0 t xs) as (d & ->). eauto.
    - intros t' H. unfold addObject in H. rewrite slotFor_data in H. destruct (slotFor t) as [sl|]; [|discriminate H]. cbn [bind] in H. destruct (place_data sl v0 t xs) as (d & Ed). rewrite Ed in H. injection H as <-. eauto 6. }
  unfold leafTags in I. cbn [In] in I. repeat (destruct I as [<-|I]; [|]); try contradiction;
    first [eapply A; intros; reflexivity|eapply W; intros; reflexivity].
Qed.

(** ** what is well formed is read *)
Lemma junk_map xs : junk (map EvData xs).
Proof. apply Forall_forall. intros e I. apply in_map_iff in I as (x & <- & _). eauto. Qed.
Lemma node_trace tag at' text ch tail evs : trace (Elem tag at' text ch tail) evs ->
  exists j evs', junk j /\ ktrace ch evs' /\ evs = EvStart tag :: j ++ evs' ++ [EvEnd tag].
Proof.
  intro Tr. inversion Tr as [? ? ? ? xs J|? ? ? ? ? j evs' NE J K]; subst.
  - exists (map EvData xs), []. split; [apply junk_map|]. split; [constructor|reflexivity].
  - eauto 6.
Qed.
Lemma complete :
  (forall e v, denotes T e v -> plistElem e -> forall evs, trace e evs -> forall t sl, slotFor t = Ok sl -> exists d, foldM st t evs = Ok (setData (place sl v t) d)) /\
  (forall ch vs, itemsAre T ch vs -> Forall plistElem ch -> forall evs, ktrace ch evs -> forall sl acc stack root d,
     exists d', foldM st (mkTarget (FList sl acc :: stack) None root d) evs = Ok (mkTarget (FList sl (acc ++ vs) :: stack) None root d')) /\
  (forall ch kvs, entriesAre T ch kvs -> Forall plistElem ch -> forall evs, ktrace ch evs -> forall sl acc stack root d,
     exists d', foldM st (mkTarget (FDict sl (asItems acc) :: stack) None root d) evs = Ok (mkTarget (FDict sl (asItems (fill kvs acc)) :: stack) None root d')).
Proof.
  apply denotes_mut.
  - intros tag at' text tail v H P evs Tr t sl S. assert (L : In tag leafTags) by (inversion H; subst; unfold leafTags; cbn; tauto). destruct (leafTags_not _ L) as (N1 & N2 & _).
    inversion Tr as [? ? ? ? xs J|]; subst; [|congruence]. rewrite <- textOf_asStr in J. rewrite (leaf_run T _ _ _ _ N1 N2 J). apply (leaf_acts _ _ _ t L J); [|exact S]. apply leafFun_holds; assumption.
  - intros at' text ch tail vs _ IH P evs Tr t sl S. assert (F : Forall plistElem ch) by (inversion P; subst; [constructor|assumption]).
    destruct (node_trace _ _ _ _ _ _ Tr) as (j & evs' & J & K & ->). cbn [foldM step]. change (startTag (u "array") t) with (do sl <- slotFor t; Ok (mkTarget (FList sl [] :: tstack t) None (troot t) [])). rewrite S. cbn [bind]. rewrite foldM_app.
    destruct (junk_run T j (mkTarget (FList sl [] :: tstack t) None (troot t) []) J) as (d1 & ->). cbn [bind]. unfold setData at 1. cbn [tstack tkey troot]. rewrite foldM_app.
    destruct (IH F _ K sl [] (tstack t) (troot t) d1) as (d2 & ->). cbn [bind foldM step app]. change (endTag T (u "array") ?x) with (popFrame x). destruct (pop_list sl vs t d2 S) as (d3 & ->). cbn [bind]. eauto.
  - intros at' text ch tail kvs _ IH P evs Tr t sl S. assert (F : Forall plistElem ch) by (inversion P; subst; [constructor|assumption]).
    destruct (node_trace _ _ _ _ _ _ Tr) as (j & evs' & J & K & ->). cbn [foldM step]. change (startTag (u "dict") t) with (do sl <- slotFor t; Ok (mkTarget (FDict sl [] :: tstack t) None (troot t) [])). rewrite S. cbn [bind]. rewrite foldM_app.
    destruct (junk_run T j (mkTarget (FDict sl [] :: tstack t) None (troot t) []) J) as (d1 & ->). cbn [bind]. unfold setData at 1. cbn [tstack tkey troot]. rewrite foldM_app.
    destruct (IH F _ K sl [] (tstack t) (troot t) d1) as (d2 & E2). change (asItems []) with (@nil (pyval * pyval)) in E2. rewrite E2. cbn [bind foldM step app]. change (endTag T (u "dict") ?x) with (if truthyKey (tkey x) then Err ValueError else popFrame x). cbn [tkey truthyKey].
    destruct (pop_dict sl (asItems (fill kvs [])) t d2 S) as (d3 & ->). cbn [bind]. exists d3. reflexivity.
  - intros _ evs K sl acc stack root d. inversion K; subst. exists d. rewrite app_nil_r. reflexivity.
  - intros e v l vs _ IHe _ IHl F evs K sl acc stack root d. inversion F as [|? ? F1 F2]; subst. inversion K as [|? ? e1 j1 r1 T1 J1 K1]; subst. rewrite foldM_app.
    destruct (IHe F1 _ T1 (mkTarget (FList sl acc :: stack) None root d) SItem eq_refl) as (d1 & ->). cbn [bind place tstack troot tdata]. rewrite foldM_app.
    match goal with |- context [setData ?a d1] => destruct (junk_run T j1 (setData a d1) J1) as (d2 & ->) end. cbn [bind]. unfold setData. cbn [tstack tkey troot].
    destruct (IHl F2 _ K1 sl (acc ++ [v]) stack root d2) as (d3 & E3). exists d3. rewrite <- app_assoc in E3. exact E3.
  - intros _ evs K sl acc stack root d. inversion K; subst. exists d. reflexivity.
  - intros at' text tail e v l kvs _ IHe _ IHl F evs K sl acc stack root d. inversion F as [|? ? F1 F2']; subst. inversion F2' as [|? ? F2 F3]; subst.
    inversion K as [|? ? e1 j1 r1 T1 J1 K1]; subst. inversion K1 as [|? ? e2 j2 r2 T2 J2 K2]; subst. rewrite foldM_app.
    assert (Tk : trace (keyElem (textOf text)) e1) by (inversion T1 as [? ? ? ? xs J|]; subst; [|congruence]; apply tr_leaf; cbn [asStr]; rewrite textOf_asStr; exact J).
    destruct (key_run T _ _ _ sl (asItems acc) stack root d Tk eq_refl) as (d1 & ->). cbn [bind]. rewrite foldM_app.
    destruct (junk_run T j1 (mkTarget (FDict sl (asItems acc) :: stack) (Some (textOf text)) root d1) J1) as (d2 & ->). cbn [bind]. rewrite foldM_app. unfold setData at 1. cbn [tstack tkey troot].
    destruct (IHe F2 _ T2 (mkTarget (FDict sl (asItems acc) :: stack) (Some (textOf text)) root d2) (SKey (textOf text)) eq_refl) as (d3 & ->). cbn [bind place tstack troot tdata]. rewrite foldM_app.
    match goal with |- context [setData ?a d3] => destruct (junk_run T j2 (setData a d3) J2) as (d4 & ->) end. cbn [bind]. unfold setData. cbn [tstack tkey troot].
    unfold asItems at 1. rewrite dset_set. destruct (IHl F3 _ K2 sl (set (textOf text) v acc) stack root d4) as (d5 & E5). exists d5. exact E5.
Qed.

(** ** what is read is well formed *)
Definition isKey (e : elem) : bool := let 'Elem tag _ _ _ _ := e in eqb tag (u "key").
Lemma place_slot_key sl v t : slotFor t = Ok sl -> tkey (place sl v t) = None.
Proof. intro S. unfold slotFor, place in *. destruct (tkey t), (tstack t) as [|[|] ?]; try discriminate S; injection S as <-; reflexivity. Qed.
(** one element *)
Definition good (e : elem) : Prop := plistElem e -> isKey e = false -> forall evs, trace e evs -> forall t t', foldM st t evs = Ok t' ->
  exists sl v d, slotFor t = Ok sl /\ denotes T e v /\ t' = setData (place sl v t) d.
Lemma key_sound e evs t t' : plistElem e -> isKey e = true -> trace e evs -> foldM st t evs = Ok t' ->
  exists at' text tail sl acc stack d, e = Elem (u "key") at' text [] tail /\ textOf text <> [] /\ truthyKey (tkey t) = false /\
    tstack t = FDict sl acc :: stack /\ t' = mkTarget (tstack t) (Some (textOf text)) (troot t) d.
Proof.
  intros P K Tr H. inversion P as [tag at' text tail I|at' text tail N|tag at' text ch tail I F]; subst.
  - cbn [isKey] in K. destruct (leafTags_not _ I) as (_ & _ & N). congruence.
  - inversion Tr as [? ? ? ? xs J|]; subst; [|congruence]. rewrite (leaf_run T (u "key") xs t _ eq_refl eq_refl J) in H.
    change (endTag T (u "key") (setData t xs)) with (if truthyKey (tkey t) then Err ValueError else match tstack t with [] => Err IndexError | FList _ _ :: _ => Err ValueError
      | FDict _ _ :: _ => do (s, t') <- getData (setData t xs); Ok (mkTarget (tstack t') (Some s) (troot t') (tdata t')) end) in H.
    destruct (truthyKey (tkey t)) eqn:Tk; [discriminate H|]. destruct (tstack t) as [|[sl acc|] stack] eqn:Et; try discriminate H.
    unfold getData, setData in H. cbn [tdata tstack tkey troot] in H. rewrite J in H. cbn [bind tstack tkey troot tdata] in H. injection H as <-. exists at', text, tail, sl, acc, stack, []. rewrite Et, textOf_asStr in *. repeat split. exact N.
  - cbn [isKey] in K. destruct I as [->| ->]; discriminate K.
Qed.
Lemma items_sound : forall ch, Forall good ch -> Forall plistElem ch -> forall evs, ktrace ch evs -> forall sl acc stack root d t',
  foldM st (mkTarget (FList sl acc :: stack) None root d) evs = Ok t' ->
  exists vs d', itemsAre T ch vs /\ t' = mkTarget (FList sl (acc ++ vs) :: stack) None root d'.
Proof.
  induction ch as [|e ch IH]; intros G F evs K sl acc stack root d t' H; inversion K as [|? ? e1 j1 r1 T1 J1 K1]; subst.
  - injection H as <-. exists [], d. rewrite app_nil_r. split; [constructor|reflexivity].
  - inversion G as [|? ? G1 G2]; subst. inversion F as [|? ? F1 F2]; subst. rewrite foldM_app in H. apply bind_Ok in H as (t1 & H1 & H).
    destruct (isKey e) eqn:Ke.
    { destruct (key_sound _ _ _ _ F1 Ke T1 H1) as (? & ? & ? & ? & ? & ? & ? & _ & _ & _ & Q & _). discriminate Q. }
    destruct (G1 F1 Ke _ T1 _ _ H1) as (sl' & v & d1 & S & D & ->). injection S as <-. cbn [place tstack troot tdata] in H. rewrite foldM_app in H.
    match type of H with context [setData ?a d1] => destruct (junk_run T j1 (setData a d1) J1) as (d2 & E2) end. rewrite E2 in H. cbn [bind] in H. unfold setData in H. cbn [tstack tkey troot] in H.
    destruct (IH G2 F2 _ K1 _ _ _ _ _ _ H) as (vs & d3 & I & ->). exists (v :: vs), d3. split; [constructor; assumption|]. rewrite <- app_assoc. reflexivity.
Qed.
Lemma entries_sound : forall ch, Forall good ch -> Forall plistElem ch -> forall evs, ktrace ch evs -> forall sl acc stack root d t',
  (foldM st (mkTarget (FDict sl (asItems acc) :: stack) None root d) evs = Ok t' -> truthyKey (tkey t') = false ->
    exists kvs d', entriesAre T ch kvs /\ t' = mkTarget (FDict sl (asItems (fill kvs acc)) :: stack) None root d') /\
  (forall k, k <> [] -> foldM st (mkTarget (FDict sl (asItems acc) :: stack) (Some k) root d) evs = Ok t' -> truthyKey (tkey t') = false ->
    exists e r v kvs d', ch = e :: r /\ denotes T e v /\ entriesAre T r kvs /\ t' = mkTarget (FDict sl (asItems (fill kvs (set k v acc))) :: stack) None root d').
Proof.
  induction ch as [|e ch IH]; intros G F evs K sl acc stack root d t'; inversion K as [|? ? e1 j1 r1 T1 J1 K1]; subst.
  - split.
    + intros H _. injection H as <-. exists [], d. split; [constructor|reflexivity].
    + intros k N H Tk. injection H as <-. cbn [tkey truthyKey] in Tk. destruct k; [congruence|discriminate Tk].
  - inversion G as [|? ? G1 G2]; subst. inversion F as [|? ? F1 F2]; subst. split.
    + intros H Tk. rewrite foldM_app in H. apply bind_Ok in H as (t1 & H1 & H). destruct (isKey e) eqn:Ke.
      * destruct (key_sound _ _ _ _ F1 Ke T1 H1) as (at' & text & tail & sl' & acc' & stack' & d1 & -> & Nk & _ & Q & ->). injection Q as <- <- <-. cbn [tstack troot] in H. rewrite foldM_app in H.
        match type of H with context [foldM st ?a j1] => destruct (junk_run T j1 a J1) as (d2 & E2) end. rewrite E2 in H. cbn [bind] in H. unfold setData in H. cbn [tstack tkey troot] in H.
        destruct (IH G2 F2 _ K1 sl acc stack root d2 t') as [_ IH2]. destruct (IH2 _ Nk H Tk) as (e & r & v & kvs & d3 & -> & D & E & ->).
        exists ((textOf text, v) :: kvs), d3. split; [constructor; assumption|reflexivity].
      * destruct (G1 F1 Ke _ T1 _ _ H1) as (sl' & v & d1 & S & _). discriminate S.
    + intros k N H Tk. rewrite foldM_app in H. apply bind_Ok in H as (t1 & H1 & H). destruct (isKey e) eqn:Ke.
      * destruct (key_sound _ _ _ _ F1 Ke T1 H1) as (? & ? & ? & ? & ? & ? & ? & _ & _ & Q & _). cbn [tkey truthyKey] in Q. destruct k; [congruence|discriminate Q].
      * destruct (G1 F1 Ke _ T1 _ _ H1) as (sl' & v & d1 & S & D & ->). injection S as <-. cbn [place tstack troot tdata] in H. unfold asItems at 1 in H. rewrite dset_set in H. fold (asItems (set k v acc)) in H. rewrite foldM_app in H.
        match type of H with context [foldM st ?a j1] => destruct (junk_run T j1 a J1) as (d2 & E2) end. rewrite E2 in H. cbn [bind] in H. unfold setData in H. cbn [tstack tkey troot] in H.
        destruct (IH G2 F2 _ K1 sl (set k v acc) stack root d2 t') as [IH1 _]. destruct (IH1 H Tk) as (kvs & d3 & E & ->). exists e, ch, v, kvs, d3. auto.
Qed.
Lemma all_good e : good e.
Proof.
  induction e as [tag at' text ch tail IH] using elem_ind'. intros P Ke evs Tr t t' H. inversion P as [? ? ? ? I|? ? ? N|? ? ? ? ? I F]; subst.
  - destruct (leafTags_not _ I) as (N1 & N2 & _). inversion Tr as [? ? ? ? xs J|]; subst; [|congruence]. rewrite <- textOf_asStr in J. rewrite (leaf_run T _ _ _ _ N1 N2 J) in H.
    apply (leaf_acts _ _ _ t I J) in H as (v & sl & d & L & S & ->). exists sl, v, d. split; [exact S|]. split; [|reflexivity]. constructor. apply leafFun_holds; assumption.
  - discriminate Ke.
  - destruct (node_trace _ _ _ _ _ _ Tr) as (j & evs' & J & K & ->). cbn [foldM step] in H. destruct I as [->| ->].
    + change (startTag (u "dict") t) with (do sl <- slotFor t; Ok (mkTarget (FDict sl [] :: tstack t) None (troot t) [])) in H. destruct (slotFor t) as [sl|] eqn:S; [|discriminate H]. cbn [bind] in H. rewrite foldM_app in H.
      destruct (junk_run T j (mkTarget (FDict sl [] :: tstack t) None (troot t) []) J) as (d1 & E1). rewrite E1 in H. cbn [bind] in H. unfold setData at 1 in H. cbn [tstack tkey troot] in H. rewrite foldM_app in H.
      apply bind_Ok in H as (t1 & H1 & H). cbn [foldM step] in H. change (endTag T (u "dict") t1) with (if truthyKey (tkey t1) then Err ValueError else popFrame t1) in H. destruct (truthyKey (tkey t1)) eqn:Tk; [discriminate H|].
      destruct (entries_sound ch IH F evs' K sl [] (tstack t) (troot t) d1 t1) as [ES _]. destruct (ES H1 Tk) as (kvs & d2 & E & ->).
      destruct (pop_dict sl (asItems (fill kvs [])) t d2 S) as (d3 & E3). rewrite E3 in H. cbn [bind] in H. injection H as <-. exists sl, (dictOf kvs), d3. split; [reflexivity|]. split; [constructor; exact E|reflexivity].
    + change (startTag (u "array") t) with (do sl <- slotFor t; Ok (mkTarget (FList sl [] :: tstack t) None (troot t) [])) in H. destruct (slotFor t) as [sl|] eqn:S; [|discriminate H]. cbn [bind] in H. rewrite foldM_app in H.
      destruct (junk_run T j (mkTarget (FList sl [] :: tstack t) None (troot t) []) J) as (d1 & E1). rewrite E1 in H. cbn [bind] in H. unfold setData at 1 in H. cbn [tstack tkey troot] in H. rewrite foldM_app in H.
      apply bind_Ok in H as (t1 & H1 & H). cbn [foldM step] in H. change (endTag T (u "array") t1) with (popFrame t1) in H.
      destruct (items_sound ch IH F evs' K sl [] (tstack t) (troot t) d1 t1 H1) as (vs & d2 & E & ->). cbn [app] in H.
      destruct (pop_list sl vs t d2 S) as (d3 & E3). rewrite E3 in H. cbn [bind] in H. injection H as <-. exists sl, (PList vs), d3. split; [reflexivity|]. split; [constructor; exact E|reflexivity].
Qed.
Lemma denotes_notKey e v : denotes T e v -> isKey e = false.
Proof. intro D. inversion D as [? ? ? ? ? H| |]; subst; [inversion H; subst; reflexivity|reflexivity|reflexivity]. Qed.
(** whatever the events, when the tree stands alone *)
Lemma run_spec e evs v : plistElem e -> trace e evs -> runTarget T evs = Ok v <-> denotes T e v.
Proof.
  intros P Tr. split.
  - intro H. unfold runTarget in H. apply bind_Ok in H as (t & H & E). injection E as <-. destruct (isKey e) eqn:Ke.
    + destruct (key_sound _ _ _ _ P Ke Tr H) as (? & ? & ? & ? & ? & ? & ? & _ & _ & _ & Q & _). discriminate Q.
    + destruct (all_good e P Ke _ Tr _ _ H) as (sl & w & d & S & D & ->). injection S as <-. exact D.
  - intro D. unfold runTarget. destruct (proj1 complete e v D P evs Tr newTarget SRoot eq_refl) as (d & ->). reflexivity.
Qed.
End Shape.
(** the trees an XML parser makes have no bytes as texts *)
Inductive parsedTree : elem -> Prop :=
| parsed_intro tag at' text ch tail : (forall b, text <> Some (XB b)) -> Forall parsedTree ch -> parsedTree (Elem tag at' text ch tail).
Lemma sax_trace e : parsedTree e -> trace e (saxEvents e).
Proof.
  induction e as [tag at' text ch tail IH] using elem_ind'. intro S. inversion S as [? ? ? ? ? X F]; subst. cbn [saxEvents]. destruct ch as [|c ch].
  - cbn [app]. assert (E : exists xs, dataEvents text = map EvData xs /\ joinTexts xs = Ok (asStr text)).
    { destruct text as [[s|b]|]; [exists [XS s]; cbn; rewrite app_nil_r; auto|destruct (X b eq_refl)|exists []; auto]. }
    destruct E as (xs & -> & J). apply tr_leaf. exact J.
  - apply tr_node; [discriminate|destruct text; repeat constructor; eauto|].
    assert (G : forall l, Forall (fun e => parsedTree e -> trace e (saxEvents e)) l -> Forall parsedTree l ->
      ktrace l ((fix go l := match l with [] => [] | x :: r => saxEvents x ++ dataEvents (option_map XS (etail x)) ++ go r end) l)).
    { induction l as [|x l IHl]; intros A B; [constructor|]. inversion A; inversion B; subst. constructor; [auto| |auto]. destruct (etail x); repeat constructor; eauto. }
    apply (G (c :: ch)); assumption.
Qed.

(** ** C87 *)
(** Partial: for trees made of the elements of property lists, whose keys are not empty. *)
Theorem C87_fromtree_partial : forall T e v, plistElem e -> strTexts e -> (fromtree T e = Ok v <-> denotes T e v).
Proof. intros T e v P S. apply run_spec; [exact P|apply walk_trace; exact S]. Qed.
Print Assumptions C87_fromtree_partial.
(** a document: the value is the child of the plist element *)
Theorem C87_document_partial : forall T at' text e tail v, plistElem e -> parsedTree (Elem (u "plist") at' text [e] tail) ->
  (loadTree T (Elem (u "plist") at' text [e] tail) = Ok v <-> denotes T e v).
Proof.
  intros T at' text e tail v P S. inversion S as [? ? ? ? ? X F]; subst. inversion F as [|? ? Pe _]; subst.
  unfold loadTree, runTarget. cbn [saxEvents]. cbn [foldM step]. change (startTag (u "plist") newTarget) with (Ok newTarget). cbn [bind].
  assert (J1 : junk (dataEvents text)) by (destruct text; repeat constructor; eauto).
  assert (J2 : junk (dataEvents (option_map XS (etail e)))) by (destruct (etail e); repeat constructor; eauto).
  rewrite foldM_app. destruct (junk_run T _ newTarget J1) as (d1 & ->). cbn [bind app]. rewrite app_nil_r. rewrite <- app_assoc, foldM_app. pose proof (sax_trace e Pe) as Tr.
  assert (E : forall t, (do t' <- foldM (step T) t (dataEvents (option_map XS (etail e)) ++ [EvEnd (u "plist")]); Ok (troot t')) = Ok (troot t)).
  { intro t. rewrite foldM_app. destruct (junk_run T _ t J2) as (d2 & ->). reflexivity. }
  destruct (foldM (step T) (setData newTarget d1) (saxEvents e)) as [t|x] eqn:R.
  - cbn [bind]. rewrite E. split.
    + intro H. injection H as <-. destruct (isKey e) eqn:Ke.
      * destruct (key_sound T _ _ _ _ P Ke Tr R) as (? & ? & ? & ? & ? & ? & ? & _ & _ & _ & Q & _). discriminate Q.
      * destruct (all_good T e P Ke _ Tr _ _ R) as (sl & w & d & Sl & D & ->). injection Sl as <-. exact D.
    + intro D. destruct (proj1 (complete T) e v D P _ Tr (setData newTarget d1) SRoot eq_refl) as (d & E2). rewrite E2 in R. injection R as <-. reflexivity.
  - cbn [bind]. split; [discriminate|]. intro D. destruct (proj1 (complete T) e v D P _ Tr (setData newTarget d1) SRoot eq_refl) as (d & E2). rewrite E2 in R. discriminate R.
Qed.
Print Assumptions C87_document_partial.
(** an empty key is taken for no key: the value missing here is not reported *)
Theorem C87_empty_key_refuted : forall T, fromtree T (node0 (u "dict") [leaf (u "key") None]) = Ok (PDict []) /\
  ~ exists v, denotes T (node0 (u "dict") [leaf (u "key") None]) v.
Proof.
  intro T. split; [reflexivity|]. intros (v & D). inversion D as [|? ? ? ? ? H|? ? ? ? ? H]; subst; inversion H.
Qed.
Print Assumptions C87_empty_key_refuted.
Example C87_case :
  let key s := leaf (u "key") (Some (XS (u s))) in let int s := leaf (u "integer") (Some (XS (u s))) in
  fromtree asciiText (node0 (u "dict") [key "a"; int "1"; key "b"; node0 (u "array") [leaf (u "true") None; int "-2"]; key "a"; int "3"])
    = Ok (PDict [(PStr (u "a"), PInt 3); (PStr (u "b"), PList [PBool true; PInt (-2)])]) /\
  fromtree asciiText (node0 (u "dict") [key "a"]) = Err ValueError /\
  fromtree asciiText (node0 (u "dict") [key "a"; key "b"; int "1"]) = Err ValueError /\
  fromtree asciiText (node0 (u "dict") [int "1"; key "a"]) = Err ValueError /\
  fromtree asciiText (node0 (u "array") [key "a"; int "1"]) = Err ValueError /\
  fromtree asciiText (int "x") = Err ValueError /\ fromtree asciiText (key "a") = Err IndexError.
Proof. vm_compute. repeat split. Qed.
