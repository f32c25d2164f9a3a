(** The validators of fontinfo.plist accept what plistlib makes of a value they
    accept: dictionaries in another order, lists for tuples (C37 over files). *)
From Coq Require Import String NArith ZArith Bool Lia List Permutation.
From Coq.Floats Require Import SpecFloat.
From Verif Require Import Base PyVal PyText FloatRepr Xml FS Ufo UfoProofs PropUfoFiles Plist PlistProofs Validators ValidatorsProofs FontInfoTables FontInfo FontInfoProofs.
Import ListNotations.
Local Open Scope string_scope.
Local Open Scope list_scope.

Lemma psame_atom v w : psame v w -> container v = false -> w = v.
Proof. intros S C. inversion S; subst; try discriminate C. reflexivity. Qed.
Lemma plistable_dict d : plistable (PDict d) -> NoDup (map fst d) /\ forall k x, In (k, x) d -> (exists s, k = PStr s) /\ plistable x.
Proof.
  intro P. inversion P as [| | | | | | | |m N F E]; subst. split.
  - rewrite map_map. clear -N. replace (map (fun x : str * pyval => fst (let '(k, x0) := x in (PStr k, x0))) m) with (map PStr (map fst m)) by (rewrite map_map; apply map_ext; intros []; reflexivity).
    induction (map fst m) as [|a l IH]; [constructor|]. inversion N; subst. cbn [map]. constructor; [|apply IH; assumption]. intro I. apply in_map_iff in I as (x & E & I). inversion E; subst. contradiction.
  - intros k x I. apply in_map_iff in I as ([s y] & E & I). inversion E; subst. split; [eauto|]. rewrite Forall_forall in F. exact (F _ I).
Qed.
(** looking up keys *)
Lemma same_get v w k : plistable v -> psame v w -> psame (vget k v) (vget k w) /\ vhas k w = vhas k v /\ (vget k v = PNone \/ plistable (vget k v)).
Proof.
  intros P S. assert (K : container v = false -> psame (vget k v) (vget k w) /\ vhas k w = vhas k v /\ (vget k v = PNone \/ plistable (vget k v))).
  { intro C. rewrite (psame_atom _ _ S C). unfold vget, vhas. destruct v; try discriminate C; cbn [items dget]; (split; [constructor; reflexivity|auto]). }
  destruct v as [| | | | | | |l|l|d|]; try (apply K; reflexivity).
  - inversion S; subst; [discriminate|]. unfold vget, vhas. cbn. split; [constructor; reflexivity|auto].
  - inversion S; subst; [discriminate|]. unfold vget, vhas. cbn. split; [constructor; reflexivity|auto].
  - clear K. destruct (plistable_dict _ P) as [N A]. destruct (psame_dict _ _ S N) as (e & -> & _ & G1 & G2). unfold vget, vhas. cbn [items].
    destruct (dget k d) as [x|] eqn:D.
    + destruct (G1 _ _ D) as (y & E & Sy). rewrite E. split; [exact Sy|]. split; [reflexivity|]. right. apply dget_In in D. apply (A _ _ D).
    + destruct (dget k e) as [y|] eqn:E; [destruct (G2 _ _ E) as (x & X & _); congruence|]. split; [constructor; reflexivity|auto].
Qed.
(** lists and tuples *)
Lemma same_elems v w : plistable v -> psame v w -> Forall2 psame (elems v) (elems w) /\ Forall plistable (elems v) /\ (is_seq v = true -> is_seq w = true) /\ (is_list v = true -> is_list w = true).
Proof.
  intros P S. inversion S as [? C| | |]; subst.
  - destruct w; try discriminate C; cbn; repeat split; try constructor; try discriminate.
  - inversion P; subst. cbn. auto.
  - inversion P; subst. cbn. repeat split; auto.
  - cbn. repeat split; try constructor; discriminate.
Qed.
Lemma same_is v w t : psame v w -> isinstance v t = true -> isinstance w t = true.
Proof. intros S I. inversion S; subst; [exact I|..]; destruct t; try discriminate I; reflexivity. Qed.
Lemma same_none v w : psame v w -> is_none w = is_none v.
Proof. intro S. inversion S; reflexivity. Qed.
(** numbers, texts and booleans *)
Lemma same_scalar v w : psame v w -> container v = false \/ container w = false -> w = v.
Proof. intros S C. inversion S; subst; try reflexivity; destruct C; discriminate. Qed.
Lemma Forall2_forallb (f g : pyval -> bool) l m : Forall2 psame l m -> Forall plistable l -> (forall v w, plistable v -> psame v w -> f v = true -> g w = true) -> forallb f l = true -> forallb g m = true.
Proof.
  intros F P H. induction F as [|x y l m S F IH]; intro A; [reflexivity|]. inversion P; subst. cbn [forallb] in *. apply andb_true_iff in A as [A1 A2]. rewrite (H x y); [cbn [andb]; apply IH|..]; assumption.
Qed.

Definition keeps (f : pyval -> bool) : Prop := forall v w, plistable v -> psame v w -> f v = true -> f w = true.
Definition keepsR (f : pyval -> res bool) : Prop := forall v w, plistable v -> psame v w -> f v = Ok true -> f w = Ok true.
Lemma keeps_R f : keeps f -> keepsR (fun v => Ok (f v)).
Proof. intros K v w P S H. injection H as H. rewrite (K v w P S H). reflexivity. Qed.
(** validators that only accept atoms *)
Lemma keeps_atoms (f : pyval -> bool) : (forall v, f v = true -> container v = false) -> keeps f.
Proof. intros A v w _ S H. rewrite (psame_atom _ _ S (A v H)). exact H. Qed.
Lemma keeps_type t : keeps (fun v => genericTypeValidator v t).
Proof. intros v w _ S H. unfold genericTypeValidator in *. eapply same_is; eassumption. Qed.
Lemma num_atom v : is_number v = true -> container v = false.
Proof. destruct v; try discriminate; reflexivity. Qed.
Lemma int_atom v : is_int v = true -> container v = false.
Proof. destruct v; try discriminate; reflexivity. Qed.
Ltac atoms := apply keeps_atoms; intros v H; unfold genericNonNegativeIntValidator, genericNonNegativeNumberValidator, fontInfoOpenTypeOS2WeightClassValidator, fontInfoOpenTypeOS2WidthClassValidator in H;
  destruct v; try discriminate H; reflexivity.
Lemma keeps_nonneg : keeps genericNonNegativeIntValidator. Proof. atoms. Qed.
Lemma keeps_nonnegnum : keeps genericNonNegativeNumberValidator. Proof. atoms. Qed.
Lemma keeps_weight : keeps fontInfoOpenTypeOS2WeightClassValidator. Proof. atoms. Qed.
Lemma keeps_width : keeps fontInfoOpenTypeOS2WidthClassValidator. Proof. atoms. Qed.
Lemma isin_atom v l : isin v l = true -> Forall (fun x => container x = false) l -> container v = false.
Proof.
  intros H F. unfold isin in H. apply existsb_exists in H as (x & I & E). rewrite Forall_forall in F. specialize (F x I).
  destruct v; try reflexivity; destruct x; try discriminate F; try discriminate E.
Qed.
Lemma strs_atoms l : Forall (fun x => container x = false) (strs l).
Proof. apply Forall_forall. intros x I. apply in_map_iff in I as (s & <- & _). reflexivity. Qed.
Lemma keeps_style : keeps fontInfoStyleMapStyleNameValidator.
Proof. apply keeps_atoms. intros v H. eapply isin_atom; [exact H|apply strs_atoms]. Qed.
Lemma keeps_charset : keeps fontInfoPostscriptWindowsCharacterSetValidator.
Proof. apply keeps_atoms. intros v H. eapply isin_atom; [exact H|]. apply Forall_forall. intros x I. apply in_map_iff in I as (n & <- & _). reflexivity. Qed.
Lemma keeps_date T : keeps (fontInfoOpenTypeHeadCreatedValidator T).
Proof. apply keeps_atoms. intros v H. destruct v; try discriminate H. reflexivity. Qed.
(** sequences of numbers *)
Lemma same_numbers l m (f : pyval -> bool) : Forall2 psame l m -> (forall x, f x = true -> container x = false) -> forallb f l = true -> m = l.
Proof.
  intros F A. induction F as [|x y l m S F IH]; intro H; [reflexivity|]. cbn [forallb] in H. apply andb_true_iff in H as [H1 H2]. rewrite IH by exact H2. rewrite (psame_atom _ _ S); [reflexivity|apply A; exact H1].
Qed.
Lemma keeps_intlist opts : keepsR (fun v => genericIntListValidator v opts).
Proof.
  intros v w P S H. destruct (same_elems _ _ P S) as (F & _ & Sq & _). unfold genericIntListValidator in *. destruct (is_seq v); [|discriminate H]. rewrite Sq by reflexivity. cbn [negb] in *.
  destruct (forallb hashable (elems v)) eqn:Hh; [|discriminate H]. destruct (forallb _ (elems v)) eqn:Ho in H; [|discriminate H]. cbn [negb] in H. injection H as H.
  rewrite (same_numbers _ _ _ F int_atom H), Hh, Ho. cbn [negb]. rewrite H. reflexivity.
Qed.
Lemma keeps_numberList n e : keeps (numberList n e).
Proof.
  intros v w P S H. destruct (same_elems _ _ P S) as (F & _ & Sq & _). unfold numberList in *. destruct (is_seq v); [|discriminate H]. rewrite Sq by reflexivity. cbn [negb] in *.
  destruct (forallb is_number (elems v)) eqn:Hn.
  - rewrite (same_numbers _ _ _ F num_atom Hn). rewrite Hn. exact H.
  - destruct (Nat.ltb n (length (elems v))), (e && Nat.odd (length (elems v))); discriminate H.
Qed.
Lemma keeps_panose2 : keeps fontInfoVersion2OpenTypeOS2PanoseValidator.
Proof.
  intros v w P S H. destruct (same_elems _ _ P S) as (F & _ & Sq & _). unfold fontInfoVersion2OpenTypeOS2PanoseValidator in *. destruct (is_seq v); [|discriminate H]. rewrite Sq by reflexivity. cbn [negb] in *.
  destruct (Nat.eqb (length (elems v)) 10) eqn:L; [|discriminate H]. cbn [negb] in H. rewrite (same_numbers _ _ _ F int_atom H), L. exact H.
Qed.
Lemma keeps_panose : keeps fontInfoVersion3OpenTypeOS2PanoseValidator.
Proof.
  intros v w P S H. destruct (same_elems _ _ P S) as (F & _ & Sq & _). unfold fontInfoVersion3OpenTypeOS2PanoseValidator in *. destruct (is_seq v); [|discriminate H]. rewrite Sq by reflexivity. cbn [negb] in *.
  destruct (Nat.eqb (length (elems v)) 10) eqn:L; [|discriminate H]. cbn [negb] in H. assert (A : forall x, (if negb (is_int x) then false else if num_lt x (PInt 0) then false else true) = true -> container x = false) by (intros x Hx; apply int_atom; destruct (is_int x); [reflexivity|discriminate Hx]).
  rewrite (same_numbers _ _ _ F A H), L. exact H.
Qed.
Lemma keeps_family : keeps fontInfoOpenTypeOS2FamilyClassValidator.
Proof.
  intros v w P S H. destruct (same_elems _ _ P S) as (F & _ & Sq & _). unfold fontInfoOpenTypeOS2FamilyClassValidator in *. destruct (is_seq v); [|discriminate H]. rewrite Sq by reflexivity. cbn [negb] in *.
  destruct (elems v) as [|c [|s [|]]] eqn:E; try discriminate H. destruct (forallb is_int [c; s]) eqn:Hi; [|discriminate H].
  rewrite (same_numbers _ _ _ F int_atom Hi). rewrite Hi. exact H.
Qed.
(** dictionaries *)
Lemma keeps_dict proto : keeps (fun v => genericDictValidator v proto).
Proof.
  intros v w P S H. unfold genericDictValidator in *. destruct v as [| | | | | | | | |d|]; try discriminate H. destruct (plistable_dict _ P) as [N A].
  destruct (psame_entries _ _ S) as (e & e' & -> & Pm & F). cbn [is_dict negb items] in *.
  destruct (forallb _ proto) eqn:R in H; [|discriminate H]. cbn [negb] in H. destruct (forallb _ d) eqn:U in H; [|discriminate H]. cbn [negb] in H.
  assert (R' : forallb (fun p : str * (pytype * bool) => if snd (snd p) then vhas (fst p) (PDict e) else true) proto = true).
  { rewrite forallb_forall in *. intros p I. specialize (R p I). destruct (snd (snd p)); [|reflexivity]. destruct (same_get _ _ (fst p) P S) as (_ & -> & _). exact R. }
  rewrite R'. cbn [negb].
  assert (E : forall k y, In (k, y) e -> exists x, In (k, x) d /\ psame x y).
  { intros k y I. apply (Permutation_in _ (Permutation_sym Pm)) in I. clear -F I. induction F as [|[k1 v1] [k2 v2] d e' [E S] _ IH]; [contradiction|]. destruct I as [I|I].
    - inversion I; subst. cbn in E, S. subst. exists v1. split; [left; reflexivity|exact S].
    - destruct (IH I) as (x & X & Y). exists x. split; [right; exact X|exact Y]. }
  assert (U' : forallb (fun kv : pyval * pyval => match fst kv with PStr k => has k proto | _ => false end) e = true).
  { rewrite forallb_forall in *. intros [k y] I. destruct (E k y I) as (x & J & _). exact (U (k, x) J). }
  rewrite U'. cbn [negb]. rewrite forallb_forall in *. intros [k y] I. destruct (E k y I) as (x & J & Sx). specialize (H (k, x) J). cbn [fst snd] in *.
  destruct k; try discriminate H. destruct (get s proto) as [[t rq]|]; [|discriminate H]. rewrite (same_none _ _ Sx). destruct (is_none x && negb rq); [reflexivity|]. eapply same_is; eassumption.
Qed.
Lemma isin_same v w l : psame v w -> Forall (fun x => container x = false) l -> isin v l = true -> isin w l = true.
Proof. intros S F H. rewrite (psame_atom _ _ S (isin_atom _ _ H F)). exact H. Qed.
Lemma badDir_same v w : plistable v -> psame v w -> badDir v = false -> badDir w = false.
Proof.
  intros P S H. unfold badDir in *. destruct (same_get _ _ (u "dir") P S) as (G & -> & _). destruct (vhas (u "dir") v); [|reflexivity]. cbn [andb] in *.
  apply negb_false_iff in H. rewrite (isin_same _ _ _ G (strs_atoms _) H). reflexivity.
Qed.
Lemma keeps_dictDir p : keeps (fun v => if negb (genericDictValidator v p) then false else if badDir v then false else true).
Proof.
  intros v w P S H. cbv beta in *. destruct (genericDictValidator v p) eqn:G; [|discriminate H]. rewrite (keeps_dict p v w P S G). cbn [negb] in *.
  destruct (badDir v) eqn:B; [discriminate H|]. rewrite (badDir_same _ _ P S B). reflexivity.
Qed.
Lemma keeps_uniqueID : keeps fontInfoWOFFMetadataUniqueIDValidator. Proof. apply keeps_dict. Qed.
Lemma keeps_vendor : keeps fontInfoWOFFMetadataVendorValidator. Proof. apply keeps_dictDir. Qed.
Lemma keeps_licensee : keeps fontInfoWOFFMetadataLicenseeValidator. Proof. apply keeps_dictDir. Qed.
Lemma keeps_text : keeps fontInfoWOFFMetadataTextValue. Proof. apply keeps_dictDir. Qed.
(** the elements of a list in a dictionary *)
Lemma keeps_inner k f v w : keeps f -> plistable v -> psame v w -> forallb f (elems (vget k v)) = true -> forallb f (elems (vget k w)) = true.
Proof.
  intros K P S H. destruct (same_get _ _ k P S) as (G & _ & [X|X]).
  - rewrite X in G. apply psame_atom in G; [|reflexivity]. rewrite G. reflexivity.
  - destruct (same_elems _ _ X G) as (F & A & _). eapply Forall2_forallb; [exact F|exact A|exact K|exact H].
Qed.
Lemma keeps_credits : keeps fontInfoWOFFMetadataCreditsValidator.
Proof.
  intros v w P S H. unfold fontInfoWOFFMetadataCreditsValidator in *. destruct (genericDictValidator v _) eqn:G; [|discriminate H]. rewrite (keeps_dict _ v w P S G). cbn [negb] in *.
  set (f := fun c => if negb (genericDictValidator c creditProto) then false else if badDir c then false else true) in *.
  destruct (same_get _ _ (u "credits") P S) as (Gv & _ & [X|X]); [rewrite X in H; discriminate H|]. destruct (same_elems _ _ X Gv) as (F & A & _).
  destruct (elems (vget (u "credits") v)) as [|x l] eqn:E; [discriminate H|]. inversion F as [|? y ? m Sx F' E1 E2]; subst. rewrite E2. eapply Forall2_forallb; [exact F|exact A|apply keeps_dictDir|exact H].
Qed.
Lemma keeps_description : keeps fontInfoWOFFMetadataDescriptionValidator.
Proof.
  intros v w P S H. unfold fontInfoWOFFMetadataDescriptionValidator in *. destruct (genericDictValidator v _) eqn:G; [|discriminate H]. rewrite (keeps_dict _ v w P S G). cbn [negb] in *.
  eapply keeps_inner; [apply keeps_text|exact P|exact S|exact H].
Qed.
Lemma keeps_trademark : keeps fontInfoWOFFMetadataTrademarkValidator.
Proof.
  intros v w P S H. unfold fontInfoWOFFMetadataTrademarkValidator in *. destruct (genericDictValidator v _) eqn:G; [|discriminate H]. rewrite (keeps_dict _ v w P S G). cbn [negb] in *.
  eapply keeps_inner; [apply keeps_text|exact P|exact S|exact H].
Qed.
(** iterating *)
Lemma keeps_iter k f v w : keeps f -> plistable v -> psame v w -> (do l <- iter (vget k v); Ok (forallb f l)) = Ok true -> (do l <- iter (vget k w); Ok (forallb f l)) = Ok true.
Proof.
  intros K P S H. destruct (same_get _ _ k P S) as (G & _ & [X|X]); [rewrite X in H; discriminate H|]. assert (I := keeps_inner k f v w K P S).
  destruct (vget k v) as [| | | | | | |l|l| |] eqn:Ev; try discriminate H; inversion G; subst; try discriminate; cbn [iter bind elems] in *; injection H as H; match goal with E : _ = vget k w |- _ => rewrite <- E in * end; cbn [iter bind elems] in *; rewrite I by exact H; reflexivity.
Qed.
Lemma keeps_license : keepsR fontInfoWOFFMetadataLicenseValidator.
Proof.
  intros v w P S H. unfold fontInfoWOFFMetadataLicenseValidator in *. destruct (genericDictValidator v _) eqn:G; [|discriminate H]. rewrite (keeps_dict _ v w P S G). cbn [negb] in *.
  destruct (same_get _ _ (u "text") P S) as (_ & -> & _). destruct (vhas (u "text") v); [|reflexivity]. eapply keeps_iter; [apply keeps_text|exact P|exact S|exact H].
Qed.
Lemma keeps_item : keeps fontInfoWOFFMetadataExtensionItemValidator.
Proof.
  intros v w P S H. unfold fontInfoWOFFMetadataExtensionItemValidator in *. destruct (genericDictValidator v _) eqn:G; [|discriminate H]. rewrite (keeps_dict _ v w P S G). cbn [negb] in *.
  destruct (forallb fontInfoWOFFMetadataExtensionNameValidator (elems (vget (u "names") v))) eqn:N; [|discriminate H]. rewrite (keeps_inner _ fontInfoWOFFMetadataExtensionNameValidator v w keeps_text P S N). cbn [negb] in *.
  eapply keeps_inner; [apply keeps_text|exact P|exact S|exact H].
Qed.
Lemma keeps_extension : keepsR fontInfoWOFFMetadataExtensionValidator.
Proof.
  intros v w P S H. unfold fontInfoWOFFMetadataExtensionValidator in *. destruct (genericDictValidator v _) eqn:G; [|discriminate H]. rewrite (keeps_dict _ v w P S G). cbn [negb] in *.
  destruct (same_get _ _ (u "names") P S) as (_ & -> & _).
  apply bind_Ok in H as (b & N & H). destruct b; [|discriminate H]. cbn [negb] in H. injection H as H.
  assert (N' : (if vhas (u "names") v then do l <- iter (vget (u "names") w); Ok (forallb fontInfoWOFFMetadataExtensionNameValidator l) else Ok true) = Ok true).
  { destruct (vhas (u "names") v); [|reflexivity]. eapply keeps_iter; [apply keeps_text|exact P|exact S|exact N]. }
  rewrite N'. cbn [bind negb]. rewrite (keeps_inner _ _ v w keeps_item P S H). reflexivity.
Qed.
Lemma Forall2_allM f l m : Forall2 psame l m -> Forall plistable l -> keepsR f -> allM f l = Ok true -> allM f m = Ok true.
Proof.
  intros F P K. induction F as [|x y l m S F IH]; intro A; [reflexivity|]. inversion P; subst. cbn [allM] in *. apply bind_Ok in A as (b & B & A). destruct b; [|discriminate A].
  rewrite (K x y); [cbn [bind]; apply IH|..]; assumption.
Qed.
Lemma keeps_extensions : keepsR fontInfoWOFFMetadataExtensionsValidator.
Proof.
  intros v w P S H. unfold fontInfoWOFFMetadataExtensionsValidator in *. destruct (same_elems _ _ P S) as (F & A & _ & L). destruct (is_list v); [|discriminate H]. rewrite L by reflexivity. cbn [negb] in *.
  destruct (elems v) as [|x l]; [discriminate H|]. inversion F as [|? y ? m Sx F' E1 E2]; subst. rewrite E2. eapply Forall2_allM; [exact F|exact A|exact keeps_extension|exact H].
Qed.
Lemma keeps_names : keeps fontInfoOpenTypeNameRecordsValidator.
Proof.
  intros v w P S H. unfold fontInfoOpenTypeNameRecordsValidator in *. destruct (same_elems _ _ P S) as (F & A & _ & L). destruct (is_list v); [|discriminate H]. rewrite L by reflexivity. cbn [negb] in *.
  eapply Forall2_forallb; [exact F|exact A|apply keeps_dict|exact H].
Qed.
(** gasp *)
Lemma keeps_gaspRecord : keepsR gaspRecord.
Proof.
  intros v w P S H. unfold gaspRecord in *. destruct (genericDictValidator v _) eqn:G; [|discriminate H]. rewrite (keeps_dict _ v w P S G). cbn [negb] in *.
  destruct (genericNonNegativeIntValidator (vget (u "rangeMaxPPEM") v)) eqn:N; [|discriminate H]. cbn [negb] in H.
  destruct (same_get _ _ (u "rangeMaxPPEM") P S) as (G1 & _ & [X1|X1]); [rewrite X1 in N; discriminate N|]. rewrite (keeps_nonneg _ _ X1 G1 N). cbn [negb].
  destruct (same_get _ _ (u "rangeGaspBehavior") P S) as (G2 & _ & [X2|X2]); [rewrite X2 in H; discriminate H|]. eapply keeps_intlist; eassumption.
Qed.
Lemma gasp_ppem l m : Forall2 psame l m -> Forall plistable l -> allM gaspRecord l = Ok true ->
  map (fun r => zval (vget (u "rangeMaxPPEM") r)) m = map (fun r => zval (vget (u "rangeMaxPPEM") r)) l.
Proof.
  intros F A B. induction F as [|a b l m S F IH]; [reflexivity|]. inversion A as [|? ? Pa A']; subst. cbn [allM] in B. apply bind_Ok in B as (c & B1 & B). destruct c; [|discriminate B].
  cbn [map]. f_equal; [|apply IH; assumption]. unfold gaspRecord in B1. destruct (genericDictValidator a _); [|discriminate B1]. cbn [negb] in B1. destruct (genericNonNegativeIntValidator (vget (u "rangeMaxPPEM") a)) eqn:N; [|discriminate B1].
  destruct (same_get _ _ (u "rangeMaxPPEM") Pa S) as (G1 & _). rewrite (psame_atom _ _ G1); [reflexivity|]. destruct (vget (u "rangeMaxPPEM") a); try discriminate N; reflexivity.
Qed.
Lemma keeps_gasp : keepsR fontInfoOpenTypeGaspRangeRecordsValidator.
Proof.
  intros v w P S H. unfold fontInfoOpenTypeGaspRangeRecordsValidator in *. destruct (same_elems _ _ P S) as (F & A & _ & L). destruct (is_list v); [|discriminate H]. rewrite L by reflexivity. cbn [negb] in *.
  destruct (elems v) as [|x l] eqn:El; [inversion F; reflexivity|]. inversion F as [|? y ? m Sx F' E1 E2]; subst. rewrite <- E2 in *. apply bind_Ok in H as (b & B & H). destruct b; [|discriminate H].
  rewrite (Forall2_allM _ _ _ F A keeps_gaspRecord B). cbn [bind negb] in *. cbv zeta in *.
  replace (map (fun r => zval (vget (u "rangeMaxPPEM") r)) (y :: m)) with (map (fun r => zval (vget (u "rangeMaxPPEM") r)) (x :: l)); [exact H|].
  symmetry. eapply gasp_ppem; eassumption.
Qed.
(** guidelines *)
Section Guidelines.
Variable T : pytext.
(** entries of a dictionary with a prototype that has no lists are atoms *)
Definition flatProto (p : proto) : bool := forallb (fun e => match fst (snd e) with TList => false | _ => true end) p.
Lemma atoms_get p v k : flatProto p = true -> genericDictValidator v p = true -> plistable v -> container (vget k v) = false.
Proof.
  intros Fp G P. unfold genericDictValidator in G. destruct v as [| | | | | | | | |d|]; try discriminate G. cbn [is_dict negb items] in G. destruct (negb (forallb _ p)); [discriminate G|]. destruct (negb (forallb _ d)); [discriminate G|].
  unfold vget. cbn [items]. destruct (dget k d) as [x|] eqn:D; [|reflexivity]. apply dget_In in D. rewrite forallb_forall in G. specialize (G _ D). cbn [fst snd] in G. destruct (get k p) as [[t rq]|] eqn:Gp; [|discriminate G].
  apply get_In in Gp. unfold flatProto in Fp. rewrite forallb_forall in Fp. specialize (Fp _ Gp). cbn [fst snd] in Fp. destruct (is_none x && negb rq) eqn:N; [destruct x; try discriminate N; reflexivity|]. destruct x; try reflexivity; destruct t; discriminate.
Qed.
Lemma same_flat p v w k : flatProto p = true -> genericDictValidator v p = true -> plistable v -> psame v w -> vget k w = vget k v.
Proof. intros Fp G P S. destruct (same_get _ _ k P S) as (Gk & _). apply (psame_atom _ _ Gk). eapply atoms_get; eassumption. Qed.
Lemma keeps_guideline : keeps (guidelineValidator T).
Proof.
  intros v w P S H. unfold guidelineValidator in *. destruct (genericDictValidator v guidelineProto) eqn:G; [|discriminate H]. rewrite (keeps_dict _ v w P S G). cbn [negb] in *.
  unfold optionalIdentifierOk, optionalColorOk in *. rewrite !(same_flat guidelineProto v w _ eq_refl G P S). exact H.
Qed.
Lemma keeps_unique l m : Forall2 psame l m -> Forall plistable l -> forall ids, fst (uniqueLoop (guidelineValidator T) l ids) = true -> fst (uniqueLoop (guidelineValidator T) m ids) = true.
Proof.
  intros F A. induction F as [|x y l m S F IH]; intros ids H; [reflexivity|]. inversion A as [|? ? Px A']; subst. cbn [uniqueLoop] in *.
  destruct (guidelineValidator T x) eqn:G; [|discriminate H]. rewrite (keeps_guideline _ _ Px S G). cbn [negb] in *.
  assert (Gd : genericDictValidator x guidelineProto = true) by (unfold guidelineValidator in G; destruct (genericDictValidator x guidelineProto); [reflexivity|discriminate G]).
  rewrite (same_flat guidelineProto x y _ eq_refl Gd Px S). destruct (vget (u "identifier") x); try (apply IH; assumption). destruct (mem s ids); [discriminate H|]. apply IH; assumption.
Qed.
Lemma keeps_guidelines : keeps (fun v => fst (guidelinesValidator T v [])).
Proof.
  intros v w P S H. cbv beta in *. unfold guidelinesValidator in *. destruct v; try discriminate H. inversion S; subst; [discriminate|]. inversion P; subst. eapply keeps_unique; eassumption.
Qed.
Ltac keep := cbn [fst snd]; first [apply keeps_R; first [apply keeps_type|exact keeps_nonneg|exact keeps_nonnegnum|exact keeps_weight|exact keeps_width|exact keeps_style|exact keeps_charset|apply keeps_date
    |apply keeps_numberList|exact keeps_panose|exact keeps_panose2|exact keeps_family|exact keeps_guidelines|exact keeps_names|exact keeps_uniqueID|exact keeps_vendor|exact keeps_credits|exact keeps_description|exact keeps_trademark|exact keeps_licensee]
  |apply keeps_intlist|exact keeps_gasp|exact keeps_license|exact keeps_extensions].
Lemma all_keep attr f : get attr (fontInfoAttributesVersion3ValueData T) = Some f -> keepsR f.
Proof.
  apply (table3 T (fun attr f => keepsR f)).
  - unfold version3Update. repeat (apply Forall_cons; [keep|]). apply Forall_nil.
  - unfold fontInfoAttributesVersion2ValueData. repeat (apply Forall_cons; [right; keep|]). apply Forall_nil.
Qed.
End Guidelines.
