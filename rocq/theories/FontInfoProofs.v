(** Proofs about the fontinfo conversions (FontInfo.v). *)
From Coq Require Import String NArith ZArith Bool Lia List.
From Coq.Floats Require Import SpecFloat.
From Verif Require Import Base PyVal PyText Validators ValidatorsProofs FontInfoTables FontInfo.
Import ListNotations.
Local Open Scope string_scope.
Local Open Scope list_scope.

(** ** The version 3 table is the version 2 table updated *)
Lemma get_update {V} (up base : list (str * V)) k : NoDup (keys up) ->
  get k (fold_left (fun d '(k, v) => set k v d) up base) = match get k up with Some v => Some v | None => get k base end.
Proof.
  revert base; induction up as [|[a v] up IH]; intros base ND; [reflexivity|]. cbn [fold_left]. inversion ND; subst.
  rewrite IH by assumption. cbn [get]. destruct (eqb_spec k a) as [->|n].
  - destruct (get a up) as [w|] eqn:G.
    + exfalso. apply H1. apply get_In in G. unfold keys. apply in_map_iff. exists (a, w). auto.
    + apply get_set_same.
  - rewrite get_set_other by congruence. reflexivity.
Qed.
Lemma nodup_dec (l : list str) : nodupb l = true -> NoDup l.
Proof. intro H. destruct (nodupb_spec l); [assumption|discriminate]. Qed.
Section WithText.
Variable T : pytext.
Lemma update_keys : NoDup (keys (version3Update T)).
Proof. apply nodup_dec. vm_compute. reflexivity. Qed.
Lemma table3 (P : str -> (pyval -> res bool) -> Prop) :
  Forall (fun e => P (fst e) (snd e)) (version3Update T) ->
  Forall (fun e => mem (fst e) (keys (version3Update T)) = true \/ P (fst e) (snd e)) (fontInfoAttributesVersion2ValueData T) ->
  forall attr f, get attr (fontInfoAttributesVersion3ValueData T) = Some f -> P attr f.
Proof.
  intros FU FB attr f G. unfold fontInfoAttributesVersion3ValueData in G. rewrite get_update in G by exact update_keys.
  destruct (get attr (version3Update T)) as [g|] eqn:GU.
  - inversion G; subst. apply get_In in GU. exact (proj1 (Forall_forall _ _) FU _ GU).
  - apply get_In in G. destruct (proj1 (Forall_forall _ _) FB _ G) as [M|H]; [|exact H].
    exfalso. cbn [fst] in M. apply mem_In in M. apply get_None in GU. contradiction.
Qed.
Lemma table2 (P : str -> (pyval -> res bool) -> Prop) :
  Forall (fun e => P (fst e) (snd e)) (fontInfoAttributesVersion2ValueData T) ->
  forall attr f, get attr (fontInfoAttributesVersion2ValueData T) = Some f -> P attr f.
Proof. intros F attr f G. apply get_In in G. exact (proj1 (Forall_forall _ _) F _ G). Qed.

(** ** validateData *)
Lemma validateData_spec table data acc r : NoDup (keys data) -> (forall k, In k (keys data) -> ~ In k (keys acc)) ->
  validateData table data acc = Ok r ->
  r = acc ++ data /\ Forall (fun kv => validateForAttribute table (fst kv) (snd kv) = Ok true) data.
Proof.
  revert acc; induction data as [|[a v] data IH]; intros acc ND D H; cbn [validateData] in H.
  - inversion H. rewrite app_nil_r. split; [reflexivity|constructor].
  - destruct (validateForAttribute table a v) as [b|] eqn:E; [|discriminate]. cbn [bind] in H. destruct b; [|discriminate]. cbn [negb] in H.
    inversion ND; subst.
    assert (~ In a (keys acc)) as Fa by (apply D; left; reflexivity).
    rewrite set_fresh in H by exact Fa. apply IH in H as (-> & F).
    + rewrite <- app_assoc. split; [reflexivity|]. constructor; assumption.
    + assumption.
    + intros k Hk. unfold keys. rewrite map_app, in_app_iff. cbn. intros [I|[->|[]]]; [|contradiction].
      revert I. apply D. right. exact Hk.
Qed.
Lemma validateData_ok table data acc : NoDup (keys data) -> (forall k, In k (keys data) -> ~ In k (keys acc)) ->
  Forall (fun kv => validateForAttribute table (fst kv) (snd kv) = Ok true) data ->
  validateData table data acc = Ok (acc ++ data).
Proof.
  revert acc; induction data as [|[a v] data IH]; intros acc ND D F; cbn [validateData].
  - rewrite app_nil_r. reflexivity.
  - inversion F; subst. cbn [fst snd] in H1. rewrite H1. cbn [bind negb]. inversion ND; subst.
    rewrite set_fresh by (apply D; left; reflexivity). rewrite IH; [rewrite <- app_assoc; reflexivity|assumption| |assumption].
    intros k Hk. unfold keys. rewrite map_app, in_app_iff. cbn. intros [I|[->|[]]]; [|contradiction].
    revert I. apply D. right. exact Hk.
Qed.

(** ** 1 <-> 2: attribute names *)
Definition to1 (a : str) : str := lookupAttr a fontInfoAttributesVersion2To1.
Definition to2 (a : str) : str := lookupAttr a fontInfoAttributesVersion1To2.
Definition special1 : list str := map u ["fontStyle"; "widthName"; "msCharSet"].
Definition special2 : list str := map u ["styleMapStyleName"; "openTypeOS2WidthClass"; "postscriptWindowsCharacterSet"].
Lemma names_2_1 : forallb (fun a => negb (mem (to1 a) fontInfoAttributesVersion1) ||
   (eqb (to2 (to1 a)) a && (mem a special2 || negb (mem (to1 a) special1)))) (fontInfoAttributesVersion2 T) = true.
Proof. vm_compute. reflexivity. Qed.
Lemma back21 a : In a (fontInfoAttributesVersion2 T) -> In (to1 a) fontInfoAttributesVersion1 -> to2 (to1 a) = a /\ (~ In a special2 -> ~ In (to1 a) special1).
Proof.
  intros I J. pose proof names_2_1 as F. rewrite forallb_forall in F. specialize (F a I).
  apply orb_true_iff in F as [F|F]; [apply negb_true_iff in F; rewrite (proj2 (mem_In _ _) J) in F; discriminate|].
  apply andb_true_iff in F as (F1 & F2). apply (proj1 (eqb_eq _ _)) in F1. split; [exact F1|].
  intros n C. apply orb_true_iff in F2 as [F2|F2]; [apply mem_In in F2; contradiction|].
  apply negb_true_iff in F2. rewrite (proj2 (mem_In _ _) C) in F2. discriminate.
Qed.
Lemma names_1_2 : forallb (fun a => negb (mem (to2 a) (fontInfoAttributesVersion2 T)) || eqb (to1 (to2 a)) a) fontInfoAttributesVersion1 = true.
Proof. vm_compute. reflexivity. Qed.
Lemma back12 a : In a fontInfoAttributesVersion1 -> In (to2 a) (fontInfoAttributesVersion2 T) -> to1 (to2 a) = a.
Proof.
  intros I J. pose proof names_1_2 as F. rewrite forallb_forall in F. specialize (F a I).
  apply orb_true_iff in F as [F|F]; [apply negb_true_iff in F; rewrite (proj2 (mem_In _ _) J) in F; discriminate|].
  apply (proj1 (eqb_eq _ _)) in F. exact F.
Qed.

(** ** numbers *)
Definition finite (v : pyval) : Prop := match v with PFloat S754_nan | PFloat (S754_infinity _) => False | _ => True end.
Lemma int_of_float_ok f : finite (PFloat f) -> exists z, int_of_float f = Ok z.
Proof. destruct f; cbn; intro H; try contradiction; eauto. Qed.
Lemma floatToInt_ok v : finite v -> exists w, floatToInt v = Ok w /\ (w = v \/ exists z, w = PInt z /\ num_eq w v = true /\ is_float v = true).
Proof.
  intro H. destruct v; try (eexists; split; [reflexivity|left; reflexivity]). cbn [floatToInt].
  destruct (int_of_float_ok f H) as (z & ->). cbn [bind]. destruct (num_eq (PInt z) (PFloat f)) eqn:E; eexists; (split; [reflexivity|]).
  - right. exists z. auto.
  - left. reflexivity.
Qed.
Lemma floatToInt_finite v w : floatToInt v = Ok w -> finite v.
Proof. destruct v; cbn; auto. destruct f; cbn; auto; discriminate. Qed.
Lemma floatToInt_idem v w : floatToInt v = Ok w -> floatToInt w = Ok w.
Proof.
  intro H. pose proof (floatToInt_finite v w H) as F. destruct (floatToInt_ok v F) as (w' & E & C). rewrite E in H. inversion H; subst.
  destruct C as [->|(z & -> & _)]; [exact E|reflexivity].
Qed.
Lemma num_eq_int z w : num_eq (PInt z) (PInt w) = Z.eqb z w.
Proof.
  unfold num_eq, num_cmp. cbn [num ext_compare]. cbv zeta. change (2 ^ (0 - Z.min 0 0))%Z with 1%Z. rewrite !Z.mul_1_r.
  destruct (Z.compare_spec z w), (Z.eqb_spec z w); try reflexivity; lia.
Qed.
(** a float equal to an integer compares with other integers as that integer *)
Lemma float_as_int z f w : num_eq (PInt z) (PFloat f) = true -> num_eq (PFloat f) (PInt w) = Z.eqb z w.
Proof.
  unfold num_eq, num_cmp. cbn [num ext_compare]. destruct f as [s|s| |s m e]; cbn [ext_of_float ext_compare]; cbv zeta.
  - change (2 ^ (0 - Z.min 0 0))%Z with 1%Z. rewrite !Z.mul_1_r. intro H.
    destruct (Z.compare_spec z 0); try discriminate. subst. destruct (Z.compare_spec 0 w), (Z.eqb_spec 0 w); try reflexivity; lia.
  - destruct s; discriminate.
  - discriminate.
  - rewrite (Z.min_comm 0 e). set (a := (2 ^ (0 - Z.min e 0))%Z). set (b := (2 ^ (e - Z.min e 0))%Z). intro H.
    assert (0 < a)%Z by (apply Z.pow_pos_nonneg; lia).
    destruct (Z.compare_spec (z * a) ((if s then Z.neg m else Z.pos m) * b)) as [E|E|E]; try discriminate. rewrite <- E.
    destruct (Z.compare_spec (z * a) (w * a)) as [E'|E'|E'], (Z.eqb_spec z w); try reflexivity; nia.
Qed.

(** ** the three tables *)
Lemma lookup_In v d w : lookup v d = Some w -> exists k, In (k, w) d /\ py_eq v k = true.
Proof.
  induction d as [|[k x] r IH]; [discriminate|]. cbn [lookup]. destruct (py_eq v k) eqn:E.
  - intro H. inversion H; subst. exists k. split; [left; reflexivity|exact E].
  - intro H. apply IH in H as (k' & Hk & E'). exists k'. split; [right; exact Hk|exact E'].
Qed.
(** a value produced by a table comes back through the flipped one *)
Lemma tables_stable : forallb (fun td : list (pyval * pyval) * list (pyval * pyval) =>
    forallb (fun kv => match lookup (snd kv) (snd td) with
                       | Some k => match lookup k (fst td) with Some v => match v, snd kv with PInt a, PInt b => Z.eqb a b | PStr a, PStr b => eqb a b | _, _ => false end | None => false end
                                   && negb (is_none k) && negb (is_float k) && hashable k
                       | None => false end && negb (is_none (snd kv)) && negb (is_float (snd kv)) && hashable (snd kv)) (fst td))
    [(fontStyle1To2, fontStyle2To1); (widthName1To2, widthName2To1); (msCharSet1To2, msCharSet2To1)] = true.
Proof. vm_compute. reflexivity. Qed.
Lemma table_stable t d v w : In (t, d) [(fontStyle1To2, fontStyle2To1); (widthName1To2, widthName2To1); (msCharSet1To2, msCharSet2To1)] ->
  lookup v t = Some w -> exists k, lookup w d = Some k /\ lookup k t = Some w /\
    is_none k = false /\ is_float k = false /\ hashable k = true /\ is_none w = false /\ is_float w = false /\ hashable w = true.
Proof.
  intros I L. apply lookup_In in L as (k0 & Hk & _). pose proof tables_stable as F. rewrite forallb_forall in F. specialize (F _ I). cbn [fst snd] in F.
  rewrite forallb_forall in F. specialize (F _ Hk). cbn [fst snd] in F.
  destruct (lookup w d) as [k|]; [|discriminate]. exists k. split; [reflexivity|].
  repeat rewrite andb_true_iff in F. destruct F as ((((((F1 & F2) & F3) & F4) & F5) & F6) & F7). apply negb_true_iff in F2, F3, F5, F6.
  split; [|auto 10]. destruct (lookup k t) as [x|]; [|discriminate].
  destruct x, w; try discriminate; [apply Z.eqb_eq in F1|apply (proj1 (eqb_eq _ _)) in F1]; subst; reflexivity.
Qed.
Definition table12 (a : str) : option (list (pyval * pyval) * list (pyval * pyval)) :=
  if eqb a (u "fontStyle") then Some (fontStyle1To2, fontStyle2To1)
  else if eqb a (u "widthName") then Some (widthName1To2, widthName2To1)
  else if eqb a (u "msCharSet") then Some (msCharSet1To2, msCharSet2To1) else None.
Definition table21 (a : str) : option (list (pyval * pyval) * list (pyval * pyval)) :=
  if eqb a (u "styleMapStyleName") then Some (fontStyle1To2, fontStyle2To1)
  else if eqb a (u "openTypeOS2WidthClass") then Some (widthName1To2, widthName2To1)
  else if eqb a (u "postscriptWindowsCharacterSet") then Some (msCharSet1To2, msCharSet2To1) else None.
Lemma table12_In a td : table12 a = Some td -> In td [(fontStyle1To2, fontStyle2To1); (widthName1To2, widthName2To1); (msCharSet1To2, msCharSet2To1)].
Proof. unfold table12. repeat (destruct (eqb a _); [intro H; inversion H; cbn; tauto|]). discriminate. Qed.
Lemma table21_In a td : table21 a = Some td -> In td [(fontStyle1To2, fontStyle2To1); (widthName1To2, widthName2To1); (msCharSet1To2, msCharSet2To1)].
Proof. unfold table21. repeat (destruct (eqb a _); [intro H; inversion H; cbn; tauto|]). discriminate. Qed.
Lemma tables_agree : Forall (fun a => table21 (to2 a) = table12 a \/ mem (to2 a) (fontInfoAttributesVersion2 T) = false) fontInfoAttributesVersion1.
Proof. unfold fontInfoAttributesVersion1. cbn [map]. repeat (apply Forall_cons; [first [left; vm_compute; reflexivity|right; vm_compute; reflexivity]|]). constructor. Qed.
Lemma tables_agree_1 a : In a fontInfoAttributesVersion1 -> In (to2 a) (fontInfoAttributesVersion2 T) -> table21 (to2 a) = table12 a.
Proof.
  intros I J. destruct (proj1 (Forall_forall _ _) tables_agree a I) as [H|H]; [exact H|].
  rewrite (proj2 (mem_In _ _) J) in H. discriminate.
Qed.
Lemma tables_agree_2 a : In a (fontInfoAttributesVersion2 T) -> In (to1 a) fontInfoAttributesVersion1 -> table12 (to1 a) = table21 a.
Proof.
  intros I J. destruct (back21 a I J) as (B & _). pose proof (tables_agree_1 (to1 a) J) as H. rewrite B in H. symmetry. apply H. exact I.
Qed.
Lemma convert12_alt a v : convertValue1To2 a v =
  (do w <- floatToInt v;
   match table12 a with
   | Some td => if is_none w then Ok (to2 a, w) else do x <- convertVia (fst td) w; Ok (to2 a, x)
   | None => Ok (to2 a, w)
   end).
Proof.
  unfold convertValue1To2, table12. destruct (floatToInt v) as [w|]; [|reflexivity]. cbn [bind]. destruct (is_none w); cbn [bind].
  - destruct (eqb a (u "fontStyle")); [reflexivity|]. destruct (eqb a (u "widthName")); [reflexivity|]. destruct (eqb a (u "msCharSet")); reflexivity.
  - destruct (eqb a (u "fontStyle")); [reflexivity|]. destruct (eqb a (u "widthName")); [reflexivity|]. destruct (eqb a (u "msCharSet")); reflexivity.
Qed.
Lemma convert21_alt a v : convertValue2To1 a v =
   match table21 a with
   | Some td => if is_none v then Ok (to1 a, v) else do x <- dictGet (snd td) v; Ok (to1 a, optNone x)
   | None => Ok (to1 a, v)
   end.
Proof.
  unfold convertValue2To1, table21. destruct (is_none v); cbn [bind].
  - destruct (eqb a _); [reflexivity|]. destruct (eqb a _); [reflexivity|]. destruct (eqb a _); reflexivity.
  - destruct (eqb a _); [cbn [snd]; destruct (dictGet fontStyle2To1 v); reflexivity|]. destruct (eqb a _); [cbn [snd]; destruct (dictGet widthName2To1 v); reflexivity|].
    destruct (eqb a _); [cbn [snd]; destruct (dictGet msCharSet2To1 v); reflexivity|reflexivity].
Qed.

(** ** Idempotence *)
(** what the version 1 to 2 conversion produces survives a round trip *)
Definition stable (kv : str * pyval) : Prop :=
  exists v1, convertValue2To1 (fst kv) (snd kv) = Ok (to1 (fst kv), v1) /\ In (to1 (fst kv)) fontInfoAttributesVersion1 /\
    In (fst kv) (fontInfoAttributesVersion2 T) /\
    is_none (snd kv) = false /\ is_none v1 = false /\ convertValue1To2 (to1 (fst kv)) v1 = Ok kv /\
    (eqb (to1 (fst kv)) (u "weightValue") && py_eq v1 (PInt (-1)) = false).
Lemma convert_stable a v a2 v2 : In a fontInfoAttributesVersion1 -> In a2 (fontInfoAttributesVersion2 T) -> is_none v = false ->
  (eqb a (u "weightValue") && py_eq v (PInt (-1)) = false) ->
  convertValue1To2 a v = Ok (a2, v2) -> a2 = to2 a /\ stable (a2, v2).
Proof.
  intros I1 I2 Nn W H. rewrite convert12_alt in H. destruct (floatToInt v) as [w|] eqn:Ew; [|discriminate]. cbn [bind] in H.
  assert (is_none w = false) as Nw.
  { destruct (floatToInt_ok v (floatToInt_finite v w Ew)) as (w' & E & C). rewrite E in Ew. inversion Ew; subst.
    destruct C as [->|(z & -> & _)]; [exact Nn|reflexivity]. }
  assert (a2 = to2 a) as Ea.
  { destruct (table12 a) as [td|]; [rewrite Nw in H; destruct (convertVia (fst td) w); inversion H; reflexivity|inversion H; reflexivity]. }
  split; [exact Ea|]. unfold stable. cbn [fst snd]. subst a2. pose proof (tables_agree_1 a I1 I2) as TA. rewrite (back12 a I1 I2).
  rewrite convert21_alt, TA, (back12 a I1 I2). destruct (table12 a) as [[t d]|] eqn:E12; cbn [fst snd] in *.
  - rewrite Nw in H. unfold convertVia, dictGet in H. destruct (hashable w); [|discriminate]. cbn [bind] in H.
    destruct (lookup w t) as [x|] eqn:L; [|discriminate]. inversion H; subst. clear H.
    destruct (table_stable t d w v2 (table12_In _ _ E12) L) as (k & L1 & L2 & N1 & F1 & H1 & N2 & F2 & H2).
    rewrite N2. unfold dictGet. rewrite H2. cbn [bind]. rewrite L1. cbn [optNone]. exists k.
    split; [reflexivity|]. split; [exact I1|]. split; [exact I2|]. split; [reflexivity|]. split; [exact N1|]. split.
    + rewrite convert12_alt, E12. assert (floatToInt k = Ok k) as -> by (destruct k; try reflexivity; discriminate). cbn [bind fst]. rewrite N1.
      unfold convertVia, dictGet. rewrite H1. cbn [bind]. rewrite L2. reflexivity.
    + assert (eqb a (u "weightValue") = false) as ->; [|reflexivity].
      destruct (eqb_spec a (u "weightValue")) as [->|]; [discriminate|reflexivity].
  - inversion H; subst. exists v2. split; [reflexivity|]. split; [exact I1|]. split; [exact I2|]. split; [exact Nw|]. split; [exact Nw|]. split.
    + rewrite convert12_alt, E12, (floatToInt_idem v v2 Ew). reflexivity.
    + destruct (eqb a (u "weightValue")); [|reflexivity]. cbn [andb] in *.
      destruct (floatToInt_ok v (floatToInt_finite v v2 Ew)) as (w' & E & C). rewrite E in Ew. inversion Ew; subst.
      destruct C as [->|(z & -> & Q & Fl)]; [exact W|]. destruct v; try discriminate. cbn [py_eq] in W |- *.
      rewrite (float_as_int z f (-1) Q) in W. rewrite num_eq_int. exact W.
Qed.
Lemma conv12_spec d1 acc r : NoDup (keys d1) -> incl (keys d1) fontInfoAttributesVersion1 ->
  (forall k, In k (keys d1) -> In (to2 k) (fontInfoAttributesVersion2 T) -> ~ In (to2 k) (keys acc)) ->
  convertData1To2 T d1 acc = Ok r ->
  exists e, r = acc ++ e /\ Forall stable e /\ NoDup (keys e) /\ (forall k, In k (keys e) -> exists k1, In k1 (keys d1) /\ k = to2 k1).
Proof.
  revert acc; induction d1 as [|[a v] d1 IH]; intros acc ND I D H; cbn [convertData1To2] in H.
  - inversion H. exists []. rewrite app_nil_r. repeat split; try constructor. intros k [].
  - assert (IH' : forall acc', (forall k, In k (keys d1) -> In (to2 k) (fontInfoAttributesVersion2 T) -> ~ In (to2 k) (keys acc')) ->
       convertData1To2 T d1 acc' = Ok r -> exists e, r = acc' ++ e /\ Forall stable e /\ NoDup (keys e) /\ (forall k, In k (keys e) -> exists k1, In k1 (keys d1) /\ k = to2 k1)).
    { intros acc' D' H'. apply (IH acc'); [inversion ND; assumption|intros k Hk; apply I; right; exact Hk|exact D'|exact H']. }
    assert (D1 : forall k, In k (keys d1) -> In (to2 k) (fontInfoAttributesVersion2 T) -> ~ In (to2 k) (keys acc)) by (intros k Hk; apply D; right; exact Hk).
    assert (Skip : convertData1To2 T d1 acc = Ok r -> exists e, r = acc ++ e /\ Forall stable e /\ NoDup (keys e) /\ (forall k, In k (keys e) -> exists k1, In k1 (keys ((a, v) :: d1)) /\ k = to2 k1)).
    { intro H'. destruct (IH' acc D1 H') as (e & -> & F & N & K). exists e. repeat split; auto. intros k Hk. destruct (K k Hk) as (k1 & J & ->). exists k1. split; [right; exact J|reflexivity]. }
    destruct (eqb a (u "weightValue") && py_eq v (PInt (-1))) eqn:W; [exact (Skip H)|].
    destruct (convertValue1To2 a v) as [[a2 v2]|] eqn:C; [|discriminate]. cbn [bind fst snd] in H.
    destruct (mem_spec a2 (fontInfoAttributesVersion2 T)) as [I2|I2]; cbn [negb] in H; [|exact (Skip H)].
    destruct (is_none v) eqn:Nn; [discriminate|].
    assert (I1 : In a fontInfoAttributesVersion1) by (apply I; left; reflexivity).
    destruct (convert_stable a v a2 v2 I1 I2 Nn W C) as (-> & St).
    rewrite set_fresh in H by (apply (D a); [left; reflexivity|exact I2]).
    destruct (IH' (acc ++ [(to2 a, v2)])) as (e & -> & F & N & K); [|exact H|].
    + intros k Hk Hk2. unfold keys. rewrite map_app, in_app_iff. intros [J|[J|[]]]; [exact (D1 k Hk Hk2 J)|]. cbn in J.
      assert (a = k) as ->.
      { rewrite <- (back12 a I1 I2), <- (back12 k); [rewrite J; reflexivity|apply I; right; exact Hk|exact Hk2]. }
      inversion ND; contradiction.
    + exists ((to2 a, v2) :: e). rewrite <- app_assoc. split; [reflexivity|]. split; [constructor; assumption|]. split.
      * cbn [keys map]. constructor; [|exact N]. intro J. destruct (K _ J) as (k1 & J1 & E). cbn [fst] in E.
        assert (a = k1) as ->.
        { rewrite <- (back12 a I1 I2), <- (back12 k1); [rewrite E; reflexivity|apply I; right; exact J1|rewrite <- E; exact I2]. }
        inversion ND; contradiction.
      * intros k [<-|Hk]; [exists a; split; [left; reflexivity|reflexivity]|]. destruct (K k Hk) as (k1 & J & ->). exists k1. split; [right; exact J|reflexivity].
Qed.
Lemma conv21_stable e : Forall stable e -> NoDup (keys e) ->
  exists d, (forall acc, (forall k, In k (keys e) -> ~ In (to1 k) (keys acc)) -> convertData2To1 e acc = Ok (acc ++ d)) /\
    (forall acc, (forall k, In k (keys e) -> ~ In k (keys acc)) -> convertData1To2 T d acc = Ok (acc ++ e)).
Proof.
  induction e as [|[a v] e IH]; intros F ND.
  - exists []. split; intros acc _; cbn; rewrite app_nil_r; reflexivity.
  - inversion F as [|? ? St F']; subst. inversion ND; subst. destruct (IH F' H2) as (d & A & B).
    destruct St as (v1 & C1 & I1 & I2 & N2 & N1 & C2 & W). cbn [fst snd] in *. exists ((to1 a, v1) :: d). split.
    + intros acc D. cbn [convertData2To1]. rewrite C1. cbn [bind fst snd]. rewrite (proj2 (mem_In _ _) I1). cbn [negb]. rewrite N2.
      rewrite set_fresh by (apply (D a); left; reflexivity). rewrite A; [rewrite <- app_assoc; reflexivity|].
      intros k Hk. unfold keys. rewrite map_app, in_app_iff. intros [J|[J|[]]]; [revert J; apply (D k); right; exact Hk|]. cbn in J.
      assert (In k (fontInfoAttributesVersion2 T) /\ In (to1 k) fontInfoAttributesVersion1) as (K2 & K1).
      { unfold keys in Hk. apply in_map_iff in Hk as (kv & <- & Hkv). destruct (proj1 (Forall_forall _ _) F' kv Hkv) as (? & ? & ? & ? & _). auto. }
      assert (a = k) as -> by (rewrite <- (proj1 (back21 a I2 I1)), <- (proj1 (back21 k K2 K1)), J; reflexivity). contradiction.
    + intros acc D. cbn [convertData1To2]. rewrite W, C2. cbn [bind fst snd]. rewrite (proj2 (mem_In _ _) I2). cbn [negb]. rewrite N1.
      rewrite set_fresh by (apply (D a); left; reflexivity). rewrite B; [rewrite <- app_assoc; reflexivity|].
      intros k Hk. unfold keys. rewrite map_app, in_app_iff. intros [J|[J|[]]]; [revert J; apply (D k); right; exact Hk|]. cbn in J. subst k. contradiction.
Qed.

(** ** collecting attributes *)
Lemma collect_get attrs data acc a : ~ In a (keys acc) -> NoDup attrs -> (forall k, In k attrs -> ~ In k (keys acc)) ->
  get a (collect attrs data acc) = if mem a attrs then (if is_none (vget a data) then None else Some (vget a data)) else None.
Proof.
  revert acc. assert (G : forall acc, get a (collect attrs data acc) = if mem a attrs && negb (is_none (vget a data)) then Some (vget a data) else get a acc).
  { induction attrs as [|x r IH]; intro acc; [reflexivity|]. cbn [collect]. rewrite IH. change (mem a (x :: r)) with (eqb a x || mem a r).
    destruct (eqb_spec a x) as [->|n]; cbn [orb].
    - destruct (is_none (vget x data)) eqn:N; cbn [negb]; rewrite ?andb_false_r; [reflexivity|].
      destruct (mem x r); cbn [andb]; [reflexivity|]. apply get_set_same.
    - destruct (mem a r && negb (is_none (vget a data))); [reflexivity|].
      destruct (is_none (vget x data)); [reflexivity|]. apply get_set_other. congruence. }
  intros acc Ha ND D. rewrite G. destruct (mem a attrs); cbn [andb]; [|apply get_None; exact Ha].
  destruct (is_none (vget a data)); cbn [negb]; [apply get_None; exact Ha|reflexivity].
Qed.
Lemma collect_keys attrs data acc : dict_ok acc -> dict_ok (collect attrs data acc).
Proof.
  revert acc; induction attrs as [|x r IH]; intros acc H; [exact H|]. cbn [collect]. apply IH. destruct (is_none _); [exact H|]. apply dict_ok_set. exact H.
Qed.
End WithText.
