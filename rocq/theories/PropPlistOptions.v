(** Property C108: skipkeys, use_builtin_types, Data objects and bytearrays. *)
From Coq Require Import String NArith ZArith Bool Lia List Permutation.
From Coq.Floats Require Import SpecFloat.
From Verif Require Import Base PyVal PyText FloatRepr Xml FS Ufo UfoProofs Plist PlistProofs PropPlist Etree EtreeProofs PlistFiles PlistOptions.
Import ListNotations.
Local Open Scope string_scope.
Local Open Scope list_scope.

(** ** the statements *)
(** the entries with text keys, in order *)
Fixpoint textItems {A} (d : list (pyval * A)) : list (str * A) :=
  match d with [] => [] | (PStr k, x) :: r => (k, x) :: textItems r | _ :: r => textItems r end.
Definition isText (k : pyval) : Prop := exists s, k = PStr s.
(** the keys of a dictionary that can be written *)
Definition keysFine (comparable : list pyval -> bool) (skip sortKeys : bool) (ks : list pyval) : Prop :=
  Forall isText ks \/ (skip = true /\ (sortKeys = false \/ (Forall (fun k => ~ isText k) ks /\ comparable ks = true))).
(** the value of Plist.v that an object is written like *)
Inductive stands (comparable : list pyval -> bool) (builtin skip sortKeys : bool) : pobj -> pyval -> Prop :=
| st_atom v : container v = false -> (forall b, v <> PBytes b) -> stands comparable builtin skip sortKeys (OAtom v) v
| st_bytes b : builtin = true -> stands comparable builtin skip sortKeys (OAtom (PBytes b)) (PBytes b)
| st_ascii b : builtin = false -> Forall (fun c => (c < 128)%N) b -> stands comparable builtin skip sortKeys (OAtom (PBytes b)) (PStr b)
| st_data b : stands comparable builtin skip sortKeys (OData b) (PBytes b)
| st_array b : stands comparable builtin skip sortKeys (OByteArray b) (PBytes b)
| st_list l m : Forall2 (stands comparable builtin skip sortKeys) l m -> stands comparable builtin skip sortKeys (OList l) (PList m)
| st_tuple l m : Forall2 (stands comparable builtin skip sortKeys) l m -> stands comparable builtin skip sortKeys (OTuple l) (PTuple m)
| st_dict d (m : list (str * pyval)) : keysFine comparable skip sortKeys (map fst d) ->
    Forall2 (fun a b => fst a = fst b /\ stands comparable builtin skip sortKeys (snd a) (snd b)) (textItems d) m ->
    stands comparable builtin skip sortKeys (ODict d) (PDict (map (fun '(k, x) => (PStr k, x)) m)).
(** what is read for a value: the value, with Data objects in the place of bytes if
    use_builtin_types is false *)
Inductive readAs (builtin : bool) : pyval -> pobj -> Prop :=
| ra_bytes b : readAs builtin (PBytes b) (if builtin then OAtom (PBytes b) else OData b)
| ra_atom v : container v = false -> (forall b, v <> PBytes b) -> readAs builtin v (OAtom v)
| ra_list l m : Forall2 (readAs builtin) l m -> readAs builtin (PList l) (OList m)
| ra_tuple l m : Forall2 (readAs builtin) l m -> readAs builtin (PTuple l) (OTuple m)
| ra_dict d e : Forall2 (fun a b => fst a = fst b /\ readAs builtin (snd a) (snd b)) d e -> readAs builtin (PDict d) (ODict e).

(** ** writing *)
Section Ind.
Variable P : pobj -> Prop.
Hypothesis Ha : forall v, P (OAtom v).
Hypothesis Hd : forall b, P (OData b).
Hypothesis Hb : forall b, P (OByteArray b).
Hypothesis Hl : forall l, Forall P l -> P (OList l).
Hypothesis Ht : forall l, Forall P l -> P (OTuple l).
Hypothesis Hm : forall d, Forall (fun kx => P (snd kx)) d -> P (ODict d).
Fixpoint pobj_ind' (v : pobj) : P v :=
  match v with
  | OAtom v => Ha v
  | OData b => Hd b
  | OByteArray b => Hb b
  | OList l => Hl l ((fix go l := match l return Forall P l with [] => Forall_nil _ | x :: r => Forall_cons x (pobj_ind' x) (go r) end) l)
  | OTuple l => Ht l ((fix go l := match l return Forall P l with [] => Forall_nil _ | x :: r => Forall_cons x (pobj_ind' x) (go r) end) l)
  | ODict d => Hm d ((fix go d := match d return Forall (fun kx => P (snd kx)) d with [] => Forall_nil _ | kx :: r => Forall_cons kx (pobj_ind' (snd kx)) (go r) end) d)
  end.
End Ind.

Section Write.
Variables (R : spec_float -> str) (cmp : list pyval -> bool) (builtin skip sk : bool).
Notation mkO := (makeElementO R cmp builtin skip sk).
Notation mk := (makeElement R sk).
Notation st := (stands cmp builtin skip sk).
Lemma mkO_list pr lv l : mkO pr lv (OList l) = do ch <- mapM (mkO pr (S lv)) l; Ok (node0 (u "array") ch).
Proof. cbn [makeElementO]. f_equal. induction l as [|x l IH]; [reflexivity|]. cbn [mapM]. destruct (mkO pr (S lv) x); [|reflexivity]. cbn [bind]. rewrite IH. reflexivity. Qed.
Lemma mkO_tuple pr lv l : mkO pr lv (OTuple l) = do ch <- mapM (mkO pr (S lv)) l; Ok (node0 (u "array") ch).
Proof. apply mkO_list. Qed.
Lemma mkO_dict pr lv d : mkO pr lv (ODict d) = dictElementO cmp skip sk (map (fun '(k, x) => (k, mkO pr (S lv) x)) d).
Proof. cbn [makeElementO]. f_equal. induction d as [|[k x] d IH]; [reflexivity|]. cbn [map]. rewrite IH. reflexivity. Qed.

Lemma textItems_map {A B} (f : A -> B) (d : list (pyval * A)) : textItems (map (fun '(k, x) => (k, f x)) d) = map (fun '(k, x) => (k, f x)) (textItems d).
Proof. induction d as [|[k x] d IH]; [reflexivity|]. destruct k; cbn; rewrite ?IH; reflexivity. Qed.
Lemma textItems_str {A} (m : list (str * A)) : textItems (map (fun '(k, x) => (PStr k, x)) m) = m.
Proof. induction m as [|[k x] m IH]; [reflexivity|]. cbn. rewrite IH. reflexivity. Qed.
Lemma all_text {A} (d : list (pyval * A)) : Forall isText (map fst d) -> d = map (fun '(k, x) => (PStr k, x)) (textItems d).
Proof. induction d as [|[k x] d IH]; [reflexivity|]. cbn [map fst]. intro F. inversion F as [|? ? (s & ->) F']; subst. cbn. rewrite <- IH by exact F'. reflexivity. Qed.
Lemma none_text {A} (d : list (pyval * A)) : Forall (fun k => ~ isText k) (map fst d) -> textItems d = [].
Proof. induction d as [|[k x] d IH]; [reflexivity|]. cbn [map fst]. intro F. inversion F as [|? ? N F']; subst. destruct k; try (cbn; apply IH; exact F'). exfalso. apply N. eexists. reflexivity. Qed.
Lemma textItems_In {A} (d : list (pyval * A)) k x : In (k, x) (textItems d) -> In (PStr k, x) d.
Proof. induction d as [|[k' y] d IH]; [intros []|]. destruct k'; cbn; intro I; try (right; apply IH; exact I). destruct I as [E|I]; [left; congruence|right; apply IH; exact I]. Qed.
Lemma skipped (l : list (pyval * res elem)) : dictChildrenO true l = dictChildren (map (fun '(k, x) => (PStr k, x)) (textItems l)).
Proof. induction l as [|[k x] l IH]; [reflexivity|]. destruct k; cbn [dictChildrenO textItems map dictChildren]; try exact IH. destruct x as [e|e]; [|reflexivity]. cbn [bind]. rewrite IH. reflexivity. Qed.
Lemma texts_only b (m : list (str * res elem)) : dictChildrenO b (map (fun '(k, x) => (PStr k, x)) m) = dictChildren (map (fun '(k, x) => (PStr k, x)) m).
Proof. induction m as [|[k x] m IH]; [reflexivity|]. cbn [map dictChildrenO dictChildren]. destruct x as [e|e]; [|reflexivity]. cbn [bind]. rewrite IH. reflexivity. Qed.
Lemma strict_texts (l : list (pyval * res elem)) ch : dictChildrenO false l = Ok ch -> Forall isText (map fst l).
Proof.
  revert ch. induction l as [|[k x] l IH]; intros ch H; [apply Forall_nil|]. destruct k; try discriminate H. cbn [dictChildrenO] in H. apply bind_Ok in H as (e & _ & H). apply bind_Ok in H as (t & H & _).
  cbn [map fst]. constructor; [eexists; reflexivity|]. eapply IH. exact H.
Qed.
Lemma strItems_text {A} (l : list (pyval * A)) : match strItems l with Some m => Forall isText (map fst l) /\ m = textItems l | None => ~ Forall isText (map fst l) end.
Proof.
  induction l as [|[k x] l IH]; [split; [apply Forall_nil|reflexivity]|]. destruct k; cbn [strItems map fst textItems]; try (intro F; inversion F as [|? ? (? & E) F']; discriminate E).
  destruct (strItems l) as [m|].
  - destruct IH as (F & ->). split; [constructor; [eexists; reflexivity|exact F]|reflexivity].
  - intro F. apply IH. inversion F; assumption.
Qed.
Lemma existsb_text ks : existsb is_str ks = false <-> Forall (fun k => ~ isText k) ks.
Proof.
  induction ks as [|k ks IH]; [split; [intro; apply Forall_nil|reflexivity]|]. cbn [existsb]. rewrite orb_false_iff, IH, Forall_cons_iff. apply and_iff_compat_r.
  split; [intros H (s & ->); discriminate H|]. intro N. destruct k; try reflexivity. exfalso. apply N. eexists. reflexivity.
Qed.
Lemma dictO (l : list (pyval * res elem)) e : dictElementO cmp skip sk l = Ok e <->
  keysFine cmp skip sk (map fst l) /\ dictElement sk (map (fun '(k, x) => (PStr k, x)) (textItems l)) = Ok e.
Proof.
  unfold dictElementO, dictElement. rewrite strItems_map. destruct sk.
  - unfold sortedO. pose proof (strItems_text l) as S. destruct (strItems l) as [m|].
    + destruct S as (F & ->). cbn [bind]. rewrite texts_only. split; [intro H; split; [left; exact F|exact H]|intros (_ & H); exact H].
    + destruct (existsb is_str (map fst l)) eqn:X; cbn [orb].
      * cbn [bind]. split; [discriminate|]. intros ([F|(_ & [F|(F & _)])] & _); [contradiction|discriminate F|]. apply existsb_text in F. congruence.
      * apply existsb_text in X. destruct (cmp (map fst l)) eqn:Y; cbn [negb bind].
        -- rewrite (none_text _ X). destruct skip eqn:K.
           ++ rewrite skipped, (none_text _ X). cbn. split; [intro H; split; [right; split; [reflexivity|right; split; assumption]|exact H]|intros (_ & H); exact H].
           ++ split; [|intros ([F|(F & _)] & _); [contradiction|discriminate F]]. intro H. apply bind_Ok in H as (ch & H & _). apply strict_texts in H. contradiction.
        -- split; [discriminate|]. intros ([F|(_ & [F|(_ & F)])] & _); [contradiction|discriminate F|congruence].
  - cbn [bind]. destruct skip eqn:K.
    + rewrite skipped. split; [intro H; split; [right; split; [reflexivity|left; reflexivity]|exact H]|intros (_ & H); exact H].
    + split.
      * intro H. pose proof H as H0. apply bind_Ok in H0 as (ch & H0 & _). apply strict_texts in H0. split; [left; exact H0|]. rewrite <- texts_only with (b := false), <- (all_text l H0). exact H.
      * intros ([F|(F & _)] & H); [|discriminate F]. rewrite (all_text l F), texts_only. exact H.
Qed.
Lemma dict_parts (m : list (str * res elem)) e : dictElement sk (map (fun '(k, x) => (PStr k, x)) m) = Ok e -> Forall (fun kx => exists y, snd kx = Ok y) m.
Proof.
  unfold dictElement. rewrite strItems_map. intro H. apply bind_Ok in H as (ch & H & _).
  assert (P : exists m', Permutation m' m /\ dictChildren (map (fun '(k, x) => (PStr k, x)) m') = Ok ch) by (destruct sk; [exists (sortItems m); split; [apply sortItems_perm|exact H]|exists m; split; [reflexivity|exact H]]).
  destruct P as (m' & P & H'). apply dictChildren_spec in H' as (es & F & _). rewrite Forall_forall. intros kx I. apply (Permutation_in kx (Permutation_sym P)) in I.
  clear - F I. induction F as [|a b l l' E F IH]; [destruct I|]. destruct I as [->|I]; [eauto|auto].
Qed.
Lemma list_parts {A} (f : A -> res elem) l ch : mapM f l = Ok ch -> Forall2 (fun x e => f x = Ok e) l ch.
Proof.
  revert ch. induction l as [|x l IH]; intros ch H; cbn [mapM] in H.
  - apply Ok_inj in H. subst. constructor.
  - apply bind_Ok in H as (e & E & H). apply bind_Ok in H as (t & H & K). apply Ok_inj in K. subst. constructor; [exact E|apply IH; exact H].
Qed.
Lemma list_whole {A} (f : A -> res elem) l ch : Forall2 (fun x e => f x = Ok e) l ch -> mapM f l = Ok ch.
Proof. induction 1 as [|x e l ch E F IH]; [reflexivity|]. cbn [mapM]. rewrite E. cbn [bind]. rewrite IH. reflexivity. Qed.

Lemma written pr v : forall lv e, mkO pr lv v = Ok e <-> exists w, st v w /\ mk pr lv w = Ok e.
Proof.
  induction v as [v|b|b|l IH|l IH|d IH] using pobj_ind'; intros lv e.
  - assert (G : container v = false -> (forall b, v <> PBytes b) -> (mkO pr lv (OAtom v) = mk pr lv v) -> mkO pr lv (OAtom v) = Ok e <-> exists w, st (OAtom v) w /\ mk pr lv w = Ok e).
    { intros C N E. rewrite E. split; [intro H; exists v; split; [constructor; assumption|exact H]|]. intros (w & S & H). inversion S; subst; try exact H. exfalso. eapply N. reflexivity. }
    destruct v; try (apply G; [reflexivity|discriminate|reflexivity]).
    + cbn [makeElementO]. destruct builtin eqn:B.
      * split; [intro H; eexists; split; [apply st_bytes; reflexivity|exact H]|]. intros (w & S & H). inversion S; subst; try exact H; discriminate.
      * destruct (forallb (fun c => (c <? 128)%N) b) eqn:X.
        -- assert (F : Forall (fun c => (c < 128)%N) b) by (rewrite forallb_forall in X; apply Forall_forall; intros c I; apply N.ltb_lt; apply X; exact I).
           split; [intro H; exists (PStr b); split; [apply st_ascii; [reflexivity|exact F]|exact H]|]. intros (w & S & H). inversion S as [v C N| |? ? F'| | | | |]; subst; try discriminate; [exfalso; eapply N; reflexivity|exact H].
        -- split; [discriminate|]. intros (w & S & H). inversion S as [v C N| |? ? F'| | | | |]; subst; try discriminate; [exfalso; eapply N; reflexivity|]. exfalso. assert (forallb (fun c => (c <? 128)%N) b = true); [|congruence]. rewrite forallb_forall. rewrite Forall_forall in F'. intros c I. apply N.ltb_lt. auto.
    + cbn [makeElementO]. split; [discriminate|]. intros (w & S & _). inversion S; discriminate.
    + cbn [makeElementO]. split; [discriminate|]. intros (w & S & _). inversion S; discriminate.
    + cbn [makeElementO]. split; [discriminate|]. intros (w & S & _). inversion S; discriminate.
  - split; [intro H; exists (PBytes b); split; [constructor|exact H]|]. intros (w & S & H). inversion S; subst. exact H.
  - split; [intro H; exists (PBytes b); split; [constructor|exact H]|]. intros (w & S & H). inversion S; subst. exact H.
  - rewrite mkO_list. split.
    + intro H. apply bind_Ok in H as (ch & H & K). apply list_parts in H. assert (G : exists m, Forall2 st l m /\ Forall2 (fun w e => mk pr (S lv) w = Ok e) m ch).
      { clear K. revert IH. induction H as [|x e' l ch E F IHf]; intro IH; [exists []; split; constructor|]. inversion IH as [|? ? I0 I1]; subst. apply I0 in E as (w & S & E). destruct (IHf I1) as (m & A & B). exists (w :: m). split; constructor; assumption. }
      destruct G as (m & A & B). exists (PList m). split; [constructor; exact A|]. rewrite mk_list, (list_whole _ _ _ B). exact K.
    + intros (w & S & H). inversion S as [| | | | |? m F| |]; subst. rewrite mk_list in H. apply bind_Ok in H as (ch & H & K). apply list_parts in H. rewrite (list_whole (mkO pr (Datatypes.S lv)) l ch); [exact K|].
      clear S K. revert ch H. revert IH. induction F as [|x y l m S F IHf]; intros IH ch H; inversion H; subst; constructor; inversion IH as [|? ? I0 I1]; subst; [apply I0; eauto|auto].
  - rewrite mkO_tuple. split.
    + intro H. apply bind_Ok in H as (ch & H & K). apply list_parts in H. assert (G : exists m, Forall2 st l m /\ Forall2 (fun w e => mk pr (S lv) w = Ok e) m ch).
      { clear K. revert IH. induction H as [|x e' l ch E F IHf]; intro IH; [exists []; split; constructor|]. inversion IH as [|? ? I0 I1]; subst. apply I0 in E as (w & S & E). destruct (IHf I1) as (m & A & B). exists (w :: m). split; constructor; assumption. }
      destruct G as (m & A & B). exists (PTuple m). split; [constructor; exact A|]. rewrite mk_tuple, (list_whole _ _ _ B). exact K.
    + intros (w & S & H). inversion S as [| | | | | |? m F|]; subst. rewrite mk_tuple in H. apply bind_Ok in H as (ch & H & K). apply list_parts in H. rewrite (list_whole (mkO pr (Datatypes.S lv)) l ch); [exact K|].
      clear S K. revert ch H. revert IH. induction F as [|x y l m S F IHf]; intros IH ch H; inversion H; subst; constructor; inversion IH as [|? ? I0 I1]; subst; [apply I0; eauto|auto].
  - rewrite mkO_dict, dictO, textItems_map, map_map.
    replace (map (fun x => fst (let '(k, x0) := x in (k, mkO pr (S lv) x0))) d) with (map fst d) by (apply map_ext; intros [k x]; reflexivity).
    assert (IH' : Forall (fun kx => forall lv e, mkO pr lv (snd kx) = Ok e <-> exists w, st (snd kx) w /\ mk pr lv w = Ok e) (textItems d)).
    { rewrite Forall_forall in *. intros [k x] I. apply textItems_In in I. exact (IH _ I). }
    assert (Q : forall m, mk pr lv (PDict (map (fun '(k, x) => (PStr k, x)) m)) = dictElement sk (map (fun '(k, x) => (PStr k, x)) (map (fun '(k, x) => (k, mk pr (S lv) x)) m))).
    { intro m. rewrite mk_dict, !map_map. f_equal. apply map_ext. intros [k x]. reflexivity. }
    split.
    + intros (K & H). pose proof (dict_parts _ _ H) as D. assert (G : exists m, Forall2 (fun a b => fst a = fst b /\ st (snd a) (snd b)) (textItems d) m /\ map (fun '(k, x) => (k, mkO pr (S lv) x)) (textItems d) = map (fun '(k, x) => (k, mk pr (S lv) x)) m).
      { clear K H Q IH. revert IH' D. induction (textItems d) as [|[k x] l IHl]; intros IH' D; [exists []; split; [constructor|reflexivity]|]. inversion IH' as [|? ? I0 I1]; subst. cbn [map] in D. inversion D as [|? ? (y & Y) D']; subst. cbn [snd] in *.
        destruct (IHl I1 D') as (m & A & B). pose proof Y as Y'. apply I0 in Y' as (w & S & E). exists ((k, w) :: m). split; [constructor; [split; [reflexivity|exact S]|exact A]|]. cbn [map]. rewrite B, Y, E. reflexivity. }
      destruct G as (m & A & B). exists (PDict (map (fun '(k, x) => (PStr k, x)) m)). split; [constructor; [exact K|exact A]|]. rewrite Q, <- B. exact H.
    + intros (w & S & H). inversion S as [| | | | | | |? m K F]; subst. split; [exact K|]. rewrite Q in H. pose proof (dict_parts _ _ H) as D.
      replace (map (fun '(k, x) => (k, mkO pr (Datatypes.S lv) x)) (textItems d)) with (map (fun '(k, x) => (k, mk pr (Datatypes.S lv) x)) m); [exact H|].
      clear S K H Q IH. revert IH' D. induction F as [|[k x] [k' y] l m (E & S) F IHf]; intros IH' D; [reflexivity|]. cbn [fst snd] in *. subst k'. inversion IH' as [|? ? I0 I1]; subst. cbn [map] in *. inversion D as [|? ? (z & Z) D']; subst. cbn [snd] in *.
      rewrite (IHf I1 D'). f_equal. f_equal. rewrite Z. symmetry. apply I0. eauto.
Qed.
End Write.

(** ** reading *)
Fixpoint emb (builtin : bool) (v : pyval) : pobj :=
  match v with
  | PBytes b => if builtin then OAtom (PBytes b) else OData b
  | PList l => OList ((fix go l := match l with [] => [] | x :: r => emb builtin x :: go r end) l)
  | PTuple l => OTuple ((fix go l := match l with [] => [] | x :: r => emb builtin x :: go r end) l)
  | PDict d => ODict ((fix go d := match d with [] => [] | (k, x) :: r => (k, emb builtin x) :: go r end) d)
  | v => OAtom v
  end.
Section Read.
Variables (T : pytext) (builtin : bool).
Notation em := (emb builtin).
Definition emd (d : list (pyval * pyval)) : list (pyval * pobj) := map (fun '(k, x) => (k, em x)) d.
Lemma emb_list l : em (PList l) = OList (map em l).
Proof. reflexivity. Qed.
Lemma emb_tuple l : em (PTuple l) = OTuple (map em l).
Proof. reflexivity. Qed.
Lemma emb_dict d : em (PDict d) = ODict (emd d).
Proof. cbn [emb]. apply f_equal. unfold emd. induction d as [|[k x] d IH]; [reflexivity|]. cbn [map]. rewrite <- IH. reflexivity. Qed.
Lemma emb_readAs v : readAs builtin v (em v).
Proof.
  induction v using pyval_ind'; try (apply ra_atom; [reflexivity|discriminate]).
  - apply ra_bytes.
  - rewrite emb_list. constructor. induction H; constructor; assumption.
  - rewrite emb_tuple. constructor. induction H; constructor; assumption.
  - rewrite emb_dict. constructor. unfold emd. induction d as [|[k x] d IHd]; [constructor|]. inversion H as [|? ? [H0 H1] H2]; subst. constructor; [split; [reflexivity|assumption]|apply IHd; assumption].
Qed.
Lemma readAs_unique v : forall x, readAs builtin v x -> x = em v.
Proof.
  induction v as [|b|z|f|s|b|y mo d h mi s us|l IH|l IH|d IH|n] using pyval_ind'; intros x S; inversion S as [b'|v C N|l' m F|l' m F|d' e F]; subst; try reflexivity; try discriminate; try (exfalso; eapply N; reflexivity).
  - rewrite emb_list. f_equal. clear S. revert m F. induction IH as [|y l Y IH IHl]; intros m F; inversion F; subst; [reflexivity|]. cbn [map]. f_equal; auto.
  - rewrite emb_tuple. f_equal. clear S. revert m F. induction IH as [|y l Y IH IHl]; intros m F; inversion F; subst; [reflexivity|]. cbn [map]. f_equal; auto.
  - rewrite emb_dict. f_equal. clear S. revert e F. induction d as [|[k x] d IHd]; intros e F; inversion F as [|? [k' y] ? ? (E & Q)]; subst; [reflexivity|]. inversion IH as [|? ? [G0 G1] G2]; subst. cbn [fst snd] in *. subst k'. unfold emd. cbn [map]. f_equal; [f_equal; auto|apply IHd; assumption].
Qed.
Definition emf (f : frame) : frameO := match f with FDict sl d => FDictO sl (emd d) | FList sl l => FListO sl (map em l) end.
Definition emt (t : target) : targetO := mkTargetO (map emf (tstack t)) (tkey t) (em (troot t)) (tdata t).
Definition emr (r : res target) : res targetO := do t <- r; Ok (emt t).
Lemma dset_emb k v d : emd (dset k v d) = dsetO k (em v) (emd d).
Proof. unfold emd. induction d as [|[k' x] d IH]; [reflexivity|]. destruct k'; cbn [dset dsetO map]; rewrite ?IH; try reflexivity. destruct (eqb k s); cbn [map]; rewrite ?IH; reflexivity. Qed.
Lemma slot_emb t : slotForO (emt t) = slotFor t.
Proof. destruct t as [st ky rt dt]. unfold slotForO, slotFor. cbn. destruct ky, st as [|[? ?|? ?] ?]; reflexivity. Qed.
Lemma place_emb sl v t : placeO sl (em v) (emt t) = emt (place sl v t).
Proof. destruct t as [st ky rt dt]. unfold placeO, place, emt. cbn [ostack oroot odata tstack troot tdata]. destruct sl, st as [|[? ?|? ?] ?]; cbn [map emf tstack tkey troot tdata]; rewrite ?dset_emb, ?map_app; reflexivity. Qed.
Lemma add_emb v t : addObjectO (em v) (emt t) = emr (addObject v t).
Proof. unfold addObjectO, addObject, emr. rewrite slot_emb. destruct (slotFor t); [|reflexivity]. cbn [bind]. rewrite place_emb. reflexivity. Qed.
Lemma pop_emb t : popFrameO (emt t) = emr (popFrame t).
Proof.
  destruct t as [st ky rt dt]. unfold popFrameO, popFrame, emr. cbn [emt ostack tstack]. destruct st as [|[sl d|sl l] r]; [reflexivity| |]; cbn [map emf emt okey oroot odata tkey troot tdata bind];
    [rewrite <- emb_dict|rewrite <- emb_list]; change (mkTargetO (map emf r) ky (em rt) dt) with (emt (mkTarget r ky rt dt)); rewrite place_emb; reflexivity.
Qed.
Lemma with_emb t k k' : (forall s, k' s = do v <- k s; Ok (em v)) -> withDataO (emt t) k' = emr (withData t k).
Proof.
  intro H. unfold withDataO, withData, getDataO, getData, emr. cbn [emt odata ostack okey oroot]. destruct (joinTexts (tdata t)) as [s|]; [|reflexivity]. cbn [bind]. rewrite H. destruct (k s) as [v|]; [|reflexivity]. cbn [bind].
  change (mkTargetO (map emf (tstack t)) (tkey t) (em (troot t)) []) with (emt (mkTarget (tstack t) (tkey t) (troot t) [])). rewrite add_emb. reflexivity.
Qed.
Lemma date_atom s d : dateFromString s = Ok d -> em d = OAtom d.
Proof. unfold dateFromString, datetime. repeat match goal with |- context [match ?x with _ => _ end] => destruct x; try discriminate end; intro H; apply Ok_inj in H; subst; reflexivity. Qed.
Lemma step_emb t e : stepO T builtin (emt t) e = emr (step T t e).
Proof.
  destruct e as [tag|x|tag]; cbn [stepO step].
  - unfold startTagO, startTag, emr. cbn [emt ostack okey oroot odata]. change (mkTargetO (map emf (tstack t)) (tkey t) (em (troot t)) []) with (emt (mkTarget (tstack t) (tkey t) (troot t) [])).
    destruct (eqb tag (u "dict")); [rewrite slot_emb; destruct (slotFor _); reflexivity|]. destruct (eqb tag (u "array")); [rewrite slot_emb; destruct (slotFor _); reflexivity|]. reflexivity.
  - reflexivity.
  - unfold endTagO, endTag. change (okey (emt t)) with (tkey t).
    destruct (eqb tag (u "dict")); [destruct (truthyKey (tkey t)); [reflexivity|apply pop_emb]|]. destruct (eqb tag (u "array")); [apply pop_emb|].
    destruct (eqb tag (u "key")).
    { destruct (truthyKey (tkey t)); [reflexivity|]. unfold getDataO, getData. destruct t as [st ky rt dt]. cbn [emt ostack tstack odata tdata]. destruct st as [|[? ?|? ?] r]; [reflexivity| |reflexivity]. cbn [map emf]. destruct (joinTexts dt); reflexivity. }
    destruct (eqb tag (u "true")); [exact (add_emb (PBool true) t)|]. destruct (eqb tag (u "false")); [exact (add_emb (PBool false) t)|].
    destruct (eqb tag (u "integer")); [apply with_emb; intro s; destruct (parseInt T s); reflexivity|]. destruct (eqb tag (u "real")); [apply with_emb; intro s; destruct (parseFloat T s); reflexivity|].
    destruct (eqb tag (u "string")); [apply with_emb; reflexivity|]. destruct (eqb tag (u "data")); [apply with_emb; intro s; unfold fromBase64; cbn [emb]; destruct builtin; destruct (b64decode s); reflexivity|].
    destruct (eqb tag (u "date")); [|reflexivity]. apply with_emb. intro s. destruct (dateFromString s) as [d|] eqn:E; [|reflexivity]. cbn [bind]. rewrite (date_atom _ _ E). reflexivity.
Qed.
Lemma run_emb l : runTargetO T builtin l = do v <- runTarget T l; Ok (em v).
Proof.
  unfold runTargetO, runTarget. change newTargetO with (emt newTarget).
  assert (G : forall t, foldM (stepO T builtin) (emt t) l = emr (foldM (step T) t l)).
  { induction l as [|e l IH]; intro t; [reflexivity|]. cbn [foldM]. rewrite step_emb. destruct (step T t e) as [t'|]; [|reflexivity]. unfold emr at 1. cbn [bind]. apply IH. }
  rewrite G. destruct (foldM (step T) newTarget l); reflexivity.
Qed.
End Read.

(** ** C108 *)
(** An object is written exactly if it stands for a value that is, and like it. *)
Theorem C108_written : forall R comparable builtin skip sortKeys pretty level v e,
  totreeO R comparable builtin skip sortKeys pretty level v = Ok e <-> exists w, stands comparable builtin skip sortKeys v w /\ totree R sortKeys pretty level w = Ok e.
Proof. intros. apply written. Qed.
Print Assumptions C108_written.
(** What is read with either option, from trees and from files; both fail together. *)
Theorem C108_read : forall T builtin e b x,
  (fromtreeO T builtin e = Ok x <-> exists v, fromtree T e = Ok v /\ readAs builtin v x) /\
  (plistLoadsO T builtin b = Ok x <-> exists v, plistLoads T b = Ok v /\ readAs builtin v x).
Proof.
  intros T builtin e b x.
  assert (G : forall evs, runTargetO T builtin evs = Ok x <-> exists v, runTarget T evs = Ok v /\ readAs builtin v x).
  { intro evs. rewrite run_emb, bind_Ok. split; intros (v & A & B); exists v; (split; [exact A|]); [apply Ok_inj in B; subst; apply emb_readAs|f_equal; symmetry; apply readAs_unique; exact B]. }
  split; [apply G|]. unfold plistLoadsO, plistLoads. split.
  - intro H. apply bind_Ok in H as (r & E & H). apply G in H as (v & A & B). exists v. split; [rewrite E; exact A|exact B].
  - intros (v & A & B). apply bind_Ok in A as (r & E & A). rewrite E. cbn [bind]. apply G. exists v. split; assumption.
Qed.
Print Assumptions C108_read.
(** partial: texts without carriage returns, as in C60_file_partial *)
Theorem C108_round_trip_partial : forall T R comparable builtin builtin' skip pretty v w, pytext_laws T -> repr_laws T R ->
  stands comparable builtin skip true v w -> plistable w ->
  (forall s, inside (PStr s) w -> textOk s) -> (forall d k x, inside (PDict d) w -> In (PStr k, x) d -> textOk k) ->
  exists b w' x, plistDumpsO T R comparable builtin skip true pretty v = Ok b /\ plistLoadsO T builtin' b = Ok x /\ readAs builtin' w' x /\ psame w w'.
Proof.
  intros T R cmp builtin builtin' skip pretty v w LT LR S P T1 T2. destruct (C60_file_partial T R pretty w LT LR P T1 T2) as (b & w' & D & L & Q).
  exists b, w', (emb builtin' w'). split; [|split; [apply (proj2 (C108_read T builtin' (leaf [] None) b _)); exists w'; split; [exact L|apply emb_readAs]|split; [apply emb_readAs|exact Q]]].
  unfold plistDumps, dumpTree in D. apply bind_Ok in D as (root & E & D). apply bind_Ok in E as (el & E & K). apply Ok_inj in K. subst root.
  unfold plistDumpsO. rewrite (proj2 (C108_written R cmp builtin skip true pretty 1 v el)) by (exists w; split; assumption). exact D.
Qed.
Print Assumptions C108_round_trip_partial.
(** Data objects as text and back, whatever the length of the lines *)
Theorem C108_base64 : forall maxlinelength level b, Forall (fun x => (x < 256)%N) b -> fromBase64 (asBase64 maxlinelength level b) = Ok (OData b).
Proof.
  intros ml level b F. unfold fromBase64. replace (b64decode (asBase64 ml level b)) with (Ok b : res bytes); [reflexivity|]. symmetry.
  pose proof (b64encode_chars b F) as C. rewrite Forall_forall in C.
  assert (In1 : forall c, In c (asBase64 ml level b) -> In c (b64encode b) \/ c = 10%N \/ c = 32%N).
  { intros c I. unfold asBase64 in I. destruct (b64encode b) as [|y r] eqn:E; [destruct I|]. rewrite <- E in *. assert (G : forall n, In c (chunks (length (b64encode b)) n (10%N :: concat (repeat (u "  ") level)) (b64encode b) ++ 10%N :: concat (repeat (u "  ") level)) -> In c (b64encode b) \/ c = 10%N \/ c = 32%N).
    { intros n J. apply in_app_or in J as [J|J]; [apply chunks_In in J as [J|J]; [right; apply indent_chars in J; exact J|left; exact J]|right; apply indent_chars in J; exact J]. }
    destruct ml as [[|p|p]|]; auto; eapply G; exact I. }
  unfold b64decode. replace (forallb _ _) with true.
  2:{ symmetry. apply forallb_forall. intros c I. apply N.ltb_lt. destruct (In1 c I) as [J|[->| ->]]; [apply C; exact J|lia|lia]. }
  rewrite a2b_filter. replace (filter b64chars (asBase64 ml level b)) with (b64encode b); [apply a2b_encode; exact F|]. symmetry.
  assert (A : filter b64chars (b64encode b) = b64encode b) by (apply filter_all; intros c I; apply C; exact I).
  unfold asBase64. destruct (b64encode b) as [|y r] eqn:E; [reflexivity|]. rewrite <- E in *.
  assert (G : forall n, (0 < n)%nat -> filter b64chars (chunks (length (b64encode b)) n (10%N :: concat (repeat (u "  ") level)) (b64encode b) ++ 10%N :: concat (repeat (u "  ") level)) = b64encode b).
  { intros n L. rewrite filter_app, chunks_filter.
    - rewrite filter_none, app_nil_r; [reflexivity|]. intros c I. apply indent_chars in I as [->| ->]; reflexivity.
    - exact L.
    - lia.
    - intros c I. apply indent_chars in I as [->| ->]; reflexivity.
    - intros c I. apply C. exact I. }
  destruct ml as [[|p|p]|]; try exact A; apply G; lia.
Qed.
Print Assumptions C108_base64.
Example C108_case : let cmp := fun _ : list pyval => true in let v := ODict [(PStr (u "b"), OAtom (PBytes (u "text"))); (PStr (u "a"), OList [OData [255%N]; OByteArray [0%N]]); (PInt 1, OAtom PNone)] in
  (do b <- plistDumpsO toyText toyRepr cmp false true false true v; plistLoadsO toyText false b) = Ok (ODict [(PStr (u "b"), OAtom (PStr (u "text"))); (PStr (u "a"), OList [OData [255%N]; OData [0%N]])]) /\
  plistDumpsO toyText toyRepr cmp false true true true v = Err TypeError /\ plistDumpsO toyText toyRepr cmp false false false true v = Err TypeError /\
  writePlistToString toyText toyRepr cmp (OAtom (PBytes [255%N])) = Err ValueError /\
  (do b <- writePlistToString toyText toyRepr cmp (ODict [(PStr (u "b"), OAtom (PInt 1)); (PStr (u "a"), OData [1%N])]); readPlistFromString toyText b) = Ok (ODict [(PStr (u "a"), OData [1%N]); (PStr (u "b"), OAtom (PInt 1))]).
Proof. vm_compute. repeat split. Qed.
