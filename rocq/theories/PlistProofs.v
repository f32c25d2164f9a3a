(** Lemmas about the model of plistlib. *)
From Coq Require Import String NArith ZArith Bool Lia ZifyN List Permutation.
From Coq.Floats Require Import SpecFloat.
From Verif Require Import Base PyVal PyText FloatRepr Xml Ufo UfoProofs Plist.
Import ListNotations.
Local Open Scope string_scope.
Local Open Scope list_scope.
Ltac Zify.zify_post_hook ::= Z.div_mod_to_equations.

(** * Dates *)
Lemma fold_dec_zeros k acc s : acc = 0%N -> fold_left dec_step (repeat 48%N k ++ s) acc = fold_left dec_step s acc.
Proof. intros ->. induction k as [|k IH]; [reflexivity|]. exact IH. Qed.
Lemma takeDigits_app n s r acc : length s = n -> forallb is_digit s = true -> takeDigits n (s ++ r) acc = Some (fold_left dec_step s acc, r).
Proof.
  revert n acc. induction s as [|c s IH]; intros n acc L D; cbn in L; subst n; [reflexivity|].
  cbn [forallb] in D. apply andb_prop in D as [D1 D2]. cbn [takeDigits app fold_left]. rewrite D1. apply IH; auto.
Qed.
Lemma takeDigits_pad n v r : (0 < n)%nat -> (v < 10 ^ N.of_nat n)%N -> takeDigits n (pad n v ++ r) 0 = Some (v, r).
Proof.
  intros P L. rewrite takeDigits_app.
  - unfold pad, zfill. rewrite fold_dec_zeros by reflexivity. f_equal. f_equal. apply dec_val_str_of_N.
  - unfold pad. rewrite zfill_length. pose proof (str_of_N_length v n P L). lia.
  - apply zfill_digit, str_of_N_digit.
Qed.
Lemma date_round_trip y mo d h mi s : datetimeOk y mo d h mi s 0 = true ->
  dateFromString (dateToString y mo d h mi s) = Ok (PDate y mo d h mi s 0).
Proof.
  intro K. pose proof K as K'. unfold datetimeOk in K'. repeat (apply andb_prop in K' as [K' ?]).
  repeat match goal with H : (_ <=? _)%N = true |- _ => apply N.leb_le in H end.
  assert (daysInMonth y mo <= 31)%N by (unfold daysInMonth; destruct (N.eqb mo 2), (leapYear y), (mem mo [4; 6; 9; 11]%N); lia).
  unfold dateFromString, dateToString. rewrite takeDigits_pad by (cbn; lia).
  change (u "-") with [45%N]. change (u "T") with [84%N]. change (u ":") with [58%N]. change (u "Z") with [90%N].
  cbn [app]. cbn [dateFields N.eqb Pos.eqb].
  do 5 (rewrite takeDigits_pad by (cbn; lia); cbn [dateFields N.eqb Pos.eqb option_map app]).
  unfold datetime. cbn [nth]. rewrite K. reflexivity.
Qed.

(** * Base64 *)
Lemma b64val_char v : (v < 64)%N -> b64val (b64char v) = Some v /\ b64char v <> 61%N /\ (b64char v < 128)%N.
Proof.
  intro L. assert (I : In v (map N.of_nat (seq 0 64))).
  { apply in_map_iff. exists (N.to_nat v). split; [lia|]. apply in_seq. lia. }
  assert (F : forallb (fun v => match b64val (b64char v) with Some w => N.eqb w v | None => false end && negb (N.eqb (b64char v) 61) && (b64char v <? 128)%N)
    (map N.of_nat (seq 0 64)) = true) by (vm_compute; reflexivity).
  rewrite forallb_forall in F. specialize (F v I). apply andb_prop in F as [F F3]. apply andb_prop in F as [F1 F2].
  destruct (b64val (b64char v)) as [w|]; [|discriminate]. apply N.eqb_eq in F1. subst w. split; [reflexivity|]. split; [|apply N.ltb_lt; exact F3].
  apply N.eqb_neq. apply negb_true_iff. exact F2.
Qed.
Definition b64chars (c : N) : bool := N.eqb c 61 || match b64val c with Some _ => true | None => false end.
Lemma a2b_filter s pos left pads : a2b s pos left pads = a2b (filter b64chars s) pos left pads.
Proof.
  revert pos left pads. induction s as [|c s IH]; intros pos left pads; [reflexivity|]. cbn [filter]. unfold b64chars at 1.
  cbn [a2b]. destruct (N.eqb c 61) eqn:E; cbn [orb].
  - cbn [a2b]. rewrite E. destruct (Nat.leb 2 pos); [|apply IH]. destruct (Nat.leb 4 _); [reflexivity|apply IH].
  - destruct (b64val c) as [v|] eqn:V; [|apply IH]. cbn [a2b]. rewrite E, V.
    destruct pos as [|[|[|pos]]]; rewrite IH; reflexivity.
Qed.
Lemma list3_ind {A} (P : list A -> Prop) : P [] -> (forall x, P [x]) -> (forall x y, P [x; y]) ->
  (forall x y z r, P r -> P (x :: y :: z :: r)) -> forall l, P l.
Proof.
  intros H0 H1 H2 H3 l. assert (H : forall n l, (length l <= n)%nat -> P l).
  { induction n as [|n IH]; intros [|x [|y [|z r]]] L; auto; cbn in L; try lia. apply H3, IH. lia. }
  apply (H (length l) l). lia.
Qed.
Lemma a2b_quad v1 v2 v3 v4 r : (v1 < 64)%N -> (v2 < 64)%N -> (v3 < 64)%N -> (v4 < 64)%N ->
  a2b (b64char v1 :: b64char v2 :: b64char v3 :: b64char v4 :: r) 0 0 0 =
  do t <- a2b r 0 0 0; Ok ((v1 * 4 + v2 / 16)%N :: ((v2 mod 16) * 16 + v3 / 4)%N :: ((v3 mod 4) * 64 + v4)%N :: t).
Proof.
  intros L1 L2 L3 L4. destruct (b64val_char v1 L1) as (V1 & E1 & _), (b64val_char v2 L2) as (V2 & E2 & _),
    (b64val_char v3 L3) as (V3 & E3 & _), (b64val_char v4 L4) as (V4 & E4 & _).
  apply N.eqb_neq in E1, E2, E3, E4.
  cbn [a2b]. rewrite E1, V1, E2, V2, E3, V3, E4, V4. destruct (a2b r 0 0 0); reflexivity.
Qed.
Lemma a2b_encode b : Forall (fun x => (x < 256)%N) b -> a2b (b64encode b) 0 0 0 = Ok b.
Proof.
  induction b as [|x|x y|x y z r IH] using list3_ind; intro F.
  - reflexivity.
  - inversion F as [|? ? X _]; subst. cbn [b64encode].
    destruct (b64val_char (x / 4)) as (V1 & E1 & _); [lia|]. destruct (b64val_char ((x mod 4) * 16)) as (V2 & E2 & _); [lia|].
    apply N.eqb_neq in E1, E2. cbn [a2b]. rewrite E1, V1, E2, V2. cbn. do 2 f_equal. lia.
  - inversion F as [|? ? X F']; subst. inversion F' as [|? ? Y _]; subst. cbn [b64encode].
    destruct (b64val_char (x / 4)) as (V1 & E1 & _); [lia|].
    destruct (b64val_char ((x mod 4) * 16 + y / 16)) as (V2 & E2 & _); [lia|].
    destruct (b64val_char ((y mod 16) * 4)) as (V3 & E3 & _); [lia|].
    apply N.eqb_neq in E1, E2, E3. cbn [a2b]. rewrite E1, V1, E2, V2, E3, V3. cbn. do 2 f_equal; [lia|]. f_equal. lia.
  - inversion F as [|? ? X F']; subst. inversion F' as [|? ? Y F'']; subst. inversion F'' as [|? ? Z F3]; subst.
    cbn [b64encode]. rewrite a2b_quad by lia. rewrite (IH F3). cbn [bind]. f_equal. f_equal; [lia|]. f_equal; [lia|]. f_equal. lia.
Qed.
Lemma b64encode_chars b : Forall (fun x => (x < 256)%N) b -> Forall (fun c => b64chars c = true /\ (c < 128)%N) (b64encode b).
Proof.
  assert (C : forall v, (v < 64)%N -> b64chars (b64char v) = true /\ (b64char v < 128)%N).
  { intros v L. destruct (b64val_char v L) as (V & _ & B). split; [|exact B]. unfold b64chars. rewrite V. apply orb_true_r. }
  assert (E : b64chars 61 = true /\ (61 < 128)%N) by (split; reflexivity).
  induction b as [|x|x y|x y z r IH] using list3_ind; intro F; cbn [b64encode].
  - constructor.
  - inversion F; subst. repeat (constructor; [first [exact E|apply C; lia]|]). constructor.
  - inversion F as [|? ? X F']; subst. inversion F'; subst. repeat (constructor; [first [exact E|apply C; lia]|]). constructor.
  - inversion F as [|? ? X F']; subst. inversion F' as [|? ? Y F'']; subst. inversion F''; subst.
    repeat (constructor; [apply C; lia|]). auto.
Qed.
Lemma filter_none {A} (f : A -> bool) l : (forall x, In x l -> f x = false) -> filter f l = [].
Proof. induction l as [|x l IH]; intro H; [reflexivity|]. cbn. rewrite (H x) by (left; reflexivity). apply IH. intros; apply H; right; assumption. Qed.
Lemma filter_all {A} (f : A -> bool) l : (forall x, In x l -> f x = true) -> filter f l = l.
Proof. induction l as [|x l IH]; intro H; [reflexivity|]. cbn. rewrite (H x) by (left; reflexivity). f_equal. apply IH. intros; apply H; right; assumption. Qed.
Lemma chunks_filter f (n : nat) indent fuel s : (0 < n)%nat -> (length s <= fuel)%nat ->
  (forall c, In c indent -> f c = false) -> (forall c, In c s -> f c = true) -> filter f (chunks fuel n indent s) = s.
Proof.
  intros P L Hi. revert s L. induction fuel as [|fuel IH]; intros s L Hs.
  - destruct s; [reflexivity|cbn in L; lia].
  - cbn [chunks]. destruct s as [|c s]; [reflexivity|].
    rewrite !filter_app, (filter_none f indent Hi), IH.
    + cbn [app]. rewrite filter_all; [apply firstn_skipn|]. intros x I. apply Hs. rewrite <- (firstn_skipn n (c :: s)). apply in_or_app; auto.
    + rewrite skipn_length. cbn [length] in *. lia.
    + intros x I. apply Hs. rewrite <- (firstn_skipn n (c :: s)). apply in_or_app; auto.
Qed.
Lemma indent_chars level c : In c (10%N :: concat (repeat (u "  ") level)) -> c = 10%N \/ c = 32%N.
Proof.
  intros [<-|I]; [left; reflexivity|]. right. apply in_concat in I as (s & Is & Ic). apply repeat_spec in Is. subst s.
  cbn in Ic. destruct Ic as [<-|[<-|[]]]; reflexivity.
Qed.
Lemma chunks_In fuel n indent s c : In c (chunks fuel n indent s) -> In c indent \/ In c s.
Proof.
  revert s. induction fuel as [|fuel IH]; intros s; [intros []|]. cbn [chunks]. destruct s as [|x s]; [intros []|].
  intro I. apply in_app_or in I as [I|I]; [auto|]. rewrite <- (firstn_skipn n (x :: s)). apply in_app_or in I as [I|I].
  - right. apply in_or_app; auto.
  - apply IH in I as [I|I]; [auto|]. right. apply in_or_app; auto.
Qed.
Lemma encodeBase64_In b pretty level c : Forall (fun x => (x < 256)%N) b -> In c (encodeBase64 b pretty level) ->
  (c < 128)%N /\ (b64chars c = true \/ c = 10%N \/ c = 32%N).
Proof.
  intros F I. pose proof (b64encode_chars b F) as C. rewrite Forall_forall in C.
  assert (K : In c (b64encode b) -> (c < 128)%N /\ (b64chars c = true \/ c = 10%N \/ c = 32%N)) by (intro J; destruct (C c J); auto).
  unfold encodeBase64 in I. destruct (b64encode b) as [|x r] eqn:E; [destruct I|]. destruct pretty; [|auto].
  assert (J : forall c, In c (10%N :: concat (repeat (u "  ") level)) -> (c < 128)%N /\ (b64chars c = true \/ c = 10%N \/ c = 32%N)).
  { intros k J. apply indent_chars in J as [->| ->]; split; auto; reflexivity. }
  cbv zeta in I. apply in_app_or in I as [I|I]; [|auto]. apply chunks_In in I as [I|I]; auto.
Qed.
Lemma b64_round_trip b pretty level : Forall (fun x => (x < 256)%N) b -> b64decode (encodeBase64 b pretty level) = Ok b.
Proof.
  intro F. unfold b64decode. replace (forallb _ _) with true.
  2:{ symmetry. apply forallb_forall. intros c I. apply N.ltb_lt. eapply encodeBase64_In; eassumption. }
  rewrite a2b_filter. replace (filter b64chars (encodeBase64 b pretty level)) with (b64encode b); [apply a2b_encode; exact F|].
  pose proof (b64encode_chars b F) as C. rewrite Forall_forall in C. unfold encodeBase64.
  destruct (b64encode b) as [|x r] eqn:E; [reflexivity|]. rewrite <- E in *. symmetry. destruct pretty.
  - cbv zeta. rewrite filter_app, chunks_filter.
    + rewrite filter_none, app_nil_r; [reflexivity|]. intros c I. apply indent_chars in I as [->| ->]; reflexivity.
    + lia.
    + lia.
    + intros c I. apply indent_chars in I as [->| ->]; reflexivity.
    + intros c I. apply C. exact I.
  - apply filter_all. intros c I. apply C. exact I.
Qed.

(** * Values that a property list can hold *)
Inductive plistable : pyval -> Prop :=
| PL_str s : plistable (PStr s)
| PL_bool b : plistable (PBool b)
| PL_int z : (- 2 ^ 63 <= z < 2 ^ 64)%Z -> plistable (PInt z)
| PL_float f : isDouble f -> plistable (PFloat f)
| PL_bytes b : Forall (fun x => (x < 256)%N) b -> plistable (PBytes b)
| PL_date y mo d h mi s : datetimeOk y mo d h mi s 0 = true -> plistable (PDate y mo d h mi s 0)
| PL_list l : Forall plistable l -> plistable (PList l)
| PL_tuple l : Forall plistable l -> plistable (PTuple l)
| PL_dict (m : list (str * pyval)) : NoDup (map fst m) -> Forall (fun kv => plistable (snd kv)) m ->
    plistable (PDict (map (fun '(k, x) => (PStr k, x)) m)).

Lemma insertItem_perm {A} k (x : A) l : Permutation (insertItem k x l) ((k, x) :: l).
Proof.
  induction l as [|[k' x'] l IH]; cbn; [reflexivity|]. destruct (strLe k k'); [reflexivity|].
  rewrite IH. apply perm_swap.
Qed.
Lemma sortItems_perm {A} (l : list (str * A)) : Permutation (sortItems l) l.
Proof. induction l as [|[k x] l IH]; cbn; [constructor|]. rewrite insertItem_perm, IH. reflexivity. Qed.
Lemma insertItem_map {A B} (f : A -> B) k x l :
  insertItem k (f x) (map (fun '(k, x) => (k, f x)) l) = map (fun '(k, x) => (k, f x)) (insertItem k x l).
Proof. induction l as [|[k' x'] l IH]; cbn; [reflexivity|]. destruct (strLe k k'); [reflexivity|]. cbn. rewrite IH. reflexivity. Qed.
Lemma sortItems_map {A B} (f : A -> B) l :
  sortItems (map (fun '(k, x) => (k, f x)) l) = map (fun '(k, x) => (k, f x)) (sortItems l).
Proof. induction l as [|[k x] l IH]; cbn; [reflexivity|]. rewrite IH. apply insertItem_map. Qed.

Section Proofs.
Variable T : pytext.
Variable R : spec_float -> str.
Notation mk := (makeElement R).

Lemma mk_list sk pr lv l : mk sk pr lv (PList l) = do ch <- mapM (mk sk pr (S lv)) l; Ok (node0 (u "array") ch).
Proof.
  cbn [makeElement]. f_equal. induction l as [|x l IH]; [reflexivity|]. cbn [mapM]. rewrite <- IH. reflexivity.
Qed.
Lemma mk_tuple sk pr lv l : mk sk pr lv (PTuple l) = do ch <- mapM (mk sk pr (S lv)) l; Ok (node0 (u "array") ch).
Proof. rewrite <- mk_list. reflexivity. Qed.
Lemma mk_dict sk pr lv d : mk sk pr lv (PDict d) = dictElement sk (map (fun '(k, x) => (k, mk sk pr (S lv) x)) d).
Proof. cbn [makeElement]. f_equal. induction d as [|[k x] d IH]; [reflexivity|]. cbn [map]. rewrite <- IH. reflexivity. Qed.

Definition itemsOf (sk : bool) (m : list (str * pyval)) := if sk then sortItems m else m.
Lemma itemsOf_perm sk m : Permutation (itemsOf sk m) m.
Proof. destruct sk; [apply sortItems_perm|reflexivity]. Qed.
Lemma strItems_map {A} (m : list (str * A)) : strItems (map (fun '(k, x) => (PStr k, x)) m) = Some m.
Proof. induction m as [|[k x] m IH]; [reflexivity|]. cbn. rewrite IH. reflexivity. Qed.
Lemma mk_dict_str sk pr lv m : mk sk pr lv (PDict (map (fun '(k, x) => (PStr k, x)) m)) =
  do ch <- dictChildren (map (fun '(k, x) => (PStr k, mk sk pr (S lv) x)) (itemsOf sk m)); Ok (node0 (u "dict") ch).
Proof.
  rewrite mk_dict. unfold dictElement. f_equal. rewrite map_map.
  replace (map (fun x => let '(k, x0) := let '(k, x0) := x in (PStr k, x0) in (k, mk sk pr (S lv) x0)) m)
    with (map (fun '(k, x) => (PStr k, x)) (map (fun '(k, x) => (k, mk sk pr (S lv) x)) m)) by (rewrite map_map; apply map_ext; intros [k x]; reflexivity).
  destruct sk; cbn [itemsOf].
  - rewrite strItems_map, sortItems_map, map_map. f_equal. apply map_ext. intros [k x]. reflexivity.
  - rewrite map_map. f_equal. apply map_ext. intros [k x]. reflexivity.
Qed.
Lemma dictChildren_spec (m : list (str * res elem)) ch : dictChildren (map (fun '(k, x) => (PStr k, x)) m) = Ok ch <->
  exists es, Forall2 (fun kx e => snd kx = Ok e) m es /\ ch = concat (map (fun '(k, e) => [keyElem k; e]) (combine (map fst m) es)).
Proof.
  revert ch. induction m as [|[k x] m IH]; intro ch; cbn [map dictChildren].
  - split; [intro H; inversion H; exists []; split; constructor|]. intros (es & F & ->). inversion F; subst. reflexivity.
  - rewrite bind_Ok. split.
    + intros (e & E & H). apply bind_Ok in H as (t & H & K). inversion K; subst. apply IH in H as (es & F & ->).
      exists (e :: es). split; [constructor; [reflexivity|assumption]|reflexivity].
    + intros (es & F & ->). inversion F as [|? e ? es' E F']; subst. cbn in E. exists e. split; [exact E|].
      rewrite bind_Ok. eexists. split; [apply IH; exists es'; split; [exact F'|reflexivity]|reflexivity].
Qed.

(** every such value can be stored *)
Lemma mapM_total {A B} (f : A -> res B) l : Forall (fun x => exists y, f x = Ok y) l -> exists ys, mapM f l = Ok ys.
Proof.
  induction 1 as [|x l (y & E) _ (ys & IH)]; [exists []; reflexivity|]. exists (y :: ys). cbn [mapM]. rewrite E. cbn [bind]. rewrite IH. reflexivity.
Qed.
Lemma mk_total v : plistable v -> forall sk pr lv, exists e, mk sk pr lv v = Ok e.
Proof.
  induction v using pyval_ind'; intros P sk pr lv; inversion P; subst; try (eexists; reflexivity).
  - cbn [makeElement]. destruct (Z.leb_spec (- 2 ^ 63) z), (Z.ltb_spec z (2 ^ 64)); cbn [andb]; try lia. eexists; reflexivity.
  - rewrite mk_list. assert (M : exists ch, mapM (mk sk pr (S lv)) l = Ok ch); [|destruct M as (ch & ->); eexists; reflexivity].
    apply mapM_total. apply Forall_forall. intros x I. rewrite Forall_forall in *. auto.
  - rewrite mk_tuple. assert (M : exists ch, mapM (mk sk pr (S lv)) l = Ok ch); [|destruct M as (ch & ->); eexists; reflexivity].
    apply mapM_total. apply Forall_forall. intros x I. rewrite Forall_forall in *. auto.
  - rewrite mk_dict_str.
    assert (F : Forall (fun kv => exists e, mk sk pr (S lv) (snd kv) = Ok e) (itemsOf sk m)).
    { eapply Permutation_Forall; [apply Permutation_sym, itemsOf_perm|]. rewrite Forall_forall in *. intros [k x] I. cbn.
      destruct (H (PStr k, x)) as [_ K]; [apply in_map_iff; exists (k, x); auto|]. apply K. apply (H2 _ I). }
    assert (G : exists es, Forall2 (fun kx e => snd kx = Ok e) (map (fun '(k, x) => (k, mk sk pr (S lv) x)) (itemsOf sk m)) es).
    { induction F as [|[k x] r (e & E) _ (es & IH)]; [exists []; constructor|]. exists (e :: es). constructor; assumption. }
    destruct G as (es & G).
    replace (map (fun '(k, x) => (PStr k, mk sk pr (S lv) x)) (itemsOf sk m)) with
      (map (fun '(k, x) => (PStr k, x)) (map (fun '(k, x) => (k, mk sk pr (S lv) x)) (itemsOf sk m))) by (rewrite map_map; apply map_ext; intros [? ?]; reflexivity).
    destruct (dictChildren (map (fun '(k, x) => (PStr k, x)) (map (fun '(k, x) => (k, mk sk pr (S lv) x)) (itemsOf sk m)))) as [ch|x] eqn:E.
    + eexists; reflexivity.
    + exfalso. match type of E with ?a = _ => assert (K : exists ch, a = Ok ch) end; [eexists; apply dictChildren_spec; exists es; eauto|].
      destruct K as (ch & K). congruence.
Qed.

(** * What the target is told about a tree *)
Definition asStr (x : option etext) : str := match x with None => [] | Some (XS s) => s | Some (XB b) => b end.
Definition junk (l : list event) : Prop := Forall (fun e => exists x, e = EvData x) l.
(** the calls for a tree: a leaf's text in pieces of strings, and any other
    character data elsewhere *)
Inductive trace : elem -> list event -> Prop :=
| tr_leaf tag at' text tail xs : joinTexts xs = Ok (asStr text) ->
    trace (Elem tag at' text [] tail) (EvStart tag :: map EvData xs ++ [EvEnd tag])
| tr_node tag at' text ch tail j evs : ch <> [] -> junk j -> ktrace ch evs ->
    trace (Elem tag at' text ch tail) (EvStart tag :: j ++ evs ++ [EvEnd tag])
with ktrace : list elem -> list event -> Prop :=
| kt_nil : ktrace [] []
| kt_cons e r evs j evs' : trace e evs -> junk j -> ktrace r evs' -> ktrace (e :: r) (evs ++ j ++ evs').

Notation st := (step T).
Lemma foldM_app {A S} (f : S -> A -> res S) s l m : foldM f s (l ++ m) = do s' <- foldM f s l; foldM f s' m.
Proof. revert s; induction l as [|x l IH]; intro s; [reflexivity|]. cbn. destruct (f s x); [apply IH|reflexivity]. Qed.
Definition setData (t : target) (d : list etext) : target := mkTarget (tstack t) (tkey t) (troot t) d.
Lemma junk_run j t : junk j -> exists d, foldM st t j = Ok (setData t d).
Proof.
  intro J. revert t. induction J as [|e j (x & ->) _ IH]; intro t; [exists (tdata t); destruct t; reflexivity|].
  cbn [foldM step bind]. destruct (IH (mkTarget (tstack t) (tkey t) (troot t) (tdata t ++ [x]))) as (d & E). exists d. exact E.
Qed.
Lemma datas_run xs t : foldM st t (map EvData xs) = Ok (setData t (tdata t ++ xs)).
Proof.
  revert t. induction xs as [|x xs IH]; intro t; cbn [map foldM step bind].
  - rewrite app_nil_r. destruct t; reflexivity.
  - rewrite IH. unfold setData. cbn. rewrite <- app_assoc. reflexivity.
Qed.
(** the calls for a leaf *)
Lemma leaf_run tag xs t s : eqb tag (u "dict") = false -> eqb tag (u "array") = false -> joinTexts xs = Ok s ->
  foldM st t (EvStart tag :: map EvData xs ++ [EvEnd tag]) = endTag T tag (setData t xs).
Proof.
  intros N1 N2 J. cbn [foldM step]. unfold startTag. rewrite N1, N2. cbn [bind]. rewrite foldM_app, datas_run. cbn [bind foldM step app].
  unfold setData. cbn [tstack tkey troot tdata app]. destruct (endTag T tag _); reflexivity.
Qed.
Lemma withData_run t xs s v k sl : joinTexts xs = Ok s -> k s = Ok v -> slotFor t = Ok sl ->
  exists d, withData (setData t xs) k = Ok (setData (place sl v t) d).
Proof.
  intros J K S. unfold withData, getData, setData. cbn [tdata tstack tkey troot]. rewrite J. cbn [bind]. rewrite K. cbn [bind]. unfold addObject, slotFor in *. cbn [tstack tkey].
  rewrite S. cbn [bind]. exists []. unfold place. cbn [tstack tdata]. destruct sl; [reflexivity| |]; destruct (tstack t) as [|[|] ?] eqn:Et; cbn; rewrite ?Et; reflexivity.
Qed.
Lemma slotFor_data t d : slotFor (setData t d) = slotFor t.
Proof. reflexivity. Qed.
Lemma place_data sl v t d : exists d', place sl v (setData t d) = setData (place sl v t) d'.
Proof. exists d. unfold place, setData. cbn. destruct sl; [reflexivity| |]; destruct (tstack t) as [|[|] ?] eqn:Et; cbn; rewrite ?Et; reflexivity. Qed.
Lemma dset_fresh k v d : (forall x, ~ In (PStr k, x) d) -> dset k v d = d ++ [(PStr k, v)].
Proof.
  induction d as [|[k' v'] d IH]; intro N; [reflexivity|]. cbn [dset app]. rewrite IH by (intros x I; apply (N x); right; exact I).
  destruct k'; try reflexivity. destruct (eqb_spec k s) as [->|]; [|reflexivity]. exfalso. apply (N v'). left. reflexivity.
Qed.
(** a finished container goes to the place chosen at its start *)
Lemma pop_dict sl d t d0 : slotFor t = Ok sl ->
  exists d', popFrame (mkTarget (FDict sl d :: tstack t) None (troot t) d0) = Ok (setData (place sl (PDict d) t) d').
Proof.
  intro S. unfold popFrame, place, slotFor, setData in *. cbn [tstack tkey troot tdata]. exists d0.
  destruct sl; [|destruct (tkey t), (tstack t) as [|[|] r]; try discriminate S; reflexivity..].
  cbn. reflexivity.
Qed.
Lemma pop_list sl l t d0 : slotFor t = Ok sl ->
  exists d', popFrame (mkTarget (FList sl l :: tstack t) None (troot t) d0) = Ok (setData (place sl (PList l) t) d').
Proof.
  intro S. unfold popFrame, place, slotFor, setData in *. cbn [tstack tkey troot tdata]. exists d0.
  destruct sl; [|destruct (tkey t), (tstack t) as [|[|] r]; try discriminate S; reflexivity..].
  cbn. reflexivity.
Qed.

Hypothesis LT : pytext_laws T.
Hypothesis LR : repr_laws T R.

Definition reads (v : pyval) (e : elem) : Prop := forall evs, trace e evs -> forall t sl, slotFor t = Ok sl ->
  exists w d, foldM st t evs = Ok (setData (place sl w t) d) /\ psame v w.

Lemma read_leaf v tag text (k : str -> res pyval) : eqb tag (u "dict") = false -> eqb tag (u "array") = false ->
  (forall t, endTag T tag t = withData t k) -> k (asStr text) = Ok v -> container v = false ->
  reads v (leaf tag text).
Proof.
  intros N1 N2 E K C evs Tr t sl S. inversion Tr as [? ? ? ? xs J|]; subst; [|congruence].
  rewrite (leaf_run _ _ _ _ N1 N2 J), E. destruct (withData_run t xs _ v k sl J K S) as (d & ->). exists v, d. split; [reflexivity|constructor; exact C].
Qed.
Lemma read_empty v tag : eqb tag (u "dict") = false -> eqb tag (u "array") = false ->
  (forall t, endTag T tag t = addObject v t) -> container v = false -> reads v (leaf tag None).
Proof.
  intros N1 N2 E C evs Tr t sl S. inversion Tr as [? ? ? ? xs J|]; subst; [|congruence].
  rewrite (leaf_run _ _ _ _ N1 N2 J), E. unfold addObject. rewrite slotFor_data, S. cbn [bind].
  destruct (place_data sl v t xs) as (d & ->). exists v, d. split; [reflexivity|constructor; exact C].
Qed.
Lemma read_items sl0 : forall l ch, Forall2 reads l ch -> forall evs, ktrace ch evs -> forall acc stack root d,
  exists ws d', foldM st (mkTarget (FList sl0 acc :: stack) None root d) evs = Ok (mkTarget (FList sl0 (acc ++ ws) :: stack) None root d') /\ Forall2 psame l ws.
Proof.
  induction 1 as [|v e l ch H _ IH]; intros evs K acc stack root d; inversion K; subst.
  - exists [], d. rewrite app_nil_r. split; [reflexivity|constructor].
  - rewrite !foldM_app.
    destruct (H _ H2 (mkTarget (FList sl0 acc :: stack) None root d) SItem eq_refl) as (w & d1 & E & Sm). rewrite E. cbn [bind place tstack troot tdata]. rewrite foldM_app.
    destruct (junk_run j (setData (mkTarget (FList sl0 (acc ++ [w]) :: stack) None root d) d1) H3) as (d2 & E2). rewrite E2. cbn [bind]. unfold setData. cbn [tstack tkey troot].
    destruct (IH _ H5 (acc ++ [w]) stack root d2) as (ws & d3 & E3 & F). exists (w :: ws), d3.
    rewrite <- app_assoc in E3. split; [exact E3|constructor; assumption].
Qed.
Lemma key_run k evs t sl0 acc stack root d : trace (keyElem k) evs -> t = mkTarget (FDict sl0 acc :: stack) None root d ->
  exists d', foldM st t evs = Ok (mkTarget (FDict sl0 acc :: stack) (Some k) root d').
Proof.
  intros Tr ->. inversion Tr as [? ? ? ? xs J|]; subst; [|congruence]. cbn [asStr] in J.
  rewrite (leaf_run (u "key") xs _ k eq_refl eq_refl J). unfold endTag.
  change (eqb (u "key") (u "dict")) with false. change (eqb (u "key") (u "array")) with false. change (eqb (u "key") (u "key")) with true. cbn [setData tkey truthyKey tstack].
  unfold getData, setData. cbn [tdata tstack tkey troot]. rewrite J. cbn [bind tstack troot]. eexists. reflexivity.
Qed.
Lemma read_entries sl0 : forall (m : list (str * pyval)) es, Forall2 (fun kv e => reads (snd kv) e) m es -> NoDup (map fst m) ->
  forall evs, ktrace (concat (map (fun '(k, e) => [keyElem k; e]) (combine (map fst m) es))) evs ->
  forall acc stack root d, (forall k x, In k (map fst m) -> ~ In (PStr k, x) acc) ->
  exists ws d', foldM st (mkTarget (FDict sl0 acc :: stack) None root d) evs = Ok (mkTarget (FDict sl0 (acc ++ ws) :: stack) None root d') /\
    Forall2 (fun kv w => PStr (fst kv) = fst w /\ psame (snd kv) (snd w)) m ws.
Proof.
  induction 1 as [|[k v] e m es H _ IH]; intros ND evs K acc stack root d Fr; cbn [map fst combine concat app] in *.
  - inversion K; subst. exists [], d. rewrite app_nil_r. split; [reflexivity|constructor].
  - inversion ND as [|? ? NI ND']; subst. inversion K as [|? ? e1 j1 r1 T1 J1 K1]; subst. inversion K1 as [|? ? e2 j2 r2 T2 J2 K2]; subst.
    rewrite !foldM_app. destruct (key_run k e1 _ sl0 acc stack root d T1 eq_refl) as (d1 & E1). rewrite E1. cbn [bind]. rewrite foldM_app.
    destruct (junk_run j1 (mkTarget (FDict sl0 acc :: stack) (Some k) root d1) J1) as (d2 & E2). rewrite E2. cbn [bind]. rewrite foldM_app.
    unfold setData at 1. cbn [tstack tkey troot].
    destruct (H _ T2 (mkTarget (FDict sl0 acc :: stack) (Some k) root d2) (SKey k) eq_refl) as (w & d3 & E3 & Sm). rewrite E3. cbn [bind place tstack troot tdata].
    rewrite (dset_fresh k w acc) by (intro x; apply Fr; left; reflexivity). rewrite foldM_app.
    match goal with |- context [setData ?a d3] => destruct (junk_run j2 (setData a d3) J2) as (d4 & E4) end. rewrite E4. cbn [bind]. unfold setData. cbn [tstack tkey troot].
    destruct (IH ND' _ K2 (acc ++ [(PStr k, w)]) stack root d4) as (ws & d5 & E5 & F).
    { intros k' x I J. apply in_app_or in J as [J|J]; [exact (Fr k' x (or_intror I) J)|]. destruct J as [J|[]]. inversion J; subst. contradiction. }
    exists ((PStr k, w) :: ws), d5. rewrite <- app_assoc in E5. split; [exact E5|constructor; [split; [reflexivity|exact Sm]|exact F]].
Qed.
Lemma F2_map_l {A B C} (P : B -> C -> Prop) (f : A -> B) l m : Forall2 P (map f l) m <-> Forall2 (fun x y => P (f x) y) l m.
Proof.
  split.
  - revert m. induction l as [|x l IH]; intros m H; inversion H; subst; constructor; auto.
  - induction 1; constructor; auto.
Qed.
Lemma read_container tag (v : pyval) (ch : list elem) (mkF : slot -> frame) (Q : slot -> frame -> Prop) :
  (forall t, startTag tag t = do sl <- slotFor t; Ok (mkTarget (mkF sl :: tstack t) None (troot t) [])) ->
  (forall sl stack root d evs, ktrace ch evs -> exists fr d', foldM st (mkTarget (mkF sl :: stack) None root d) evs = Ok (mkTarget (fr :: stack) None root d') /\ Q sl fr) ->
  (forall t sl fr d, slotFor t = Ok sl -> Q sl fr -> exists w d', endTag T tag (mkTarget (fr :: tstack t) None (troot t) d) = Ok (setData (place sl w t) d') /\ psame v w) ->
  reads v (node0 tag ch).
Proof.
  intros HS HB HE evs Tr t sl S. unfold node0 in Tr.
  assert (G : exists j evs', junk j /\ ktrace ch evs' /\ evs = EvStart tag :: j ++ evs' ++ [EvEnd tag]).
  { inversion Tr as [? ? ? ? xs J|? ? ? ? ? j evs' NE J K]; subst.
    - exists (map EvData xs), []. split; [|split; [constructor|reflexivity]]. apply Forall_forall. intros e I. apply in_map_iff in I as (x & <- & _). eexists; reflexivity.
    - exists j, evs'. auto. }
  destruct G as (j & evs' & J & K & ->). cbn [foldM step]. rewrite HS, S. cbn [bind]. rewrite foldM_app.
  destruct (junk_run j (mkTarget (mkF sl :: tstack t) None (troot t) []) J) as (d1 & ->). cbn [bind]. unfold setData at 1. cbn [tstack tkey troot].
  rewrite foldM_app. destruct (HB sl (tstack t) (troot t) d1 evs' K) as (fr & d2 & -> & Hq). cbn [bind foldM step].
  destruct (HE t sl fr d2 S Hq) as (w & d3 & -> & Sm). cbn [bind]. exists w, d3. split; [reflexivity|exact Sm].
Qed.
Lemma read_list v l ch : (v = PList l \/ v = PTuple l) -> Forall2 reads l ch -> reads v (node0 (u "array") ch).
Proof.
  intros V F. apply (read_container (u "array") v ch (fun sl => FList sl []) (fun sl fr => exists ws, fr = FList sl ws /\ Forall2 psame l ws)).
  - intro t. reflexivity.
  - intros sl stack root d evs K. destruct (read_items sl l ch F evs K [] stack root d) as (ws & d' & E & F2). exists (FList sl ws), d'. split; [exact E|eauto].
  - intros t sl fr d S (ws & -> & F2). destruct (pop_list sl ws t d S) as (d' & E). exists (PList ws), d'. split; [exact E|]. destruct V as [->| ->]; constructor; exact F2.
Qed.

Theorem mk_reads v : plistable v -> forall sk pr lv e, mk sk pr lv v = Ok e -> reads v e.
Proof.
  induction v using pyval_ind'; intros P sk pr lv e E; inversion P; subst.
  - cbn in E. inversion E; subst. destruct b; apply read_empty; reflexivity.
  - cbn [makeElement] in E. destruct (_ && _); [|discriminate]. inversion E; subst.
    eapply read_leaf; try reflexivity. cbn [asStr]. rewrite (parseInt_str_of_Z T z LT). reflexivity.
  - cbn [makeElement] in E. inversion E; subst. eapply read_leaf; try reflexivity. cbn [asStr]. rewrite (repr_parse T R LR f H0). reflexivity.
  - cbn [makeElement] in E. inversion E; subst. eapply read_leaf; reflexivity.
  - cbn [makeElement] in E. inversion E; subst. eapply read_leaf; try reflexivity. cbn [asStr]. rewrite b64_round_trip by assumption. reflexivity.
  - cbn [makeElement] in E. inversion E; subst. eapply read_leaf; try reflexivity. cbn [asStr]. apply date_round_trip. assumption.
  - rewrite mk_list in E. apply bind_Ok in E as (ch & M & E). inversion E; subst. apply (read_list _ l); [auto|].
    apply mapM_Forall2 in M. clear E P. induction M as [|x y l ch Ey M IH]; [constructor|].
    inversion H as [|? ? Hx Hl]; subst. inversion H1 as [|? ? Px Pl]; subst. constructor; [exact (Hx Px _ _ _ _ Ey)|auto].
  - rewrite mk_tuple in E. apply bind_Ok in E as (ch & M & E). inversion E; subst. apply (read_list _ l); [auto|].
    apply mapM_Forall2 in M. clear E P. induction M as [|x y l ch Ey M IH]; [constructor|].
    inversion H as [|? ? Hx Hl]; subst. inversion H1 as [|? ? Px Pl]; subst. constructor; [exact (Hx Px _ _ _ _ Ey)|auto].
  - rewrite mk_dict_str in E. apply bind_Ok in E as (ch & M & E). inversion E; subst.
    replace (map (fun '(k, x) => (PStr k, mk sk pr (S lv) x)) (itemsOf sk m)) with
      (map (fun '(k, x) => (PStr k, x)) (map (fun '(k, x) => (k, mk sk pr (S lv) x)) (itemsOf sk m))) in M by (rewrite map_map; apply map_ext; intros [? ?]; reflexivity).
    apply dictChildren_spec in M as (es & F & ->). apply F2_map_l in F.
    set (m' := itemsOf sk m) in *. assert (Pm : Permutation m' m) by apply itemsOf_perm.
    assert (ND : NoDup (map fst m')) by (eapply Permutation_NoDup; [apply Permutation_map, Permutation_sym, Pm|assumption]).
    assert (Rd : Forall2 (fun kv e => reads (snd kv) e) m' es).
    { assert (Hm : forall k x, In (k, x) m' -> forall e, mk sk pr (S lv) x = Ok e -> reads x e).
      { intros k x I e0 Ee. apply (Permutation_in _ Pm) in I. rewrite Forall_forall in H.
        destruct (H (PStr k, x)) as [_ Hx]; [apply in_map_iff; exists (k, x); auto|]. eapply Hx; [|exact Ee].
        rewrite Forall_forall in H2. apply (H2 _ I). }
      clear -F Hm. induction F as [|[k x] y m' es E F IH]; constructor.
      - eapply Hm; [left; reflexivity|exact E].
      - apply IH. intros; eapply Hm; [right; eassumption|assumption]. }
    replace (map fst (map (fun '(k, x) => (k, mk sk pr (S lv) x)) m')) with (map fst m') by (rewrite map_map; apply map_ext; intros [? ?]; reflexivity).
    apply (read_container (u "dict") _ _ (fun sl => FDict sl []) (fun sl fr => exists ws, fr = FDict sl ws /\ Forall2 (fun kv w => PStr (fst kv) = fst w /\ psame (snd kv) (snd w)) m' ws)).
    + intro t. reflexivity.
    + intros sl stack root d evs K. destruct (read_entries sl m' es Rd ND evs K [] stack root d) as (ws & d' & E' & F2); [intros k x _ []|]. exists (FDict sl ws), d'. split; [exact E'|eauto].
    + intros t sl fr d S (ws & -> & F2). destruct (pop_dict sl ws t d S) as (d' & E'). exists (PDict ws), d'. split; [exact E'|].
      destruct (Permutation_Forall2 Pm F2) as (ws' & Pw & F3). eapply ps_dict; [apply Permutation_sym; exact Pw|].
      apply F2_map_l. clear -F3. induction F3 as [|[k x] w l ws [A B] _ IH]; constructor; cbn in *; auto.
Qed.
Lemma read_root v sk pr lv e evs : plistable v -> mk sk pr lv v = Ok e -> trace e evs -> exists w, runTarget T evs = Ok w /\ psame v w.
Proof.
  intros P E Tr. destruct (mk_reads v P sk pr lv e E evs Tr newTarget SRoot eq_refl) as (w & d & F & S).
  exists w. unfold runTarget. rewrite F. split; [reflexivity|exact S].
Qed.
End Proofs.
