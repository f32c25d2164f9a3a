(** Outlines in GLIF files: what the pen of the writer makes of contours and
    components, and what the reader makes of the elements. *)
From Coq Require Import String NArith ZArith Bool Lia List.
From Coq.Floats Require Import SpecFloat.
From Verif Require Import Base PyVal PyText FloatRepr Xml FS Ufo Plist Etree Validators PointPen PropPointPen Glif GlifProofs EtreeProofs.
Import ListNotations.
Local Open Scope string_scope.
Local Open Scope list_scope.

Notation gitem := (item coord (list pyval) ident).
Notation GContour := (Contour coord (list pyval) ident).
Notation GComponent := (Component coord (list pyval) ident).
Notation gdrawing := (drawing coord (list pyval) ident).
Notation gcallsOf := (callsOf coord (list pyval) ident).

(** * Vocabulary *)
(** the segment type; "offcurve" means no segment type *)
Definition segType (p : gpoint) : option str := if eqb (ptype p) (Some (u "offcurve")) then None else ptype p.
Definition pid (p : gpoint) : option str := theId (pkw p).
Definition itemIds (i : gitem) : list (option str) :=
  match i with Contour _ _ _ ident pts => ident :: map pid pts | Component _ _ _ _ _ ident => [ident] end.
(** the identifiers are valid and not used before *)
Fixpoint idsSeq (l : list (option str)) (ids ids' : list str) : Prop :=
  match l with
  | [] => ids' = ids
  | None :: r => idsSeq r ids ids'
  | Some i :: r => ~ In i ids /\ identifierOk i = true /\ idsSeq r (i :: ids) ids'
  end.
(** the numbers of off-curve points before on-curve points, [n] of them coming
    before the list *)
Fixpoint offsOk (n : nat) (ts : list (option str)) : Prop :=
  match ts with
  | [] => True
  | None :: r => offsOk (S n) r
  | Some t :: r => (t = sMove \/ t = sLine -> n = 0) /\ (t = sCurve -> n <= 2) /\ offsOk 0 r
  end.
Fixpoint endCount (n : nat) (ts : list (option str)) : nat :=
  match ts with [] => n | None :: r => endCount (S n) r | Some _ :: r => endCount 0 r end.
Definition noMoves (ts : list (option str)) : Prop := Forall (fun t => t <> Some sMove) ts.
Definition movesOk (first : bool) (ts : list (option str)) : Prop :=
  match ts with [] => True | t :: r => (first = false -> t <> Some sMove) /\ noMoves r end.

Lemma idsSeq_app l m ids ids' : idsSeq (l ++ m) ids ids' <-> exists ids1, idsSeq l ids ids1 /\ idsSeq m ids1 ids'.
Proof.
  revert ids. induction l as [|[i|] l IH]; intro ids; cbn [app idsSeq].
  - split; [intro H; exists ids; auto|intros (x & -> & H); exact H].
  - rewrite IH. split; [intros (A & B & x & C & D); exists x; tauto|intros (x & (A & B & C) & D); eauto 6].
  - apply IH.
Qed.
Lemma idsSeq_fun l ids a b : idsSeq l ids a -> idsSeq l ids b -> a = b.
Proof. revert ids. induction l as [|[i|] l IH]; cbn [idsSeq]; intros ids A B; [congruence| |eauto]. destruct A as (_ & _ & A), B as (_ & _ & B). eauto. Qed.
Lemma offsOk_mono ts : forall m n, m <= n -> offsOk n ts -> offsOk m ts.
Proof.
  induction ts as [|[t|] r IH]; cbn [offsOk]; intros m n L H; [exact I| |].
  - destruct H as (A & B & C). repeat split; [intro K; specialize (A K); lia|intro K; specialize (B K); lia|exact C].
  - eapply IH; [|exact H]. lia.
Qed.
Lemma offsOk_app a b : forall n, offsOk n (a ++ b) <-> offsOk n a /\ offsOk (endCount n a) b.
Proof. induction a as [|[t|] a IH]; intro n; cbn [app offsOk endCount]; [tauto| |apply IH]. rewrite IH. tauto. Qed.
Lemma foldM_app' {A S} (f : S -> A -> res S) l m : forall s, foldM f s (l ++ m) = do s' <- foldM f s l; foldM f s' m.
Proof. induction l as [|x l IH]; intro s; cbn [app foldM bind]; [reflexivity|]. destruct (f s x); cbn [bind]; [apply IH|reflexivity]. Qed.

(** * The writer's pen *)
Section Writer.
Variable R : spec_float -> str.
Variable ro : pyval -> str.
Notation repr := (reprOf R ro).

Definition idAttr (i : option str) : list (str * str) := match i with Some i => [(u "identifier", i)] | None => [] end.
Definition pointElem (p : gpoint) : elem :=
  sub (u "point") (match pc p with Some (x, y) => [(u "x", repr x); (u "y", repr y)] | None => [] end
    ++ match segType p with Some t => [(u "type", t)] | None => [] end
    ++ (if psmooth p then [(u "smooth", u "yes")] else [])
    ++ match pname p with Some n => [(u "name", n)] | None => [] end ++ idAttr (pid p)).
Definition emptyText : option etext := Some (XS [10; 32; 32]%N).
Definition contourElem (i : option str) (pts : list gpoint) : elem :=
  Elem (u "contour") (idAttr i) (match pts with [] => emptyText | _ => None end) (map pointElem pts) None.
Fixpoint transAttrs (info : list (str * Z)) (tr : list pyval) : list (str * str) :=
  match info, tr with
  | (attr, default) :: info', value :: r => (if py_eq value (PInt default) then [] else [(attr, repr value)]) ++ transAttrs info' r
  | _, _ => []
  end.
Definition componentElem (base : str) (tr : list pyval) (i : option str) : elem :=
  sub (u "component") ((u "base", base) :: transAttrs transformationInfo tr ++ idAttr i).
Definition itemElem (i : gitem) : elem :=
  match i with Contour _ _ _ ident pts => contourElem ident pts | Component _ _ _ b t ident => componentElem b t ident end.

(** what the pen checks of a point, of a contour and of a component *)
Definition wPoint (p : gpoint) : Prop :=
  match pc p with Some (x, y) => is_number x = true /\ is_number y = true | None => True end /\ (psmooth p = true -> segType p <> None).
Definition wContour (pts : list gpoint) : Prop :=
  Forall wPoint pts /\ movesOk true (map segType pts) /\ offsOk 0 (map segType pts) /\
  (hd_error (map segType pts) = Some (Some sMove) -> endCount 0 (map segType pts) = 0).
Definition wItem (i : gitem) : Prop :=
  match i with Contour _ _ _ _ pts => wContour pts | Component _ _ _ _ tr _ => Forall (fun v => is_number v = true) (firstn 6 tr) end.

Lemma penIdentifier_iff i ids a ids' : penIdentifier 2 true i ids = Ok (a, ids') <-> a = idAttr i /\ idsSeq [i] ids ids'.
Proof.
  unfold penIdentifier. destruct i as [i|]; cbn [idAttr idsSeq].
  - cbn [Z.leb Z.compare Pos.compare Pos.compare_cont negb andb orb]. destruct (mem_spec i ids) as [M|M]; cbn [negb]; [split; [discriminate|tauto]|].
    destruct (identifierOk i); cbn; split; intro H; [inversion H; auto|destruct H as (-> & _ & _ & ->); reflexivity|discriminate|destruct H as (_ & _ & H & _); discriminate].
  - split; intro H; [inversion H; auto|destruct H as [-> ->]; reflexivity].
Qed.
Lemma appendAt_last e out tag at' text ch tail : appendAt (length out) e (out ++ [Elem tag at' text ch tail]) = out ++ [Elem tag at' text (ch ++ [e]) tail].
Proof. induction out as [|x out IH]; [reflexivity|]. cbn [length app appendAt]. destruct x. rewrite IH. reflexivity. Qed.
Lemma textAt_last out e : textAt (length out) (out ++ [e]) = out ++ [contourText e].
Proof. induction out as [|x out IH]; [reflexivity|]. cbn [length app textAt]. rewrite IH. reflexivity. Qed.

(** the pen inside a contour *)
Definition segName (p : gpoint) : str := match segType p with Some t => t | None => u "offcurve" end.
Definition nextOff (n : nat) (p : gpoint) : nat := match segType p with Some _ => 0 | None => S n end.
Definition typesInv (off : nat) (types : list str) : Prop :=
  (types = [] -> off = 0) /\ (types <> [] -> (last types [] = u "offcurve" <-> 0 < off)).
Lemma segType_not_off p : segType p <> Some (u "offcurve").
Proof. unfold segType. destruct (eqb_spec (ptype p) (Some (u "offcurve"))) as [E|E]; [discriminate|exact E]. Qed.
Lemma segName_off p : eqb (segName p) (u "offcurve") = match segType p with None => true | Some _ => false end.
Proof.
  unfold segName. pose proof (segType_not_off p) as N. destruct (segType p) as [t|]; [|apply eqb_refl]. apply eqb_neq. congruence.
Qed.
Lemma typesInv_next off types p : typesInv off types -> typesInv (nextOff off p) (types ++ [segName p]).
Proof.
  intros _. split; [intro E; apply app_eq_nil in E as [_ E]; discriminate|]. intros _. rewrite last_last. rewrite <- eqb_eq, segName_off. unfold nextOff.
  destruct (segType p); split; (lia || discriminate || reflexivity).
Qed.
Lemma eqb_opt (x : option str) t : eqb x (Some t) = true <-> x = Some t.
Proof. apply eqb_eq. Qed.
Lemma penPoint_iff s p s' n : gContour s = Some n -> typesInv (gOff s) (gTypes s) ->
  penPoint R ro 2 true s p = Ok s' <->
  exists ids', wPoint p /\ movesOk (match gTypes s with [] => true | _ => false end) [segType p] /\ offsOk (gOff s) [segType p] /\ idsSeq [pid p] (gIds s) ids' /\
    s' = mkGpen (appendAt n (pointElem p) (gOutline s)) (Some n) (nextOff (gOff s) p) (gTypes s ++ [segName p]) ids'.
Proof.
  intros C [I1 I2]. unfold penPoint. fold (segType p). cbn [negb orb andb].
  assert (XY : forall (K : list (str * str) -> res gpen), (do xy <- match pc p with None => Ok [] | Some (x, y) => check (is_number x && is_number y) else GlifLibError; Ok [(u "x", repr x); (u "y", repr y)] end; K xy) = Ok s' <->
    match pc p with Some (x, y) => is_number x = true /\ is_number y = true | None => True end /\ K (match pc p with Some (x, y) => [(u "x", repr x); (u "y", repr y)] | None => [] end) = Ok s').
  { intro K. destruct (pc p) as [[x y]|]; cbn [bind]; [|tauto]. destruct (is_number x), (is_number y); cbn; split; intuition discriminate. }
  rewrite XY. clear XY.
  assert (A1 : eqb (segType p) (Some sMove) && match gTypes s with [] => false | _ => true end = false <-> movesOk (match gTypes s with [] => true | _ => false end) [segType p]).
  { cbn [movesOk]. rewrite andb_false_iff, eqb_neq. destruct (gTypes s); split; intro H.
    - split; [discriminate|constructor]. - right; reflexivity.
    - destruct H as [H|H]; [|discriminate]. split; [auto|constructor].
    - left. apply H. reflexivity. }
  assert (A2 : movesOk (match gTypes s with [] => true | _ => false end) [segType p] ->
    ((eqb (segType p) (Some sMove) || eqb (segType p) (Some sLine)) && match gTypes s with [] => false | _ => true end && eqb (last (gTypes s) []) (u "offcurve") = false /\
     eqb (segType p) (Some sCurve) && Nat.ltb 2 (gOff s) = false <-> offsOk (gOff s) [segType p])).
  { intros Mv. destruct (segType p) as [t|] eqn:Es; cbn [offsOk].
    - assert (Z : gOff s = 0 <-> match gTypes s with [] => false | _ => true end && eqb (last (gTypes s) []) (u "offcurve") = false).
      { rewrite andb_false_iff, eqb_neq. destruct (gTypes s) as [|x l]; [split; [auto|intros _; apply I1; reflexivity]|].
        assert (NE : x :: l <> []) by discriminate. specialize (I2 NE). rewrite I2. split; intro H; [right; lia|destruct H as [H|H]; [discriminate|lia]]. }
      rewrite <- andb_assoc. split.
      + intros [H1 H2]. repeat split.
        * intro K. apply Z. destruct (_ || _) eqn:E; [exact H1|]. apply orb_false_iff in E as [E1 E2]. apply eqb_neq in E1, E2. destruct K; congruence.
        * intros ->. rewrite eqb_refl in H2. cbn [andb] in H2. apply Nat.ltb_ge in H2. exact H2.
      + intros (H1 & H2 & _). split.
        * destruct (_ || _) eqn:E; [|reflexivity]. cbn [andb]. apply Z. apply H1. apply orb_true_iff in E as [E|E]; apply eqb_opt in E; inversion E; auto.
        * destruct (eqb_spec (Some t) (Some sCurve)) as [E|E]; [|reflexivity]. inversion E. cbn [andb]. apply Nat.ltb_ge. auto.
    - split; [intros _; exact I|]. intros _. split; reflexivity. }
  destruct (eqb (segType p) (Some sMove) && match gTypes s with [] => false | _ => true end) eqn:E1.
  { cbn [negb]. split; [intros [_ H]; discriminate H|]. intros (ids' & _ & M & _). apply A1 in M. discriminate M. }
  cbn [negb]. assert (M := proj1 A1 eq_refl). specialize (A2 M).
  destruct ((eqb (segType p) (Some sMove) || eqb (segType p) (Some sLine)) && match gTypes s with [] => false | _ => true end && eqb (last (gTypes s) []) (u "offcurve")) eqn:E2.
  { cbn [negb]. split; [intros [_ H]; discriminate H|]. intros (ids' & _ & _ & O & _). apply A2 in O. destruct O; discriminate. }
  cbn [negb]. destruct (eqb (segType p) (Some sCurve) && Nat.ltb 2 (gOff s)) eqn:E3.
  { cbn [negb]. split; [intros [_ H]; discriminate H|]. intros (ids' & _ & _ & O & _). apply A2 in O. destruct O; discriminate. }
  cbn [negb]. assert (O := proj1 A2 (conj eq_refl eq_refl)).
  match goal with |- context [let '(ty, seg) := ?m in _] => replace m with (match segType p with Some t => [(u "type", t)] | None => [] end, segName p) by (unfold segName; destruct (segType p); reflexivity) end.
  cbv beta iota zeta. rewrite andb_true_r, segName_off. rewrite C. fold (pid p).
  assert (Sm : psmooth p && match segType p with None => true | Some _ => false end = false <-> (psmooth p = true -> segType p <> None)).
  { destruct (psmooth p), (segType p); cbn; split; intro H; try reflexivity; try discriminate; try (intros _; discriminate); try (intro; congruence). exfalso. apply H; reflexivity. }
  destruct (psmooth p && match segType p with None => true | Some _ => false end) eqn:E4.
  { cbn [negb]. split; [intros [_ H]; discriminate H|]. intros (ids' & [_ W] & _). apply Sm in W. discriminate W. }
  cbn [negb]. assert (W := proj1 Sm eq_refl).
  destruct (penIdentifier 2 true (pid p) (gIds s)) as [[idt ids']|e] eqn:E5; cbn [bind].
  - apply penIdentifier_iff in E5 as [-> Sq]. unfold nextOff, wPoint, pointElem. split.
    + intros [H1 H2]. inversion H2; subst. exists ids'. repeat split; try assumption; try apply O; try apply M. f_equal. destruct (segType p); reflexivity.
    + intros (ids2 & [H1 _] & _ & _ & Sq2 & ->). split; [exact H1|]. rewrite (idsSeq_fun _ _ _ _ Sq Sq2). f_equal. f_equal. destruct (segType p); reflexivity.
  - split; [intros [_ H]; discriminate H|]. intros (ids' & _ & _ & _ & Sq & _). exfalso. assert (X : penIdentifier 2 true (pid p) (gIds s) = Ok (idAttr (pid p), ids')) by (apply penIdentifier_iff; auto). congruence.
Qed.

Notation step := (penStep R ro 2 true).
Lemma noMoves_cons t r : noMoves (t :: r) <-> t <> Some sMove /\ noMoves r.
Proof. unfold noMoves. split; [intro H; inversion H; auto|intros [A B]; constructor; assumption]. Qed.
Lemma movesOk_cons b t r : movesOk b (t :: r) <-> movesOk b [t] /\ movesOk false r.
Proof.
  cbn [movesOk]. destruct r as [|x r]; cbn [movesOk].
  - split; [intros [A B]; repeat split; auto|tauto].
  - rewrite noMoves_cons. split; [intros (A & B & C); repeat split; auto; constructor|]. intros ((A & _) & B & C). repeat split; auto.
Qed.
Lemma offsOk_cons n p r : offsOk n (segType p :: r) <-> offsOk n [segType p] /\ offsOk (nextOff n p) r.
Proof. unfold nextOff. destruct (segType p); cbn [offsOk]; tauto. Qed.
Lemma idsSeq_cons i r ids ids' : idsSeq (i :: r) ids ids' <-> exists ids1, idsSeq [i] ids ids1 /\ idsSeq r ids1 ids'.
Proof. exact (idsSeq_app [i] r ids ids'). Qed.
Lemma endCount_seg p n r : endCount n (segType p :: r) = endCount (nextOff n p) r.
Proof. unfold nextOff. destruct (segType p); reflexivity. Qed.
Lemma pen_points pts : forall out tag at' text ch tail off types ids s', typesInv off types ->
  foldM step (mkGpen (out ++ [Elem tag at' text ch tail]) (Some (length out)) off types ids) (map (fun p => PAdd p) pts) = Ok s' <->
  exists ids', Forall wPoint pts /\ movesOk (match types with [] => true | _ => false end) (map segType pts) /\ offsOk off (map segType pts) /\
    idsSeq (map pid pts) ids ids' /\
    s' = mkGpen (out ++ [Elem tag at' text (ch ++ map pointElem pts) tail]) (Some (length out)) (endCount off (map segType pts)) (types ++ map segName pts) ids'.
Proof.
  induction pts as [|p pts IH]; intros out tag at' text ch tail off types ids s' TI.
  - cbn [map foldM offsOk endCount movesOk idsSeq]. rewrite !app_nil_r. split.
    + intro H. inversion H. exists ids. repeat split; auto.
    + intros (ids' & _ & _ & _ & -> & ->). reflexivity.
  - cbn [map foldM].
    pose proof (penPoint_iff (mkGpen (out ++ [Elem tag at' text ch tail]) (Some (length out)) off types ids) p) as PI.
    cbn [gContour gOff gTypes gIds gOutline] in PI. cbn [penStep].
    split.
    + intro H. destruct (penPoint _ _ _ _ _ p) as [s1|] eqn:E1; cbn [bind] in H; [|discriminate H].
      destruct (proj1 (PI _ _ eq_refl TI) eq_refl) as (ids1 & A & B & C & D & ->). rewrite appendAt_last in H.
      apply IH in H; [|apply typesInv_next; exact TI]. destruct H as (ids' & A' & B' & C' & D' & ->). exists ids'.
      split; [constructor; assumption|]. split; [apply movesOk_cons; split; [exact B|]; destruct types; exact B'|]. split; [apply offsOk_cons; auto|].
      split; [apply idsSeq_cons; eauto|]. rewrite endCount_seg, <- !app_assoc. reflexivity.
    + intros (ids' & A & B0 & C0 & D & ->). apply movesOk_cons in B0 as [B B']. apply offsOk_cons in C0 as [C C']. rewrite endCount_seg. inversion A as [|? ? A1 A2]; subst. apply idsSeq_cons in D as (ids1 & D1 & D2).
      rewrite (proj2 (PI _ _ eq_refl TI) (ex_intro _ ids1 (conj A1 (conj B (conj C (conj D1 eq_refl)))))). cbn [bind]. rewrite appendAt_last.
      apply IH; [apply typesInv_next; exact TI|]. exists ids'. split; [exact A2|]. split; [destruct types; exact B'|]. split; [exact C'|]. split; [exact D2|]. rewrite <- !app_assoc. reflexivity.
Qed.
Lemma segNames_last pts n : pts <> [] -> (last (map segName pts) [] = u "offcurve" <-> 0 < endCount n (map segType pts)).
Proof.
  intro N. destruct pts as [|p pts _] using rev_ind; [congruence|]. rewrite !map_app. cbn [map]. rewrite last_last, <- eqb_eq, segName_off.
  assert (E : forall ts n t, endCount n (ts ++ [t]) = match t with Some _ => 0 | None => S (endCount n ts) end).
  { clear. induction ts as [|[x|] ts IH]; intros n t; cbn [app endCount]; [destruct t; reflexivity| |]; apply IH. }
  rewrite E. destruct (segType p); split; (lia || discriminate || reflexivity).
Qed.
Lemma segNames_hd pts : hd_error (map segName pts) = Some sMove <-> hd_error (map segType pts) = Some (Some sMove).
Proof.
  destruct pts as [|p pts]; cbn [map hd_error]; [split; discriminate|]. unfold segName. destruct (segType p) as [t|]; split; intro H; try (inversion H; reflexivity).
Qed.
Lemma pen_contour i pts out ids s' :
  foldM step (mkGpen out None 0 [] ids) (gcallsOf (GContour i pts)) = Ok s' <->
  exists ids', wContour pts /\ idsSeq (i :: map pid pts) ids ids' /\ s' = mkGpen (out ++ [contourElem i pts]) None 0 [] ids'.
Proof.
  unfold callsOf. cbn [foldM penStep theId]. unfold penBegin. cbn [gIds gOutline gTypes].
  assert (TI : typesInv 0 []) by (split; [reflexivity|congruence]).
  assert (F : forall ids1 r, foldM step (mkGpen (out ++ [sub (u "contour") (idAttr i)]) (Some (length out)) 0 [] ids1) (map (fun p => PAdd p) pts ++ [PEnd]) = Ok r <->
     exists ids', wContour pts /\ idsSeq (map pid pts) ids1 ids' /\ r = mkGpen (out ++ [contourElem i pts]) None 0 [] ids').
  { intros ids1 r. rewrite foldM_app'. unfold sub.
    assert (L : (negb (true && eqb (hd_error (map segName pts)) (Some sMove) && eqb (last (map segName pts) []) (u "offcurve")) = true) <->
       (hd_error (map segType pts) = Some (Some sMove) -> endCount 0 (map segType pts) = 0)).
    { rewrite negb_true_iff. cbn [andb]. rewrite andb_false_iff, !eqb_neq, segNames_hd. destruct pts as [|p pts]; [cbn [map hd_error]; split; [discriminate|left; discriminate]|].
      rewrite (segNames_last (p :: pts) 0) by discriminate. cbn [map hd_error]. destruct (eqb_spec (segType p) (Some sMove)) as [E|E].
      - rewrite E. split; [intros [H|H] _; [congruence|lia]|]. intro H. right. specialize (H eq_refl). lia.
      - split; [intros _ H; congruence|]. intros _. left. congruence. }
    assert (X : textAt (length out) (out ++ [Elem (u "contour") (idAttr i) None ([] ++ map pointElem pts) None]) = out ++ [contourElem i pts]).
    { rewrite textAt_last. unfold contourText, contourElem. cbn [app]. destruct pts; reflexivity. }
    split.
    - intro H. destruct (foldM _ _ (map _ pts)) as [s1|] eqn:E1; cbn [bind] in H; [|discriminate H].
      apply pen_points in E1; [|exact TI]. destruct E1 as (ids' & A & B & C & D & ->). cbn [foldM penStep] in H. unfold penEnd in H. cbn [gTypes gContour gOutline gIds app] in H.
      destruct (negb _) eqn:E2; [|discriminate H]. cbn [bind] in H. cbn [app] in X. rewrite X in H. inversion H; subst. exists ids'.
      split; [|auto]. assert (E3 := proj1 L eq_refl). unfold wContour. auto.
    - intros (ids' & (A & B & C & E) & D & ->). rewrite (proj2 (pen_points pts _ _ _ _ _ _ _ _ _ _ TI) (ex_intro _ ids' (conj A (conj B (conj C (conj D eq_refl)))))).
      cbn [bind foldM penStep]. unfold penEnd. cbn [gTypes gContour gOutline gIds]. cbn [app]. cbn [app] in X. rewrite X. rewrite (proj2 L) by exact E. reflexivity. }
  destruct (penIdentifier 2 true i ids) as [[a ids1]|e] eqn:E1; cbn [bind].
  - apply penIdentifier_iff in E1 as [-> S1]. rewrite F. split.
    + intros (ids' & A & B & C). exists ids'. split; [exact A|]. split; [apply idsSeq_cons; eauto|exact C].
    + intros (ids' & A & B & C). apply idsSeq_cons in B as (x & B1 & B2). rewrite (idsSeq_fun _ _ _ _ S1 B1). eauto.
  - split; [discriminate|]. intros (ids' & A & B & C). apply idsSeq_cons in B as (x & B1 & B2). exfalso.
    assert (X : penIdentifier 2 true i ids = Ok (idAttr i, x)) by (apply penIdentifier_iff; auto). congruence.
Qed.
Lemma componentAttrs_iff : forall info tr a, componentAttrs R ro true info tr = Ok a <-> Forall (fun v => is_number v = true) (firstn (length info) tr) /\ a = transAttrs info tr.
Proof.
  induction info as [|[k d] info IH]; intros tr a; cbn [componentAttrs transAttrs length firstn].
  - split; [intro H; inversion H; auto|intros [_ ->]; reflexivity].
  - destruct tr as [|v tr]; [split; [intro H; inversion H; auto|intros [_ ->]; reflexivity]|]. cbn [negb orb].
    destruct (is_number v) eqn:E.
    + cbn [bind]. split.
      * intro H. destruct (componentAttrs R ro true info tr) as [t|] eqn:E1; cbn [bind] in H; [|discriminate H]. apply IH in E1 as [A ->]. inversion H; subst. auto.
      * intros [A ->]. inversion A; subst. rewrite (proj2 (IH tr _)) by eauto. reflexivity.
    + split; [discriminate|]. intros [A _]. inversion A; congruence.
Qed.
Lemma pen_component b tr i out ids s' :
  foldM step (mkGpen out None 0 [] ids) (gcallsOf (GComponent b tr i)) = Ok s' <->
  exists ids', wItem (GComponent b tr i) /\ idsSeq [i] ids ids' /\ s' = mkGpen (out ++ [componentElem b tr i]) None 0 [] ids'.
Proof.
  unfold callsOf. cbn [foldM penStep theId]. unfold penComponent. cbn [gIds gOutline gTypes gContour gOff]. cbn [wItem]. unfold componentElem. split.
  - intro H. destruct (componentAttrs _ _ _ _ _) as [a|] eqn:E1; cbn [bind] in H; [|discriminate H]. apply componentAttrs_iff in E1 as [A ->].
    destruct (penIdentifier 2 true i ids) as [[b' ids1]|] eqn:E2; cbn [bind] in H; [|discriminate H]. apply penIdentifier_iff in E2 as [-> S2].
    inversion H; subst. exists ids1. auto.
  - intros (ids' & A & S2 & ->). rewrite (proj2 (componentAttrs_iff transformationInfo tr _)) by (split; [exact A|reflexivity]). cbn [bind].
    rewrite (proj2 (penIdentifier_iff i ids _ ids')) by (split; [reflexivity|exact S2]). reflexivity.
Qed.
Theorem pen_drawing g : forall out ids s',
  foldM step (mkGpen out None 0 [] ids) (gdrawing g) = Ok s' <->
  exists ids', Forall wItem g /\ idsSeq (flat_map itemIds g) ids ids' /\ s' = mkGpen (out ++ map itemElem g) None 0 [] ids'.
Proof.
  induction g as [|i g IH]; intros out ids s'; cbn [drawing flat_map map].
  - cbn [foldM idsSeq]. rewrite app_nil_r. split; [intro H; inversion H; exists ids; auto|intros (? & _ & -> & ->); reflexivity].
  - unfold drawing. cbn [flat_map]. rewrite foldM_app'.
    assert (S1 : forall s1, foldM step (mkGpen out None 0 [] ids) (gcallsOf i) = Ok s1 <->
       exists ids', wItem i /\ idsSeq (itemIds i) ids ids' /\ s1 = mkGpen (out ++ [itemElem i]) None 0 [] ids').
    { intro s1. destruct i as [ident pts|b tr ident]; [apply pen_contour|apply pen_component]. }
    fold (gdrawing g). split.
    + intro H. destruct (foldM _ _ (gcallsOf i)) as [s1|] eqn:E1; cbn [bind] in H; [|discriminate H]. destruct (proj1 (S1 _) eq_refl) as (ids1 & A & B & ->).
      apply IH in H as (ids' & A' & B' & ->). exists ids'. split; [constructor; assumption|]. split; [apply idsSeq_app; eauto|]. rewrite <- app_assoc. reflexivity.
    + intros (ids' & A & B & ->). inversion A as [|? ? A1 A2]; subst. apply idsSeq_app in B as (ids1 & B1 & B2).
      rewrite (proj2 (S1 _) (ex_intro _ ids1 (conj A1 (conj B1 eq_refl)))). cbn [bind]. apply IH. exists ids'. split; [exact A2|]. split; [exact B2|]. rewrite <- app_assoc. reflexivity.
Qed.
End Writer.

(** * The reader *)
Section Reader.
Variable T : pytext.
Hypothesis LT : pytext_laws T.
Variable R : spec_float -> str.
Hypothesis LR : repr_laws T R.
Variable ro : pyval -> str.

(** what the reader makes sure of *)
Definition known (t : option str) : Prop := t = None \/ t = Some sMove \/ t = Some sLine \/ t = Some sCurve \/ t = Some sQcurve.
Definition rPoint (p : gpoint) : Prop :=
  (exists x y, pc p = Some (x, y) /\ isNum x /\ isNum y) /\ known (segType p) /\ (psmooth p = true -> segType p <> None).
Definition rContour (pts : list gpoint) : Prop :=
  Forall rPoint pts /\ movesOk true (map segType pts) /\ offsOk (endCount 0 (map segType pts)) (map segType pts).
Definition rItem (i : gitem) : Prop :=
  match i with Contour _ _ _ _ pts => rContour pts | Component _ _ _ _ tr _ => length tr = 6 /\ Forall isNum tr end.
(** how the reader passes a point to the pen *)
Definition passed (p : gpoint) : gpoint := mkPoint (pc p) (segType p) (psmooth p) (pname p) (Some (pid p)).
(** a number equal to the default comes back as the default *)
Definition dflt (d : Z) (v : pyval) : pyval := if py_eq v (PInt d) then PInt d else v.
Fixpoint dflts (info : list (str * Z)) (tr : list pyval) : list pyval :=
  match info with
  | [] => []
  | (_, d) :: info' => match tr with v :: r => dflt d v :: dflts info' r | [] => PInt d :: dflts info' [] end
  end.
Definition passedItem (i : gitem) : gitem :=
  match i with
  | Contour _ _ _ ident pts => GContour ident (map passed pts)
  | Component _ _ _ b tr ident => GComponent b (dflts transformationInfo tr) ident
  end.

Lemma known_mem s : mem s pointTypeOptions = true <-> s = u "offcurve" \/ known (Some s).
Proof.
  rewrite mem_In. unfold pointTypeOptions, known. cbn [In]. change (u "move") with sMove. change (u "line") with sLine. change (u "curve") with sCurve. change (u "qcurve") with sQcurve.
  split.
  - intros [<-|[<-|[<-|[<-|[<-|[]]]]]]; auto 8.
  - intros [->|[E|[E|[E|[E|E]]]]]; try discriminate E; try (inversion E; auto 8); auto 8.
Qed.
Lemma known_not_off : ~ known (Some (u "offcurve")).
Proof. unfold known. intros [E|[E|[E|[E|E]]]]; vm_compute in E; discriminate E. Qed.
Definition pointOf (m : mpoint) : gpoint := mkPoint (Some (mx m, my m)) (mtype m) (msmooth m) (mname m) (Some (mid m)).
Lemma segType_pointOf m : known (mtype m) -> segType (pointOf m) = mtype m.
Proof.
  intro K. unfold segType, pointOf. cbn [ptype]. destruct (eqb_spec (mtype m) (Some (u "offcurve"))) as [E|E]; [|reflexivity].
  rewrite E in K. destruct (known_not_off K).
Qed.
Lemma massagePoint_inv allowed idx e m : massagePoint T true allowed idx e = Ok m ->
  isNum (mx m) /\ isNum (my m) /\ known (mtype m) /\ (msmooth m = true -> mtype m <> None) /\ (idx <> 0 -> mtype m <> Some sMove) /\
  mname m = eget (u "name") e /\ mid m = eget (u "identifier") e /\ forallb (fun a => mem a allowed) (map fst (eattrib e)) = true /\ etag e = u "point".
Proof.
  unfold massagePoint. cbn [negb orb andb]. destruct (eqb_spec (etag e) (u "point")) as [Et|]; [|discriminate]. destruct (forallb _ _) eqn:F; [|discriminate]. destruct (Nat.eqb _ 0); [|discriminate].
  destruct (has (u "x") _); [|discriminate]. destruct (number T (eget (u "x") e)) as [x|] eqn:Ex; cbn [bind]; [|discriminate].
  destruct (has (u "y") _); [|discriminate]. destruct (number T (eget (u "y") e)) as [y|] eqn:Ey; cbn [bind]; [|discriminate].
  set (ty := match eget (u "type") e with Some t => t | None => u "offcurve" end). destruct (mem ty pointTypeOptions) eqn:K; [|discriminate]. apply known_mem in K.
  set (sg := if eqb ty (u "offcurve") then None else Some ty).
  assert (K' : known sg). { unfold sg. destruct (eqb_spec ty (u "offcurve")); [left; reflexivity|]. destruct K as [K|K]; [contradiction|exact K]. }
  destruct (eqb sg (Some sMove) && negb (Nat.eqb idx 0)) eqn:M; cbn [negb]; [discriminate|].
  destruct (mem _ [u "no"; u "yes"]); [|discriminate]. destruct (eqb _ (u "yes") && eqb sg None) eqn:S; cbn [negb]; [discriminate|].
  intro H. apply Ok_inj in H. subst m. cbn [mx my mtype msmooth mname mid]. repeat split; auto.
  - eapply number_num; eassumption.
  - eapply number_num; eassumption.
  - intros Sm. rewrite Sm in S. cbn [andb] in S. apply eqb_neq in S. exact S.
  - intros N E. rewrite E, eqb_refl in M. destruct (Nat.eqb_spec idx 0); [contradiction|discriminate M].
Qed.
Lemma massageLoop_inv allowed l : forall idx ms, massageLoop T true allowed idx l = Ok ms ->
  Forall rPoint (map pointOf ms) /\ map segType (map pointOf ms) = map mtype ms /\ movesOk (Nat.eqb idx 0) (map mtype ms) /\ length ms = length l.
Proof.
  induction l as [|e l IH]; intros idx ms; cbn [massageLoop].
  - intro H. inversion H. cbn. repeat split; constructor.
  - destruct (massagePoint T true allowed idx e) as [m|] eqn:E1; cbn [bind]; [|discriminate].
    destruct (massageLoop T true allowed (S idx) l) as [ms'|] eqn:E2; cbn [bind]; [|discriminate]. intro H. inversion H; subst.
    apply massagePoint_inv in E1 as (A & B & C & D & M & _). destruct (IH _ _ E2) as (F & G & Mv & L). cbn [map].
    assert (Es := segType_pointOf m C). split; [|split; [|split]].
    + constructor; [|exact F]. unfold rPoint. rewrite Es. split; [exists (mx m), (my m); auto|]. split; [exact C|exact D].
    + rewrite Es. f_equal. exact G.
    + apply movesOk_cons. split; [split; [|constructor]|exact Mv]. intro E. apply M. apply Nat.eqb_neq. exact E.
    + cbn [length]. lia.
Qed.
Lemma checkOffs_iff l : forall n, checkOffs l n = Ok tt <-> offsOk n (map mtype l).
Proof.
  induction l as [|p l IH]; intro n; cbn [checkOffs map offsOk]; [tauto|]. destruct (mtype p) as [t|]; [|apply IH].
  destruct (eqb_spec t sMove) as [->|N1].
  { cbn [negb]. rewrite orb_false_r. assert (E1 : eqb sMove sLine = false) by (vm_compute; reflexivity). assert (E2 : eqb sMove sCurve = false) by (vm_compute; reflexivity).
    rewrite E1, E2. cbn [negb andb]. rewrite orb_true_r. apply eqb_neq in E2. destruct (Nat.eqb_spec n 0); [rewrite IH|]; split; intro H; try discriminate H; try tauto.
    all: repeat split; auto; lia. }
  cbn [negb]. rewrite orb_true_r. destruct (eqb_spec t sLine) as [->|N2].
  { cbn [negb]. rewrite orb_false_r. assert (E2 : eqb sLine sCurve = false) by (vm_compute; reflexivity). rewrite E2. cbn [negb andb]. apply eqb_neq in E2.
    destruct (Nat.eqb_spec n 0); [rewrite IH|]; split; intro H; try discriminate H; try tauto.
    all: repeat split; auto; lia. }
  cbn [negb]. rewrite orb_true_r. destruct (eqb_spec t sCurve) as [->|N3]; cbn [andb].
  - destruct (Nat.ltb_spec 2 n); cbn [negb]; [split; [discriminate|intros (_ & H1 & _); specialize (H1 eq_refl); lia]|]. rewrite IH.
    split; [intro; repeat split; auto; tauto|tauto].
  - cbn [negb]. rewrite IH. split; [intro; repeat split; auto; tauto|tauto].
Qed.
Definition on (m : mpoint) : bool := match mtype m with Some _ => true | None => false end.
Lemma endCount_none l : forall n, existsb on l = false -> endCount n (map mtype l) = n + length l.
Proof.
  induction l as [|p l IH]; intros n; cbn [existsb map endCount length]; [lia|]. unfold on at 1. destruct (mtype p); cbn [orb]; [discriminate|]. intro H. rewrite IH by exact H. lia.
Qed.
Lemma endCount_some l : forall n m, existsb on l = true -> endCount n (map mtype l) = endCount m (map mtype l).
Proof.
  induction l as [|p l IH]; intros n m; cbn [existsb map endCount]; [discriminate|]. unfold on at 1. destruct (mtype p); cbn [orb]; [reflexivity|]. apply IH.
Qed.
Lemma endCount_le ts : forall n, endCount n ts <= n + length ts.
Proof. induction ts as [|[t|] ts IH]; intro n; cbn [endCount length]; [lia| |]; [specialize (IH 0)|specialize (IH (S n))]; lia. Qed.
Lemma endCount_on l : existsb on l = true -> endCount 0 (map mtype l) < length l.
Proof.
  induction l as [|p l IH]; cbn [existsb map endCount length]; [discriminate|]. unfold on at 1. destruct (mtype p); cbn [orb].
  - intros _. pose proof (endCount_le (map mtype l) 0) as H. rewrite map_length in H. lia.
  - intro H. rewrite (endCount_some l 1 0) by exact H. specialize (IH H). lia.
Qed.
Lemma lastOn_spec l : forall i f, lastOn l i f = if existsb on l then Some (i + (length l - 1 - endCount 0 (map mtype l))) else f.
Proof.
  induction l as [|p l IH]; intros i f; cbn [lastOn existsb map endCount length]; [reflexivity|]. rewrite IH. unfold on at 2.
  destruct (mtype p) as [t|]; cbn [orb].
  - destruct (existsb on l) eqn:E; f_equal.
    + pose proof (endCount_on l E). lia.
    + rewrite endCount_none by exact E. lia.
  - destruct (existsb on l) eqn:E; [|reflexivity]. f_equal. rewrite (endCount_some l 1 0) by exact E. pose proof (endCount_on l E). lia.
Qed.
Lemma dropOffs_spec l : exists offs, l = offs ++ dropOffs l /\ existsb on offs = false /\ (existsb on l = true -> exists p r, dropOffs l = p :: r /\ on p = true).
Proof.
  induction l as [|p l (offs & A & B & C)]; cbn [dropOffs].
  - exists []. split; [reflexivity|]. split; [reflexivity|discriminate].
  - destruct (mtype p) as [t|] eqn:E.
    + exists []. split; [reflexivity|]. split; [reflexivity|]. intros _. exists p, l. unfold on. rewrite E. auto.
    + exists (p :: offs). split; [cbn [app]; f_equal; exact A|]. assert (O : on p = false) by (unfold on; rewrite E; reflexivity).
      split; [cbn [existsb]; rewrite O; exact B|]. cbn [existsb]. rewrite O. exact C.
Qed.
(** the points left by the reader of format 1 *)
Lemma leniency_spec all : leniency all = all \/
  (exists offs, all = leniency all ++ offs /\ existsb on offs = false /\ endCount 0 (map mtype (leniency all)) = 0 /\ leniency all <> [] /\ hd_error (map mtype all) = Some (Some sMove)).
Proof.
  unfold leniency. destruct all as [|p all]; [left; reflexivity|]. destruct (eqb_spec (mtype p) (Some sMove)) as [E|E]; [|left; reflexivity]. right.
  destruct (dropOffs_spec (rev (p :: all))) as (offs & A & B & C). set (l := p :: all) in *. set (d := dropOffs (rev l)) in *.
  assert (O : existsb on (rev l) = true). { apply existsb_exists. exists p. split; [apply in_rev; rewrite rev_involutive; left; reflexivity|unfold on; rewrite E; reflexivity]. }
  destruct (C O) as (q & r & D & Q). exists (rev offs). split; [|split; [|split; [|split]]].
  - rewrite <- rev_app_distr, <- A. symmetry. apply rev_involutive.
  - destruct (existsb on (rev offs)) eqn:X; [|reflexivity]. apply existsb_exists in X as (z & I & Z). apply in_rev in I.
    assert (Y : existsb on offs = true) by (apply existsb_exists; eauto). congruence.
  - rewrite D. cbn [rev]. rewrite map_app. cbn [map]. unfold on in Q. destruct (mtype q) as [t|]; [|discriminate Q].
    clear. generalize 0 at 1. induction (map mtype (rev r)) as [|[x|] ts IH]; intro n; cbn [app endCount]; auto.
  - rewrite D. cbn [rev]. intro X. apply app_eq_nil in X as [_ X]. discriminate X.
  - unfold l. cbn [map hd_error]. rewrite E. reflexivity.
Qed.
Lemma offsOk_all ts n : ~ In None ts -> n = 0 -> offsOk n ts.
Proof.
  revert n. induction ts as [|[t|] ts IH]; intros n H ->; cbn [offsOk]; [exact I| |exfalso; apply H; left; reflexivity].
  repeat split; try lia. apply IH; [|reflexivity]. intro X. apply H. right. exact X.
Qed.
Lemma offsOk_none l : forall n, existsb on l = false -> offsOk n (map mtype l).
Proof. induction l as [|p l IH]; intros n; cbn [existsb map offsOk]; [intros; exact I|]. unfold on at 1. destruct (mtype p); cbn [orb]; [discriminate|]. apply IH. Qed.
Lemma endCount_noNone ts : ~ In None ts -> endCount 0 ts = 0.
Proof. induction ts as [|[t|] ts IH]; intro H; cbn [endCount]; [reflexivity| |exfalso; apply H; left; reflexivity]. apply IH. intro X. apply H. right. exact X. Qed.
Lemma massage_iff allowed lenient contour ms : massage T true allowed lenient contour = Ok ms <->
  exists all, massageLoop T true allowed 0 (echildren contour) = Ok all /\ ms = (if lenient then leniency all else all) /\
    offsOk (endCount 0 (map mtype ms)) (map mtype ms).
Proof.
  unfold massage. destruct (massageLoop T true allowed 0 (echildren contour)) as [all|]; cbn [bind]; [|split; [discriminate|intros (? & H & _); discriminate]].
  set (m := if lenient then leniency all else all).
  assert (G : forall r, (match lastOn all 0 None with
     | Some i => if true && hasOff all then do x <- checkOffs m (length m - 1 - i); Ok m else Ok m
     | None => Ok m end = Ok r) <-> r = m /\ offsOk (endCount 0 (map mtype m)) (map mtype m)).
  { intro r.
    assert (NO : hasOff all = false -> ~ In None (map mtype all)).
    { intros H I. apply in_map_iff in I as (p & E & I). assert (X : hasOff all = true); [|congruence]. apply existsb_exists. exists p. rewrite E. auto. }
    assert (Sub : forall p, In p m -> In p all).
    { unfold m. destruct lenient; [|auto]. destruct (leniency_spec all) as [->|(offs & E & _)]; [auto|]. intros p I. rewrite E. apply in_or_app. auto. }
    assert (Tr : offsOk (endCount 0 (map mtype m)) (map mtype m) -> (Ok m = Ok r <-> r = m /\ offsOk (endCount 0 (map mtype m)) (map mtype m))).
    { intro O. split; [intro H; inversion H; auto|intros [-> _]; reflexivity]. }
    rewrite lastOn_spec. destruct (existsb on all) eqn:EO.
    2:{ apply Tr. apply offsOk_none. destruct (existsb on m) eqn:EM; [|reflexivity]. apply existsb_exists in EM as (p & I & O).
        assert (X : existsb on all = true) by (apply existsb_exists; eauto). congruence. }
    destruct (hasOff all) eqn:HO; cbn [andb].
    2:{ apply Tr. assert (NI : ~ In None (map mtype m)). { intro I. apply (NO eq_refl). apply in_map_iff in I as (p & E & I). apply in_map_iff. exists p. auto. }
        rewrite (endCount_noNone _ NI). apply offsOk_all; auto. }
    assert (EC : length m - 1 - (0 + (length all - 1 - endCount 0 (map mtype all))) = endCount 0 (map mtype m)).
    { pose proof (endCount_on all EO) as LE. unfold m. destruct lenient; [|lia]. destruct (leniency_spec all) as [->|(offs & E & F & G & NE & _)]; [lia|].
      rewrite G. rewrite E at 2 3. rewrite app_length, map_app. 
      assert (EE : endCount 0 (map mtype (leniency all) ++ map mtype offs) = length offs).
      { assert (X : forall a b n, endCount n (a ++ b) = endCount (endCount n a) b) by (induction a as [|[?|] a IH]; intros b n; cbn [app endCount]; auto).
        rewrite X, G. apply endCount_none. exact F. }
      rewrite EE. lia. }
    rewrite EC. pose proof (checkOffs_iff m (endCount 0 (map mtype m))) as CI. destruct (checkOffs m _) as [[]|]; cbn [bind].
    - split; [intro H; inversion H; subst; split; [reflexivity|apply CI; reflexivity]|intros [-> _]; reflexivity].
    - split; [discriminate|]. intros [_ H]. apply CI in H. discriminate H. }
  rewrite G. split.
  - intros [-> O]. exists all. auto.
  - intros (all' & H & -> & O). inversion H; subst. auto.
Qed.
Lemma readIdentifier_iff i ids ids' : readIdentifier true i ids = Ok ids' <-> idsSeq [i] ids ids'.
Proof.
  unfold readIdentifier. destruct i as [i|]; cbn [idsSeq]; [|split; [intro H; inversion H; auto|intros ->; reflexivity]]. cbn [andb negb orb].
  destruct (mem_spec i ids); cbn [negb]; [split; [discriminate|tauto]|]. destruct (identifierOk i); split; intro H; try discriminate H.
  - inversion H; auto. - destruct H as (_ & _ & ->). reflexivity. - destruct H as (_ & H & _). discriminate H.
Qed.
Lemma points2_iff ms : forall ids cs ids', points2 true ms ids = Ok (cs, ids') <-> idsSeq (map mid ms) ids ids' /\ cs = map (fun m => PAdd (pointOf m)) ms.
Proof.
  induction ms as [|m ms IH]; intros ids cs ids'; cbn [points2 map].
  - cbn [idsSeq]. split; [intro H; inversion H; auto|intros [-> ->]; reflexivity].
  - rewrite idsSeq_cons. pose proof (readIdentifier_iff (mid m) ids) as RI. destruct (readIdentifier true (mid m) ids) as [ids1|]; cbn [bind].
    + pose proof (proj1 (RI ids1) eq_refl) as S1. pose proof (IH ids1) as IH1. destruct (points2 true ms ids1) as [[t ids2]|]; cbn [bind].
      * destruct (proj1 (IH1 _ _) eq_refl) as [S2 ->]. split; [intro H; inversion H; subst; split; [eauto|reflexivity]|].
        intros [(x & X1 & X2) ->]. rewrite (idsSeq_fun _ _ _ _ X1 S1) in X2. rewrite (idsSeq_fun _ _ _ _ X2 S2). reflexivity.
      * split; [discriminate|]. intros [(x & X1 & X2) ->]. rewrite (idsSeq_fun _ _ _ _ X1 S1) in X2. exfalso.
        assert (Y := proj2 (IH1 _ _) (conj X2 eq_refl)). discriminate Y.
    + split; [discriminate|]. intros [(x & X1 & X2) _]. apply RI in X1. discriminate X1.
Qed.
(** what an accepted outline draws *)
Lemma contour2_inv e ids cs ids' : contour2 T true e ids = Ok (cs, ids') ->
  exists pts, cs = gcallsOf (GContour (eget (u "identifier") e) pts) /\ rContour pts /\ map passed pts = pts /\
    idsSeq (eget (u "identifier") e :: map pid pts) ids ids' /\ length pts = length (echildren e).
Proof.
  unfold contour2. cbn [negb orb]. destruct (forallb _ _); [|discriminate]. destruct (readIdentifier true (eget (u "identifier") e) ids) as [ids1|] eqn:E1; cbn [bind]; [|discriminate].
  apply readIdentifier_iff in E1.
  assert (M : forall ms, match echildren e with [] => Ok [] | _ => massage T true pointAttributes2 false e end = Ok ms ->
     Forall rPoint (map pointOf ms) /\ map segType (map pointOf ms) = map mtype ms /\ movesOk true (map mtype ms) /\ offsOk (endCount 0 (map mtype ms)) (map mtype ms) /\ length ms = length (echildren e)).
  { intros ms H. destruct (echildren e) as [|c l] eqn:Ec; [inversion H; cbn; repeat split; constructor|].
    apply massage_iff in H as (all & A & -> & O). rewrite <- Ec. apply massageLoop_inv in A as (A & B & C & D). auto. }
  destruct (match echildren e with [] => Ok [] | _ => massage T true pointAttributes2 false e end) as [ms|]; cbn [bind]; [|discriminate].
  destruct (points2 true ms ids1) as [[cs1 ids2]|] eqn:E2; cbn [bind]; [|discriminate]. apply points2_iff in E2 as [S2 ->].
  intro H. inversion H; subst. destruct (M _ eq_refl) as (A & B & C & D & L). exists (map pointOf ms). split; [|split; [|split; [|split]]].
  - unfold callsOf. rewrite map_map. reflexivity.
  - unfold rContour. rewrite B. auto.
  - rewrite map_map. apply map_ext_in. intros m I. unfold passed. assert (E := segType_pointOf m). unfold pid. unfold pointOf at 1 3 4 5. cbn [pc psmooth pname pkw theId].
    rewrite E; [reflexivity|]. rewrite Forall_forall in A. assert (X := A (pointOf m) (in_map pointOf ms m I)). destruct X as (_ & X & _).
    assert (Y : segType (pointOf m) = mtype m). { clear - B I. induction ms as [|m' ms IH]; [destruct I|]. cbn [map] in B. injection B as B1 B2. destruct I as [->|I]; [exact B1|auto]. }
    rewrite Y in X. exact X.
  - apply idsSeq_cons. exists ids1. split; [exact E1|]. rewrite map_map. exact S2.
  - rewrite map_length. exact L.
Qed.
Lemma readTransformation_num e tr : readTransformation T e = Ok tr -> length tr = 6 /\ Forall isNum tr.
Proof.
  intro H. split.
  - unfold readTransformation in H. apply mapM_Forall2 in H. clear LT. assert (L : forall A B (P : A -> B -> Prop) l m, Forall2 P l m -> length l = length m) by (induction 1; cbn [length]; congruence).
    apply L in H. symmetry. exact H.
  - unfold readTransformation in H. apply mapM_Forall2 in H. induction H as [|[k d] v l m X _ IH]; constructor; [|exact IH]. eapply numberOr_num; eassumption.
Qed.
Lemma component2_inv e ids cs ids' : component2 T true e ids = Ok (cs, ids') ->
  exists b tr, cs = gcallsOf (GComponent b tr (eget (u "identifier") e)) /\ eget (u "base") e = Some b /\ readTransformation T e = Ok tr /\ rItem (GComponent b tr (eget (u "identifier") e)) /\ idsSeq [eget (u "identifier") e] ids ids'.
Proof.
  unfold component2. cbn [negb orb]. destruct (Nat.eqb _ 0); [|discriminate]. destruct (forallb _ _); [|discriminate]. destruct (has _ _); [|discriminate].
  destruct (readTransformation T e) as [tr|] eqn:E1; cbn [bind]; [|discriminate]. destruct (readIdentifier _ _ _) as [ids1|] eqn:E2; cbn [bind]; [|discriminate].
  destruct (eget (u "base") e) as [b|]; [|discriminate]. intro H. inversion H; subst. apply readIdentifier_iff in E2. exists b, tr. split; [reflexivity|]. split; [reflexivity|]. split; [reflexivity|].
  split; [exact (readTransformation_num _ _ E1)|exact E2].
Qed.
Definition isPassed (i : gitem) : Prop := match i with Contour _ _ _ _ pts => map passed pts = pts | _ => True end.
Theorem outlineLoop2_inv l : forall ids cs ids', outlineLoop2 T true l ids = Ok (cs, ids') ->
  exists g, cs = gdrawing g /\ Forall rItem g /\ Forall isPassed g /\ idsSeq (flat_map itemIds g) ids ids' /\ length g = length l.
Proof.
  induction l as [|e l IH]; intros ids cs ids'; cbn [outlineLoop2].
  - intro H. inversion H; subst. exists []. repeat split; constructor.
  - intro H. apply bind_Ok in H as [[c1 ids1] [H1 H]]. apply bind_Ok in H as [[c2 ids2] [H2 H]]. inversion H; subst. apply IH in H2 as (g & -> & A & B & C & D).
    assert (X : exists i, c1 = gcallsOf i /\ rItem i /\ isPassed i /\ idsSeq (itemIds i) ids ids1).
    { destruct (eqb (etag e) (u "contour")).
      - apply contour2_inv in H1 as (pts & -> & E & F & G & _). exists (GContour (eget (u "identifier") e) pts). auto.
      - destruct (eqb (etag e) (u "component")); [|discriminate]. apply component2_inv in H1 as (b & tr & -> & _ & _ & E & F). eexists. split; [reflexivity|]. split; [exact E|]. split; [exact I|exact F]. }
    destruct X as (i & -> & E & F & G). exists (i :: g). split; [reflexivity|]. split; [constructor; assumption|]. split; [constructor; assumption|]. split; [|cbn [length]; lia].
    cbn [flat_map]. apply idsSeq_app. eauto.
Qed.

(** ** Reading what the writer has written *)
(** elements that differ only in their texts *)
Inductive shape : elem -> elem -> Prop :=
| shape_elem tag at' t1 t2 ch1 ch2 l1 l2 : Forall2 shape ch1 ch2 -> shape (Elem tag at' t1 ch1 l1) (Elem tag at' t2 ch2 l2).
Lemma shape_parts e f : shape e f -> etag f = etag e /\ eattrib f = eattrib e /\ Forall2 shape (echildren e) (echildren f).
Proof. intro H. destruct H. auto. Qed.
Lemma Forall2_len {A B} (P : A -> B -> Prop) l m : Forall2 P l m -> length l = length m.
Proof. induction 1; cbn [length]; congruence. Qed.
Lemma massagePoint_shape v al i e f : shape e f -> massagePoint T v al i f = massagePoint T v al i e.
Proof.
  intro S. destruct (shape_parts _ _ S) as (A & B & C). apply Forall2_len in C. unfold massagePoint, eget. rewrite A, B, C. reflexivity.
Qed.
Lemma massageLoop_shape v al l m : Forall2 shape l m -> forall i, massageLoop T v al i m = massageLoop T v al i l.
Proof. induction 1 as [|e f l m H _ IH]; intro i; cbn [massageLoop]; [reflexivity|]. rewrite (massagePoint_shape _ _ _ _ _ H), IH. reflexivity. Qed.
Lemma massage_shape v al b e f : shape e f -> massage T v al b f = massage T v al b e.
Proof. intro S. unfold massage. rewrite (massageLoop_shape _ _ _ _ (proj2 (proj2 (shape_parts _ _ S)))). reflexivity. Qed.
Lemma contour2_shape v e f ids : shape e f -> contour2 T v f ids = contour2 T v e ids.
Proof.
  intro S. unfold contour2. rewrite (massage_shape _ _ _ _ _ S). destruct (shape_parts _ _ S) as (A & B & C). unfold eget. rewrite B. destruct C; reflexivity.
Qed.
Lemma readTransformation_shape e f : shape e f -> readTransformation T f = readTransformation T e.
Proof. intro S. unfold readTransformation, eget. destruct (shape_parts _ _ S) as (_ & -> & _). reflexivity. Qed.
Lemma component2_shape v e f ids : shape e f -> component2 T v f ids = component2 T v e ids.
Proof.
  intro S. unfold component2. rewrite (readTransformation_shape _ _ S). destruct (shape_parts _ _ S) as (A & B & C). apply Forall2_len in C. unfold eget. rewrite B, C. reflexivity.
Qed.
Lemma outlineLoop2_shape v l m : Forall2 shape l m -> forall ids, outlineLoop2 T v m ids = outlineLoop2 T v l ids.
Proof.
  induction 1 as [|e f l m H _ IH]; intro ids; cbn [outlineLoop2]; [reflexivity|]. rewrite (contour2_shape _ _ _ _ H), (component2_shape _ _ _ _ H).
  destruct (shape_parts _ _ H) as (-> & _). match goal with |- bind ?x _ = _ => destruct x as [[cs ids1]|]; cbn [bind]; [|reflexivity] end. rewrite IH. reflexivity.
Qed.

Definition numeric (p : gpoint) : Prop := exists x y, pc p = Some (x, y) /\ isNum x /\ isNum y.
Definition massaged (p : gpoint) : mpoint :=
  mkM (match pc p with Some (x, _) => x | None => PNone end) (match pc p with Some (_, y) => y | None => PNone end) (segType p) (psmooth p) (pname p) (pid p).
Lemma pointOf_massaged p : numeric p -> pointOf (massaged p) = passed p.
Proof. intros (x & y & E & _). unfold pointOf, massaged, passed. cbn. rewrite E. reflexivity. Qed.
Lemma pointElem_get p : numeric p ->
  eget (u "x") (pointElem R ro p) = match pc p with Some (x, y) => Some (reprOf R ro x) | None => None end /\
  eget (u "y") (pointElem R ro p) = match pc p with Some (x, y) => Some (reprOf R ro y) | None => None end /\
  eget (u "type") (pointElem R ro p) = segType p /\
  eget (u "smooth") (pointElem R ro p) = (if psmooth p then Some (u "yes") else None) /\
  eget (u "name") (pointElem R ro p) = pname p /\
  eget (u "identifier") (pointElem R ro p) = pid p /\
  forallb (fun a => mem a pointAttributes2) (map fst (eattrib (pointElem R ro p))) = true.
Proof.
  intros (x & y & E & _). unfold pointElem, eget, idAttr. rewrite E. generalize (reprOf R ro x) as rx, (reprOf R ro y) as ry. intros rx ry. cbn [eattrib sub].
  destruct (segType p), (psmooth p), (pname p), (pid p); repeat split; reflexivity.
Qed.
Lemma massagePoint_written idx p m : numeric p ->
  massagePoint T true pointAttributes2 idx (pointElem R ro p) = Ok m <->
  (known (segType p) /\ (psmooth p = true -> segType p <> None) /\ (idx <> 0 -> segType p <> Some sMove)) /\ m = massaged p.
Proof.
  intro N. destruct (pointElem_get p N) as (G1 & G2 & G3 & G4 & G5 & G6 & G7). destruct N as (x & y & Ep & Nx & Ny).
  unfold massagePoint, has. fold (eget (u "x") (pointElem R ro p)) (eget (u "y") (pointElem R ro p)). rewrite G7, G1, G2, G3, G4, G5, G6, Ep.
  change (etag (pointElem R ro p)) with (u "point"). rewrite eqb_refl. change (echildren (pointElem R ro p)) with (@nil elem). cbn [length Nat.eqb negb orb andb].
  rewrite !(number_repr T LT R LR ro) by assumption. cbn [bind].
  pose proof (segType_not_off p) as NO. unfold massaged. rewrite Ep.
  assert (K : mem (match segType p with Some t => t | None => u "offcurve" end) pointTypeOptions = true <-> known (segType p)).
  { rewrite known_mem. destruct (segType p) as [t|]; [|split; intro; [left|left]; reflexivity]. split; [intros [->|H]; [congruence|exact H]|auto]. }
  destruct (mem _ pointTypeOptions).
  2:{ split; [discriminate|]. intros ((H & _) & _). apply K in H. discriminate H. }
  assert (K' := proj1 K eq_refl).
  replace (if eqb (match segType p with Some t => t | None => u "offcurve" end) (u "offcurve") then None else Some (match segType p with Some t => t | None => u "offcurve" end)) with (segType p).
  2:{ destruct (segType p) as [t|]; [|rewrite eqb_refl; reflexivity]. destruct (eqb_spec t (u "offcurve")); [subst; congruence|reflexivity]. }
  assert (Sm : mem (match (if psmooth p then Some (u "yes") else None) with Some s => s | None => u "no" end) [u "no"; u "yes"] = true) by (destruct (psmooth p); reflexivity).
  rewrite Sm. assert (Sy : eqb (match (if psmooth p then Some (u "yes") else None) with Some s => s | None => u "no" end) (u "yes") = psmooth p) by (destruct (psmooth p); reflexivity).
  rewrite Sy. destruct (eqb (segType p) (Some sMove) && negb (Nat.eqb idx 0)) eqn:E1; cbn [negb].
  { split; [discriminate|]. intros ((_ & _ & H) & _). apply andb_true_iff in E1 as [E1 E2]. apply eqb_opt in E1. exfalso. apply H; [|exact E1]. intros ->. discriminate E2. }
  destruct (psmooth p && eqb (segType p) None) eqn:E2; cbn [negb].
  { split; [discriminate|]. intros ((_ & H & _) & _). apply andb_true_iff in E2 as [E2 E3]. exfalso. apply (H E2). revert E3. apply (proj1 (eqb_eq (segType p) None)). }
  split.
  - intro H. apply Ok_inj in H. split; [|symmetry; exact H]. split; [exact K'|]. split.
    + intros Sp. rewrite Sp in E2. cbn [andb] in E2. apply eqb_neq in E2. exact E2.
    + intros Ni E. rewrite E, eqb_refl in E1. destruct (Nat.eqb_spec idx 0); [contradiction|discriminate E1].
  - intros [_ ->]. reflexivity.
Qed.
Lemma massageLoop_written pts : forall idx ms, Forall numeric pts ->
  massageLoop T true pointAttributes2 idx (map (pointElem R ro) pts) = Ok ms <->
  (Forall rPoint pts /\ movesOk (Nat.eqb idx 0) (map segType pts)) /\ ms = map massaged pts.
Proof.
  induction pts as [|p pts IH]; intros idx ms N; cbn [map massageLoop].
  - split; [intro H; inversion H; cbn; repeat split; constructor|intros [_ ->]; reflexivity].
  - inversion N as [|? ? N1 N2]; subst. rewrite movesOk_cons.
    pose proof (fun m => massagePoint_written idx p m N1) as PI. pose proof (fun m => IH (S idx) m N2) as LI. cbn [Nat.eqb] in LI.
    assert (MV : (idx <> 0 -> segType p <> Some sMove) <-> movesOk (Nat.eqb idx 0) [segType p]).
    { cbn [movesOk]. rewrite Nat.eqb_neq. split; [intro H; split; [exact H|constructor]|tauto]. }
    destruct (massagePoint T true pointAttributes2 idx (pointElem R ro p)) as [m|]; cbn [bind].
    + destruct (proj1 (PI m) eq_refl) as ((A & B & C) & ->). destruct (massageLoop T true pointAttributes2 (S idx) (map (pointElem R ro) pts)) as [ms'|]; cbn [bind].
      * destruct (proj1 (LI ms') eq_refl) as ((D & E) & ->). split; [|intros [_ ->]; reflexivity]. intro H. inversion H; subst. split; [|reflexivity]. split; [|tauto].
        constructor; [|exact D]. split; [exact N1|auto].
      * split; [discriminate|]. intros ((D & _ & E) & _). inversion D; subst. exfalso. assert (X := proj2 (LI _) (conj (conj H2 E) eq_refl)). discriminate X.
    + split; [discriminate|]. intros ((D & M & _) & _). inversion D as [|? ? (_ & D1 & D2) D3]; subst. exfalso.
      assert (X := proj2 (PI _) (conj (conj D1 (conj D2 (proj2 MV M))) eq_refl)). discriminate X.
Qed.
Lemma mtype_massaged pts : map mtype (map massaged pts) = map segType pts.
Proof. rewrite map_map. apply map_ext. reflexivity. Qed.
Lemma contourElem_attr i pts : eget (u "identifier") (contourElem R ro i pts) = i /\ forallb (fun a => eqb a (u "identifier")) (map fst (eattrib (contourElem R ro i pts))) = true /\
  echildren (contourElem R ro i pts) = map (pointElem R ro) pts /\ etag (contourElem R ro i pts) = u "contour".
Proof. unfold eget, contourElem, idAttr. cbn [eattrib]. destruct i; repeat split; reflexivity. Qed.
Lemma contour2_written i pts ids cs ids' : Forall numeric pts ->
  contour2 T true (contourElem R ro i pts) ids = Ok (cs, ids') <->
  rContour pts /\ idsSeq (i :: map pid pts) ids ids' /\ cs = gcallsOf (GContour i (map passed pts)).
Proof.
  intro N. unfold contour2. destruct (contourElem_attr i pts) as (A & B & C & _). rewrite A, B. cbn [negb orb].
  pose proof (readIdentifier_iff i ids) as RI. destruct (readIdentifier true i ids) as [ids1|]; cbn [bind].
  2:{ split; [discriminate|]. intros (_ & S & _). apply idsSeq_cons in S as (x & S1 & _). apply RI in S1. discriminate S1. }
  assert (S1 := proj1 (RI _) eq_refl).
  assert (M : forall ms, match echildren (contourElem R ro i pts) with [] => Ok [] | _ => massage T true pointAttributes2 false (contourElem R ro i pts) end = Ok ms <-> rContour pts /\ ms = map massaged pts).
  { intro ms. rewrite C. destruct pts as [|p pts].
    - cbn [map]. split; [intro H; inversion H; split; [|reflexivity]; repeat split; constructor|intros [_ ->]; reflexivity].
    - cbn [map]. rewrite massage_iff, C. split.
      + intros (all & H & -> & O). apply (massageLoop_written (p :: pts) 0 _ N) in H as [[H1 H2] ->]. rewrite mtype_massaged in O. split; [|reflexivity]. split; [exact H1|]. split; [exact H2|exact O].
      + intros [(H1 & H2 & O) ->]. exists (map massaged (p :: pts)). split; [apply (massageLoop_written (p :: pts) 0 _ N); auto|]. split; [reflexivity|].
        change (massaged p :: map massaged pts) with (map massaged (p :: pts)). rewrite mtype_massaged. exact O. }
  destruct (match echildren (contourElem R ro i pts) with [] => Ok [] | _ => massage T true pointAttributes2 false (contourElem R ro i pts) end) as [ms|]; cbn [bind].
  2:{ split; [discriminate|]. intros (H & _ & _). assert (X := proj2 (M _) (conj H eq_refl)). discriminate X. }
  destruct (proj1 (M _) eq_refl) as [RC ->].
  assert (Em : map mid (map massaged pts) = map pid pts) by (rewrite map_map; reflexivity).
  assert (Ec : map (fun m => PAdd (Tr := list pyval) (pointOf m)) (map massaged pts) = map (fun p => PAdd p) (map passed pts)).
  { rewrite !map_map. apply map_ext_in. intros p I. rewrite pointOf_massaged; [reflexivity|]. rewrite Forall_forall in N. auto. }
  pose proof (points2_iff (map massaged pts) ids1) as P2. rewrite Em, Ec in P2. unfold callsOf. rewrite idsSeq_cons.
  destruct (points2 true (map massaged pts) ids1) as [[c2 ids2]|]; cbn [bind].
  - destruct (proj1 (P2 _ _) eq_refl) as [S2 ->]. split.
    + intro H. inversion H; subst. split; [exact RC|]. split; [eauto|reflexivity].
    + intros (_ & (x & X1 & X2) & ->). rewrite (idsSeq_fun _ _ _ _ X1 S1) in X2. rewrite (idsSeq_fun _ _ _ _ X2 S2). reflexivity.
  - split; [discriminate|]. intros (_ & (x & X1 & X2) & ->). rewrite (idsSeq_fun _ _ _ _ X1 S1) in X2. assert (X := proj2 (P2 _ _) (conj X2 eq_refl)). discriminate X.
Qed.
(** components *)
Lemma get_app_not {A} k (l m : list (str * A)) : ~ In k (map fst l) -> get k (l ++ m) = get k m.
Proof.
  intro N. induction l as [|[k' v] l IH]; [reflexivity|]. cbn [app get map fst] in *. destruct (eqb_spec k k') as [->|D]; [exfalso; apply N; left; reflexivity|].
  apply IH. intro I. apply N. right. exact I.
Qed.
Lemma get_not {A} k (l : list (str * A)) : ~ In k (map fst l) -> get k l = None.
Proof. intro N. rewrite <- (app_nil_r l). rewrite get_app_not by exact N. reflexivity. Qed.
Lemma transAttrs_keys info : forall tr k, In k (map fst (transAttrs R ro info tr)) -> In k (map fst info).
Proof.
  induction info as [|[k' d] info IH]; intros tr k; cbn [transAttrs]; [auto|]. destruct tr as [|v tr]; [intros []|]. rewrite map_app, in_app_iff. cbn [map fst].
  intros [H|H]; [|right; eauto]. destruct (py_eq v (PInt d)); cbn in H; [destruct H|destruct H as [<-|[]]; left; reflexivity].
Qed.
Lemma numbers_written info : forall tr pre post, NoDup (map fst info) -> (forall k, In k (map fst info) -> ~ In k (map fst pre) /\ ~ In k (map fst post)) -> Forall isNum (firstn (length info) tr) ->
  mapM (fun '(attr, default) => numberOr T default (get attr (pre ++ transAttrs R ro info tr ++ post))) info = Ok (dflts info tr).
Proof.
  induction info as [|[k d] info IH]; intros tr pre post ND D N; cbn [mapM dflts]; [reflexivity|]. cbn [map fst] in ND, D. inversion ND as [|? ? Nk ND']; subst.
  destruct (D k (or_introl eq_refl)) as [D1 D2].
  destruct tr as [|v tr].
  - cbn [transAttrs app]. rewrite get_app_not, get_not by assumption. cbn [numberOr bind]. specialize (IH [] pre post ND').
    replace (transAttrs R ro info []) with (@nil (str * str)) in IH by (destruct info as [|[? ?] ?]; reflexivity). cbn [app] in IH. rewrite IH; [reflexivity| |destruct info; constructor].
    intros k' I. apply D. right. exact I.
  - cbn [transAttrs]. cbn [firstn length] in N. inversion N as [|? ? Nv N']; subst.
    assert (G : numberOr T d (get k (pre ++ ((if py_eq v (PInt d) then [] else [(k, reprOf R ro v)]) ++ transAttrs R ro info tr) ++ post)) = Ok (dflt d v)).
    { rewrite get_app_not by exact D1. unfold dflt. destruct (py_eq v (PInt d)).
      - cbn [app]. rewrite get_app_not by (intro I; apply transAttrs_keys in I; contradiction). rewrite get_not by exact D2. reflexivity.
      - cbn [app get]. rewrite eqb_refl. cbn [numberOr]. apply (number_repr T LT R LR ro). exact Nv. }
    rewrite G. cbn [bind].
    set (h := if py_eq v (PInt d) then [] else [(k, reprOf R ro v)]). specialize (IH tr (pre ++ h) post ND'). rewrite <- app_assoc in IH. rewrite <- app_assoc. rewrite IH; [reflexivity| |exact N'].
    intros k' I. destruct (D k' (or_intror I)) as [E1 E2]. split; [|exact E2]. rewrite map_app, in_app_iff. intros [X|X]; [contradiction|]. unfold h in X.
    destruct (py_eq v (PInt d)); cbn in X; [destruct X|destruct X as [->|[]]; contradiction].
Qed.
Lemma transformationInfo_nodup : NoDup (map fst transformationInfo).
Proof. destruct (nodupb_spec (map fst transformationInfo)) as [H|H]; [exact H|]. vm_compute in H. destruct H. repeat constructor; intro I; repeat (destruct I as [I|I]; [discriminate I|]); destruct I. Qed.
Lemma component_readTransformation b tr i : Forall isNum (firstn 6 tr) -> readTransformation T (componentElem R ro b tr i) = Ok (dflts transformationInfo tr).
Proof.
  intro N. unfold readTransformation, eget, componentElem. cbn [sub eattrib].
  apply (numbers_written transformationInfo tr [(u "base", b)] (idAttr i) transformationInfo_nodup); [|exact N].
  assert (D : forall k, In k (map fst transformationInfo) -> mem k [u "base"; u "identifier"] = false).
  { apply Forall_forall. repeat constructor; vm_compute; reflexivity. }
  intros k I. specialize (D k I). apply mem_nIn in D. split; intro X; apply D.
  - destruct X as [<-|[]]. left. reflexivity.
  - destruct i; [|destruct X]. destruct X as [<-|[]]. right. left. reflexivity.
Qed.
Lemma component2_written b tr i ids cs ids' : Forall isNum (firstn 6 tr) ->
  component2 T true (componentElem R ro b tr i) ids = Ok (cs, ids') <-> idsSeq [i] ids ids' /\ cs = gcallsOf (passedItem (GComponent b tr i)).
Proof.
  intro N. unfold component2. rewrite (component_readTransformation b tr i N). cbn [bind]. change (echildren (componentElem R ro b tr i)) with (@nil elem).
  assert (A : forallb (fun a => mem a componentAttributes2) (map fst (eattrib (componentElem R ro b tr i))) = true).
  { apply forallb_forall. intros k I. unfold componentElem in I. cbn [sub eattrib map fst] in I. rewrite map_app in I. destruct I as [<-|I]; [reflexivity|]. apply in_app_or in I as [I|I].
    - apply transAttrs_keys in I. revert k I. apply Forall_forall. repeat constructor; vm_compute; reflexivity.
    - destruct i; [|destruct I]. destruct I as [<-|[]]. reflexivity. }
  rewrite A. assert (B : eget (u "base") (componentElem R ro b tr i) = Some b) by reflexivity. unfold has. fold (eget (u "base") (componentElem R ro b tr i)). rewrite B.
  assert (C : eget (u "identifier") (componentElem R ro b tr i) = i).
  { unfold eget, componentElem. cbn [sub eattrib]. change ((u "base", b) :: transAttrs R ro transformationInfo tr ++ idAttr i) with ([(u "base", b)] ++ transAttrs R ro transformationInfo tr ++ idAttr i).
    rewrite get_app_not by (cbn; intros [X|[]]; vm_compute in X; discriminate X). rewrite get_app_not.
    - destruct i; reflexivity.
    - intro I. apply transAttrs_keys in I. revert I. apply mem_nIn. vm_compute. reflexivity. }
  rewrite C. cbn [length Nat.eqb negb orb]. pose proof (readIdentifier_iff i ids) as RI. destruct (readIdentifier true i ids) as [ids1|]; cbn [bind].
  - assert (S1 := proj1 (RI _) eq_refl). split; [intro H; inversion H; subst; auto|]. intros [S2 ->]. rewrite (idsSeq_fun _ _ _ _ S1 S2). reflexivity.
  - split; [discriminate|]. intros [S _]. apply RI in S. discriminate S.
Qed.
Definition numericItem (i : gitem) : Prop :=
  match i with Contour _ _ _ _ pts => Forall numeric pts | Component _ _ _ _ tr _ => Forall isNum (firstn 6 tr) end.
Definition rItem' (i : gitem) : Prop := match i with Contour _ _ _ _ pts => rContour pts | _ => True end.
Theorem outlineLoop2_written g : forall ids cs ids', Forall numericItem g ->
  outlineLoop2 T true (map (itemElem R ro) g) ids = Ok (cs, ids') <->
  Forall rItem' g /\ idsSeq (flat_map itemIds g) ids ids' /\ cs = gdrawing (map passedItem g).
Proof.
  induction g as [|i g IH]; intros ids cs ids' N; cbn [map outlineLoop2].
  - cbn [flat_map idsSeq]. split; [intro H; inversion H; repeat split; constructor|intros (_ & -> & ->); reflexivity].
  - inversion N as [|? ? N1 N2]; subst.
    assert (E : forall c1 ids1, (if eqb (etag (itemElem R ro i)) (u "contour") then contour2 T true (itemElem R ro i) ids
       else if eqb (etag (itemElem R ro i)) (u "component") then component2 T true (itemElem R ro i) ids else Err GlifLibError) = Ok (c1, ids1) <->
       rItem' i /\ idsSeq (itemIds i) ids ids1 /\ c1 = gcallsOf (passedItem i)).
    { intros c1 ids1. destruct i as [ident pts|b tr ident]; cbn [itemElem rItem' itemIds].
      - change (etag (contourElem R ro ident pts)) with (u "contour"). rewrite eqb_refl. apply contour2_written. exact N1.
      - change (etag (componentElem R ro b tr ident)) with (u "component"). change (eqb (u "component") (u "contour")) with false. rewrite eqb_refl. cbv iota.
        rewrite (component2_written b tr ident ids c1 ids1 N1). tauto. }
    match goal with |- bind ?x _ = _ <-> _ => destruct x as [[c1 ids1]|] end; cbn [bind].
    + destruct (proj1 (E _ _) eq_refl) as (A & B & ->). pose proof (fun c i => IH ids1 c i N2) as IH1.
      destruct (outlineLoop2 T true (map (itemElem R ro) g) ids1) as [[c2 ids2]|]; cbn [bind].
      * destruct (proj1 (IH1 _ _) eq_refl) as (C & D & ->). cbn [flat_map]. rewrite idsSeq_app. split.
        -- intro H. inversion H; subst. split; [constructor; assumption|]. split; [eauto|reflexivity].
        -- intros (_ & (x & X1 & X2) & ->). rewrite (idsSeq_fun _ _ _ _ X1 B) in X2. rewrite (idsSeq_fun _ _ _ _ X2 D). reflexivity.
      * split; [discriminate|]. cbn [flat_map]. rewrite idsSeq_app. intros (F & (x & X1 & X2) & ->). inversion F; subst. rewrite (idsSeq_fun _ _ _ _ X1 B) in X2.
        assert (X := proj2 (IH1 _ _) (conj H2 (conj X2 eq_refl))). discriminate X.
    + split; [discriminate|]. cbn [flat_map]. rewrite idsSeq_app. intros (F & (x & X1 & X2) & ->). inversion F; subst.
      assert (X := proj2 (E _ _) (conj H1 (conj X1 eq_refl))). discriminate X.
Qed.

(** ** The two conditions compared *)
Lemma offsOk_from0 ts n : offsOk n ts -> offsOk 0 ts.
Proof. apply offsOk_mono. lia. Qed.
Lemma rContour_wContour pts : rContour pts -> wContour pts.
Proof.
  intros (A & B & C). split; [|split; [exact B|split; [eapply offsOk_from0; exact C|]]].
  - eapply Forall_impl; [|exact A]. cbv beta. intros p ((x & y & E & Nx & Ny) & _ & S). split; [|exact S]. rewrite E. split; eapply isNum_number; eassumption.
  - destruct pts as [|p pts]; cbn [map hd_error]; [discriminate|]. intro E. injection E as E. cbn [map] in C. rewrite E in C. cbn [offsOk] in C. rewrite E. destruct C as (C & _). apply C. auto.
Qed.
Lemma rItem_wItem i : rItem i -> wItem i.
Proof.
  destruct i as [ident pts|b tr ident]; cbn [rItem wItem]; [apply rContour_wContour|]. intros [L N]. rewrite firstn_all2 by lia. eapply Forall_impl; [|exact N]. apply isNum_number.
Qed.
Lemma rItem_numeric i : rItem i -> numericItem i.
Proof.
  destruct i as [ident pts|b tr ident]; cbn [rItem numericItem].
  - intros (A & _). eapply Forall_impl; [|exact A]. intros p (H & _). exact H.
  - intros [L N]. rewrite firstn_all2 by lia. exact N.
Qed.
Lemma rItem_rItem' i : rItem i -> rItem' i.
Proof. destruct i; cbn; auto. Qed.
(** twice around the contour *)
Lemma offsOk_twice ts : offsOk 0 (ts ++ ts) <-> offsOk (endCount 0 ts) ts.
Proof. rewrite offsOk_app. split; [tauto|]. intro H. split; [eapply offsOk_from0; exact H|exact H]. Qed.
Lemma offsOk_spec ts : offsOk 0 ts <-> forall a n t b, ts = a ++ repeat None n ++ Some t :: b -> (t = sMove \/ t = sLine -> n = 0) /\ (t = sCurve -> n <= 2).
Proof.
  assert (G : forall ts n, offsOk n ts <-> forall a k t b, repeat None n ++ ts = a ++ repeat None k ++ Some t :: b -> (t = sMove \/ t = sLine -> k = 0) /\ (t = sCurve -> k <= 2)).
  2:{ apply (G ts 0). }
  clear ts. induction ts as [|[t|] ts IH]; intro n; cbn [offsOk].
  - split; [|tauto]. intros _ a k t b H. exfalso. rewrite app_nil_r in H. assert (I : In (Some t) (repeat (@None str) n)) by (rewrite H; apply in_or_app; right; apply in_or_app; right; left; reflexivity).
    apply repeat_spec in I. discriminate I.
  - rewrite (IH 0). cbn [repeat app]. split.
    + intros (A & B & C) a k t' b H.
      assert (X : (a ++ repeat None k = repeat None n /\ t' = t /\ b = ts) \/ (exists a', a = repeat None n ++ Some t :: a' /\ ts = a' ++ repeat None k ++ Some t' :: b)).
      { clear - H. revert a H. induction n as [|n IHn]; intros a H; cbn [repeat app] in *.
        - destruct a as [|x a].
          + left. destruct k; cbn [repeat app] in H; [inversion H; auto|discriminate H].
          + right. cbn [app] in H. injection H as <- H. exists a. auto.
        - destruct a as [|x a]; cbn [app] in H.
          + destruct k as [|k]; cbn [repeat app] in H; [discriminate H|]. injection H as H. specialize (IHn [] ). cbn [app] in IHn.
            assert (Z : forall n k, repeat None n ++ Some t :: ts = repeat None k ++ Some t' :: b -> k = n /\ t' = t /\ b = ts).
            { clear. induction n as [|n IH]; intros [|k] H; cbn [repeat app] in H; [injection H as -> ->; auto|discriminate H|discriminate H|]. injection H as H. destruct (IH k H) as (-> & E). auto. }
            destruct (Z _ _ H) as (-> & -> & ->). left. auto.
          + injection H as <- H. destruct (IHn a H) as [(E1 & E2)|(a' & -> & E)].
            * left. cbn [app]. rewrite E1. auto.
            * right. exists a'. auto. }
      destruct X as [(E & -> & ->)|(a' & -> & E)]; [|exact (C a' k t' b E)].
      assert (L : k <= n). { apply (f_equal (@length _)) in E. rewrite app_length, !repeat_length in E. lia. }
      split; intro H'; [specialize (A H')|specialize (B H')]; lia.
    + intro H. destruct (H [] n t ts eq_refl) as [A B]. split; [exact A|]. split; [exact B|]. intros a k t' b E. apply (H (repeat None n ++ Some t :: a) k t' b). rewrite E, <- app_assoc. reflexivity.
  - rewrite (IH (S n)). assert (E : repeat None (S n) ++ ts = repeat None n ++ None :: ts).
    { clear. induction n as [|n IH]; [reflexivity|]. cbn [repeat app]. f_equal. exact IH. }
    rewrite E. reflexivity.
Qed.
End Reader.
