(** Properties of the point pens (C45-C49). *)
From Coq Require Import String NArith ZArith Bool Lia List.
From Verif Require Import Base PointPen.
Import ListNotations.
Local Open Scope string_scope.
Local Open Scope list_scope.

Section Pens.
Variable P Tr KW : Type.
Notation pnt := (point P KW).
Notation calls := (list (pcall P Tr KW)).

(** * Vocabulary *)
Definition isOn (p : pnt) : Prop := ptype p <> None.
Definition isOff (p : pnt) : Prop := ptype p = None.
(** a point without its segment type *)
Definition bare : Type := option P * bool * option str * KW.
Definition bareOf (p : pnt) : bare := (pc p, psmooth p, pname p, pkw p).
(** what is drawn on a point pen: contours and components *)
Inductive item :=
| Contour (identifier : option str) (points : list pnt)
| Component (base : str) (transformation : Tr) (identifier : option str).
Definition callsOf (i : item) : calls :=
  match i with
  | Contour ident pts => PBegin (Some ident) :: map PAdd pts ++ [PEnd]
  | Component b t ident => [PComponent b t (Some ident)]
  end.
Definition drawing (g : list item) : calls := flat_map callsOf g.
(** an open contour starts with a "move" point *)
Definition openContour (pts : list pnt) : Prop := exists p r, pts = p :: r /\ ptype p = Some sMove.
Definition noMove (pts : list pnt) : Prop := Forall (fun p => ptype p <> Some sMove) pts.
(** ends with an on-curve point *)
Definition endsOn (pts : list pnt) : Prop := exists r p, pts = r ++ [p] /\ isOn p.

(** a segment: its type, the on-curve point it starts from, the off-curve points
    and the on-curve point it ends with *)
Definition seg : Type := str * bare * list bare * bare.
Definition flip (s : seg) : seg := let '(t, a, offs, b) := s in (t, b, rev offs, a).
(** the segments along a list of points from a given starting point *)
Fixpoint walk (a : bare) (offs : list bare) (l : list pnt) : list seg :=
  match l with
  | [] => []
  | p :: r =>
    match ptype p with
    | None => walk a (offs ++ [bareOf p]) r
    | Some t => (t, a, offs, bareOf p) :: walk (bareOf p) [] r
    end
  end.
(** the segments of a closed contour, from its first on-curve point round to it *)
Definition closedSegs (pts : list pnt) (segs : list seg) : Prop :=
  exists pre f post, pts = pre ++ f :: post /\ Forall isOff pre /\ isOn f /\
    segs = walk (bareOf f) [] (post ++ pre ++ [f]).
Definition openSegs (pts : list pnt) (segs : list seg) : Prop :=
  exists f post, pts = f :: post /\ segs = walk (bareOf f) [] post.
Definition rotated {A} (l l' : list A) : Prop := exists x y, l = x ++ y /\ l' = y ++ x.

(** * Facts about running pens *)
Lemma run_app : forall S I O (step : S -> I -> res (S * list O)) cs1 cs2 s s1 o1,
  run step s cs1 = Ok (s1, o1) ->
  run step s (cs1 ++ cs2) = (do r <- run step s1 cs2; Ok (fst r, o1 ++ snd r)).
Proof.
  induction cs1 as [|c r IH]; cbn [run app]; intros cs2 s s1 o1 H.
  - injection H as <- <-. destruct (run step s cs2) as [[a b]|e]; reflexivity.
  - destruct (step s c) as [[a b]|e]; cbn [bind fst snd] in *; [|discriminate H].
    destruct (run step a r) as [[a' b']|e] eqn:E; cbn [bind fst snd] in *; [|discriminate H].
    injection H as <- <-. rewrite (IH _ _ _ _ E).
    destruct (run step a' cs2) as [[a2 b2]|e]; cbn [bind fst snd]; [rewrite app_assoc|]; reflexivity.
Qed.
Lemma run_flat : forall S I O A B (step : S -> I -> res (S * list O)) s (f : A -> list I) (f' : B -> list O) (R : A -> B -> Prop) l l',
  (forall a b, R a b -> run step s (f a) = Ok (s, f' b)) ->
  Forall2 R l l' -> run step s (flat_map f l) = Ok (s, flat_map f' l').
Proof.
  intros S I O A B step s f f' R l l' H. induction 1 as [|a b l l' h _ IH]; [reflexivity|].
  cbn [flat_map]. rewrite (run_app _ _ _ _ _ _ _ _ _ (H _ _ h)), IH. reflexivity.
Qed.

(** * ReverseContourPointPen *)
Lemma reverse_adds : forall pts (i : option str) (l : list pnt),
  run (@reverseStep P Tr KW) (Some (i, l)) (map PAdd pts) = Ok (Some (i, l ++ pts), []).
Proof.
  induction pts as [|p r IH]; intros i l; cbn [map run]; [rewrite app_nil_r; reflexivity|].
  cbn [reverseStep bind fst snd]. rewrite IH, <- app_assoc. reflexivity.
Qed.
Lemma reverse_contour : forall i pts out, reversePoints pts = Ok out ->
  run (@reverseStep P Tr KW) None (callsOf (Contour i pts)) = Ok (None, callsOf (Contour i out)).
Proof.
  intros i pts out H. unfold callsOf. cbn [run]. cbn [reverseStep bind fst snd].
  rewrite (run_app _ _ _ _ _ _ _ _ _ (reverse_adds pts i [])). cbn [app].
  cbn [run reverseStep bind fst snd]. rewrite H. cbn [bind fst snd]. rewrite app_nil_r. reflexivity.
Qed.
Definition reversedItem (a b : item) : Prop :=
  match a, b with
  | Contour i p, Contour i' p' => i = i' /\ reversePoints p = Ok p'
  | Component x t i, Component x' t' i' => x = x' /\ t = t' /\ i = i'
  | _, _ => False
  end.
Lemma reverse_drawing : forall g g', Forall2 reversedItem g g' -> reverseContours (drawing g) = Ok (drawing g').
Proof.
  intros g g' H. unfold reverseContours, drawing.
  rewrite (run_flat _ _ _ _ _ _ None callsOf callsOf reversedItem g g'); [reflexivity| |exact H].
  intros [i p|x t i] [i' p'|x' t' i']; cbn [reversedItem]; intros h; try contradiction.
  - destruct h as [<- h]. exact (reverse_contour _ _ _ h).
  - destruct h as [<- [<- <-]]. reflexivity.
Qed.

(** last and first segment type *)
Fixpoint lastType (t : option str) (l : list pnt) : option str :=
  match l with [] => t | p :: r => lastType (match ptype p with Some x => Some x | None => t end) r end.
Fixpoint firstType (l : list pnt) : option str :=
  match l with [] => None | p :: r => match ptype p with Some x => Some x | None => firstType r end end.
Lemma firstOn_type : forall l, match firstOn l with
   | Some i => match nth_error l i with Some q => ptype q | None => None end | None => None end = firstType l.
Proof.
  induction l as [|p r IH]; [reflexivity|]. cbn [firstOn firstType].
  destruct (ptype p) eqn:E; [cbn [nth_error]; exact E|].
  destruct (firstOn r); cbn [option_map nth_error]; exact IH.
Qed.
Lemma retype_app : forall l t l', retype t (l ++ l') = retype t l ++ retype (lastType t l) l'.
Proof.
  induction l as [|p r IH]; intros t l'; [reflexivity|]. cbn [app retype lastType].
  destruct (ptype p); cbn [app]; rewrite IH; reflexivity.
Qed.
Lemma lastType_app : forall l t l', lastType t (l ++ l') = lastType (lastType t l) l'.
Proof. induction l as [|p r IH]; intros t l'; [reflexivity|]. cbn [app lastType]. apply IH. Qed.
Lemma firstType_app : forall l l', firstType (l ++ l') = match firstType l with Some t => Some t | None => firstType l' end.
Proof. induction l as [|p r IH]; intros l'; [reflexivity|]. cbn [app firstType]. destruct (ptype p); [reflexivity|apply IH]. Qed.
Lemma lastType_rev : forall l t, lastType t (rev l) = match firstType l with Some x => Some x | None => t end.
Proof.
  induction l as [|p r IH]; intros t; [reflexivity|]. cbn [rev firstType]. rewrite lastType_app. cbn [lastType].
  destruct (ptype p); [reflexivity|apply IH].
Qed.
Lemma firstType_None : forall l, firstType l = None <-> Forall isOff l.
Proof.
  induction l as [|p r IH]; cbn [firstType]; [split; constructor|]. destruct (ptype p) eqn:E; split; intros H.
  - discriminate H.
  - inversion H as [|? ? h ?]; subst. unfold isOff in h. congruence.
  - constructor; [exact E|apply IH, H].
  - apply IH. inversion H; assumption.
Qed.
Lemma retype_off : forall l t, Forall isOff l -> retype t l = l.
Proof.
  induction l as [|p r IH]; intros t H; [reflexivity|]. inversion H as [|? ? h h']; subst. cbn [retype]. unfold isOff in h. rewrite h.
  rewrite IH by exact h'. reflexivity.
Qed.
Lemma retype_firstType : forall l t, firstType l <> None -> firstType (retype (Some t) l) = Some t.
Proof.
  induction l as [|p r IH]; intros t H; cbn [firstType] in H; [contradiction|]. cbn [retype].
  destruct (ptype p) eqn:E; cbn [firstType ptype]; [reflexivity|]. rewrite E. apply IH, H.
Qed.
(** changing types and reversing, twice *)
Lemma retype_rev_retype : forall l t0 t, (firstType l <> None -> t = firstType l) ->
  retype t (rev (retype (Some t0) (rev l))) = l.
Proof.
  induction l as [|p r IH]; intros t0 t H; [reflexivity|].
  cbn [rev]. rewrite retype_app, rev_app_distr. cbn [retype]. rewrite lastType_rev.
  cbn [firstType] in H. destruct (ptype p) as [tp|] eqn:E.
  - cbn [rev app].
    assert (E' : t = Some tp) by (apply H; discriminate). subst t.
    assert (Ep : forall x : option str, mkPoint (pc p) (Some tp) (psmooth p) (pname p) (pkw p) = p)
      by (intros _; destruct p; cbn in *; subst; reflexivity).
    destruct (firstType r) as [f|] eqn:F; cbn [retype ptype pc psmooth pname pkw]; rewrite IH, (Ep None); try reflexivity;
      intros h; congruence.
  - cbn [rev app retype]. rewrite E. f_equal. apply IH. exact H.
Qed.
Lemma dropOff_on : forall (p : pnt) r, isOn p -> dropOff (p :: r) = Ok (p :: r).
Proof. intros p r H. cbn [dropOff]. unfold isOn in H. destruct (ptype p); [reflexivity|contradiction]. Qed.
Lemma bare_eta : forall (p : pnt) t, ptype p = t -> mkPoint (pc p) t (psmooth p) (pname p) (pkw p) = p.
Proof. intros [a b c d e] t H. cbn in *. subst. reflexivity. Qed.
Lemma eqb_sMove_no : forall t : option str, t <> Some sMove -> eqb t (Some sMove) = false.
Proof. intros t H. exact (proj2 (eqb_neq _ _) H). Qed.
Lemma reversePoints_closed : forall p r, ptype p <> Some sMove ->
  reversePoints (p :: r) = Ok (retype (firstType (r ++ [p])) (p :: rev r)).
Proof.
  intros p r H. unfold reversePoints. rewrite (eqb_sMove_no _ H). cbv zeta.
  rewrite firstOn_type, rev_app_distr. reflexivity.
Qed.
Lemma firstType_on : forall l p, firstType (l ++ [p]) = match firstType l with Some t => Some t | None => ptype p end.
Proof. intros l p. rewrite firstType_app. cbn [firstType]. destruct (firstType l), (ptype p); reflexivity. Qed.
Lemma firstType_In : forall l t, firstType l = Some t -> exists p, In p l /\ ptype p = Some t.
Proof.
  induction l as [|p r IH]; intros t H; cbn [firstType] in H; [discriminate H|].
  destruct (ptype p) eqn:E.
  - injection H as <-. exists p. split; [left; reflexivity|exact E].
  - destruct (IH _ H) as [q [h1 h2]]. exists q. split; [right; exact h1|exact h2].
Qed.
Lemma firstType_rev_None : forall l, firstType l = None -> firstType (rev l) = None.
Proof.
  intros l H. apply firstType_None. apply firstType_None in H. apply Forall_rev. exact H.
Qed.
Lemma reverse_twice_closed : forall pts, noMove pts -> exists out, reversePoints pts = Ok out /\ reversePoints out = Ok pts.
Proof.
  intros [|p r] H; [exists []; split; reflexivity|].
  assert (Hp : ptype p <> Some sMove) by (inversion H; assumption).
  assert (Hr : noMove r) by (inversion H; assumption).
  rewrite (reversePoints_closed p r Hp). eexists. split; [reflexivity|].
  rewrite firstType_on. cbn [retype]. destruct (ptype p) as [tp|] eqn:E.
  - set (lt := match firstType r with Some t => Some t | None => Some tp end).
    assert (Hlt : lt <> Some sMove).
    { subst lt. destruct (firstType r) as [f|] eqn:F; [|exact Hp].
      destruct (firstType_In _ _ F) as [q [h1 h2]]. unfold noMove in Hr. rewrite Forall_forall in Hr.
      rewrite <- h2. exact (Hr _ h1). }
    rewrite reversePoints_closed by exact Hlt. f_equal.
    rewrite firstType_on. cbn [retype ptype].
    replace (match lt with Some _ => _ | None => _ end) with
      (mkPoint (pc p) (match firstType (retype (Some tp) (rev r)) with Some t => Some t | None => lt end) (psmooth p) (pname p) (pkw p)
       :: retype lt (rev (retype (Some tp) (rev r))))
      by (subst lt; destruct (firstType r); reflexivity).
    rewrite retype_rev_retype by (intros h; subst lt; destruct (firstType r); [reflexivity|contradiction]).
    f_equal. apply bare_eta. rewrite E.
    destruct (firstType r) as [f|] eqn:F.
    + rewrite retype_firstType; [reflexivity|]. intros h. apply firstType_rev_None in h. rewrite rev_involutive in h. congruence.
    + rewrite (retype_off (rev r)) by (apply Forall_rev, firstType_None, F).
      rewrite (firstType_rev_None _ F). subst lt. reflexivity.
  - rewrite reversePoints_closed by (rewrite E; discriminate). f_equal.
    rewrite firstType_on. cbn [retype]. rewrite E. f_equal.
    destruct (firstType r) as [f|] eqn:F.
    + rewrite retype_rev_retype; [reflexivity|]. intros _. rewrite F.
      rewrite retype_firstType; [reflexivity|]. intros h. apply firstType_rev_None in h. rewrite rev_involutive in h. congruence.
    + pose proof (proj1 (firstType_None _) F) as Hoff.
      rewrite (retype_off (rev r)) by (apply Forall_rev, Hoff). rewrite rev_involutive. apply retype_off. exact Hoff.
Qed.
Lemma reverse_twice_open : forall pts, openContour pts -> endsOn pts ->
  exists out, reversePoints pts = Ok out /\ reversePoints out = Ok pts.
Proof.
  intros pts [p [r [-> Hp]]] [l [q [Eq Hq]]].
  exists (retype (Some sMove) (rev (p :: r))). split.
  - unfold reversePoints. rewrite Hp, eqb_refl, Eq, rev_app_distr. cbn [rev app].
    rewrite dropOff_on by exact Hq. reflexivity.
  - assert (Erev : rev (p :: r) = q :: rev l) by (rewrite Eq, rev_app_distr; reflexivity).
    assert (HH := retype_rev_retype (p :: r) sMove (Some sMove)).
    assert (Hf : firstType (p :: r) = Some sMove) by (cbn [firstType]; rewrite Hp; reflexivity).
    specialize (HH (fun _ => eq_sym Hf)).
    unfold reversePoints.
    destruct (retype (Some sMove) (rev (p :: r))) as [|o1 or] eqn:Eo.
    { rewrite Erev in Eo. cbn [retype] in Eo. unfold isOn in Hq. destruct (ptype q); discriminate Eo. }
    assert (Ho1 : ptype o1 = Some sMove).
    { rewrite Erev in Eo. cbn [retype] in Eo. unfold isOn in Hq. destruct (ptype q); [|contradiction]. injection Eo as <- _. reflexivity. }
    rewrite Ho1, eqb_refl.
    assert (Hd : exists a b, rev (o1 :: or) = a :: b /\ isOn a).
    { rewrite <- Eo. cbn [rev]. rewrite retype_app. cbn [retype]. rewrite Hp, rev_app_distr. cbn [rev app].
      eexists _, _. split; [reflexivity|]. unfold isOn. cbn [ptype]. rewrite lastType_rev. destruct (firstType r); discriminate. }
    destruct Hd as [a [b [Ea Ha]]]. rewrite Ea, (dropOff_on a b Ha). cbn [bind]. rewrite <- Ea, HH. reflexivity.
Qed.

(** * C45: reversing twice *)
(** contours that are either closed or open with an on-curve point at the end; a
    closed contour has no "move" point *)
Definition regular (pts : list pnt) : Prop := noMove pts \/ (openContour pts /\ endsOn pts).
Definition regularItem (i : item) : Prop := match i with Contour _ pts => regular pts | Component _ _ _ => True end.
Theorem C45_reverse_twice : forall g : list item, Forall regularItem g ->
  exists out, reverseContours (drawing g) = Ok out /\ reverseContours out = Ok (drawing g).
Proof.
  intros g H.
  assert (HH : exists g', Forall2 reversedItem g g' /\ Forall2 reversedItem g' g).
  { induction H as [|i g Hi _ [g' [h1 h2]]]; [exists []; split; constructor|].
    assert (Hi' : exists j, reversedItem i j /\ reversedItem j i).
    { destruct i as [ident pts|b t ident].
      - assert (E : exists out, reversePoints pts = Ok out /\ reversePoints out = Ok pts)
          by (destruct Hi as [Hi|[Hi Hi']]; [exact (reverse_twice_closed _ Hi)|exact (reverse_twice_open _ Hi Hi')]).
        destruct E as [out [e1 e2]]. exists (Contour ident out). split; split; auto.
      - exists (Component b t ident). repeat split. }
    destruct Hi' as [j [j1 j2]]. exists (j :: g'). split; constructor; assumption. }
  destruct HH as [g' [h1 h2]]. exists (drawing g'). split; apply reverse_drawing; assumption.
Qed.
(** the condition is needed: the off-curve points at the end of an open contour are
    dropped *)
Theorem C45_loose_points_dropped : forall (x y z : P) (k : KW),
  exists pts : list pnt, openContour pts /\
  exists out, reverseContours (drawing [Contour None pts]) = Ok out /\
  forall pts', reverseContours out = Ok (drawing [Contour None pts']) -> length pts' < length pts.
Proof.
  intros x y z k.
  exists [mkPoint (Some x) (Some sMove) false None k; mkPoint (Some y) (Some sLine) false None k; mkPoint (Some z) None false None k].
  split; [eexists _, _; split; reflexivity|].
  eexists. split; [vm_compute; reflexivity|].
  intros pts' H.
  assert (E : reverseContours (Tr := Tr) [PBegin (Some None); PAdd (mkPoint (Some y) (Some [109%N; 111%N; 118%N; 101%N]) false None k);
     PAdd (mkPoint (Some x) (Some [108%N; 105%N; 110%N; 101%N]) false None k); PEnd] =
     Ok (drawing [Contour None [mkPoint (Some x) (Some sMove) false None k; mkPoint (Some y) (Some sLine) false None k]])) by (vm_compute; reflexivity).
  rewrite E in H. injection H as H.
  apply (f_equal (@length _)) in H. cbn in H. rewrite !app_length, map_length in H. cbn in H. cbn. lia.
Qed.

(** * C46: what reversing does *)
Lemma walk_on : forall l a offs p l', isOn p ->
  walk a offs (l ++ p :: l') = walk a offs (l ++ [p]) ++ walk (bareOf p) [] l'.
Proof.
  induction l as [|q r IH]; intros a offs p l' H; cbn [app walk].
  - unfold isOn in H. destruct (ptype p); [reflexivity|contradiction].
  - destruct (ptype q); cbn [app]; rewrite IH by exact H; reflexivity.
Qed.
Lemma walk_off : forall l a offs l', Forall isOff l -> walk a offs (l ++ l') = walk a (offs ++ map bareOf l) l'.
Proof.
  induction l as [|q r IH]; intros a offs l' H; cbn [app map]; [rewrite app_nil_r; reflexivity|].
  inversion H as [|? ? h h']; subst. cbn [walk]. unfold isOff in h. rewrite h, IH by exact h'.
  rewrite <- app_assoc. reflexivity.
Qed.
Lemma split_on : forall l : list pnt, Forall isOff l \/ exists m1 p m2, l = m1 ++ p :: m2 /\ Forall isOff m1 /\ isOn p.
Proof.
  induction l as [|q r IH]; [left; constructor|]. destruct (ptype q) as [t|] eqn:E.
  - right. exists [], q, r. split; [reflexivity|]. split; [constructor|]. unfold isOn. congruence.
  - destruct IH as [IH|[m1 [p [m2 [-> [h1 h2]]]]]].
    + left. constructor; assumption.
    + right. exists (q :: m1), p, m2. split; [reflexivity|]. split; [constructor; assumption|exact h2].
Qed.
Lemma split_on_last : forall l : list pnt, Forall isOff l \/ exists m1 p m2, l = m1 ++ p :: m2 /\ Forall isOff m2 /\ isOn p.
Proof.
  intros l. destruct (split_on (rev l)) as [H|[m1 [p [m2 [E [h1 h2]]]]]].
  - left. rewrite <- (rev_involutive l). apply Forall_rev, H.
  - right. exists (rev m2), p, (rev m1). split; [|split; [apply Forall_rev, h1|exact h2]].
    rewrite <- (rev_involutive l), E, rev_app_distr. cbn [rev]. rewrite <- app_assoc. reflexivity.
Qed.
Lemma lastType_off : forall l t, Forall isOff l -> lastType t l = t.
Proof.
  induction l as [|p r IH]; intros t H; [reflexivity|]. inversion H as [|? ? h h']; subst.
  cbn [lastType]. unfold isOff in h. rewrite h. apply IH, h'.
Qed.
Lemma isOn_Some : forall p : pnt, isOn p -> exists t, ptype p = Some t.
Proof. intros p H. unfold isOn in H. destruct (ptype p) as [t|]; [exists t; reflexivity|contradiction]. Qed.
(** the same points on the same curve backwards *)
Lemma walk_reversed : forall n mid a b (tb : str), length mid <= n -> isOn a -> ptype b = Some tb ->
  walk (bareOf b) [] (retype (Some tb) (rev mid ++ [a])) = rev (map flip (walk (bareOf a) [] (mid ++ [b]))).
Proof.
  induction n as [|n IH]; intros mid a b tb Hn Ha Hb.
  - destruct mid; [|cbn in Hn; lia]. cbn [rev app retype walk]. unfold isOn in Ha. rewrite Hb.
    destruct (ptype a); [|contradiction]. reflexivity.
  - destruct (split_on mid) as [Hoff|[m1 [p [m2 [-> [h1 h2]]]]]].
    + rewrite retype_app, (retype_off (rev mid)) by (apply Forall_rev, Hoff).
      rewrite lastType_off by (apply Forall_rev, Hoff). cbn [retype].
      rewrite walk_off by (apply Forall_rev, Hoff). rewrite walk_off by exact Hoff.
      unfold isOn in Ha. destruct (ptype a); [|contradiction]. cbn [app walk ptype]. rewrite Hb.
      cbn [map rev app flip]. rewrite map_rev. reflexivity.
    + destruct (isOn_Some p h2) as [tp Ep].
      rewrite rev_app_distr. cbn [rev]. rewrite <- !app_assoc. cbn [app].
      rewrite (walk_on m1) by exact h2. rewrite map_app, rev_app_distr.
      replace (rev m2 ++ p :: rev m1 ++ [a]) with ((rev m2 ++ [p]) ++ rev m1 ++ [a]) by (rewrite <- app_assoc; reflexivity).
      rewrite retype_app.
      assert (El : lastType (Some tb) (rev m2 ++ [p]) = Some tp)
        by (rewrite lastType_app; cbn [lastType]; rewrite Ep; reflexivity).
      rewrite El.
      rewrite <- (IH m2 p b tb); [|rewrite app_length in Hn; cbn in Hn; lia|exact h2|exact Hb].
      rewrite <- (IH m1 a p tp); [|rewrite app_length in Hn; cbn in Hn; lia|exact Ha|exact Ep].
      rewrite (retype_app (rev m2) _ [p]). rewrite <- app_assoc. cbn [retype]. rewrite Ep. cbn [app].
      rewrite lastType_rev. rewrite walk_on; [reflexivity|].
      unfold isOn. cbn [ptype]. destruct (firstType m2); discriminate.
Qed.
Lemma retype_bare : forall l t, map bareOf (retype t l) = map bareOf l.
Proof. induction l as [|p r IH]; intros t; [reflexivity|]. cbn [retype map]. destruct (ptype p); cbn [map]; rewrite IH; reflexivity. Qed.
Lemma retype_isOff : forall l t, map (fun p : pnt => match ptype p with None => true | _ => false end) (retype (Some t) l) =
   map (fun p => match ptype p with None => true | _ => false end) l.
Proof.
  induction l as [|p r IH]; intros t; [reflexivity|]. cbn [retype map]. destruct (ptype p) eqn:E; cbn [map ptype]; [|rewrite E]; rewrite IH; reflexivity.
Qed.
Lemma firstType_split : forall l p l', Forall isOff l -> isOn p -> firstType (l ++ p :: l') = ptype p.
Proof.
  intros l p l' H Hp. rewrite firstType_app, (proj2 (firstType_None l) H). cbn [firstType]. destruct (isOn_Some p Hp) as [t ->]. reflexivity.
Qed.
Lemma walk_one : forall l a p t, Forall isOff l -> ptype p = Some t ->
  walk a [] (l ++ [p]) = [(t, a, map bareOf l, bareOf p)].
Proof. intros l a p t H Hp. rewrite walk_off by exact H. cbn [app walk]. rewrite Hp. reflexivity. Qed.
Lemma reverse_closed_segs : forall pts segs, noMove pts -> closedSegs pts segs ->
  exists out, reversePoints pts = Ok out /\ exists segs', closedSegs out segs' /\ rotated (rev (map flip segs)) segs'.
Proof.
  intros pts segs Hm [pre [f [post [-> [Hpre [Hf ->]]]]]].
  destruct (isOn_Some f Hf) as [tf Ef].
  destruct pre as [|c0 pre].
  - (* the first point is on the curve *)
    cbn [app] in *. rewrite reversePoints_closed by (inversion Hm; assumption).
    eexists. split; [reflexivity|]. cbn [retype]. rewrite Ef, firstType_on.
    set (lt := match firstType post with Some t => Some t | None => ptype f end).
    assert (Hlt : exists t, lt = Some t) by (subst lt; rewrite Ef; destruct (firstType post); eexists; reflexivity).
    destruct Hlt as [t Hlt].
    eexists. split.
    + eexists [], _, _. split; [reflexivity|]. split; [constructor|]. split; [unfold isOn; cbn [ptype]; rewrite Hlt; discriminate|reflexivity].
    + rewrite <- (walk_reversed (length post) post f f tf) by (lia || exact Hf || exact Ef).
      rewrite retype_app. cbn [retype app]. rewrite Ef, lastType_rev.
      replace (match firstType post with Some x => Some x | None => Some tf end) with lt by (subst lt; rewrite Ef; reflexivity).
      exists [], (walk (bareOf f) [] (retype (Some tf) (rev post) ++ [mkPoint (pc f) lt (psmooth f) (pname f) (pkw f)])).
      split; [reflexivity|]. rewrite app_nil_r. reflexivity.
  - (* the first point is off the curve *)
    inversion Hpre as [|? ? Hc0 Hpre']; subst.
    change ((c0 :: pre) ++ f :: post) with (c0 :: (pre ++ f :: post)) in *.
    rewrite reversePoints_closed by (inversion Hm; assumption).
    eexists. split; [reflexivity|]. cbn [retype]. pose proof Hc0 as Ec0. unfold isOff in Ec0. rewrite Ec0.
    assert (E1 : firstType ((pre ++ f :: post) ++ [c0]) = Some tf)
      by (rewrite <- app_assoc; cbn [app]; rewrite (firstType_split pre f) by assumption; exact Ef).
    rewrite E1.
    assert (E2 : rev (pre ++ f :: post) = rev post ++ f :: rev pre)
      by (rewrite rev_app_distr; cbn [rev]; rewrite <- app_assoc; reflexivity).
    rewrite E2.
    destruct (split_on_last post) as [Hpost|[m1 [g [m2 [-> [Hm2 Hg]]]]]].
    + rewrite retype_app, (retype_off (rev post)) by (apply Forall_rev, Hpost).
      rewrite lastType_off by (apply Forall_rev, Hpost). cbn [retype]. rewrite Ef.
      rewrite (retype_off (rev pre)) by (apply Forall_rev, Hpre'). rewrite (bare_eta f _ Ef).
      eexists. split.
      * exists (c0 :: rev post), f, (rev pre). split; [reflexivity|].
        split; [constructor; [exact Hc0|apply Forall_rev, Hpost]|]. split; [exact Hf|reflexivity].
      * exists [], [(tf, bareOf f, map bareOf (rev pre ++ c0 :: rev post), bareOf f)].
        rewrite !app_assoc.
        rewrite (walk_one (post ++ c0 :: pre) _ f tf) by (exact Ef || (apply Forall_app; split; [exact Hpost|constructor; assumption])).
        rewrite (walk_one (rev pre ++ c0 :: rev post) _ f tf)
          by (exact Ef || (apply Forall_app; split; [apply Forall_rev, Hpre'|constructor; [exact Hc0|apply Forall_rev, Hpost]])).
        split; [|reflexivity]. cbn [map rev app]. unfold flip. rewrite <- map_rev, rev_app_distr. cbn [rev]. rewrite <- app_assoc. reflexivity.
    + destruct (isOn_Some g Hg) as [tg Eg].
      assert (E3 : rev (m1 ++ g :: m2) ++ f :: rev pre = (rev m2 ++ [g]) ++ (rev m1 ++ [f]) ++ rev pre)
        by (rewrite rev_app_distr; cbn [rev]; rewrite <- !app_assoc; reflexivity).
      rewrite E3, retype_app, (retype_app (rev m2)), (retype_off (rev m2)) by (apply Forall_rev, Hm2).
      rewrite lastType_off by (apply Forall_rev, Hm2). cbn [retype]. rewrite Eg.
      rewrite lastType_app. cbn [lastType]. rewrite Eg.
      rewrite (retype_app (rev m1 ++ [f])), (retype_off (rev pre)) by (apply Forall_rev, Hpre').
      set (g' := mkPoint (pc g) (Some tf) (psmooth g) (pname g) (pkw g)).
      eexists. split.
      * exists (c0 :: rev m2), g', (retype (Some tg) (rev m1 ++ [f]) ++ rev pre).
        split; [rewrite <- app_assoc; reflexivity|]. split; [constructor; [exact Hc0|apply Forall_rev, Hm2]|].
        split; [discriminate|reflexivity].
      * exists [(tf, bareOf f, map bareOf (rev (m2 ++ c0 :: pre)), bareOf g)], (rev (map flip (walk (bareOf f) [] (m1 ++ [g])))).
        split.
        -- rewrite <- app_assoc. cbn [app]. rewrite (walk_on m1) by exact Hg. rewrite map_app, rev_app_distr.
           replace (m2 ++ c0 :: pre ++ [f]) with ((m2 ++ c0 :: pre) ++ [f]) by (rewrite <- app_assoc; reflexivity).
           rewrite (walk_one _ _ f tf) by (exact Ef || (apply Forall_app; split; [exact Hm2|constructor; assumption])).
           cbn [map rev app]. unfold flip at 1. rewrite map_rev. reflexivity.
        -- rewrite <- (walk_reversed (length m1) m1 f g tg) by (lia || assumption).
           change (bareOf g') with (bareOf g).
           rewrite (retype_app (rev m1)), <- !app_assoc. cbn [retype]. rewrite Ef, lastType_rev. cbn [app].
           rewrite walk_on by (unfold isOn; cbn [ptype]; destruct (firstType m1); discriminate).
           f_equal. change (bareOf (mkPoint (pc f) _ (psmooth f) (pname f) (pkw f))) with (bareOf f).
           replace (rev pre ++ c0 :: rev m2 ++ [g']) with ((rev pre ++ c0 :: rev m2) ++ [g']) by (rewrite <- app_assoc; reflexivity).
           rewrite (walk_one _ _ g' tf) by (reflexivity || (apply Forall_app; split; [apply Forall_rev, Hpre'|constructor; [exact Hc0|apply Forall_rev, Hm2]])).
           rewrite rev_app_distr. cbn [rev]. rewrite <- app_assoc. reflexivity.
Qed.
Lemma reverse_open_segs : forall pts p r, pts = p :: r -> ptype p = Some sMove -> exists out kept loose,
  reversePoints pts = Ok out /\ pts = kept ++ loose /\ Forall isOff loose /\ endsOn kept /\
  map bareOf out = rev (map bareOf kept) /\
  (exists q out', out = q :: out' /\ ptype q = Some sMove) /\
  exists segs segs', openSegs kept segs /\ openSegs out segs' /\ segs' = rev (map flip segs).
Proof.
  intros pts p r -> Hp. destruct (split_on_last r) as [Hoff|[m1 [b [m2 [-> [Hm2 Hb]]]]]].
  - exists [p], [p], r.
    assert (E : dropOff (rev (p :: r)) = Ok [p]).
    { cbn [rev]. apply Forall_rev in Hoff. induction Hoff as [|x l hx _ IH]; cbn [app dropOff]; [rewrite Hp; reflexivity|].
      unfold isOff in hx. rewrite hx. exact IH. }
    split.
    { unfold reversePoints. rewrite Hp, eqb_refl, E. cbn [bind retype]. rewrite Hp, (bare_eta p _ Hp). reflexivity. }
    split; [reflexivity|]. split; [exact Hoff|]. split; [exists [], p; split; [reflexivity|unfold isOn; congruence]|].
    split; [reflexivity|]. split; [exists p, []; split; [reflexivity|exact Hp]|].
    exists [], []. split; [exists p, []; split; reflexivity|]. split; [exists p, []; split; reflexivity|reflexivity].
  - destruct (isOn_Some b Hb) as [tb Eb].
    exists (retype (Some sMove) (b :: rev m1 ++ [p])), (p :: m1 ++ [b]), m2.
    assert (E : dropOff (rev (p :: m1 ++ b :: m2)) = Ok (b :: rev m1 ++ [p])).
    { cbn [rev]. rewrite rev_app_distr. cbn [rev]. rewrite <- !app_assoc. cbn [app].
      apply Forall_rev in Hm2. induction Hm2 as [|x l hx _ IH]; cbn [app dropOff]; [rewrite Eb; reflexivity|].
      unfold isOff in hx. rewrite hx. exact IH. }
    split.
    { unfold reversePoints. rewrite Hp, eqb_refl, E. reflexivity. }
    split; [cbn [app]; rewrite <- app_assoc; reflexivity|]. split; [exact Hm2|].
    split; [exists (p :: m1), b; split; [reflexivity|exact Hb]|].
    split; [rewrite retype_bare; cbn [map rev]; rewrite !map_app, rev_app_distr; cbn [map rev app]; rewrite map_rev; reflexivity|].
    cbn [retype]. rewrite Eb.
    split; [eexists _, _; split; reflexivity|].
    exists (walk (bareOf p) [] (m1 ++ [b])), (walk (bareOf b) [] (retype (Some tb) (rev m1 ++ [p]))).
    split; [exists p, (m1 ++ [b]); split; reflexivity|]. split; [eexists _, _; split; reflexivity|].
    apply (walk_reversed (length m1)); [lia|unfold isOn; congruence|exact Eb].
Qed.
(** a closed contour: the first point stays first, the others come in reverse
    order, no point changes from on-curve to off-curve or back, and the segments
    are the original ones backwards *)
Theorem C46_reversed_closed : forall ident p r, ptype p <> Some sMove ->
  exists out, reverseContours (Tr := Tr) (drawing [Contour ident (p :: r)]) = Ok (drawing [Contour ident out]) /\
    map bareOf out = bareOf p :: rev (map bareOf r) /\
    Forall2 (fun x y => isOff x <-> isOff y) out (p :: rev r) /\
    forall segs, noMove (p :: r) -> closedSegs (p :: r) segs ->
      exists segs', closedSegs out segs' /\ rotated (rev (map flip segs)) segs'.
Proof.
  intros ident p r Hp. pose proof (reversePoints_closed p r Hp) as E.
  eexists. split; [apply reverse_drawing; constructor; [split; [reflexivity|exact E]|constructor]|].
  split; [rewrite retype_bare; cbn [map]; rewrite map_rev; reflexivity|]. split.
  - rewrite firstType_on.
    destruct (match firstType r with Some t => Some t | None => ptype p end) as [t|] eqn:Et.
    + clear. revert t. generalize (p :: rev r). induction l as [|x l IH]; intros t; cbn [retype]; [constructor|].
      destruct (ptype x) eqn:Ex.
      * constructor; [unfold isOff; cbn [ptype]; rewrite Ex; split; discriminate|]. apply IH.
      * constructor; [reflexivity|apply IH].
    + destruct (firstType r) as [t|] eqn:F; [discriminate Et|].
      rewrite retype_off by (constructor; [exact Et|apply Forall_rev, firstType_None, F]).
      generalize (p :: rev r). induction l; constructor; [reflexivity|assumption].
  - intros segs Hm Hs. destruct (reverse_closed_segs _ _ Hm Hs) as [out [E' [segs' [h1 h2]]]].
    exists segs'. rewrite E in E'. injection E' as <-. split; assumption.
Qed.
(** an open contour: off-curve points at its end are dropped, everything else is
    drawn backwards from the last on-curve point *)
Theorem C46_reversed_open : forall ident p r, ptype p = Some sMove ->
  exists out kept loose, reverseContours (Tr := Tr) (drawing [Contour ident (p :: r)]) = Ok (drawing [Contour ident out]) /\
    p :: r = kept ++ loose /\ Forall isOff loose /\ endsOn kept /\
    map bareOf out = rev (map bareOf kept) /\ openContour out /\
    exists segs segs', openSegs kept segs /\ openSegs out segs' /\ segs' = rev (map flip segs).
Proof.
  intros ident p r Hp. destruct (reverse_open_segs _ p r eq_refl Hp) as [out [kept [loose [E [h1 [h2 [h3 [h4 [h5 h6]]]]]]]]].
  exists out, kept, loose. split; [apply reverse_drawing; constructor; [split; [reflexivity|exact E]|constructor]|].
  destruct h5 as [q [out' [h5 h5']]].
  repeat (split; [assumption|]). split; [exists q, out'; split; assumption|exact h6].
Qed.

(** * C48: smooth guessing *)
Variable tangent : option P -> option P -> option P -> bool.
Variable noKW : KW.
Definition smoothed (p : pnt) (b : bool) : pnt := mkPoint (pc p) (ptype p) b (pname p) (pkw p).
(** contours drawn without identifier, as SegmentToPointPen does *)
Definition plainContour (pts : list pnt) : calls := PBegin None :: map PAdd pts ++ [PEnd].
(** the neighbours of the point at [i], the contour seen as a cycle *)
Definition prevOf (pts : list pnt) (i : nat) : option pnt := nth_error pts (if Nat.eqb i 0 then length pts - 1 else i - 1).
Definition nextOf (pts : list pnt) (i : nat) : option pnt := nth_error pts (if Nat.eqb (i + 1) (length pts) then 0 else i + 1).
(** the points considered: all of a closed contour of two points or more, all but
    the first and the last of an open contour *)
Definition considered (pts : list pnt) (i : nat) : Prop :=
  (openContour pts /\ 0 < i /\ i + 1 < length pts) \/ (~ openContour pts /\ 1 < length pts /\ i < length pts).
(** made smooth: an on-curve point with an off-curve neighbour, in line with its
    neighbours *)
Definition guessed (pts : list pnt) (i : nat) : Prop :=
  considered pts i /\ exists p a b, nth_error pts i = Some p /\ prevOf pts i = Some a /\ nextOf pts i = Some b /\
    isOn p /\ (isOff a \/ isOff b) /\ tangent (pc a) (pc p) (pc b) = true.

Lemma guess_adds : forall pts (l : list pnt),
  run (@guessStep P Tr KW tangent) (Some l) (map PAdd pts) = Ok (Some (l ++ map (fun p => smoothed p false) pts), []).
Proof.
  induction pts as [|p r IH]; intros l; cbn [map run]; [rewrite app_nil_r; reflexivity|].
  cbn [guessStep bind fst snd]. rewrite IH, <- app_assoc. reflexivity.
Qed.
Lemma guess_contour : forall pts out, guessPoints tangent (map (fun p => smoothed p false) pts) = Ok out ->
  run (@guessStep P Tr KW tangent) None (plainContour pts) = Ok (None, plainContour out).
Proof.
  intros pts out H. unfold plainContour. cbn [run guessStep bind fst snd].
  rewrite (run_app _ _ _ _ _ _ _ _ _ (guess_adds pts [])). cbn [app run guessStep bind fst snd].
  rewrite H. cbn [bind fst snd]. rewrite app_nil_r. reflexivity.
Qed.
(** the decision at one index, seen from the original points *)
Definition decide (pts : list pnt) (i : Z) : bool :=
  match pyGet pts i, pyGet pts (i - 1), pyGet pts (i + 1) with
  | Ok p, Ok a, Ok b =>
    match ptype p, ptype a, ptype b with
    | None, _, _ => false
    | _, Some _, Some _ => false
    | _, _, _ => tangent (pc a) (pc p) (pc b)
    end
  | _, _, _ => false
  end.
Lemma F2_length : forall A B (R : A -> B -> Prop) l l', Forall2 R l l' -> length l = length l'.
Proof. intros A B R l l'. induction 1; cbn [length]; congruence. Qed.
Lemma F2_nth : forall A B (R : A -> B -> Prop) l l', length l = length l' ->
  (forall j p q, nth_error l j = Some p -> nth_error l' j = Some q -> R p q) -> Forall2 R l l'.
Proof.
  intros A B R. induction l as [|x l IH]; intros [|y l'] L H; try discriminate L; [constructor|].
  constructor; [exact (H 0 x y eq_refl eq_refl)|]. apply IH; [injection L as L; exact L|]. intros j. exact (H (S j)).
Qed.
Definition same (p q : pnt) : Prop := pc p = pc q /\ ptype p = ptype q /\ pname p = pname q /\ pkw p = pkw q.
Lemma pyGet_same : forall l l' i, Forall2 same l l' ->
  match pyGet l i, pyGet l' i with Ok p, Ok q => same p q | Err a, Err b => a = b | _, _ => False end.
Proof.
  intros l l' i H. unfold pyGet. rewrite (F2_length _ _ _ _ _ H). destruct (pyIndex (length l') i) as [k|]; [|reflexivity].
  revert k. induction H as [|x y l l' h _ IH]; intros [|k]; cbn [nth_error]; try reflexivity; [exact h|apply IH].
Qed.
Lemma decide_same : forall l l' i, Forall2 same l l' -> decide l i = decide l' i.
Proof.
  intros l l' i H. unfold decide.
  pose proof (pyGet_same l l' i H) as h1. pose proof (pyGet_same l l' (i - 1) H) as h2. pose proof (pyGet_same l l' (i + 1) H) as h3.
  destruct (pyGet l i) as [x1|?], (pyGet l' i) as [x2|?]; try contradiction; [|reflexivity].
  destruct (pyGet l (i - 1)) as [y1|?], (pyGet l' (i - 1)) as [y2|?]; try contradiction; [|reflexivity].
  destruct (pyGet l (i + 1)) as [z1|?], (pyGet l' (i + 1)) as [z2|?]; try contradiction; [|reflexivity].
  destruct h1 as [a1 [a2 _]], h2 as [b1 [b2 _]], h3 as [c1 [c2 _]]. rewrite a1, a2, b1, b2, c1, c2. reflexivity.
Qed.
Lemma nth_replaceAt : forall (l : list pnt) k p j, k < length l ->
  nth_error (replaceAt k p l) j = if Nat.eqb j k then Some p else nth_error l j.
Proof.
  induction l as [|x l IH]; intros k p j H; [cbn in H; lia|].
  destruct k as [|k], j as [|j]; cbn [replaceAt nth_error Nat.eqb]; try reflexivity.
  apply IH. cbn in H. lia.
Qed.
Lemma length_replaceAt : forall (l : list pnt) k p, length (replaceAt k p l) = length l.
Proof. induction l as [|x l IH]; intros [|k] p; cbn [replaceAt length]; try reflexivity. rewrite IH. reflexivity. Qed.
Lemma pyIndex_lt : forall n i k, pyIndex n i = Some k -> k < n.
Proof.
  intros n i k H. unfold pyIndex in H. destruct (0 <=? i)%Z eqn:E1.
  - destruct (i <? Z.of_nat n)%Z eqn:E2; [|discriminate H]. injection H as <-. lia.
  - destruct (- Z.of_nat n <=? i)%Z eqn:E2; [|discriminate H]. injection H as <-. lia.
Qed.
(** one round, for an index whose neighbours are inside *)
Definition inside (n : nat) (i : Z) : Prop := pyIndex n i <> None /\ pyIndex n (i - 1) <> None /\ pyIndex n (i + 1) <> None.
Lemma pyGet_inside : forall (l : list pnt) i, pyIndex (length l) i <> None -> exists p k, pyGet l i = Ok p /\ pyIndex (length l) i = Some k /\ nth_error l k = Some p.
Proof.
  intros l i H. unfold pyGet. destruct (pyIndex (length l) i) as [k|] eqn:E; [|contradiction].
  pose proof (pyIndex_lt _ _ _ E). destruct (nth_error l k) as [p|] eqn:En.
  - exists p, k. repeat split. exact En.
  - apply nth_error_None in En. lia.
Qed.
Lemma guessAt_spec : forall (l : list pnt) i, inside (length l) i -> exists l', guessAt tangent l i = Ok l' /\ length l' = length l /\
  forall j, nth_error l' j =
    match nth_error l j with
    | Some p => Some (if decide l i && match pyIndex (length l) i with Some k => Nat.eqb j k | None => false end then smoothed p true else p)
    | None => None
    end.
Proof.
  intros l i [h1 [h2 h3]]. unfold guessAt, decide.
  destruct (pyGet_inside _ _ h1) as [p [k [Ep [Ek Hk]]]].
  destruct (pyGet_inside _ _ h2) as [a [ka [Ea _]]]. destruct (pyGet_inside _ _ h3) as [b [kb [Eb _]]].
  rewrite Ep, Ea, Eb. cbn [bind]. rewrite Ek.
  assert (Hno : forall j, nth_error l j = match nth_error l j with Some p0 => Some (if false && Nat.eqb j k then smoothed p0 true else p0) | None => None end)
    by (intros j; destruct (nth_error l j); reflexivity).
  destruct (ptype p) as [tp|] eqn:Etp; [|exists l; repeat split; exact Hno].
  assert (Hyes : exists l', (if tangent (pc a) (pc p) (pc b) then Ok (replaceAt k (mkPoint (pc p) (Some tp) true (pname p) (pkw p)) l) else Ok l) = Ok l' /\
    length l' = length l /\ forall j, nth_error l' j =
      match nth_error l j with Some p0 => Some (if tangent (pc a) (pc p) (pc b) && Nat.eqb j k then smoothed p0 true else p0) | None => None end).
  { destruct (tangent (pc a) (pc p) (pc b)); [|exists l; repeat split; exact Hno].
    eexists. split; [reflexivity|]. split; [apply length_replaceAt|].
    intros j. rewrite nth_replaceAt by exact (pyIndex_lt _ _ _ Ek). cbn [andb]. destruct (Nat.eqb j k) eqn:Ejk.
    - apply Nat.eqb_eq in Ejk. subst j. rewrite Hk. unfold smoothed. rewrite Etp. reflexivity.
    - destruct (nth_error l j); reflexivity. }
  destruct (ptype a), (ptype b); try exact Hyes. exists l; repeat split; exact Hno.
Qed.
Lemma guess_fold : forall l idx, Forall (inside (length l)) idx -> exists l', foldM (guessAt tangent) l idx = Ok l' /\ length l' = length l /\
  forall j p, nth_error l j = Some p -> exists q, nth_error l' j = Some q /\ same p q /\
    (psmooth q = true <-> psmooth p = true \/ exists i, In i idx /\ decide l i = true /\ pyIndex (length l) i = Some j).
Proof.
  intros l idx. revert l. induction idx as [|i idx IH]; intros l H.
  - exists l. split; [reflexivity|]. split; [reflexivity|]. intros j p Hp. exists p. split; [exact Hp|].
    split; [repeat split|]. split; [auto|]. intros [h|[i [[] _]]]; exact h.
  - inversion H as [|? ? hi hr]; subst. destruct (guessAt_spec l i hi) as [l1 [E1 [L1 S1]]].
    assert (Hsame : Forall2 same l l1).
    { apply F2_nth; [symmetry; exact L1|]. intros j p q hp hq. rewrite S1, hp in hq. injection hq as <-.
      destruct (_ && _); repeat split. }
    rewrite <- L1 in hr. destruct (IH l1 hr) as [l2 [E2 [L2 S2]]].
    exists l2. cbn [foldM]. rewrite E1. cbn [bind]. split; [exact E2|]. split; [congruence|].
    intros j p hp. specialize (S1 j). rewrite hp in S1. destruct (S2 j _ S1) as [q [hq [hs hb]]].
    exists q. split; [exact hq|]. split.
    + destruct hs as [s1 [s2 [s3 s4]]]. destruct (_ && _); cbn in *; repeat split; assumption.
    + rewrite hb. clear hb. rewrite L1. split.
      * intros [h|[i' [h1 [h2 h3]]]].
        -- destruct (decide l i) eqn:Ed; cbn [andb] in h; [|left; exact h].
           destruct (pyIndex (length l) i) as [k|] eqn:Ek; [|left; exact h].
           destruct (Nat.eqb j k) eqn:Ej; [|left; exact h]. apply Nat.eqb_eq in Ej. subst k.
           right. exists i. split; [left; reflexivity|]. split; assumption.
        -- right. exists i'. split; [right; exact h1|]. rewrite (decide_same _ _ i' Hsame). split; assumption.
      * intros [h|[i' [[<-|h1] [h2 h3]]]].
        -- left. destruct (_ && _); [reflexivity|exact h].
        -- left. rewrite h2, h3, Nat.eqb_refl. reflexivity.
        -- right. exists i'. split; [exact h1|]. rewrite <- (decide_same _ _ i' Hsame). split; assumption.
Qed.
Lemma In_zrange : forall a b i, In i (zrange a b) <-> (a <= i < b)%Z.
Proof.
  intros a b i. unfold zrange. rewrite in_map_iff. split.
  - intros [k [<- h]]. apply in_seq in h. lia.
  - intros h. exists (Z.to_nat (i - a)). split; [lia|]. apply in_seq. lia.
Qed.
Lemma openContour_dec : forall (p : pnt) r, (eqb (ptype p) (Some sMove) = true /\ openContour (p :: r)) \/
  (eqb (ptype p) (Some sMove) = false /\ ~ openContour (p :: r)).
Proof.
  intros p r. destruct (eqb_spec (ptype p) (Some sMove)) as [e|e]; [left|right]; split; try reflexivity.
  - exists p, r. split; [reflexivity|exact e].
  - intros [q [r' [h1 h2]]]. injection h1 as <- _. contradiction.
Qed.
Lemma guessIndices_inside : forall pts : list pnt, Forall (inside (length pts)) (guessIndices pts).
Proof.
  intros pts. apply Forall_forall. intros i Hi. unfold guessIndices in Hi.
  destruct pts as [|p r]; [destruct Hi|]. set (n := length (p :: r)) in *. cbv zeta in Hi.
  assert (G : ((- Z.of_nat n <= i - 1 /\ i + 1 < Z.of_nat n)%Z) -> inside n i).
  { intros [g1 g2]. unfold inside, pyIndex.
    repeat split; repeat match goal with |- context [if ?b then _ else _] => let E := fresh in destruct b eqn:E end; try discriminate; lia. }
  destruct (eqb (ptype p) (Some sMove)).
  - apply In_zrange in Hi. apply G. lia.
  - destruct (1 <? Z.of_nat n)%Z eqn:En; [|destruct Hi]. apply In_zrange in Hi. apply G. lia.
Qed.
Lemma pyIndex_pos : forall n i, i < n -> pyIndex n (Z.of_nat i) = Some i.
Proof.
  intros n i H. unfold pyIndex. destruct (0 <=? Z.of_nat i)%Z eqn:E1; [|lia]. destruct (Z.of_nat i <? Z.of_nat n)%Z eqn:E2; [|lia].
  f_equal. lia.
Qed.
Lemma pyIndex_neg : forall n k, 0 < k -> k <= n -> pyIndex n (- Z.of_nat k) = Some (n - k).
Proof.
  intros n k H1 H2. unfold pyIndex. destruct (0 <=? - Z.of_nat k)%Z eqn:E1; [lia|].
  destruct (- Z.of_nat n <=? - Z.of_nat k)%Z eqn:E2; [|lia]. f_equal. lia.
Qed.
(** the index used for the point at [j] *)
Lemma decide_guessed : forall pts j, (exists i, In i (guessIndices pts) /\ decide pts i = true /\ pyIndex (length pts) i = Some j) <-> guessed pts j.
Proof.
  intros pts j.
  assert (Hk : forall i, In i (guessIndices pts) -> pyIndex (length pts) i = Some j ->
     considered pts j /\ pyGet pts i = match nth_error pts j with Some p => Ok p | None => Err IndexError end /\
     pyGet pts (i - 1) = match prevOf pts j with Some p => Ok p | None => Err IndexError end /\
     pyGet pts (i + 1) = match nextOf pts j with Some p => Ok p | None => Err IndexError end).
  { intros i Hi Hj.
    assert (G : (- Z.of_nat (length pts) <= i - 1 /\ i + 1 < Z.of_nat (length pts))%Z /\ considered pts j).
    { unfold guessIndices in Hi. destruct pts as [|p r]; [destruct Hi|]. cbv zeta in Hi.
      pose proof (pyIndex_lt _ _ _ Hj) as Hlt. set (n := length (p :: r)) in *.
      destruct (openContour_dec p r) as [[e1 e2]|[e1 e2]]; rewrite e1 in Hi.
      - apply In_zrange in Hi. split; [lia|]. left. split; [exact e2|]. fold n.
        replace i with (Z.of_nat (Z.to_nat i)) in Hj by lia. rewrite pyIndex_pos in Hj by lia. injection Hj as <-. lia.
      - destruct (1 <? Z.of_nat n)%Z eqn:En; [|destruct Hi]. apply In_zrange in Hi. split; [lia|]. right. split; [exact e2|]. fold n. lia. }
    destruct G as [G G']. split; [exact G'|]. unfold pyGet, prevOf, nextOf. rewrite Hj.
    set (n := length pts) in *. clear G'.
    assert (Hcase : (i = (-1)%Z /\ j = n - 1 /\ 2 <= n) \/ (0 <= i)%Z /\ j = Z.to_nat i).
    { unfold pyIndex in Hj. destruct (0 <=? i)%Z eqn:E1.
      - right. destruct (i <? Z.of_nat n)%Z; [|discriminate Hj]. injection Hj as <-. lia.
      - left. destruct (- Z.of_nat n <=? i)%Z; [|discriminate Hj]. injection Hj as <-.
        assert (i = -1)%Z.
        { unfold guessIndices in Hi. destruct pts as [|p r]; [destruct Hi|]. cbv zeta in Hi.
          destruct (eqb (ptype p) (Some sMove)); [apply In_zrange in Hi; lia|].
          destruct (1 <? Z.of_nat (length (p :: r)))%Z; [|destruct Hi]. apply In_zrange in Hi. lia. }
        lia. }
    split; [reflexivity|]. destruct Hcase as [[-> [-> Hn]]|[Hpos ->]].
    - replace (-1 - 1)%Z with (- Z.of_nat 2)%Z by lia. rewrite pyIndex_neg by lia.
      replace (-1 + 1)%Z with (Z.of_nat 0) by lia. rewrite pyIndex_pos by lia.
      destruct (Nat.eqb (n - 1) 0) eqn:E0; [apply Nat.eqb_eq in E0; lia|].
      destruct (Nat.eqb (n - 1 + 1) n) eqn:E2; [|apply Nat.eqb_neq in E2; lia].
      replace (n - 1 - 1) with (n - 2) by lia. split; reflexivity.
    - replace (i + 1)%Z with (Z.of_nat (Z.to_nat i + 1)) by lia. rewrite pyIndex_pos by lia.
      destruct (Nat.eqb (Z.to_nat i + 1) n) eqn:E2; [apply Nat.eqb_eq in E2; lia|].
      split; [|reflexivity].
      destruct (Nat.eqb (Z.to_nat i) 0) eqn:E0.
      + apply Nat.eqb_eq in E0. replace (i - 1)%Z with (- Z.of_nat 1)%Z by lia. rewrite pyIndex_neg by lia. reflexivity.
      + apply Nat.eqb_neq in E0. replace (i - 1)%Z with (Z.of_nat (Z.to_nat i - 1)) by lia. rewrite pyIndex_pos by lia. reflexivity. }
  split.
  - intros [i [Hi [Hd Hj]]]. destruct (Hk i Hi Hj) as [Hc [g1 [g2 g3]]]. split; [exact Hc|].
    unfold decide in Hd. rewrite g1, g2, g3 in Hd.
    destruct (nth_error pts j) as [p|]; [|discriminate Hd]. destruct (prevOf pts j) as [a|]; [|discriminate Hd].
    destruct (nextOf pts j) as [b|]; [|discriminate Hd]. exists p, a, b. repeat split; unfold isOn, isOff in *.
    + intros h. rewrite h in Hd. discriminate Hd.
    + destruct (ptype p); [|discriminate Hd]. destruct (ptype a); [|left; reflexivity]. destruct (ptype b); [discriminate Hd|right; reflexivity].
    + destruct (ptype p); [|discriminate Hd]. destruct (ptype a), (ptype b); try discriminate Hd; exact Hd.
  - intros [Hc [p [a [b [h1 [h2 [h3 [h4 [h5 h6]]]]]]]]].
    assert (Hi : exists i, In i (guessIndices pts) /\ pyIndex (length pts) i = Some j).
    { unfold guessIndices. destruct pts as [|p0 r]; [destruct j; discriminate h1|]. cbv zeta. set (n := length (p0 :: r)) in *.
      destruct (openContour_dec p0 r) as [[e1 e2]|[e1 e2]]; rewrite e1.
      - destruct Hc as [[_ Hc]|[Hc _]]; [|contradiction]. fold n in Hc. exists (Z.of_nat j). split; [apply In_zrange; lia|apply pyIndex_pos; lia].
      - destruct Hc as [[Hc _]|[_ Hc]]; [contradiction|]. fold n in Hc. destruct (1 <? Z.of_nat n)%Z eqn:En; [|lia].
        destruct (Nat.eq_dec j (n - 1)) as [->|Hne].
        + exists (- Z.of_nat 1)%Z. split; [apply In_zrange; lia|apply pyIndex_neg; lia].
        + exists (Z.of_nat j). split; [apply In_zrange; lia|apply pyIndex_pos; lia]. }
    destruct Hi as [i [Hi Hj]]. exists i. split; [exact Hi|]. split; [|exact Hj].
    destruct (Hk i Hi Hj) as [_ [g1 [g2 g3]]]. unfold decide. rewrite g1, g2, g3, h1, h2, h3.
    unfold isOn, isOff in *. destruct (ptype p); [|contradiction]. destruct h5 as [->| ->]; [exact h6|]. destruct (ptype a); exact h6.
Qed.
Lemma nth_map_smoothed : forall pts b j, nth_error (map (fun p => smoothed p b) pts) j = option_map (fun p => smoothed p b) (nth_error pts j).
Proof. intros pts b j. apply nth_error_map. Qed.
Lemma guessed_smoothed : forall pts b j, guessed (map (fun p => smoothed p b) pts) j <-> guessed pts j.
Proof.
  intros pts b j. unfold guessed, considered, prevOf, nextOf. rewrite map_length, !nth_map_smoothed.
  assert (Ho : openContour (map (fun p => smoothed p b) pts) <-> openContour pts).
  { split; intros [p [r [h1 h2]]].
    - destruct pts as [|q pts]; [discriminate h1|]. cbn [map] in h1. injection h1 as <- <-. exists q, pts. split; [reflexivity|exact h2].
    - subst pts. exists (smoothed p b), (map (fun p => smoothed p b) r). split; [reflexivity|exact h2]. }
  rewrite Ho. split.
  - intros [Hc [p [x [y [h1 [h2 [h3 h4]]]]]]]. split; [exact Hc|].
    destruct (nth_error pts j) as [p'|]; [|discriminate h1].
    destruct (nth_error pts (if Nat.eqb j 0 then _ else _)) as [x'|]; [|discriminate h2].
    destruct (nth_error pts (if Nat.eqb (j + 1) _ then _ else _)) as [y'|]; [|discriminate h3].
    cbn [option_map] in *. injection h1 as <-. injection h2 as <-. injection h3 as <-. exists p', x', y'. repeat split; apply h4.
  - intros [Hc [p [x [y [h1 [h2 [h3 h4]]]]]]]. split; [exact Hc|].
    rewrite h1, h2, h3. cbn [option_map]. exists (smoothed p b), (smoothed x b), (smoothed y b). repeat split; apply h4.
Qed.
(** the same points with the same segment types, names and other arguments go out
    in the same order; the smooth flag is set exactly where guessed; components
    pass unchanged *)
Definition plainItem := (list pnt + str * Tr)%type.
Definition plainCalls (i : plainItem) : calls :=
  match i with inl pts => plainContour pts | inr (b, t) => [PComponent b t None] end.
Definition smoothOnly (i j : plainItem) : Prop :=
  match i, j with
  | inl pts, inl out => length out = length pts /\
      forall k p, nth_error pts k = Some p -> exists q, nth_error out k = Some q /\ same p q /\ (psmooth q = true <-> guessed pts k)
  | inr a, inr b => a = b
  | _, _ => False
  end.
Theorem C48_smooth_flags_only : forall g : list plainItem, exists g',
  guessSmooth (Tr := Tr) tangent (flat_map plainCalls g) = Ok (flat_map plainCalls g') /\ Forall2 smoothOnly g g'.
Proof.
  intros g.
  assert (G : forall pts, exists out, guessPoints tangent (map (fun p => smoothed p false) pts) = Ok out /\ length out = length pts /\
    forall j p, nth_error pts j = Some p -> exists q, nth_error out j = Some q /\ same p q /\ (psmooth q = true <-> guessed pts j)).
  { intros pts. destruct (guess_fold _ _ (guessIndices_inside (map (fun p => smoothed p false) pts))) as [out [E [L S]]].
    exists out. split; [exact E|]. split; [rewrite L; apply map_length|]. intros j p hp.
    destruct (S j (smoothed p false)) as [q [hq [hs hb]]]; [rewrite nth_map_smoothed, hp; reflexivity|].
    exists q. split; [exact hq|]. split; [exact hs|]. rewrite hb, decide_guessed, guessed_smoothed. split; [|auto].
    intros [h|h]; [discriminate h|exact h]. }
  assert (GG : exists g', Forall2 (fun i j => run (@guessStep P Tr KW tangent) None (plainCalls i) = Ok (None, plainCalls j) /\ smoothOnly i j) g g').
  { induction g as [|[pts|[b t]] g [g' IH]]; [exists []; constructor| |].
    - destruct (G pts) as [out [h1 h2]]. exists (inl out :: g'). constructor; [|exact IH]. split; [exact (guess_contour _ _ h1)|exact h2].
    - exists (inr (b, t) :: g'). constructor; [split; reflexivity|exact IH]. }
  destruct GG as [g' H]. exists g'. split.
  - unfold guessSmooth. rewrite (run_flat _ _ _ _ _ _ None plainCalls plainCalls _ g g' (fun a b h => proj1 h) H). reflexivity.
  - clear - H. induction H as [|a b g g' h _ IH]; constructor; [exact (proj2 h)|exact IH].
Qed.

(** * C49: segments from points *)
(** what the GLIF reader makes sure of: known segment types, "move" only first, no
    off-curve point before a "line" or "move" point, the contour seen as a cycle *)
Fixpoint adj (l : list pnt) : Prop :=
  match l with
  | a :: ((b :: _) as r) => (ptype b = Some sLine -> isOn a) /\ adj r
  | _ => True
  end.
Definition knownType (p : pnt) : Prop := ptype p = None \/ ptype p = Some sLine \/ ptype p = Some sCurve \/ ptype p = Some sQcurve.
Definition placed (p : pnt) : Prop := exists x, pc p = Some x.
Definition readable (pts : list pnt) : Prop :=
  Forall placed pts /\
  match pts with
  | [] => True
  | p :: r => Forall knownType r /\
      ((ptype p = Some sMove /\ endsOn pts /\ adj pts) \/ (knownType p /\ adj (pts ++ [p])))
  end.
(** the call drawing a segment *)
Inductive draws : seg -> scall P Tr -> Prop :=
| draws_line a x s n k : draws (sLine, a, [], (Some x, s, n, k)) (SLine x)
| draws_curve a offs xs x s n k : map (fun b : bare => fst (fst (fst b))) offs = map Some xs ->
    draws (sCurve, a, offs, (Some x, s, n, k)) (SCurve xs x)
| draws_qcurve a offs xs x s n k : map (fun b : bare => fst (fst (fst b))) offs = map Some xs ->
    draws (sQcurve, a, offs, (Some x, s, n, k)) (SQCurve xs (Some x)).
(** a line back to the start is left out at the end of a closed contour *)
Definition dropImplied (cs : list (scall P Tr)) : list (scall P Tr) :=
  match rev cs with SLine _ :: r => rev r | _ => cs end.
Definition wellSeg (s : seg) : Prop := exists c, draws s c.

Lemma coords_placed : forall l : list pnt, Forall placed l -> exists xs, coords l = xs /\ map (fun b : bare => fst (fst (fst b))) (map bareOf l) = map Some xs.
Proof.
  induction l as [|p r IH]; intros H; [exists []; split; reflexivity|]. inversion H as [|? ? [x hx] h']; subst.
  destruct (IH h') as [xs [h1 h2]]. exists (x :: xs). cbn [coords map]. rewrite hx, h1, h2. unfold bareOf. cbn [fst snd]. rewrite hx. split; reflexivity.
Qed.
Lemma sLine_sCurve : eqb sCurve sLine = false. Proof. vm_compute. reflexivity. Qed.
Lemma sLine_sQcurve : eqb sQcurve sLine = false. Proof. vm_compute. reflexivity. Qed.
Lemma sCurve_sQcurve : eqb sQcurve sCurve = false. Proof. vm_compute. reflexivity. Qed.
Lemma drawSegment_ok : forall implied closed lst t (cur : list pnt) p a, Forall placed cur -> placed p ->
  ptype p = Some t -> (t = sLine -> cur = []) -> knownType p ->
  exists c, draws (t, a, map bareOf cur, bareOf p) c /\
    drawSegment (Tr := Tr) implied closed lst (t, cur ++ [p]) =
      Ok (match c with SLine _ => if negb lst || implied || negb closed then [c] else [] | _ => [c] end).
Proof.
  intros implied closed lst t cur p a Hc [x Hx] Ht Hl Hk.
  unfold bareOf at 2. rewrite Hx. unfold drawSegment. rewrite rev_app_distr. cbn [rev app]. rewrite rev_involutive, Hx.
  destruct (coords_placed cur Hc) as [xs [e1 e2]]. rewrite e1.
  destruct Hk as [Hk|[Hk|[Hk|Hk]]]; rewrite Hk in Ht; try discriminate Ht; injection Ht as <-.
  - rewrite (Hl eq_refl). cbn [app map]. exists (SLine x). split; [constructor|]. rewrite eqb_refl, Hx. destruct (negb lst || implied || negb closed); reflexivity.
  - exists (SCurve xs x). split; [constructor; exact e2|]. rewrite sLine_sCurve, eqb_refl. reflexivity.
  - exists (SQCurve xs (Some x)). split; [constructor; exact e2|]. rewrite sLine_sQcurve, sCurve_sQcurve, eqb_refl. reflexivity.
Qed.
Lemma walk_nil : forall l cur b, segmentLoop cur l = [] <-> walk b (map bareOf cur) l = [].
Proof.
  induction l as [|p l IH]; intros cur b; [split; reflexivity|]. cbn [segmentLoop walk].
  destruct (ptype p); [split; intros h; discriminate h|]. rewrite (IH _ b), map_app. reflexivity.
Qed.
(** the accumulated off-curve points against the previous point *)
Lemma drawSegments_ok : forall implied closed l (cur : list pnt) prev a,
  Forall placed cur -> Forall placed l -> Forall knownType l -> adj (prev :: l) -> (cur <> [] -> isOff prev) ->
  exists cs, Forall2 draws (walk a (map bareOf cur) l) cs /\
    drawSegments implied closed (segmentLoop cur l) = Ok (if implied || negb closed then cs else dropImplied cs).
Proof.
  intros implied closed. induction l as [|p l IH]; intros cur prev a Hc Hl Hk Ha Hp.
  - exists []. split; [constructor|]. cbn [segmentLoop drawSegments]. destruct (implied || negb closed); reflexivity.
  - inversion Hl as [|? ? hp hl]; inversion Hk as [|? ? kp kl]; subst. destruct Ha as [Ha Ha'].
    cbn [segmentLoop walk]. destruct (ptype p) as [t|] eqn:Et.
    + destruct (IH [] p (bareOf p)) as [cs [h1 h2]]; try assumption; [constructor|intros h; contradiction|].
      destruct (drawSegment_ok implied closed (match segmentLoop [] l with [] => true | _ => false end) t cur p a) as [c [h3 h4]]; try assumption.
      { intros ->. destruct cur; [reflexivity|]. exfalso. apply (Ha eq_refl). apply Hp. discriminate. }
      exists (c :: cs). split; [constructor; assumption|]. cbn [drawSegments]. rewrite h4, h2. cbn [bind]. f_equal.
      cbn [map] in h1.
      destruct (segmentLoop [] l) as [|s0 ss] eqn:Es.
      * assert (cs = []).
        { apply (walk_nil l [] (bareOf p)) in Es. cbn [map] in Es. rewrite Es in h1. inversion h1. reflexivity. }
        subst cs. destruct c; destruct implied, closed; reflexivity.
      * assert (cs <> []).
        { intros ->. assert (Ew : walk (bareOf p) [] l = []) by (destruct (walk (bareOf p) [] l); [reflexivity|inversion h1]).
          apply (walk_nil l [] (bareOf p)) in Ew. rewrite Ew in Es. discriminate Es. }
        assert (Ed : dropImplied (c :: cs) = c :: dropImplied cs).
        { unfold dropImplied. cbn [rev]. destruct (rev cs) as [|z zs] eqn:Ez.
          - apply (f_equal (@rev _)) in Ez. rewrite rev_involutive in Ez. contradiction.
          - cbn [app]. destruct z; cbn [rev app]; try reflexivity. rewrite rev_app_distr. reflexivity. }
        rewrite Ed. cbn [negb orb]. destruct c, (implied || negb closed); reflexivity.
    + destruct (IH (cur ++ [p]) p a) as [cs [h1 h2]]; try assumption.
      * apply Forall_app. split; [assumption|constructor; [assumption|constructor]].
      * intros _. exact Et.
      * exists cs. split; [|exact h2]. rewrite map_app in h1. exact h1.
Qed.
Lemma adj_split : forall A x B, adj (A ++ x :: B) <-> adj (A ++ [x]) /\ adj (x :: B).
Proof.
  induction A as [|a A IH]; intros x B.
  - cbn [app]. split; [intros h; split; [exact I|exact h]|intros [_ h]; exact h].
  - destruct A as [|a' A].
    + cbn [app adj]. tauto.
    + specialize (IH x B). cbn [app adj] in *. rewrite IH. tauto.
Qed.
Lemma adj_rotate : forall pre f post p0 r, pre ++ f :: post = p0 :: r -> adj ((p0 :: r) ++ [p0]) -> adj (f :: post ++ pre ++ [f]).
Proof.
  intros [|c pre] f post p0 r E H; cbn [app] in E.
  - injection E as <- <-. exact H.
  - injection E as <- <-. change ((c :: pre ++ f :: post) ++ [c]) with (c :: ((pre ++ f :: post) ++ [c])) in H.
    rewrite <- app_assoc in H. cbn [app] in H.
    change (f :: post ++ (c :: pre) ++ [f]) with ((f :: post) ++ c :: (pre ++ [f])). apply adj_split. split.
    + change (c :: pre ++ f :: post ++ [c]) with ((c :: pre) ++ f :: (post ++ [c])) in H. apply adj_split in H. exact (proj2 H).
    + change (c :: pre ++ f :: post ++ [c]) with ((c :: pre) ++ f :: (post ++ [c])) in H. apply adj_split in H. exact (proj1 H).
Qed.
Lemma firstOn_split : forall pre (f : pnt) post, Forall isOff pre -> isOn f -> firstOn (pre ++ f :: post) = Some (length pre).
Proof.
  induction pre as [|p pre IH]; intros f post H Hf; cbn [app firstOn length].
  - destruct (isOn_Some f Hf) as [t ->]. reflexivity.
  - inversion H as [|? ? h h']; subst. unfold isOff in h. rewrite h, (IH f post) by assumption. reflexivity.
Qed.
Lemma firstOn_off : forall l : list pnt, Forall isOff l -> firstOn l = None.
Proof. induction 1 as [|p l h _ IH]; [reflexivity|]. cbn [firstOn]. unfold isOff in h. rewrite h, IH. reflexivity. Qed.
Lemma segmentLoop_first : forall l (cur : list pnt) t ps r, segmentLoop cur l = (t, ps) :: r -> exists p, In p l /\ ptype p = Some t.
Proof.
  induction l as [|p l IH]; intros cur t ps r H; cbn [segmentLoop] in H; [discriminate H|].
  destruct (ptype p) eqn:E.
  - injection H as <- _ _. exists p. split; [left; reflexivity|exact E].
  - destruct (IH _ _ _ _ H) as [q [h1 h2]]. exists q. split; [right; exact h1|exact h2].
Qed.
Lemma segmentLoop_some : forall l (cur : list pnt) p, isOn p -> segmentLoop cur (l ++ [p]) <> [].
Proof.
  induction l as [|x l IH]; intros cur p H Es; cbn [app segmentLoop] in Es.
  - destruct (isOn_Some p H) as [t Ht]. rewrite Ht in Es. discriminate Es.
  - destruct (ptype x); [discriminate Es|exact (IH _ _ H Es)].
Qed.
Lemma segmentLoop_last : forall l (cur : list pnt) p d, isOn p -> exists ps, snd (last (segmentLoop cur (l ++ [p])) d) = ps ++ [p].
Proof.
  induction l as [|q l IH]; intros cur p d H; cbn [app segmentLoop].
  - destruct (isOn_Some p H) as [t ->]. exists cur. reflexivity.
  - destruct (ptype q); [|apply IH; exact H].
    destruct (IH [] p d H) as [ps E]. exists ps.
    destruct (segmentLoop [] (l ++ [p])) as [|s0 ss] eqn:Es; [|exact E].
    exfalso. exact (segmentLoop_some _ _ _ H Es).
Qed.
Lemma toSegment_adds : forall implied pts (l : list pnt),
  run (@toSegmentStep P Tr KW noKW implied) (Some l) (map PAdd pts) = Ok (Some (l ++ pts), []).
Proof.
  intros implied. induction pts as [|p r IH]; intros l; cbn [map run]; [rewrite app_nil_r; reflexivity|].
  cbn [toSegmentStep bind fst snd]. rewrite IH, <- app_assoc. reflexivity.
Qed.
(** what is drawn for one contour *)
Definition drawnAs (implied : bool) (pts : list pnt) (out : list (scall P Tr)) : Prop :=
  match pts with
  | [] => out = []
  | [p] => exists x, pc p = Some x /\ out = [SMove x; SEnd]
  | p :: r =>
    (ptype p = Some sMove /\ exists x segs cs, pc p = Some x /\ openSegs pts segs /\ Forall2 draws segs cs /\ out = SMove x :: cs ++ [SEnd]) \/
    (ptype p <> Some sMove /\ exists pre f post x segs cs, pts = pre ++ f :: post /\ Forall isOff pre /\ isOn f /\ pc f = Some x /\
       closedSegs pts segs /\ Forall2 draws segs cs /\ out = SMove x :: (if implied then cs else dropImplied cs) ++ [SClose]) \/
    (Forall isOff pts /\ exists xs, map pc pts = map Some xs /\ out = [SQCurve xs None; SClose])
  end.
Lemma toSegment_points : forall implied pts, readable pts ->
  exists out, drawnAs implied pts out /\
    match segmentsOf noKW pts with None => Ok [] | Some segs => flushSegments implied segs end = Ok out.
Proof.
  intros implied [|p [|p2 r]] [Hpl H].
  - exists []. split; reflexivity.
  - inversion Hpl as [|? ? [x hx] _]; subst. exists [SMove x; SEnd]. split; [exists x; split; [exact hx|reflexivity]|].
    cbn [segmentsOf flushSegments]. rewrite eqb_refl. cbn [drawSegments bind]. rewrite hx. reflexivity.
  - destruct H as [Hk H]. set (pts := p :: p2 :: r) in *.
    destruct H as [[Hp [He Ha]]|[Hkp Ha]].
    + (* open *)
      inversion Hpl as [|? ? [x hx] hpl]; subst.
      destruct (drawSegments_ok implied false (p2 :: r) [] p (bareOf p)) as [cs [h1 h2]]; try assumption; [constructor|intros h; contradiction|].
      exists (SMove x :: cs ++ [SEnd]). split.
      * left. split; [exact Hp|]. exists x, (walk (bareOf p) [] (p2 :: r)), cs. split; [exact hx|].
        split; [exists p, (p2 :: r); split; reflexivity|]. split; [exact h1|reflexivity].
      * unfold segmentsOf, pts. rewrite Hp, eqb_refl. cbn [flushSegments]. rewrite eqb_refl, h2, hx.
        rewrite orb_comm. reflexivity.
    + assert (Hp : ptype p <> Some sMove).
      { intros h. destruct Hkp as [k|[k|[k|k]]]; rewrite k in h; discriminate h. }
      assert (Hkall : Forall knownType pts) by (constructor; assumption).
      assert (Hnm : forall l t ps rs cur, Forall knownType l -> segmentLoop cur l = (t, ps) :: rs -> eqb t sMove = false).
      { intros l t ps rs cur Hkl El. destruct (segmentLoop_first _ _ _ _ _ El) as [q [i1 i2]].
        rewrite Forall_forall in Hkl. destruct (Hkl q i1) as [k|[k|[k|k]]]; rewrite k in i2; inversion i2; vm_compute; reflexivity. }
      destruct (split_on pts) as [Hoff|[pre [f [post [Epts [Hpre Hf]]]]]].
      * (* no on-curve point *)
        destruct (coords_placed pts Hpl) as [xs [e1 e2]]. exists [SQCurve xs None; SClose]. split.
        -- right. right. split; [exact Hoff|]. exists xs. split; [rewrite <- e2, map_map; reflexivity|reflexivity].
        -- unfold segmentsOf. unfold pts at 1. rewrite (eqb_sMove_no _ Hp). fold pts. rewrite (firstOn_off _ Hoff).
           assert (El : forall l cur e, Forall isOff l -> ptype e = Some sQcurve -> segmentLoop cur (l ++ [e]) = [(sQcurve, cur ++ l ++ [e])]).
           { clear. induction l as [|q l IH]; intros cur e H He; cbn [app segmentLoop].
             - rewrite He. reflexivity.
             - inversion H as [|? ? h h']; subst. unfold isOff in h. rewrite h, IH by assumption. rewrite <- app_assoc. reflexivity. }
           rewrite El by (exact Hoff || reflexivity). cbn [app]. unfold flushSegments.
           replace (eqb sQcurve sMove) with false by (vm_compute; reflexivity).
           cbn [last snd]. rewrite rev_app_distr. cbn [rev app]. cbn [drawSegments]. unfold drawSegment.
           rewrite sLine_sQcurve, sCurve_sQcurve, eqb_refl, rev_app_distr. cbn [rev app pc bind].
           change (rev r ++ [p2]) with (rev (p2 :: r)). change (rev (p2 :: r) ++ [p]) with (rev pts).
           rewrite rev_involutive, e1. reflexivity.
      * (* closed *)
        assert (Hplf : placed f).
        { rewrite Forall_forall in Hpl. apply Hpl. rewrite Epts. apply in_or_app. right. left. reflexivity. }
        destruct Hplf as [x hx].
        assert (Hperm : forall Q : pnt -> Prop, Forall Q pts -> Forall Q (post ++ pre ++ [f])).
        { intros Q HQ. rewrite Epts in HQ. apply Forall_app in HQ. destruct HQ as [q1 q2]. inversion q2; subst.
          apply Forall_app. split; [assumption|]. apply Forall_app. split; [assumption|]. constructor; [assumption|constructor]. }
        destruct (drawSegments_ok implied true (post ++ pre ++ [f]) [] f (bareOf f)) as [cs [h1 h2]];
          [constructor|apply Hperm; assumption|apply Hperm; assumption|exact (adj_rotate pre f post p (p2 :: r) (eq_sym Epts) Ha)|intros h; contradiction|].
        exists (SMove x :: (if implied then cs else dropImplied cs) ++ [SClose]). split.
        -- right. left. split; [exact Hp|]. exists pre, f, post, x, (walk (bareOf f) [] (post ++ pre ++ [f])), cs.
           repeat (split; [assumption|]). split; [exists pre, f, post; repeat split; assumption|]. split; [exact h1|reflexivity].
        -- unfold segmentsOf. unfold pts at 1. rewrite (eqb_sMove_no _ Hp). fold pts. rewrite Epts at 1.
           rewrite (firstOn_split pre f post Hpre Hf). rewrite Epts.
           assert (E1 : skipn (length pre + 1) (pre ++ f :: post) = post).
           { rewrite skipn_app, skipn_all2 by lia. replace (length pre + 1 - length pre) with 1 by lia. reflexivity. }
           assert (E2 : firstn (length pre + 1) (pre ++ f :: post) = pre ++ [f]).
           { rewrite firstn_app, firstn_all2 by lia. replace (length pre + 1 - length pre) with 1 by lia. reflexivity. }
           rewrite E1, E2. unfold flushSegments.
           assert (Hkl : Forall knownType (post ++ pre ++ [f])) by (apply Hperm; assumption).
           destruct (segmentLoop [] (post ++ pre ++ [f])) as [|[t ps] rs] eqn:Es.
           { exfalso. destruct (segmentLoop_last (post ++ pre) [] f (sMove, []) Hf) as [ps Eps].
             rewrite <- app_assoc, Es in Eps. cbn in Eps. destruct ps; discriminate Eps. }
           rewrite (Hnm _ _ _ _ _ Hkl Es).
           destruct (segmentLoop_last (post ++ pre) [] f (t, ps) Hf) as [ps' Eps]. rewrite <- app_assoc, Es in Eps.
           rewrite Eps, rev_app_distr. cbn [rev app]. rewrite h2. cbn [bind]. rewrite hx, orb_false_r. reflexivity.
Qed.
(** every contour the GLIF reader can produce is drawn without error, segment by
    segment *)
Theorem C49_segments : forall implied (g : list item),
  Forall (fun i => match i with Contour _ pts => readable pts | _ => True end) g ->
  exists outs, pointToSegment noKW implied (drawing g) = Ok (concat outs) /\
    Forall2 (fun i out => match i with Contour _ pts => drawnAs implied pts out | Component b t _ => out = [SComponent b t] end) g outs.
Proof.
  intros implied g H.
  assert (G : exists outs, run (@toSegmentStep P Tr KW noKW implied) None (drawing g) = Ok (None, concat outs) /\
    Forall2 (fun i out => match i with Contour _ pts => drawnAs implied pts out | Component b t _ => out = [SComponent b t] end) g outs).
  { induction H as [|i g Hi _ [outs [E F]]]; [exists []; split; [reflexivity|constructor]|].
    destruct i as [ident pts|b t ident].
    - destruct (toSegment_points implied pts Hi) as [out [h1 h2]]. exists (out :: outs). split; [|constructor; assumption].
      cbn [drawing flat_map]. fold (drawing g). rewrite (run_app _ _ _ _ _ _ _ None out).
      + rewrite E. reflexivity.
      + unfold callsOf. cbn [run toSegmentStep bind fst snd].
        rewrite (run_app _ _ _ _ _ _ _ _ _ (toSegment_adds implied pts [])). cbn [app run toSegmentStep bind fst snd].
        destruct (segmentsOf noKW pts); [rewrite h2; cbn [bind fst snd]; rewrite app_nil_r; reflexivity|].
        injection h2 as <-. reflexivity.
    - exists ([SComponent b t] :: outs). split; [|constructor; [reflexivity|assumption]].
      cbn [drawing flat_map]. fold (drawing g). rewrite (run_app _ _ _ _ _ _ _ None [SComponent b t]) by reflexivity. rewrite E. reflexivity. }
  destruct G as [outs [E F]]. exists outs. split; [|exact F]. unfold pointToSegment. rewrite E. reflexivity.
Qed.
(** the segments contain every point once, in cyclic order *)
Definition segPoints (s : seg) : list bare := let '(t, a, offs, b) := s in offs ++ [b].
Lemma walk_points : forall l a offs p, isOn p -> flat_map segPoints (walk a offs (l ++ [p])) = offs ++ map bareOf (l ++ [p]).
Proof.
  induction l as [|q l IH]; intros a offs p H; cbn [app walk map].
  - destruct (isOn_Some p H) as [t ->]. cbn [flat_map segPoints]. rewrite app_nil_r. reflexivity.
  - destruct (ptype q); cbn [flat_map segPoints]; rewrite IH by exact H; rewrite <- ?app_assoc; reflexivity.
Qed.
Theorem C49_points_once : forall pts segs,
  (closedSegs pts segs -> rotated (map bareOf pts) (flat_map segPoints segs)) /\
  (openSegs pts segs -> endsOn pts -> exists p, map bareOf pts = bareOf p :: flat_map segPoints segs).
Proof.
  intros pts segs. split.
  - intros [pre [f [post [-> [H1 [H2 ->]]]]]]. rewrite app_assoc, walk_points by exact H2.
    exists (map bareOf (pre ++ [f])), (map bareOf post). split.
    + rewrite <- map_app, <- app_assoc. reflexivity.
    + rewrite <- map_app, <- app_assoc. reflexivity.
  - intros [f [post [-> ->]]] [l [q [E Hq]]]. exists f. cbn [map]. f_equal. destruct post as [|x post _] using rev_ind; [reflexivity|].
    change (f :: post ++ [x]) with ((f :: post) ++ [x]) in E. apply app_inj_tail in E. destruct E as [_ ->].
    rewrite walk_points by exact Hq. reflexivity.
Qed.

(** * C47: from a segment pen to a point pen and back *)
Variable peq : P -> P -> bool.
Notation scalls := (list (scall P Tr)).
(** drawing calls after moveTo, each with the point it ends at *)
Definition endOf (c : scall P Tr) : option P :=
  match c with SLine x => Some x | SCurve _ x => Some x | SQCurve _ x => x | _ => None end.
Definition bodyCall (c : scall P Tr) : Prop := endOf c <> None.
(** well-formed contours and components *)
Inductive outline :=
| Open (p : P) (body : scalls)
| Closed (p : P) (body : scalls)
| AllOff (offs : list P)
| Placed (base : str) (transformation : Tr).
Definition outlineCalls (o : outline) : scalls :=
  match o with
  | Open p body => SMove p :: body ++ [SEnd]
  | Closed p body => SMove p :: body ++ [SClose]
  | AllOff offs => [SQCurve offs None; SClose]
  | Placed b t => [SComponent b t]
  end.
(** the body of a closed contour with the line back to the start made explicit *)
Definition closing (p : P) (body : scalls) : scalls :=
  match rev body with
  | c :: _ => match endOf c with Some q => if peq p q then body else body ++ [SLine p] | None => body end
  | [] => body ++ [SLine p]
  end.
Definition size (c : scall P Tr) : nat :=
  match c with SCurve offs _ => S (length offs) | SQCurve offs _ => S (length offs) | _ => 1 end.
(** two points or more; without on-curve points the last one differs from the first *)
Definition proper (o : outline) : Prop :=
  match o with
  | Open p body => Forall bodyCall body
  | Closed p body => Forall bodyCall body /\ 2 <= list_sum (map size (closing p body))
  | AllOff offs => exists x xs y, offs = x :: xs ++ [y] /\ peq x y = false
  | Placed _ _ => True
  end.
(** the same drawing: only the start of a closed contour may be replaced by an equal
    point, and the line back to it may be implied *)
Definition sameDrawing (implied : bool) (o : outline) (out : scalls) : Prop :=
  match o with
  | Closed p body => exists p', (p' = p \/ (peq p p' = true /\ exists c r, rev body = c :: r /\ endOf c = Some p')) /\
      out = SMove p' :: (if implied then closing p body else dropImplied (closing p body)) ++ [SClose]
  | _ => out = outlineCalls o
  end.

Definition flatCall (c : scall P Tr) : list (P * option str) :=
  match c with
  | SLine x => [(x, Some sLine)]
  | SCurve offs x => map (fun y => (y, None)) offs ++ [(x, Some sCurve)]
  | SQCurve offs (Some x) => map (fun y => (y, None)) offs ++ [(x, Some sQcurve)]
  | _ => []
  end.
Lemma toPoint_body : forall body l, Forall bodyCall body ->
  run (@toPointStep P peq Tr KW noKW) (Some l) body = Ok (Some (l ++ flat_map flatCall body), []).
Proof.
  induction body as [|c body IH]; intros l H; cbn [run flat_map]; [rewrite app_nil_r; reflexivity|].
  inversion H as [|? ? h h']; subst. unfold bodyCall in h.
  destruct c as [x|x|offs x|offs [x|]| | |b t]; cbn [endOf] in h; try contradiction;
    cbn [toPointStep bind fst snd]; rewrite IH by exact h'; cbn [bind fst snd flatCall]; rewrite <- ?app_assoc; reflexivity.
Qed.
Definition looks (pts : list pnt) (c : list (P * option str)) : Prop :=
  map (fun p : pnt => (pc p, ptype p)) pts = map (fun x => (Some (fst x), snd x)) c.
Lemma looks_app : forall pts c1 c2, looks pts (c1 ++ c2) -> exists p1 p2, pts = p1 ++ p2 /\ looks p1 c1 /\ looks p2 c2.
Proof.
  intros pts c1. revert pts. induction c1 as [|x c1 IH]; intros pts c2 H; [exists [], pts; repeat split; exact H|].
  destruct pts as [|p pts]; [discriminate H|]. unfold looks in H. cbn [app map] in H. injection H as h1 h2 h3.
  destruct (IH _ _ h3) as [p1 [p2 [-> [g1 g2]]]]. exists (p :: p1), p2. split; [reflexivity|]. split; [|exact g2].
  unfold looks in *. cbn [map]. rewrite h1, h2, g1. reflexivity.
Qed.
Lemma looks_one : forall pts x t, looks pts [(x, t)] -> exists p, pts = [p] /\ pc p = Some x /\ ptype p = t.
Proof.
  intros [|p [|q pts]] x t H; try discriminate H. unfold looks in H. cbn [map fst snd] in H. injection H as h1 h2. exists p. auto.
Qed.
Lemma looks_offs : forall offs pts, looks pts (map (fun y => (y, None)) offs) ->
  Forall isOff pts /\ Forall placed pts /\ map (fun b : bare => fst (fst (fst b))) (map bareOf pts) = map Some offs.
Proof.
  induction offs as [|x offs IH]; intros [|p pts] H; try discriminate H; [repeat split; constructor|].
  unfold looks in H. cbn [map fst snd] in H. injection H as h1 h2 h3. destruct (IH _ h3) as [g1 [g2 g3]].
  repeat split; [constructor; assumption|constructor; [exists x; exact h1|exact g2]|].
  cbn [map]. unfold bareOf at 1. cbn [fst]. rewrite h1, g3. reflexivity.
Qed.
(** a list of points that looks like drawn segments *)
Lemma looks_body : forall body pts prev a, Forall bodyCall body -> looks pts (flat_map flatCall body) ->
  Forall2 draws (walk a [] pts) body /\ Forall placed pts /\ Forall knownType pts /\
  (isOn prev -> adj (prev :: pts)) /\ (body <> [] -> endsOn pts).
Proof.
  induction body as [|c body IH]; intros pts prev a Hb H.
  - destruct pts; [|discriminate H]. cbn [walk adj]. repeat split; try constructor. intros h; contradiction.
  - inversion Hb as [|? ? hc hb]; subst. cbn [flat_map] in H. destruct (looks_app _ _ _ H) as [p1 [p2 [-> [H1 H2]]]].
    assert (G : exists offs' p, p1 = offs' ++ [p] /\ Forall isOff offs' /\ Forall placed offs' /\ placed p /\ isOn p /\ knownType p /\
       (ptype p = Some sLine -> offs' = []) /\ exists t, ptype p = Some t /\ draws (t, a, map bareOf offs', bareOf p) c).
    { unfold bodyCall in hc. destruct c as [x|x|offs x|offs [x|]| | |b t]; cbn [endOf] in hc; try contradiction; cbn [flatCall] in H1.
      - destruct (looks_one _ _ _ H1) as [p [-> [e1 e2]]]. exists [], p.
        repeat (split; [reflexivity || constructor|]). split; [exists x; exact e1|]. split; [unfold isOn; congruence|].
        split; [right; left; exact e2|]. split; [reflexivity|]. exists sLine. split; [exact e2|]. unfold bareOf. rewrite e1. constructor.
      - destruct (looks_app _ _ _ H1) as [q1 [q2 [-> [e1 e2]]]]. destruct (looks_one _ _ _ e2) as [p [-> [e3 e4]]].
        destruct (looks_offs _ _ e1) as [g1 [g2 g3]]. exists q1, p. split; [reflexivity|]. split; [exact g1|]. split; [exact g2|].
        split; [exists x; exact e3|]. split; [unfold isOn; congruence|]. split; [right; right; left; exact e4|].
        split; [intros h; rewrite e4 in h; discriminate h|]. exists sCurve. split; [exact e4|]. unfold bareOf at 2. rewrite e3. constructor. exact g3.
      - destruct (looks_app _ _ _ H1) as [q1 [q2 [-> [e1 e2]]]]. destruct (looks_one _ _ _ e2) as [p [-> [e3 e4]]].
        destruct (looks_offs _ _ e1) as [g1 [g2 g3]]. exists q1, p. split; [reflexivity|]. split; [exact g1|]. split; [exact g2|].
        split; [exists x; exact e3|]. split; [unfold isOn; congruence|]. split; [right; right; right; exact e4|].
        split; [intros h; rewrite e4 in h; discriminate h|]. exists sQcurve. split; [exact e4|]. unfold bareOf at 2. rewrite e3. constructor. exact g3. }
    destruct G as [offs' [p [-> [g1 [g2 [g3 [g4 [g5 [g6 [t [g7 g8]]]]]]]]]]].
    destruct (IH p2 p (bareOf p) hb H2) as [i1 [i2 [i3 [i4 i5]]]].
    split; [rewrite <- app_assoc; cbn [app]; rewrite walk_on by exact g4; rewrite (walk_one offs' a p t g1 g7); cbn [app]; constructor; assumption|].
    split; [apply Forall_app; split; [apply Forall_app; split; [exact g2|constructor; [exact g3|constructor]]|exact i2]|].
    split.
    { apply Forall_app. split; [apply Forall_app; split; [|constructor; [exact g5|constructor]]|exact i3].
      clear - g1. induction g1; constructor; [left; assumption|assumption]. }
    split.
    + intros Hprev. rewrite <- app_assoc. cbn [app].
      change (prev :: offs' ++ p :: p2) with ((prev :: offs') ++ p :: p2). apply adj_split. split; [|exact (i4 g4)].
      destruct offs' as [|o offs'].
      * cbn [app adj]. split; [intros _; exact Hprev|exact I].
      * assert (Hnl : ptype p <> Some sLine) by (intros h; specialize (g6 h); discriminate g6).
        clear - g1 Hnl Hprev. revert prev Hprev. 
        assert (G : forall l prev, Forall isOff l -> adj ((prev :: l) ++ [p])).
        { induction l as [|o' l IH]; intros prev Hl.
          - cbn [app adj]. split; [intros h; contradiction|exact I].
          - inversion Hl as [|? ? h h']; subst. change ((prev :: o' :: l) ++ [p]) with (prev :: ((o' :: l) ++ [p])).
            cbn [app adj]. split; [unfold isOff in h; rewrite h; discriminate|]. apply (IH o' h'). }
        intros prev _. apply G. exact g1.
    + intros _. destruct body as [|c' body].
      * cbn [flat_map] in H2. destruct p2; [|discriminate H2]. rewrite app_nil_r. exists offs', p. split; [reflexivity|exact g4].
      * destruct i5 as [r [q [-> Hq]]]; [discriminate|]. exists ((offs' ++ [p]) ++ r), q. split; [rewrite <- !app_assoc; reflexivity|exact Hq].
Qed.
Lemma draws_fun : forall s c c', draws s c -> draws s c' -> c = c'.
Proof.
  assert (G : forall xs ys : list P, map Some xs = map Some ys -> xs = ys).
  { induction xs as [|x xs IH]; intros [|y ys] H; try discriminate H; [reflexivity|]. cbn [map] in H. injection H as -> h. rewrite (IH _ h). reflexivity. }
  intros s c c' H H'. destruct H; inversion H'; subst; try reflexivity; f_equal; apply G; congruence.
Qed.
Lemma draws_fun_all : forall l cs cs', Forall2 draws l cs -> Forall2 draws l cs' -> cs = cs'.
Proof.
  induction l as [|s l IH]; intros cs cs' H H'; inversion H; inversion H'; subst; [reflexivity|].
  f_equal; [eapply draws_fun; eassumption|]. apply IH; assumption.
Qed.
Lemma flat_length : forall body, Forall bodyCall body -> length (flat_map flatCall body) = list_sum (map size body).
Proof.
  induction 1 as [|c body h _ IH]; [reflexivity|]. cbn [flat_map map list_sum]. rewrite app_length, IH. unfold bodyCall in h.
  cbn [list_sum fold_right]. f_equal.
  destruct c as [x|x|offs x|offs [x|]| | |b t]; cbn [endOf] in h; try contradiction; cbn [flatCall size];
    rewrite ?app_length, ?map_length; cbn [length]; lia.
Qed.
Lemma looks_length : forall pts c, looks pts c -> length pts = length c.
Proof. intros pts c H. apply (f_equal (@length _)) in H. rewrite !map_length in H. exact H. Qed.
(** the closed contour handed over has the points of [closing], started at the end *)
Lemma closing_contour : forall p body, Forall bodyCall body -> 2 <= list_sum (map size (closing p body)) ->
  exists p' t rest, closeContour peq ((p, Some sMove) :: flat_map flatCall body) = Ok ((p', t) :: rest) /\
    rest ++ [(p', t)] = flat_map flatCall (closing p body) /\ Forall bodyCall (closing p body) /\
    (p' = p \/ (peq p p' = true /\ exists c r, rev body = c :: r /\ endOf c = Some p')).
Proof.
  intros p body Hb Hs. unfold closing in *.
  destruct (rev body) as [|c r] eqn:Er.
  - apply (f_equal (@rev _)) in Er. rewrite rev_involutive in Er. cbn in Er. subst body. cbn in Hs. lia.
  - assert (Eb : body = rev r ++ [c]) by (rewrite <- (rev_involutive body), Er; reflexivity).
    assert (Hc : bodyCall c).
    { rewrite Forall_forall in Hb. apply Hb. rewrite Eb. apply in_or_app. right. left. reflexivity. }
    unfold bodyCall in Hc. destruct (endOf c) as [q|] eqn:Eq; [|contradiction].
    assert (Ef : exists tq l, flatCall c = l ++ [(q, Some tq)]).
    { destruct c as [x|x|offs x|offs [x|]| | |b t]; cbn [endOf] in Eq; try discriminate Eq; injection Eq as <-; cbn [flatCall].
      - exists sLine, []. reflexivity.
      - eexists _, _. reflexivity.
      - eexists _, _. reflexivity. }
    destruct Ef as [tq [l Ef]].
    assert (Eflat : flat_map flatCall body = (flat_map flatCall (rev r) ++ l) ++ [(q, Some tq)]).
    { rewrite Eb, flat_map_app. cbn [flat_map]. rewrite app_nil_r, Ef, app_assoc. reflexivity. }
    unfold closeContour. rewrite Eflat, rev_app_distr. cbn [rev app]. destruct (peq p q) eqn:Ep.
    + exists q, (Some tq), (flat_map flatCall (rev r) ++ l). rewrite rev_involutive.
      split; [reflexivity|]. split; [symmetry; exact Eflat|]. split; [exact Hb|]. right. split; [exact Ep|]. exists c, r. split; [reflexivity|exact Eq].
    + exists p, (Some sLine), (flat_map flatCall body). rewrite eqb_refl, Eflat.
      split; [reflexivity|]. split; [rewrite flat_map_app, Eflat; reflexivity|]. split; [|left; reflexivity].
      apply Forall_app. split; [exact Hb|]. constructor; [discriminate|constructor].
Qed.
Lemma F2_looks : forall pts out c, Forall2 same pts out -> looks pts c -> looks out c.
Proof.
  intros pts out c H. unfold looks. intros <-. induction H as [|p q l l' [h1 [h2 _]] _ IH]; [reflexivity|]. cbn [map]. rewrite h1, h2, IH. reflexivity.
Qed.
Lemma looks_fromPt : forall c, looks (map (fromPt noKW) c) c.
Proof. intros c. unfold looks. rewrite map_map. apply map_ext. intros [x t]. reflexivity. Qed.
(** drawing points that look like an outline *)
Definition handed (o : outline) (c : list (P * option str)) : Prop :=
  match o with
  | Open p body => c = (p, Some sMove) :: flat_map flatCall body
  | Closed p body => closeContour peq ((p, Some sMove) :: flat_map flatCall body) = Ok c
  | AllOff offs => c = map (fun x => (x, None)) offs
  | Placed _ _ => False
  end.
Lemma redrawn : forall implied o c pts, proper o -> handed o c -> looks pts c ->
  exists out, sameDrawing implied o out /\
    match segmentsOf noKW pts with None => Ok [] | Some segs => flushSegments implied segs end = Ok out.
Proof.
  intros implied o c pts Hp Hh Hl. destruct o as [p body|p body|offs|b t]; cbn [proper handed sameDrawing] in *; try contradiction.
  - subst c. destruct (looks_app pts [(p, Some sMove)] (flat_map flatCall body) Hl) as [q1 [q2 [-> [e1 e2]]]].
    destruct (looks_one _ _ _ e1) as [q [-> [e3 e4]]]. cbn [app].
    destruct (looks_body body q2 q (bareOf q) Hp e2) as [i1 [i2 [i3 [i4 i5]]]].
    exists (outlineCalls (Open p body)). split; [reflexivity|]. cbn [outlineCalls].
    destruct q2 as [|q' q2].
    + destruct body as [|c body]; [|inversion i1].
      cbn [segmentsOf flushSegments]. rewrite eqb_refl. cbn [drawSegments bind]. rewrite e3. reflexivity.
    + destruct (toSegment_points implied (q :: q' :: q2)) as [out [h1 h2]].
      { split; [constructor; [exists p; exact e3|exact i2]|]. split; [exact i3|]. left. split; [exact e4|]. split.
        - destruct body as [|c body]; [discriminate e2|]. destruct i5 as [r [z [Ez Hz]]]; [discriminate|]. exists (q :: r), z. split; [rewrite Ez; reflexivity|exact Hz].
        - apply i4. unfold isOn. congruence. }
      rewrite h2. f_equal. destruct h1 as [[_ [x [segs [cs [j1 [[f [post [j2 j3]]] [j4 j5]]]]]]]|[[h1 _]|[h1 _]]].
      * injection j2 as <- <-. subst segs. rewrite (draws_fun_all _ _ _ j4 i1) in j5. congruence.
      * congruence.
      * inversion h1 as [|? ? hh _]; subst. unfold isOff in hh. congruence.
  - destruct Hp as [Hb Hs]. destruct (closing_contour p body Hb Hs) as [p' [t [rest [E1 [E2 [E3 E4]]]]]].
    rewrite E1 in Hh. injection Hh as <-.
    destruct (looks_app pts [(p', t)] rest Hl) as [q1 [q2 [-> [e1 e2]]]].
    destruct (looks_one _ _ _ e1) as [q [-> [e3 e4]]]. cbn [app].
    assert (Hlook : looks (q2 ++ [q]) (flat_map flatCall (closing p body))).
    { rewrite <- E2. unfold looks in *. rewrite !map_app, e2. cbn [map fst snd]. rewrite e3, e4. reflexivity. }
    destruct (looks_body (closing p body) (q2 ++ [q]) q (bareOf q) E3 Hlook) as [i1 [i2 [i3 [i4 i5]]]].
    assert (Hlen : length (q2 ++ [q]) = list_sum (map size (closing p body))) by (rewrite (looks_length _ _ Hlook); apply flat_length; exact E3).
    assert (Hq : isOn q).
    { destruct i5 as [r [z [Ez Hz]]]; [intros h; rewrite h in Hs; cbn in Hs; lia|]. apply app_inj_tail in Ez. destruct Ez as [_ ->]. exact Hz. }
    exists (SMove p' :: (if implied then closing p body else dropImplied (closing p body)) ++ [SClose]).
    split; [exists p'; split; [exact E4|reflexivity]|].
    destruct q2 as [|q' q2]; [cbn in Hlen; lia|].
    apply Forall_app in i2, i3. destruct i2 as [i2 i2'], i3 as [i3 i3']. inversion i2' as [|? ? k1 _]; inversion i3' as [|? ? k2 _]; subst.
    destruct (toSegment_points implied (q :: q' :: q2)) as [out [h1 h2]].
    { split; [constructor; assumption|]. split; [exact i3|]. right. split; [exact k2|]. exact (i4 Hq). }
    rewrite h2. f_equal. destruct h1 as [[h1 _]|[[_ [pre [f [post [x [segs [cs [j1 [j2 [j3 [j4 [j5 [j6 j7]]]]]]]]]]]]]|[h1 _]]].
    + destruct k2 as [k|[k|[k|k]]]; rewrite k in h1; discriminate h1.
    + assert (G : forall pre0 f0 post0, q :: q' :: q2 = pre0 ++ f0 :: post0 -> Forall isOff pre0 -> pre0 = [] /\ f0 = q /\ post0 = q' :: q2).
      { intros [|z pre0] f0 post0 Ez Hz; cbn [app] in Ez.
        - injection Ez as <- <-. repeat split.
        - injection Ez as <- _. inversion Hz as [|? ? hz _]; subst. exfalso. exact (Hq hz). }
      destruct (G _ _ _ j1 j2) as [-> [-> ->]]. destruct j5 as [pre0 [f0 [post0 [m1 [m2 [m3 m4]]]]]].
      destruct (G _ _ _ m1 m2) as [-> [-> ->]]. subst segs. cbn [app] in j6.
      change (q' :: q2 ++ [q]) with ((q' :: q2) ++ [q]) in j6. rewrite (draws_fun_all _ _ _ j6 i1) in j7. congruence.
    + inversion h1 as [|? ? hh _]; subst. exfalso. exact (Hq hh).
  - subst c. destruct Hp as [x [xs [y [-> Hne]]]]. destruct (looks_offs _ _ Hl) as [g1 [g2 g3]].
    assert (Hlen : length pts = length (x :: xs ++ [y])) by (rewrite (looks_length _ _ Hl), map_length; reflexivity).
    exists (outlineCalls (AllOff (x :: xs ++ [y]))). split; [reflexivity|].
    destruct pts as [|q [|q' pts]]; [discriminate Hlen|cbn in Hlen; rewrite app_length in Hlen; cbn in Hlen; lia|].
    destruct (toSegment_points implied (q :: q' :: pts)) as [out [h1 h2]].
    { split; [exact g2|]. inversion g1 as [|? ? k1 k2]; subst.
      assert (Hk : forall l, Forall isOff l -> Forall knownType l) by (intros l; apply Forall_impl; intros z hz; left; exact hz).
      split; [apply Hk; exact k2|]. right. split; [left; exact k1|].
      assert (Ha : forall l, Forall isOff l -> adj l).
      { clear. induction l as [|a l IH]; intros H; [exact I|]. destruct l as [|b l]; [exact I|]. inversion H as [|? ? h1 h2]; subst.
        cbn [adj]. split; [|exact (IH h2)]. inversion h2 as [|? ? h3 _]; subst. unfold isOff in h3. rewrite h3. discriminate. }
      apply Ha. change ((q :: q' :: pts) ++ [q]) with ((q :: q' :: pts) ++ [q]). apply Forall_app. split; [exact g1|constructor; [exact k1|constructor]]. }
    rewrite h2. f_equal. inversion g1 as [|? ? k1 k2]; subst. unfold isOff in k1.
    destruct h1 as [[h1 _]|[[_ [pre [f [post [x' [segs [cs [j1 [j2 [j3 _]]]]]]]]]]|[_ [ys [j1 ->]]]]].
    + congruence.
    + exfalso. rewrite j1 in g1. apply Forall_app in g1. destruct g1 as [_ g1]. inversion g1 as [|? ? hh _]; subst. exact (j3 hh).
    + cbn [outlineCalls]. f_equal. f_equal.
      assert (G : forall as_ bs : list P, map Some as_ = map Some bs -> as_ = bs).
      { clear. induction as_ as [|a as_ IH]; intros [|b bs] H; try discriminate H; [reflexivity|]. cbn [map] in H. injection H as -> h. rewrite (IH _ h). reflexivity. }
      apply G. rewrite <- j1, <- g3, map_map. reflexivity.
Qed.
Definition handedItem (o : outline) : option plainItem -> Prop := fun i =>
  match o, i with
  | Placed b t, Some (inr (b', t')) => b' = b /\ t' = t
  | _, Some (inl pts) => exists c, handed o c /\ pts = map (fromPt noKW) c
  | _, _ => False
  end.
Lemma toPoint_item : forall o, proper o -> exists i, handedItem o (Some i) /\
  run (@toPointStep P peq Tr KW noKW) None (outlineCalls o) = Ok (None, plainCalls i).
Proof.
  intros o Hp.
  assert (Ef : forall c, flushPoints (Tr := Tr) noKW c = plainContour (map (fromPt noKW) c)).
  { intros c. unfold flushPoints, plainContour. rewrite map_map. reflexivity. }
  destruct o as [p body|p body|offs|b t]; cbn [proper] in Hp.
  - eexists (inl _). split; [eexists; split; reflexivity|]. cbn [outlineCalls run]. cbn [toPointStep bind fst snd].
    rewrite (run_app _ _ _ _ _ _ _ _ _ (toPoint_body body [(p, Some sMove)] Hp)). cbn [run toPointStep bind fst snd app].
    rewrite Ef, app_nil_r. reflexivity.
  - destruct Hp as [Hb Hs]. destruct (closing_contour p body Hb Hs) as [p' [t [rest [E1 _]]]].
    eexists (inl _). split; [eexists; split; [exact E1|reflexivity]|]. cbn [outlineCalls run]. cbn [toPointStep bind fst snd].
    rewrite (run_app _ _ _ _ _ _ _ _ _ (toPoint_body body [(p, Some sMove)] Hb)). cbn [run toPointStep bind fst snd app].
    rewrite E1. cbn [bind fst snd]. rewrite Ef, app_nil_r. reflexivity.
  - destruct Hp as [x [xs [y [-> Hne]]]]. eexists (inl _). split; [eexists; split; reflexivity|].
    cbn [outlineCalls run]. cbn [toPointStep bind fst snd].
    assert (E : closeContour peq (map (fun x0 => (x0, None)) (x :: xs ++ [y])) = Ok (map (fun x0 => (x0, None)) (x :: xs ++ [y]))).
    { cbn [map]. unfold closeContour. rewrite map_app, rev_app_distr. cbn [map rev app]. rewrite Hne. reflexivity. }
    rewrite E. cbn [bind fst snd app]. rewrite Ef, app_nil_r. reflexivity.
  - exists (inr (b, t)). split; [split; reflexivity|]. reflexivity.
Qed.
Theorem C47_round_trip_partial : forall implied guess (os : list outline), Forall proper os ->
  exists calls' outs, segmentToPoint peq noKW tangent guess (flat_map outlineCalls os) = Ok calls' /\
    pointToSegment noKW implied calls' = Ok (concat outs) /\ Forall2 (sameDrawing implied) os outs.
Proof.
  intros implied guess os H.
  assert (G1 : exists g, Forall2 (fun o i => handedItem o (Some i)) os g /\
     run (@toPointStep P peq Tr KW noKW) None (flat_map outlineCalls os) = Ok (None, flat_map plainCalls g)).
  { induction H as [|o os Ho _ [g [h1 h2]]]; [exists []; split; [constructor|reflexivity]|].
    destruct (toPoint_item o Ho) as [i [e1 e2]]. exists (i :: g). split; [constructor; assumption|].
    cbn [flat_map]. rewrite (run_app _ _ _ _ _ _ _ _ _ e2), h2. reflexivity. }
  destruct G1 as [g [G1 E1]].
  assert (G2 : exists g', segmentToPoint peq noKW tangent guess (flat_map outlineCalls os) = Ok (flat_map plainCalls g') /\
    Forall2 (fun i j => match i, j with inl pts, inl out => Forall2 same pts out | inr a, inr b => a = b | _, _ => False end) g g').
  { unfold segmentToPoint. rewrite E1. cbn [bind snd]. destruct guess.
    - destruct (C48_smooth_flags_only g) as [g' [h1 h2]]. exists g'. split; [exact h1|].
      clear - h2. induction h2 as [|[a|a] [b|b] g g' h _ IH]; constructor; try exact IH; try exact h.
      cbn [smoothOnly] in h. destruct h as [h1 h2]. apply F2_nth; [symmetry; exact h1|].
      intros k p q hp hq. destruct (h2 k p hp) as [q' [e1 [e2 _]]]. rewrite hq in e1. injection e1 as <-. exact e2.
    - exists g. split; [reflexivity|]. clear. induction g as [|[a|a] g IH]; constructor; try exact IH; try reflexivity.
      induction a; constructor; [repeat split|assumption]. }
  destruct G2 as [g' [E2 G2]]. exists (flat_map plainCalls g').
  assert (G3 : exists outs, run (@toSegmentStep P Tr KW noKW implied) None (flat_map plainCalls g') = Ok (None, concat outs) /\
    Forall2 (sameDrawing implied) os outs).
  { clear E1 E2. revert g' G2. revert H. induction G1 as [|o i os g h _ IH]; intros H g' G2; inversion G2 as [|? j ? g1 hj hg]; subst.
    - exists []. split; [reflexivity|constructor].
    - inversion H as [|? ? Ho Hos]; subst. destruct (IH Hos g1 hg) as [outs [h1 h2]].
      assert (Hone : exists out, sameDrawing implied o out /\ run (@toSegmentStep P Tr KW noKW implied) None (plainCalls j) = Ok (None, out)).
      { destruct i as [pts|[b t]], j as [pts'|[b' t']]; try contradiction.
        - assert (Hc : exists c, handed o c /\ pts = map (fromPt noKW) c) by (destruct o; try exact h; contradiction).
          destruct Hc as [c [k1 ->]]. pose proof (F2_looks _ _ _ hj (looks_fromPt c)) as Hl.
          destruct (redrawn implied o c pts' Ho k1 Hl) as [out [k2 k3]]. exists out. split; [exact k2|].
          cbn [plainCalls]. unfold plainContour. cbn [run toSegmentStep bind fst snd].
          rewrite (run_app _ _ _ _ _ _ _ _ _ (toSegment_adds implied pts' [])). cbn [app run toSegmentStep bind fst snd].
          destruct (segmentsOf noKW pts'); [rewrite k3; cbn [bind fst snd]; rewrite app_nil_r; reflexivity|].
          injection k3 as <-. reflexivity.
        - injection hj as <- <-. destruct o as [? ?|? ?|?|b0 t0]; cbn [handedItem] in h; try contradiction. destruct h as [-> ->].
          exists [SComponent b0 t0]. split; reflexivity. }
      destruct Hone as [out [k1 k2]]. exists (out :: outs). split; [|constructor; assumption].
      cbn [flat_map concat]. rewrite (run_app _ _ _ _ _ _ _ _ _ k2), h1. reflexivity. }
  destruct G3 as [outs [E3 G3]]. exists outs. split; [exact E2|]. split; [|exact G3].
  unfold pointToSegment. rewrite E3. reflexivity.
Qed.
(** what is missing: a closed contour of one point comes back open, and a closed
    contour without on-curve points whose last point equals the first loses a point *)
Theorem C47_round_trip_refuted : forall x y : P, peq x x = true ->
  (exists calls', segmentToPoint peq noKW tangent true [SMove x; SClose] = Ok calls' /\
     pointToSegment (Tr := Tr) noKW false calls' = Ok [SMove x; SEnd]) /\
  (exists calls', segmentToPoint peq noKW tangent false [SQCurve [x; y; x] None; SClose] = Ok calls' /\
     pointToSegment (Tr := Tr) noKW false calls' = Ok [SQCurve [x; y] None; SClose]).
Proof.
  intros x y H. split.
  - eexists. split; [vm_compute; reflexivity|]. vm_compute. reflexivity.
  - unfold segmentToPoint. cbn [run toPointStep bind fst snd]. cbn [map]. unfold closeContour. cbn [rev app]. rewrite H.
    cbn [bind fst snd]. eexists. split; [reflexivity|]. vm_compute. reflexivity.
Qed.
End Pens.

Print Assumptions C45_reverse_twice.
Print Assumptions C45_loose_points_dropped.
Print Assumptions C46_reversed_closed.
Print Assumptions C46_reversed_open.
Print Assumptions C47_round_trip_partial.
Print Assumptions C47_round_trip_refuted.
Print Assumptions C48_smooth_flags_only.
Print Assumptions C49_segments.
Print Assumptions C49_points_once.

(** * Cases *)
Local Notation zp := (Z * Z)%type.
Local Notation pt x y t := (mkPoint (KW := option str) (Some (x%Z, y%Z)) t false None None).
(** a closed contour starting with an off-curve point *)
Definition bowl : list (point zp (option str)) :=
  [pt 0 5 None; pt 0 0 (Some sCurve); pt 10 0 (Some sLine); mkPoint (Some (10%Z, 9%Z)) None false (Some (u "handle")) (Some (u "id1"));
   pt 6 12 None; pt 3 12 (Some sCurve); pt 1 9 None].
Example C45_case : regular _ _ bowl /\
  exists out, reverseContours (Tr := unit) (drawing _ _ _ [Contour _ _ _ (Some (u "c1")) bowl; Component _ _ _ (u "dot") tt None]) = Ok out /\
    out <> drawing _ _ _ [Contour _ _ _ (Some (u "c1")) bowl; Component _ _ _ (u "dot") tt None] /\
    reverseContours out = Ok (drawing _ _ _ [Contour _ _ _ (Some (u "c1")) bowl; Component _ _ _ (u "dot") tt None]).
Proof.
  split; [left; repeat constructor; discriminate|].
  eexists. split; [vm_compute; reflexivity|]. split; [vm_compute; discriminate|]. vm_compute. reflexivity.
Qed.
Example C46_case : reversePoints bowl =
  Ok [pt 0 5 None; pt 1 9 None; pt 3 12 (Some sCurve); pt 6 12 None;
      mkPoint (Some (10%Z, 9%Z)) None false (Some (u "handle")) (Some (u "id1")); pt 10 0 (Some sCurve); pt 0 0 (Some sLine)] /\
  reversePoints [pt 0 0 (Some sMove); pt 5 5 (Some sLine); pt 6 7 None; pt 9 9 (Some sQcurve); pt 1 1 None] =
  Ok [pt 9 9 (Some sMove); pt 6 7 None; pt 5 5 (Some sQcurve); pt 0 0 (Some sLine)].
Proof. split; vm_compute; reflexivity. Qed.
Definition zpeq (a b : zp) : bool := (fst a =? fst b)%Z && (snd a =? snd b)%Z.
Definition inLine (a b c : option zp) : bool :=
  match a, b, c with
  | Some (ax, ay), Some (bx, by_), Some (cx, cy) => ((bx - ax) * (cy - by_) =? (by_ - ay) * (cx - bx))%Z
  | _, _, _ => false
  end.
Definition leaf : list (scall zp unit) :=
  [SMove (0, 0)%Z; SCurve [(0, 3)%Z; (3, 6)%Z] (6, 6)%Z; SLine (6, 0)%Z; SQCurve [(3, -3)%Z; (1, -1)%Z] (Some (0, 0)%Z); SClose].
Example C47_case : exists calls', segmentToPoint zpeq (@None str) inLine true leaf = Ok calls' /\
  pointToSegment None false calls' = Ok leaf /\
  proper zp unit zpeq (Closed zp unit (0, 0)%Z [SCurve [(0, 3)%Z; (3, 6)%Z] (6, 6)%Z; SLine (6, 0)%Z; SQCurve [(3, -3)%Z; (1, -1)%Z] (Some (0, 0)%Z)]).
Proof.
  eexists. split; [vm_compute; reflexivity|]. split; [vm_compute; reflexivity|].
  split; [repeat constructor; discriminate|]. vm_compute. lia.
Qed.
Example C48_case : exists out, guessPoints inLine [pt 0 0 (Some sCurve); pt 2 2 None; pt 4 2 None; pt 6 2 (Some sCurve); pt 9 2 (Some sLine); pt (-3) (-3) None] = Ok out /\
  map psmooth out = [true; false; false; true; false; false].
Proof. eexists. split; vm_compute; reflexivity. Qed.
Example C49_case : readable _ _ bowl /\ exists out, pointToSegment (Tr := unit) None false (drawing _ _ _ [Contour _ _ _ None bowl]) = Ok out /\
  out = [SMove (0, 0)%Z; SLine (10, 0)%Z; SCurve [(10, 9)%Z; (6, 12)%Z] (3, 12)%Z; SCurve [(1, 9)%Z; (0, 5)%Z] (0, 0)%Z; SClose].
Proof.
  split; [|eexists; split; vm_compute; reflexivity].
  split; [repeat constructor; eexists; reflexivity|]. split.
  - repeat (apply Forall_cons || apply Forall_nil); unfold knownType; cbn; auto.
  - right. split; [left; reflexivity|]. cbn. unfold isOn. cbn. repeat split; try discriminate; intros h; discriminate h.
Qed.
