(** C91: outlines drawn with a segment pen into a GLIF file and drawn again. *)
From Coq Require Import String NArith ZArith Bool Lia List Permutation.
From Coq.Floats Require Import SpecFloat.
From Verif Require Import Base PyVal PyText FloatRepr Xml FS Ufo UfoProofs PropUfoFiles Plist PlistProofs PropPlist Etree EtreeProofs PropEtree PlistFiles Validators PointPen PropPointPen Glif GlifProofs GlifOutline GlifElements GlifRead GlifFiles GlifNotes GlifAccepted GlifAgain GlifFormat1 GlifFetch PropGlif Filenames GlyphSet GlyphSetProofs NamesApart PropGlyphSet PropSession GlyphDraw.
Import ListNotations.
Local Open Scope string_scope.
Local Open Scope list_scope.

(** ** Vocabulary *)
Notation gscall := (scall coord (list pyval)).
Notation goutline := (outline coord (list pyval)).
Local Notation sameD := (sameDrawing coord (list pyval) coordEq).
Definition numCoord (c : coord) : Prop := isNum (fst c) /\ isNum (snd c).
(** the points of a call after moveTo *)
Definition callPoints (c : gscall) : list coord :=
  match c with
  | SMove x | SLine x => [x]
  | SCurve offs x => offs ++ [x]
  | SQCurve offs x => offs ++ match x with Some x => [x] | None => [] end
  | _ => []
  end.
(** curveTo with at most two off-curve points *)
Definition cubic (c : gscall) : Prop := match c with SCurve offs _ => length offs <= 2 | _ => True end.
(** outlines that GLIF can store *)
Definition storableOutline (o : goutline) : Prop :=
  match o with
  | Open _ _ p body | Closed _ _ p body => numCoord p /\ forall c, In c body -> cubic c /\ forall x, In x (callPoints c) -> numCoord x
  | AllOff _ _ offs => forall x, In x offs -> numCoord x
  | Placed _ _ base tr => valOk base /\ length tr = 6 /\ Forall isNum tr
  end.
(** what is drawn again: as in C47, the numbers of a transformation being equal *)
Definition drawnBack (implied : bool) (o : goutline) (out : list gscall) : Prop :=
  match o with
  | Placed _ _ base tr => exists tr', out = [SComponent base tr'] /\ Forall2 (fun v w => w = v \/ py_eq v w = true) tr tr'
  | _ => sameD implied o out
  end.

(** ** Proofs *)
Notation gpts := (list gpoint).
Notation glooks := (looks coord ident).
Notation ghanded := (handed coord (list pyval) coordEq).
Notation gproper := (proper coord (list pyval) coordEq).
(** the points handed to the GLIF writer for an outline *)
Definition plainPoint (p : gpoint) : Prop := pname p = None /\ pkw p = None /\ (psmooth p = true -> ptype p <> None).
Definition givenAs (o : goutline) (i : gitem) : Prop :=
  match o, i with
  | Placed _ _ b t, Component _ _ _ b' t' i => b' = b /\ t' = t /\ i = None
  | Placed _ _ _ _, _ => False
  | _, Contour _ _ _ i pts => i = None /\ (exists c, ghanded o c /\ glooks pts c) /\ Forall plainPoint pts
  | _, _ => False
  end.
Definition plainOf (i : plainItem coord (list pyval) ident) : gitem :=
  match i with inl pts => GContour None pts | inr (b, t) => GComponent b t None end.
Lemma plain_passed g : map beginPassed (flat_map (plainCalls coord (list pyval) ident) g) = gdrawing (map plainOf g).
Proof.
  induction g as [|i g IH]; [reflexivity|]. cbn [flat_map map]. rewrite map_app, IH.
  change (gdrawing (plainOf i :: map plainOf g)) with (gcallsOf (plainOf i) ++ gdrawing (map plainOf g)). f_equal.
  destruct i as [pts|[b t]]; [|reflexivity]. cbn [plainCalls plainOf callsOf]. unfold plainContour. cbn [map]. rewrite map_app, map_map. reflexivity.
Qed.
Lemma handed_to tangent guess os : Forall gproper os ->
  exists cs items, segmentToPoint coordEq (None : ident) tangent guess (flat_map (outlineCalls coord (list pyval)) os) = Ok cs /\
    map beginPassed cs = gdrawing items /\ Forall2 givenAs os items.
Proof.
  intro H.
  assert (G1 : exists g, Forall2 (fun o i => handedItem coord (list pyval) ident None coordEq o (Some i)) os g /\
     PointPen.run (@toPointStep coord coordEq (list pyval) ident None) None (flat_map (outlineCalls coord (list pyval)) os) = Ok (None, flat_map (plainCalls coord (list pyval) ident) g)).
  { induction H as [|o os Ho _ [g [h1 h2]]]; [exists []; split; [constructor|reflexivity]|].
    destruct (toPoint_item coord (list pyval) ident None coordEq o Ho) as [i [e1 e2]]. exists (i :: g). split; [constructor; assumption|].
    cbn [flat_map]. rewrite (run_app _ _ _ _ _ _ _ _ _ e2), h2. reflexivity. }
  destruct G1 as (g & G1 & E1).
  assert (Fresh : forall o i, handedItem coord (list pyval) ident None coordEq o (Some i) -> givenAs o (plainOf i)).
  { intros o i Hi. destruct o as [p body|p body|offs|b t], i as [pts|[b' t']]; cbn [handedItem givenAs plainOf] in *; try contradiction.
    4:{ destruct Hi as (c & [] & _). }
    4:{ destruct Hi. auto. }
    all: destruct Hi as (c & Hc & ->); split; [reflexivity|]; split; [exists c; split; [exact Hc|apply looks_fromPt]|].
    all: apply Forall_forall; intros q I; apply in_map_iff in I as (x & <- & _); repeat split; discriminate. }
  unfold segmentToPoint. rewrite E1. cbn [bind snd]. destruct guess.
  - destruct (C48_smooth_flags_only coord (list pyval) ident tangent g) as (g' & E2 & S). exists (flat_map (plainCalls coord (list pyval) ident) g'), (map plainOf g'). split; [exact E2|]. split; [apply plain_passed|].
    clear E1 E2 H. revert g' S. induction G1 as [|o i os g Hi _ IH]; intros g' S; inversion S as [|? j ? g1 Sj Sg]; subst; [constructor|]. cbn [map]. constructor; [|apply IH; exact Sg].
    destruct o as [p body|p body|offs|b t], i as [pts|[b' t']], j as [out|[b'' t'']]; cbn [handedItem smoothOnly] in *; try contradiction.
    4:{ destruct Hi as (c & [] & _). }
    4:{ destruct Hi as [Hb Ht]. injection Sj as <- <-. cbn. auto. }
    all: destruct Hi as (c & Hc & ->); destruct Sj as [L Sm]; assert (F : Forall2 (same coord ident) (map (fromPt None) c) out) by (apply F2_nth; [symmetry; exact L|]; intros k p' q hp hq; destruct (Sm k p' hp) as (q' & e1 & e2 & _); rewrite hq in e1; injection e1 as <-; exact e2);
      cbn [plainOf givenAs]; split; [reflexivity|]; split; [exists c; split; [exact Hc|eapply F2_looks; [exact F|apply looks_fromPt]]|].
    all: apply Forall_forall; intros q I; apply In_nth_error in I as (k & Ek);
      assert (X : exists p', nth_error (map (fromPt (None : ident)) c) k = Some p') by (destruct (nth_error (map (fromPt (None : ident)) c) k) as [p'|] eqn:E; [eauto|]; apply nth_error_None in E; rewrite <- L in E; apply nth_error_None in E; congruence);
      destruct X as (p' & Ep); destruct (Sm k p' Ep) as (q' & Eq & (S1 & S2 & S3 & S4) & Gq); rewrite Ek in Eq; injection Eq as <-;
      pose proof (nth_error_In _ _ Ep) as Ip; apply in_map_iff in Ip as (x & <- & _); cbn [fromPt pname pkw ptype] in *;
      split; [auto|]; split; [auto|]; intro Sq; apply Gq in Sq as (_ & z & _ & _ & Ez & _ & _ & On & _); rewrite Ep in Ez; injection Ez as <-; unfold isOn in On; cbn [fromPt ptype] in On; rewrite <- S2; exact On.
  - exists (flat_map (plainCalls coord (list pyval) ident) g), (map plainOf g). split; [reflexivity|]. split; [apply plain_passed|]. clear - G1 Fresh. induction G1; constructor; auto.
Qed.

(** what is handed over is good for GLIF *)
Definition typesOf (body : list gscall) : list (option str) := map snd (flat_map (flatCall coord (list pyval)) body).
Lemma offs_types (l : list coord) (x : coord) t : map snd (map (fun y => (y, @None str)) l ++ [(x, Some t)]) = repeat None (length l) ++ [Some t].
Proof. rewrite map_app, map_map. cbn [map snd]. f_equal. induction l as [|y l IH]; [reflexivity|]. cbn [map length repeat]. rewrite IH. reflexivity. Qed.
Lemma endCount_repeat k : forall n r, endCount n (repeat None k ++ r) = endCount (n + k) r.
Proof. induction k as [|k IH]; intros n r; cbn [repeat app endCount]; [f_equal; lia|]. rewrite IH. f_equal. lia. Qed.
Lemma offsOk_repeat k : forall n r, offsOk n (repeat None k ++ r) <-> offsOk (n + k) r.
Proof. induction k as [|k IH]; intros n r; cbn [repeat app offsOk]; [replace (n + 0) with n by lia; tauto|]. rewrite IH. replace (S n + k) with (n + S k) by lia. tauto. Qed.
Lemma endCount_app a b : forall n, endCount n (a ++ b) = endCount (endCount n a) b.
Proof. induction a as [|[t|] a IH]; intro n; cbn [app endCount]; [reflexivity| |]; apply IH. Qed.
Lemma body_types body : Forall (bodyCall coord (list pyval)) body -> (forall c, In c body -> cubic c) ->
  offsOk 0 (typesOf body) /\ endCount 0 (typesOf body) = 0 /\ noMoves (typesOf body).
Proof.
  intros H C. induction H as [|c body Hc H IH]; [repeat split; constructor|]. destruct IH as (I1 & I2 & I3); [intros c' I; apply C; right; exact I|].
  assert (G : exists k t, map snd (flatCall coord (list pyval) c) = repeat None k ++ [Some t] /\ (t = sLine -> k = 0) /\ (t = sCurve -> k <= 2) /\ t <> sMove).
  { specialize (C c (or_introl eq_refl)). unfold bodyCall in Hc. destruct c as [x|x|offs x|offs [x|]| | |b t]; cbn [endOf] in Hc; try contradiction; cbn [flatCall cubic] in *.
    - exists 0, sLine. repeat split; discriminate.
    - exists (length offs), sCurve. rewrite offs_types. repeat split; [discriminate|auto|discriminate].
    - exists (length offs), sQcurve. rewrite offs_types. repeat split; discriminate. }
  destruct G as (k & t & E & G1 & G2 & G3). unfold typesOf in *. cbn [flat_map]. rewrite map_app, E, <- app_assoc. rewrite endCount_repeat. rewrite offsOk_repeat. cbn [app offsOk endCount].
  split; [|split; [exact I2|]].
  - split; [intros [X|X]; [contradiction|rewrite (G1 X); reflexivity]|]. split; [intro X; apply G2; exact X|exact I1].
  - apply Forall_app. split; [|constructor; [congruence|exact I3]]. apply Forall_forall. intros x I. apply repeat_spec in I. subst x. discriminate.
Qed.
Lemma looks_types (pts : gpts) c : glooks pts c -> map ptype pts = map snd c.
Proof. unfold looks. intro H. apply (f_equal (map snd)) in H. rewrite !map_map in H. exact H. Qed.
Lemma looks_coords (pts : gpts) c : glooks pts c -> map pc pts = map (fun x => Some (fst x)) c.
Proof. unfold looks. intro H. apply (f_equal (map fst)) in H. rewrite !map_map in H. exact H. Qed.
Lemma body_points body x t : In (x, t) (flat_map (flatCall coord (list pyval)) body) -> exists c, In c body /\ In x (callPoints c).
Proof.
  intro I. apply in_flat_map in I as (c & Ic & I). exists c. split; [exact Ic|]. destruct c as [y|y|offs y|offs [y|]| | |b tr]; cbn [flatCall callPoints] in *; try contradiction.
  - destruct I as [E|[]]. injection E as -> _. left. reflexivity.
  - apply in_app_or in I as [I|[E|[]]]; apply in_or_app; [left; apply in_map_iff in I as (z & E & I); injection E as -> _; exact I|right; left; congruence].
  - apply in_app_or in I as [I|[E|[]]]; apply in_or_app; [left; apply in_map_iff in I as (z & E & I); injection E as -> _; exact I|right; left; congruence].
Qed.
Lemma closing_calls p body c : In c (closing coord (list pyval) coordEq p body) -> In c body \/ c = SLine p.
Proof.
  unfold closing. destruct (rev body) as [|d r]; [intro I; apply in_app_or in I as [I|[E|[]]]; auto|]. destruct (endOf _ _ d) as [q|]; [|auto]. destruct (coordEq p q); [auto|]. intro I; apply in_app_or in I as [I|[E|[]]]; auto.
Qed.
Definition knownT (t : option str) : Prop := In t [None; Some (u "move"); Some (u "line"); Some (u "curve"); Some (u "qcurve")].
Lemma body_known body x t : In (x, t) (flat_map (flatCall coord (list pyval)) body) -> knownT t.
Proof.
  intro I. apply in_flat_map in I as (c & _ & I). unfold knownT. destruct c as [y|y|offs y|offs [y|]| | |b tr]; cbn [flatCall] in I; try contradiction.
  - destruct I as [E|[]]. injection E as _ <-. cbn. auto.
  - apply in_app_or in I as [I|[E|[]]]; [apply in_map_iff in I as (z & E & _)|]; injection E as _ <-; cbn; auto.
  - apply in_app_or in I as [I|[E|[]]]; [apply in_map_iff in I as (z & E & _)|]; injection E as _ <-; cbn; auto 6.
Qed.
Lemma contour_good pts c : glooks pts c -> Forall plainPoint pts -> (forall x t, In (x, t) c -> numCoord x /\ knownT t) ->
  movesOk true (map snd c) -> offsOk (endCount 0 (map snd c)) (map snd c) -> goodContour pts /\ numberItem (GContour None pts).
Proof.
  intros L Pl K M O. assert (Ty := looks_types _ _ L).
  assert (At : forall p, In p pts -> exists x, In (x, ptype p) c /\ pc p = Some x).
  { clear - L. unfold looks in L. revert c L. induction pts as [|q pts IH]; intros [|[x t] c] L p []; try discriminate L; cbn [map fst snd] in L; injection L as L1 L2 L3.
    - subst q. exists x. rewrite L1, L2. split; [left; reflexivity|reflexivity].
    - destruct (IH c L3 p H) as (y & A & B). exists y. split; [right; exact A|exact B]. }
  assert (Num : forall p, In p pts -> exists x y, pc p = Some (x, y) /\ isNum x /\ isNum y).
  { intros p I. destruct (At p I) as ([x y] & A & B). destruct (K _ _ A) as [[N1 N2] _]. eauto. }
  assert (Sg : forall p, In p pts -> ptypeOf p = ptype p).
  { intros p I. destruct (At p I) as (x & A & _). destruct (K _ _ A) as [_ Kt]. unfold ptypeOf. destruct (ptype p) as [t|]; [|reflexivity]. destruct (eqb_spec t (u "offcurve")) as [Et|N]; [|reflexivity]. subst t. destruct Kt as [X|[X|[X|[X|[X|[]]]]]]; discriminate X. }
  split; [|exact Num]. assert (Em : map ptypeOf pts = map snd c) by (rewrite <- Ty; apply map_ext_in; exact Sg).
  unfold goodContour. rewrite Em, <- moves_iff, <- offsOk_spec, offsOk_twice. split; [|split; assumption].
  intros p I. rewrite (Sg p I). destruct (At p I) as (x & A & _). split; [apply (K _ _ A)|]. rewrite Forall_forall in Pl. apply (Pl p I).
Qed.
Lemma given_good o i : gproper o -> storableOutline o -> givenAs o i -> goodItem i /\ numberItem i /\ textItem i.
Proof.
  intros Pr St Gi.
  assert (Text : forall pts, Forall plainPoint pts -> textItem (GContour None pts)).
  { intros pts F p n I E. rewrite Forall_forall in F. destruct (F p I) as [N _]. congruence. }
  destruct o as [p body|p body|offs|b t], i as [ident pts|b' t' ident]; cbn [givenAs] in Gi; try contradiction.
  - destruct Gi as (-> & (c & -> & L) & Pl). destruct St as [Np St]. cbn [proper] in Pr. destruct (body_types body Pr) as (T1 & T2 & T3); [intros x I; apply St; exact I|].
    destruct (contour_good pts _ L Pl) as [A B]; [| | |split; [exact A|split; [exact B|apply Text; exact Pl]]].
    + intros x t [E|I]; [injection E as <- <-; split; [exact Np|cbn; auto]|]. split; [|eapply body_known; exact I]. destruct (body_points _ _ _ I) as (cc & Ic & Ix). apply (St cc Ic). exact Ix.
    + cbn [map snd movesOk]. split; [discriminate|exact T3].
    + cbn [map snd endCount offsOk]. unfold typesOf in *. rewrite T2. repeat split; auto.
  - destruct Gi as (-> & (c & Hc & L) & Pl). destruct St as [Np St]. cbn [proper handed] in Pr, Hc. destruct Pr as [Hb Hs].
    destruct (closing_contour coord (list pyval) coordEq p body Hb Hs) as (p' & t & rest & E1 & E2 & E3 & E4). rewrite E1 in Hc. injection Hc as <-.
    assert (Sc : forall c, In c (closing coord (list pyval) coordEq p body) -> cubic c /\ forall x, In x (callPoints c) -> numCoord x).
    { intros c I. apply closing_calls in I as [I| ->]; [apply St; exact I|]. split; [exact Logic.I|]. intros x [<-|[]]. exact Np. }
    destruct (body_types _ E3) as (T1 & T2 & T3); [intros x I; apply Sc; exact I|]. unfold typesOf in T1, T2, T3. rewrite <- E2 in T1, T2, T3. rewrite map_app in T1, T2, T3. cbn [map snd] in T1, T2, T3.
    apply offsOk_app in T1 as [T1 T1']. rewrite endCount_app in T2. unfold noMoves in T3. apply Forall_app in T3 as [T3 T3'].
    assert (Perm : forall x y, In (x, y) ((p', t) :: rest) -> In (x, y) (flat_map (flatCall coord (list pyval)) (closing coord (list pyval) coordEq p body))) by (intros x y I; rewrite <- E2; apply in_or_app; destruct I as [I|I]; [right; left; exact I|left; exact I]).
    destruct (contour_good pts _ L Pl) as [A B]; [| | |split; [exact A|split; [exact B|apply Text; exact Pl]]].
    + intros x y I. apply Perm in I. split; [|eapply body_known; exact I]. destruct (body_points _ _ _ I) as (cc & Ic & Ix). apply (Sc cc Ic). exact Ix.
    + cbn [map snd movesOk]. split; [discriminate|exact T3].
    + cbn [map snd]. destruct t as [t|]; [|cbn [endCount] in T2; discriminate T2]. cbn [endCount offsOk] in *. destruct T1' as (A & B & _). repeat split; assumption.
  - destruct Gi as (-> & (c & -> & L) & Pl).
    destruct (contour_good pts _ L Pl) as [A B]; [| | |split; [exact A|split; [exact B|apply Text; exact Pl]]].
    + intros x t I. apply in_map_iff in I as (y & E & I). injection E as <- <-. split; [apply St; exact I|cbn; auto].
    + rewrite map_map. destruct offs as [|x offs]; [exact Logic.I|]. cbn [map snd movesOk]. split; [discriminate|]. apply Forall_forall. intros y I. apply in_map_iff in I as (z & <- & _). discriminate.
    + rewrite map_map. cbn [snd]. generalize (endCount 0 (map (fun _ : coord => @None str) offs)). clear. induction offs as [|x offs IH]; intro n; cbn [map offsOk]; auto.
  - destruct Gi as (-> & -> & ->). destruct St as (A & B & C). cbn. auto.
Qed.

(** ** Writing and reading *)
Lemma step_passed R ro fv validate c s : penStep R ro fv validate s (beginPassed c) = penStep R ro fv validate s c.
Proof. destruct c; reflexivity. Qed.
Lemma fold_passed R ro fv validate cs : forall s, foldM (penStep R ro fv validate) s (map beginPassed cs) = foldM (penStep R ro fv validate) s cs.
Proof. induction cs as [|c cs IH]; intro s; [reflexivity|]. cbn [map foldM]. rewrite step_passed. destruct (penStep R ro fv validate s c); cbn [bind]; [apply IH|reflexivity]. Qed.
Lemma write_passed T R ro name g cs fv validate : writeGlyphBytes T R ro name g (Some (map beginPassed cs)) fv validate = writeGlyphBytes T R ro name g (Some cs) fv validate.
Proof.
  assert (O : forall ids, writeOutline T R ro g (Some (map beginPassed cs)) fv validate ids = writeOutline T R ro g (Some cs) fv validate ids) by (intro ids; unfold writeOutline; rewrite fold_passed; reflexivity).
  unfold writeGlyphBytes. f_equal. unfold writeGlyphTree. destruct (negb validate || is_str name); [|reflexivity]. destruct (negb _); [|reflexivity].
  repeat match goal with |- bind ?a _ = bind ?a _ => destruct a as [?|?]; cbn [bind]; [|reflexivity] | |- context [let '(_, _) := ?p in _] => destruct p end.
  rewrite O. reflexivity.
Qed.
(** the items read back look like the outlines *)
Definition looksItem (o : goutline) (j : gitem) : Prop :=
  match o, j with
  | Placed _ _ b t, Component _ _ _ b' t' _ => b' = b /\ Forall2 (fun v w => w = v \/ py_eq v w = true) t t'
  | Placed _ _ _ _, _ => False
  | _, Contour _ _ _ _ pts => exists c, ghanded o c /\ glooks pts c
  | _, _ => False
  end.
Lemma draws_back implied os items : Forall gproper os -> Forall2 looksItem os items ->
  exists outs, pointToSegment (None : ident) implied (gdrawing items) = Ok (concat outs) /\ Forall2 (drawnBack implied) os outs.
Proof.
  intros Pr F.
  assert (G : exists outs, PointPen.run (@toSegmentStep coord (list pyval) ident None implied) None (gdrawing items) = Ok (None, concat outs) /\ Forall2 (drawnBack implied) os outs).
  { revert Pr. induction F as [|o i os items L F IH]; intro Pr; [exists []; split; [reflexivity|constructor]|]. inversion Pr as [|? ? P1 P2]; subst. destruct (IH P2) as (outs & E & Fo).
    change (gdrawing (i :: items)) with (gcallsOf i ++ gdrawing items).
    assert (One : exists out, drawnBack implied o out /\ PointPen.run (@toSegmentStep coord (list pyval) ident None implied) None (gcallsOf i) = Ok (None, out)).
    { destruct i as [ident pts|b t ident].
      - assert (X : (exists c, ghanded o c /\ glooks pts c) /\ forall out, sameD implied o out -> drawnBack implied o out) by (destruct o; try contradiction; split; auto).
        destruct X as ((c & Hc & Lc) & X). destruct (redrawn coord (list pyval) (option (option str)) None coordEq implied o c pts P1 Hc Lc) as (out & S & Es). exists out. split; [auto|].
        cbn [callsOf]. cbn [PointPen.run toSegmentStep bind fst snd]. rewrite (run_app _ _ _ _ _ _ _ _ _ (toSegment_adds coord (list pyval) (option (option str)) None implied pts [])). cbn [app PointPen.run toSegmentStep bind fst snd].
        destruct (segmentsOf None pts); [rewrite Es; cbn [bind fst snd]; rewrite app_nil_r; reflexivity|]. injection Es as <-. reflexivity.
      - destruct o as [| | |b0 t0]; try contradiction. destruct L as [-> Ft]. exists [SComponent b0 t]. split; [exists t; auto|reflexivity]. }
    destruct One as (out & D & Er). exists (out :: outs). split; [|constructor; assumption]. rewrite (run_app _ _ _ _ _ _ _ _ _ Er), E. reflexivity. }
  destruct G as (outs & E & Fo). exists outs. split; [|exact Fo]. unfold pointToSegment. rewrite E. reflexivity.
Qed.
(** the points read have no type "offcurve" *)
Lemma read_types T R vs b r : repr_laws T R -> readGlyphBytes T true true vs true b = Ok r -> forall p, In (PAdd p) (rcalls r) -> ptypeOf p = ptype p.
Proof.
  intros LR Er. unfold readGlyphBytes in Er. apply bind_Ok in Er as (f & _ & Er). destruct (readFormat_accepted T R LR true true vs f r eq_refl eq_refl Er) as (items & Ac).
  assert (Ec := ac_calls _ _ _ Ac). assert (Ap := ac_passed _ _ _ Ac). intros p I. apply (in_map asPassed) in I. rewrite Ec in I. cbn [asPassed] in I. unfold drawing in I. apply in_flat_map in I as (i & Ii & I).
  rewrite Forall_forall in Ap. specialize (Ap i Ii). destruct i as [ident pts|b0 t ident]; cbn [callsOf isPassed] in *; [|destruct I as [X|[]]; discriminate X].
  destruct I as [X|I]; [discriminate X|]. apply in_app_or in I as [I|[X|[]]]; [|discriminate X]. apply in_map_iff in I as (q & Eq & I). injection Eq as ->.
  assert (X : forall l : gpts, map passed l = l -> forall x, In x l -> passed x = x) by (induction l as [|y l IH]; intros E x []; cbn [map] in E; injection E as E1 E2; [subst x; exact E1|auto]).
  specialize (X pts Ap _ I). apply (f_equal (@ptype coord _)) in X. cbn [passed ptype] in X. rewrite <- ptypeOf_seg in X. exact X.
Qed.
Lemma drawn_points items i ident pts p : In i items -> i = GContour ident pts -> In p pts -> In (PAdd p) (gdrawing items).
Proof. intros Ii -> I. unfold drawing. apply in_flat_map. eexists. split; [exact Ii|]. cbn [callsOf]. right. apply in_or_app. left. apply in_map. exact I. Qed.
Lemma begin_point cs p : In (PAdd p) (map beginPassed cs) -> In (PAdd p) cs.
Proof. intro I. apply in_map_iff in I as (c & E & I). destruct c; try discriminate E. injection E as ->. exact I. Qed.
Lemma reads_back T R vs b r implied os items : repr_laws T R -> readGlyphBytes T true true vs true b = Ok r ->
  Forall gproper os -> Forall storableOutline os -> Forall2 givenAs os items ->
  (exists items1, map asPassed (rcalls r) = gdrawing items1 /\ Forall2 sameItem items items1) ->
  exists outs, pointToSegment (None : ident) implied (rcalls r) = Ok (concat outs) /\ Forall2 (drawnBack implied) os outs.
Proof.
  intros LR Er Pr St Gi (items1 & E1 & F1). destruct (lift_items items1 (rcalls r) E1) as (items2 & E2 & F2).
  rewrite <- toSegment_begin, E2. apply draws_back; [exact Pr|].
  assert (Ty : forall i ident pts p, In i items2 -> i = GContour ident pts -> In p pts -> ptypeOf p = ptype p).
  { intros i ident pts p Ii Ei I. apply (read_types T R vs b r LR Er). apply begin_point. rewrite E2. eapply drawn_points; eassumption. }
  clear E1 E2 Er. revert items1 items2 F1 F2 Ty Pr St. induction Gi as [|o i os items G Gi IH]; intros items1 items2 F1 F2 Ty Pr St; inversion F1 as [|? j ? l1 S1 F1']; subst; inversion F2 as [|? k ? l2 S2 F2']; subst; [constructor|].
  inversion Pr as [|? ? Pr1 Pr2]; inversion St as [|? ? St1 St2]; subst. constructor; [|apply (IH l1); auto; intros x id pts p Ix; apply (Ty x id pts p); right; exact Ix].
  destruct (given_good o i Pr1 St1 G) as (Gd & _ & _).
  destruct i as [id1 p1|b1 t1 id1], j as [id2 p2|b2 t2 id2]; cbn [sameItem] in S1; try contradiction; destruct k as [id3 p3|b3 t3 id3]; try contradiction.
  - assert (X : (exists c, ghanded o c /\ glooks p1 c) -> looksItem o (GContour id3 p3)).
    { intros (c & Hc & L). assert (L3 : glooks p3 c); [|destruct o; try contradiction; exists c; auto].
      assert (T1 : forall p, In p p1 -> ptypeOf p = ptype p).
      { intros p I. assert (K : knownT (ptype p)).
        { assert (M := looks_types _ _ L). assert (J : In (ptype p) (map snd c)) by (rewrite <- M; apply in_map; exact I). apply in_map_iff in J as ((x & t) & Et & J). cbn [snd] in Et. rewrite <- Et. clear - Hc J Pr1.
          destruct o as [q body|q body|offs|? ?]; cbn [handed proper] in *; [subst c; destruct J as [E|J]; [injection E as _ <-; cbn; auto|eapply body_known; exact J]| |subst c; apply in_map_iff in J as (z & E & _); injection E as _ <-; cbn; auto|contradiction].
          destruct Pr1 as [Hb Hs]. destruct (closing_contour coord (list pyval) coordEq q body Hb Hs) as (p' & t' & rest & C1 & C2 & _). rewrite C1 in Hc. injection Hc as <-. apply (body_known (closing coord (list pyval) coordEq q body) x). rewrite <- C2. apply in_or_app. destruct J as [J|J]; [right; left; exact J|left; exact J]. }
        unfold ptypeOf. destruct (ptype p) as [t|]; [|reflexivity]. destruct (eqb_spec t (u "offcurve")) as [Et|N]; [|reflexivity]. subst t. destruct K as [X|[X|[X|[X|[X|[]]]]]]; discriminate X. }
      assert (T3 : forall p, In p p3 -> ptypeOf p = ptype p) by (intros p I; apply (Ty _ id3 p3 p (or_introl eq_refl) eq_refl I)).
      destruct S1 as [_ S1]. unfold looks in *. rewrite <- L. clear - S1 S2 T1 T3. revert p3 S2 T3. induction S1 as [|x y l m (A1 & A2 & _) S1 IH]; intros p3 S2 T3; inversion S2 as [|? z ? n (B1 & B2 & _) S2']; subst; [reflexivity|]. cbn [map]. f_equal; [|apply IH; auto; intros p I; [apply T1|apply T3]; right; exact I].
      f_equal; [congruence|]. rewrite <- (T3 z) by (left; reflexivity). rewrite <- (T1 x) by (left; reflexivity). rewrite <- A2. unfold ptypeOf. rewrite B2. reflexivity. }
    destruct o; cbn [givenAs] in G; try contradiction; apply X, G.
  - injection S2 as <- <- <-. destruct o; cbn [givenAs] in G; try contradiction. destruct G as (-> & -> & _). destruct S1 as (-> & _ & F). cbn. auto.
Qed.
Lemma passed_items l : exists l', map asPassed (gdrawing l) = gdrawing l' /\ forall l0, Forall2 sameItem l0 l -> Forall2 sameItem l0 l'.
Proof.
  induction l as [|i l (l' & E & F)]; [exists []; split; [reflexivity|auto]|]. change (gdrawing (i :: l)) with (gcallsOf i ++ gdrawing l). rewrite map_app, E. destruct i as [ident pts|b t ident].
  - exists (GContour ident (map (fun p => mkPoint (pc p) (ptype p) (psmooth p) (pname p) (Some (theId (pkw p)))) pts) :: l'). split.
    + change (gdrawing (?i :: l')) with (gcallsOf i ++ gdrawing l'). f_equal. cbn [callsOf map asPassed]. rewrite map_app, !map_map. reflexivity.
    + intros l0 H. inversion H as [|i0 ? l1 ? S0 F0]; subst. constructor; [|apply F; exact F0]. destruct i0 as [id0 pts0|]; [|contradiction]. destruct S0 as [-> S0]. split; [reflexivity|]. clear - S0. induction S0 as [|p q l m (A & B & C & D & G) S0 IH]; cbn [map]; constructor; [|exact IH]. repeat split; cbn; auto.
  - exists (GComponent b t ident :: l'). split; [reflexivity|]. intros l0 H. inversion H; subst. constructor; auto.
Qed.
Lemma no_names os items : Forall2 givenAs os items -> forall i, In i items -> namedMove i = None.
Proof.
  induction 1 as [|o i os items G F IH]; intros k []; [|auto]. subst k. unfold namedMove. destruct i as [id pts|]; [|reflexivity]. destruct pts as [|p [|]]; try reflexivity.
  destruct (ptypeOf p) as [t|]; [|reflexivity]. assert (Pl : plainPoint p) by (destruct o; cbn [givenAs] in G; try contradiction; destruct G as (_ & _ & Pl); inversion Pl; assumption). destruct Pl as [-> _]. reflexivity.
Qed.
Lemma anchors_dropped l : (forall a, In a l -> exists n, vget (u "name") a = PStr n) -> filter (fun i => match namedMove i with Some _ => false | None => true end) (map moveContour l) = [].
Proof.
  induction l as [|a l IH]; intro H; [reflexivity|]. destruct (H a (or_introl eq_refl)) as (n & En). cbn [map filter].
  assert (X : exists d, namedMove (moveContour a) = Some d) by (unfold moveContour; rewrite En; eexists; reflexivity). destruct X as (d & ->). apply IH. intros b I. apply H. right. exact I.
Qed.

(** * C91 *)
(** the glyph without its outline can be stored in the GLIF version given; an anchor
    without a name is a contour of one point in GLIF 1 *)
Definition storableBy (v : Z) (name : str) (g : list (str * pyval)) : Prop :=
  (v = 2%Z /\ storable name g None) \/ (v = 1%Z /\ storable1 name g None /\ forall a, In a (listed (attr g "anchors")) -> exists n, vget (u "name") a = PStr n).
Lemma stored_items v name g os items : storableBy v name g -> Forall gproper os -> Forall storableOutline os -> Forall2 givenAs os items -> storedAs v name g (Some items).
Proof.
  intros Sb Pr St Gi.
  assert (Good : forall l i, Some items = Some l -> In i l -> (goodItem i /\ numberItem i /\ textItem i) /\ match i with Contour _ _ _ ident pts => ident = None /\ forall p, In p pts -> theId (pkw p) = None | Component _ _ _ _ _ ident => ident = None end).
  { intros l i E. injection E as <-. revert i. clear Sb. induction Gi as [|o i os items G Gi IH]; intros k []; inversion Pr; inversion St; subst; [|apply IH; assumption].
    split; [eapply given_good; eassumption|]. destruct o, k; cbn [givenAs] in G; try contradiction; try apply G; (split; [apply G|]); destruct G as (_ & _ & Pl); intros pp Ip; rewrite Forall_forall in Pl; destruct (Pl pp Ip) as (_ & -> & _); reflexivity. }
  destruct Sb as [[-> S]|(-> & S & An)]; [left|right]; (split; [reflexivity|]).
  - destruct S. constructor; auto. intros l i E I. apply (Good l i E I).
  - exists items. split; [reflexivity|]. destruct S. constructor; auto; intros l i E I; apply (Good l i E I).
Qed.
Lemma reading_items T v name g os items r : v = 1%Z \/ v = 2%Z -> storableBy v name g -> Forall2 givenAs os items -> readsAs (isSpace T) v name g (Some items) r ->
  exists items1, map asPassed (rcalls r) = gdrawing items1 /\ Forall2 sameItem items items1.
Proof.
  intros V Sb Gi (R2 & R1 & _). destruct V as [V|V].
  - specialize (R1 V items eq_refl). destruct (s1g_items _ _ _ _ _ R1) as (items1 & E & F). exists items1. split; [exact E|].
    destruct Sb as [[X _]|(_ & _ & An)]; [rewrite X in V; discriminate V|]. unfold contours1 in F. rewrite filter_app, (anchors_dropped _ An), app_nil_r in F.
    assert (X : filter (fun i => match namedMove i with Some _ => false | None => true end) items = items); [|rewrite X in F; exact F]. assert (N := no_names _ _ Gi). clear - N. induction items as [|i items IH]; [reflexivity|]. cbn [filter]. rewrite (N i) by (left; reflexivity). f_equal. apply IH. intros j I. apply N. right. exact I.
  - specialize (R2 V). destruct (sg_items _ _ _ _ _ R2) as (items1 & E & F). destruct (passed_items items1) as (l' & E' & F'). exists l'. rewrite E. split; [exact E'|]. apply F'. exact F.
Qed.
(** An outline drawn with SegmentToPointPen on the pen of writeGlyphToString is drawn
    again by readGlyphFromString and PointToSegmentPen; in both GLIF versions, with
    and without guessing smooth points. *)
Theorem C91_glif T R ro v name g os tangent guess implied : pytext_laws T -> repr_laws T R -> storableBy v name g -> Forall gproper os -> Forall storableOutline os ->
  exists cs, segmentToPoint coordEq (None : ident) tangent guess (flat_map (outlineCalls coord (list pyval)) os) = Ok cs /\
    forall b, writeGlyphBytes T R ro (PStr name) g (Some cs) v true = Ok b ->
    exists r outs, readGlyphBytes T true true [1%Z; 2%Z] true b = Ok r /\ pointToSegment (None : ident) implied (rcalls r) = Ok (concat outs) /\ Forall2 (drawnBack implied) os outs.
Proof.
  intros LT LR Sb Pr St. destruct (handed_to tangent guess os Pr) as (cs & items & E & Ec & Gi). exists cs. split; [exact E|]. intros b W. rewrite <- write_passed, Ec in W. change (Some (gdrawing items)) with (option_map gdrawing (Some items)) in W.
  assert (V : v = 1%Z \/ v = 2%Z) by (destruct Sb as [[-> _]|[-> _]]; auto).
  assert (Re : exists r, readGlyphBytes T true true [1%Z; 2%Z] true b = Ok r /\ readsAs (isSpace T) v name g (Some items) r).
  { destruct (stored_items v name g os items Sb Pr St Gi) as [[Ev S]|(Ev & l & El & S)]; rewrite Ev in *.
    - destruct (C58_glyph_partial T R ro name g (Some items) b LT LR W S) as (r & Er & Sg). exists r. split; [exact Er|]. split; [intros _; exact Sg|split; discriminate].
    - injection El as <-. destruct (C56_format1_partial T R ro name g items b [1%Z; 2%Z] LT LR W S (or_introl eq_refl)) as (r & Er & Sg). exists r. split; [exact Er|]. split; [discriminate|]. split; [|discriminate]. intros _ l' E'. injection E' as <-. exact Sg. }
  destruct Re as (r & Er & Rd). destruct (reads_back T R _ b r implied os items LR Er Pr St Gi (reading_items T v name g os items r V Sb Gi Rd)) as (outs & Eo & F). eauto.
Qed.
Print Assumptions C91_glif.

(** An anchor without a name in GLIF 1 is drawn as a point although nothing was drawn. *)
Theorem C91_nameless_anchor_refuted : exists T R ro g b r, pytext_laws T /\ repr_laws T R /\ storable1 (u "a") g None /\
  writeGlyphBytes T R ro (PStr (u "a")) g (Some []) 1 true = Ok b /\ readGlyphBytes T true true [1%Z; 2%Z] true b = Ok r /\
  pointToSegment (None : ident) false (rcalls r) = Ok [SMove (PInt 3, PInt 4); SEnd].
Proof.
  exists toyText, toyRepr, roCase, [(u "anchors", PList [anchorCase 3 4 None])]. eexists _, _. split; [apply toyText_laws|]. split; [apply toyRepr_laws|]. split; [|split; [vm_compute; reflexivity|]; split; vm_compute; reflexivity].
  assert (An : forall v, In v (listed (attr [(u "anchors", PList [anchorCase 3 4 None])] "anchors")) -> (forall k, In k ["x"; "y"] -> absentOr isNum (vget (u k) v)) /\ (forall k s, vget k v = PStr s -> valOk s)).
  { intros v [<-|[]]. split; [intros k [<-|[<-|[]]]; right; left; eexists; reflexivity|]. intros k s X. exfalso. unfold anchorCase, vget in X. cbn in X. repeat match type of X with context [if ?b then _ else _] => destruct b end; discriminate X. }
  constructor; try exact An; try (apply text_val; reflexivity); try (left; reflexivity); try (intros; discriminate). split; [intros s J; inversion J|intros d k x J; inversion J].
Qed.
Print Assumptions C91_nameless_anchor_refuted.

(** ** Glyph sets *)
(** writeGlyph with a function drawing outlines on a SegmentToPointPen *)
Inductive daction := Draw (name : str) (g : list (str * pyval)) (os : list goutline) (guess : bool) (fv : option Z) | Else (a : action).
Definition compileD T R ro ufo tangent (a : daction) : action :=
  match a with
  | Draw n g os guess fv => Do (CWrite n (negb (isOk (writeVersion ufo fv)))
      (do cs <- segmentToPoint coordEq (None : ident) tangent guess (flat_map (outlineCalls coord (list pyval)) os);
       gsWriteBytes T R ro ufo (PStr n) g (Some cs) fv true))
  | Else a => a
  end.
(** the outlines last drawn of each glyph not deleted *)
Definition rememberDrawing (m : list (str * list goutline)) (a : daction) :=
  match a with Draw n _ os _ _ => set n os m | Else (Do (CDelete n)) => del n m | Else _ => m end.
Definition rememberedDrawings (l : list daction) := fold_left rememberDrawing l [].
Definition allowedD (ufo : Z) (a : daction) : Prop :=
  match a with
  | Draw n g os _ fv => storableBy (versionOf ufo fv) n g /\ Forall gproper os /\ Forall storableOutline os
  | Else a => isWrite a = false /\ noRebuild a
  end.

Definition sameAct (ufo : Z) (a : daction) (b : gaction) : Prop :=
  match a, b with
  | Draw n g os _ fv, Write n' g' (Some items) fv' => n' = n /\ g' = g /\ fv' = fv /\ storableBy (versionOf ufo fv) n g /\ Forall gproper os /\ Forall storableOutline os /\ Forall2 givenAs os items
  | Else a, Other b => b = a
  | _, _ => False
  end.
Lemma gsWrite_passed T R ro ufo name g cs fv : gsWriteBytes T R ro ufo name g (Some (map beginPassed cs)) fv true = gsWriteBytes T R ro ufo name g (Some cs) fv true.
Proof. unfold gsWriteBytes. destruct (writeVersion ufo fv); cbn [bind]; [apply write_passed|reflexivity]. Qed.
Lemma as_glyphs T R ro ufo tangent l : Forall (allowedD ufo) l ->
  exists l', map (compileD T R ro ufo tangent) l = map (compile T R ro ufo) l' /\ Forall (allowed ufo) l' /\ Forall2 (sameAct ufo) l l'.
Proof.
  induction 1 as [|a l A _ (l' & E & Al & F)]; [exists []; repeat split; constructor|]. destruct a as [n g os guess fv|a]; cbn [allowedD] in A.
  - destruct A as (Sb & Pr & St). destruct (handed_to tangent guess os Pr) as (cs & items & Es & Ec & Gi). exists (Write n g (Some items) fv :: l'). split; [|split].
    + cbn [map compileD compile option_map]. rewrite E, Es, <- Ec, gsWrite_passed. reflexivity.
    + constructor; [|exact Al]. eapply stored_items; eassumption.
    + constructor; [|exact F]. cbn. auto 8.
  - exists (Other a :: l'). cbn [map compileD compile]. rewrite E. split; [reflexivity|]. split; constructor; auto. reflexivity.
Qed.
Definition drawnAs' (ufo : Z) (n : str) (x : option (list goutline)) (y : option stored) : Prop :=
  match x, y with
  | Some os, Some (g, items, fv) => exists l, items = Some l /\ storableBy (versionOf ufo fv) n g /\ Forall gproper os /\ Forall storableOutline os /\ Forall2 givenAs os l
  | None, None => True
  | _, _ => False
  end.
Lemma remembered_drawings ufo l l' : Forall2 (sameAct ufo) l l' -> forall m m', dict_ok m -> dict_ok m' -> (forall n, drawnAs' ufo n (get n m) (get n m')) ->
  forall n, drawnAs' ufo n (get n (fold_left rememberDrawing l m)) (get n (fold_left rememberGlyph l' m')).
Proof.
  induction 1 as [|a b l l' S F IH]; intros m m' D D' H; [exact H|]. cbn [fold_left]. destruct a as [n g os guess fv|a], b as [n' g' items fv'|b]; cbn [sameAct] in S; try contradiction.
  - destruct items as [items|]; [|contradiction]. destruct S as (-> & -> & -> & S). cbn [rememberDrawing rememberGlyph]. apply IH; [apply dict_ok_set; exact D|apply dict_ok_set; exact D'|].
    intro k. rewrite !get_set. destruct (eqb_spec k n) as [->|N]; [|apply H]. cbn. eauto.
  - subst b. cbn [rememberDrawing rememberGlyph]. destruct a as [c|]; [|apply IH; assumption]. destruct c; try (apply IH; assumption). apply IH; [apply dict_ok_del; exact D|apply dict_ok_del; exact D'|].
    intro k. destruct (eq_decide k name) as [->|N]; [rewrite !get_del_same by assumption; exact Logic.I|rewrite !get_del_other by assumption; apply H].
Qed.
(** indexing the glyph set: KeyError when there is no such glyph *)
Definition drawsAgain T ufo canon (w : world) (n : str) (x : option (list goutline)) : Prop :=
  match x with
  | Some os => exists o outs, gsGetItem n w = Ok o /\ draw T canon ufo o w = Ok (concat outs) /\ Forall2 (drawnBack false) os outs
  | None => gsGetItem n w = Err KeyError
  end.
Lemma fetch_listed canon n w : fetch canon n w = Err KeyError <-> gsHasKey n w = false.
Proof.
  rewrite fetch_eq. unfold gsHasKey, fileOf, has. destruct (get n (contents (gs w))) as [f|]; [|split; reflexivity]. split; [|discriminate]. destruct (get (canon f) (dir w)); discriminate.
Qed.
Lemma draws_again T R ro ufo canon tangent lower tf l l' w : pytext_laws T -> repr_laws T R -> Forall2 (sameAct ufo) l l' -> Forall (allowed ufo) l' ->
  map (compileD T R ro ufo tangent) l = map (compile T R ro ufo) l' ->
  session canon lower tf (contentsDumps T R) (contentsLoads T) (map (compile T R ro ufo) l') = Ok w ->
  (forall n, fetch canon n w = match get n (remembered (map (compile T R ro ufo) l')) with Some b => Ok b | None => Err KeyError end) ->
  forall n, drawsAgain T ufo canon w n (get n (rememberedDrawings l)).
Proof.
  intros LT LR F Al E S Fe n. assert (W := proj2 (remembered_written T R ro ufo canon lower tf _ _ l' w Al S) n). assert (Rd := glyphs_read T R ro ufo canon lower tf _ _ l' w LT LR Al S Fe n).
  assert (Rm := remembered_drawings ufo l l' F [] [] ltac:(constructor) ltac:(constructor) (fun n => Logic.I) n). fold (rememberedDrawings l) in Rm. change (fold_left rememberGlyph l' []) with (rememberedGlyphs l') in Rm.
  destruct (get n (rememberedDrawings l)) as [os|], (get n (rememberedGlyphs l')) as [[[g items] fv]|]; cbn [drawnAs' drawsAgain] in *; try contradiction.
  - destruct Rm as (l0 & -> & Sb & Pr & St & Gi). destruct Rd as (r & Er & Rs). unfold readGlyphOf in Er. apply bind_Ok in Er as (b & Eb & Er). assert (Er' := Er). unfold gsReadBytes in Er'.
    assert (V : versionOf ufo fv = 1%Z \/ versionOf ufo fv = 2%Z) by (destruct Sb as [[-> _]|[-> _]]; auto).
    destruct (reads_back T R _ b r false os l0 LR Er' Pr St Gi (reading_items T _ n g os l0 r V Sb Gi Rs)) as (outs & Eo & Fo).
    exists (mkGlyphObj n), outs. split; [|split; [|exact Fo]].
    + unfold gsGetItem. destruct (gsHasKey n w) eqn:K; [reflexivity|]. apply (proj2 (fetch_listed canon n w)) in K. congruence.
    + unfold draw, drawPoints. cbn [glyphName]. fold (fetch canon n w). rewrite Eb. cbn [bind]. rewrite Er. cbn [bind]. exact Eo.
  - cbn [writtenAs] in W. assert (K : fetch canon n w = Err KeyError) by (rewrite Fe, W; reflexivity). unfold gsGetItem. apply fetch_listed in K. rewrite K. reflexivity.
Qed.
Lemma keys_drawn T ufo canon w n (m : list (str * list goutline)) : drawsAgain T ufo canon w n (get n m) -> (In n (gsKeys w) <-> In n (keys m)).
Proof.
  unfold drawsAgain, gsGetItem, gsKeys. intro D. rewrite <- !has_In. change (has n (contents (gs w))) with (gsHasKey n w). unfold has at 1. destruct (get n m) as [os|].
  - destruct D as (o & outs & E & _). destruct (gsHasKey n w); [tauto|discriminate E].
  - destruct (gsHasKey n w); [discriminate D|]. split; discriminate.
Qed.
(** Proved: in every session on a new glyph set, each glyph written with a segment
    pen and not deleted is drawn again by glyphSet[name].draw(pen), and indexing any
    other name raises KeyError; the names of the glyph set are those glyphs.
    Restrictions: as in C85, and what C47 leaves out. *)
Theorem C91_glyph_sets_partial : forall T R ro ufo canon lower toFileName tangent, pytext_laws T -> repr_laws T R ->
  case_only canon lower -> case_fresh canon lower toFileName -> good_names textOk toFileName ->
  forall l w, Forall (allowedD ufo) l -> session canon lower toFileName (contentsDumps T R) (contentsLoads T) (map (compileD T R ro ufo tangent) l) = Ok w ->
  forall n, drawsAgain T ufo canon w n (get n (rememberedDrawings l)) /\ (In n (gsKeys w) <-> In n (keys (rememberedDrawings l))).
Proof.
  intros T R ro ufo canon lower tf tangent LT LR CO CF GN l w A S n. destruct (as_glyphs T R ro ufo tangent l A) as (l' & E & Al & F). rewrite E in S. destruct (allowed_good T R ro ufo l' Al) as [GW NR].
  destruct (C84_sessions_partial canon lower tf _ _ _ (contents_codec_laws T R LT LR) (contents_total T R LT LR) CO CF GN _ w NR GW S) as [Fe _].
  assert (D := draws_again T R ro ufo canon tangent lower tf l l' w LT LR F Al E S Fe n). split; [exact D|]. apply keys_drawn with (T := T) (ufo := ufo) (canon := canon). exact D.
Qed.
Print Assumptions C91_glyph_sets_partial.
Theorem C91_careful : forall T R ro ufo canon lower tangent, pytext_laws T -> repr_laws T R -> case_only canon lower ->
  forall l w, Forall (allowedD ufo) l -> session canon lower (carefulFileName lower) (contentsDumps T R) (contentsLoads T) (map (compileD T R ro ufo tangent) l) = Ok w ->
  forall n, drawsAgain T ufo canon w n (get n (rememberedDrawings l)) /\ (In n (gsKeys w) <-> In n (keys (rememberedDrawings l))).
Proof.
  intros T R ro ufo canon lower tangent LT LR CO. apply (C91_glyph_sets_partial T R ro ufo canon lower _ tangent LT LR CO (C08_careful_function canon lower CO) (careful_names_text lower)).
Qed.
Print Assumptions C91_careful.
(** with the default file name function, for names that are apart (C08) *)
Definition namedD (S : str -> Prop) (a : daction) : Prop := match a with Draw n _ _ _ _ => S n | Else _ => True end.
Theorem C91_apart_names_partial : forall T R ro ufo canon lower S tangent, pytext_laws T -> repr_laws T R -> lower_stable lower -> case_only canon lower -> apart_names lower S ->
  forall l w, Forall (allowedD ufo) l -> Forall (namedD S) l -> session canon lower (defaultFileName lower) (contentsDumps T R) (contentsLoads T) (map (compileD T R ro ufo tangent) l) = Ok w ->
  forall n, drawsAgain T ufo canon w n (get n (rememberedDrawings l)) /\ (In n (gsKeys w) <-> In n (keys (rememberedDrawings l))).
Proof.
  intros T R ro ufo canon lower S tangent LT LR L CO Ap l w A Ln E n. destruct (as_glyphs T R ro ufo tangent l A) as (l' & El & Al & F). rewrite El in E. destruct (allowed_good T R ro ufo l' Al) as [_ NR].
  assert (Ln' : Forall (named S) l').
  { clear - F Ln. induction F as [|a b l l' Sa F IH]; [constructor|]. inversion Ln as [|? ? L1 L2]; subst. constructor; [|apply IH; exact L2]. destruct a as [m g os guess fv|a], b as [m' g' items fv'|b]; try contradiction; [|exact Logic.I]. destruct items; [|contradiction]. destruct Sa as (-> & _). exact L1. }
  destruct (C84_apart_names_partial canon lower _ _ _ _ L (contents_codec_laws T R LT LR) (contents_total T R LT LR) CO (default_names_text lower) (apart_sub lower S _ (fun n H => proj1 H) Ap) (fun n H => proj2 H) _ w NR (named_writes S T R ro ufo l' Al Ln') E) as [Fe _].
  assert (D := draws_again T R ro ufo canon tangent lower _ l l' w LT LR F Al El E Fe n). split; [exact D|]. apply keys_drawn with (T := T) (ufo := ufo) (canon := canon). exact D.
Qed.
Print Assumptions C91_apart_names_partial.

(** ** A case: a closed contour ending at its start, an open one, one without on-curve
    points and a component *)
Local Notation xy a b := (PInt a%Z, PInt b%Z).
Definition outlinesCase : list goutline :=
  [Closed _ _ (xy 0 0) [SLine (xy 10 0); SCurve [xy 12 3; xy 12 7] (xy 10 10); SLine (PFloat (S754_zero true), PInt 0)];
   Open _ _ (PFloat (S754_finite false 6755399441055744 (-52)), PInt 2) [SQCurve [xy 3 3; xy 4 4; xy 5 5] (Some (xy 6 6))];
   AllOff _ _ [xy 1 0; xy 2 1; xy 1 2];
   Placed _ _ (u "b") [PInt 1; PInt 0; PInt 0; PFloat (S754_finite false 4503599627370496 (-52)); PInt 7; PInt 0]].
Definition drawCase : list daction :=
  [Draw (u "a") [] [] true None; Draw (u "A") [(u "width", PInt 5); (u "anchors", PList [anchorCase 1 2 (Some "top")])] outlinesCase true (Some 1%Z); Else Reopen;
   Draw (u "a") [(u "width", PInt 3)] outlinesCase true None; Draw (u "c") [] outlinesCase false (Some 2%Z); Else (Do (CDelete (u "c"))); Else Reopen].
Ltac isnum := first [left; eexists; reflexivity|right; eexists; split; [reflexivity|vm_compute; auto]].
Lemma case_outlines : Forall gproper outlinesCase /\ Forall storableOutline outlinesCase.
Proof.
  split; repeat apply Forall_cons; try apply Forall_nil.
  - split; [repeat constructor; discriminate|vm_compute; lia].
  - repeat constructor; discriminate.
  - exists (xy 1 0), [xy 2 1], (xy 1 2). split; reflexivity.
  - exact Logic.I.
  - split; [split; isnum|]. intros c I. repeat (destruct I as [<-|I]; [split; [cbn; lia|intros x J; cbn in J; repeat (destruct J as [<-|J]; [split; isnum|]); destruct J]|]). destruct I.
  - split; [split; isnum|]. intros c I. repeat (destruct I as [<-|I]; [split; [cbn; lia|intros x J; cbn in J; repeat (destruct J as [<-|J]; [split; isnum|]); destruct J]|]). destruct I.
  - intros x J; cbn in J; repeat (destruct J as [<-|J]; [split; isnum|]); destruct J.
  - split; [apply text_val; reflexivity|]. split; [reflexivity|]. repeat apply Forall_cons; try apply Forall_nil; isnum.
Qed.
Example C91_case_allowed : Forall (allowedD 3) drawCase.
Proof.
  destruct case_outlines as [Pr St].
  assert (S2 : forall n, valOk n -> storable n [(u "width", PInt 3)] None).
  { intros n V. constructor; try exact V; try (left; reflexivity); try (right; isnum); try (intros; discriminate); try (intros ? []). split; [intros s J; inversion J|intros d k x J; inversion J]. }
  repeat apply Forall_cons; try apply Forall_nil; cbn [allowedD]; try (split; [reflexivity|discriminate]).
  - split; [left; split; [reflexivity|apply storable_empty; apply text_val; reflexivity]|split; constructor].
  - split; [right; split; [reflexivity|]; split; [|intros a [<-|[]]; exists (u "top"); reflexivity]|split; assumption].
    assert (An : forall v, In v (listed (attr [(u "width", PInt 5); (u "anchors", PList [anchorCase 1 2 (Some "top")])] "anchors")) -> (forall k, In k ["x"; "y"] -> absentOr isNum (vget (u k) v)) /\ (forall k s, vget k v = PStr s -> valOk s)).
    { intros v [<-|[]]. split; [intros k [<-|[<-|[]]]; right; isnum|]. intros k s X. assert (s = u "top") as -> by (clear - X; unfold anchorCase, vget in X; cbn in X; repeat match type of X with context [if ?b then _ else _] => destruct b end; congruence). apply text_val. reflexivity. }
    constructor; try exact An; try (apply text_val; reflexivity); try (left; reflexivity); try (right; isnum); try (intros; discriminate). split; [intros s J; inversion J|intros d k x J; inversion J].
  - split; [left; split; [reflexivity|apply S2; apply text_val; reflexivity]|split; assumption].
  - split; [left; split; [reflexivity|apply storable_empty; apply text_val; reflexivity]|split; assumption].
Qed.
Example C91_case :
  match session ascii_lower ascii_lower (carefulFileName ascii_lower) (contentsDumps toyText toyRepr) (contentsLoads toyText) (map (compileD toyText toyRepr (fun _ => []) 3 (fun _ _ _ => true)) drawCase) with
  | Ok w => (gsKeys w, gsGetItem (u "c") w, do o <- gsGetItem (u "A") w; draw toyText ascii_lower 3 o w, do o <- gsGetItem (u "a") w; draw toyText ascii_lower 3 o w)
  | Err e => ([], Err e, Err e, Err e)
  end = (
    let out := [SMove (PFloat (S754_zero true), PInt 0); SLine (xy 10 0); SCurve [xy 12 3; xy 12 7] (xy 10 10); SClose;
       SMove (PFloat (S754_finite false 6755399441055744 (-52)), PInt 2); SQCurve [xy 3 3; xy 4 4; xy 5 5] (Some (xy 6 6)); SEnd;
       SQCurve [xy 1 0; xy 2 1; xy 1 2] None; SClose;
       SComponent (u "b") [PInt 1; PInt 0; PInt 0; PInt 1; PInt 7; PInt 0]] in
    ([u "A"; u "a"], Err KeyError, Ok out, Ok out)).
Proof. vm_compute. reflexivity. Qed.
