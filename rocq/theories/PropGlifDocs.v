(** Property C102: which GLIF documents readGlyph accepts, and what they mean.
    The validated reader accepts exactly the documents of the documented form,
    given here as a relation between elements and what they stand for. *)
From Coq Require Import String NArith ZArith Bool Lia List Permutation.
From Coq.Floats Require Import SpecFloat.
From Verif Require Import Base PyVal PyText Xml Plist Etree EtreeProofs Validators PropValidators PropFontInfoAccepts PointPen Glif GlifProofs GlifOutline GlifElements GlifRead GlifAccepted PropGlif.
From Verif Require XmlClean.
Import ListNotations.
Local Open Scope string_scope.
Local Open Scope list_scope.

(** * The statement *)
(** ** Attributes *)
Definition attrAt (k : string) (e : elem) : option str := get (u k) (eattrib e).
(** int(s), or else float(s) *)
Definition numberIs (T : pytext) (s : str) (v : pyval) : Prop :=
  match parseInt T s with
  | Some z => v = PInt z
  | None => exists f, parseFloat T s = Some f /\ v = PFloat f
  end.
Definition numberAt (T : pytext) (k : string) (e : elem) (v : pyval) : Prop := exists s, attrAt k e = Some s /\ numberIs T s v.
Definition numberOrIs (T : pytext) (d : Z) (k : string) (e : elem) (v : pyval) : Prop :=
  (attrAt k e = None /\ v = PInt d) \/ numberAt T k e v.
Definition onlyAttrs (l : list string) (e : elem) : Prop := forall k s, In (k, s) (eattrib e) -> exists a, In a l /\ k = u a.
Definition white (T : pytext) (e : elem) : Prop := forall s, etextOf e = Some (XS s) -> forall c, In c s -> isSpace T c = true.
(** the attributes as a dictionary, some of them as numbers *)
Definition dictIs (T : pytext) (nums : list string) (e : elem) (d : list (pyval * pyval)) : Prop :=
  Forall2 (fun a b => fst b = PStr (fst a) /\
    ((exists k, In k nums /\ fst a = u k) /\ numberIs T (snd a) (snd b) \/
     (~ exists k, In k nums /\ fst a = u k) /\ snd b = PStr (snd a))) (eattrib e) d.

(** ** Outlines *)
Definition pointAttrs (format : Z) : list string := if (format =? 1)%Z then ["x"; "y"; "type"; "smooth"; "name"] else ["x"; "y"; "type"; "smooth"; "name"; "identifier"].
Definition pointIs (T : pytext) (format : Z) (e : elem) (p : gpoint) : Prop :=
  etag e = u "point" /\ onlyAttrs (pointAttrs format) e /\ echildren e = [] /\
  (exists x y, numberAt T "x" e x /\ numberAt T "y" e y /\ pc p = Some (x, y)) /\
  match attrAt "type" e with
  | None => ptype p = None
  | Some t => (t = u "offcurve" /\ ptype p = None) \/ (In t [u "move"; u "line"; u "curve"; u "qcurve"] /\ ptype p = Some t)
  end /\
  match attrAt "smooth" e with
  | None => psmooth p = false
  | Some s => (s = u "no" /\ psmooth p = false) \/ (s = u "yes" /\ psmooth p = true)
  end /\
  pname p = attrAt "name" e /\ pkw p = if (format =? 1)%Z then None else Some (attrAt "identifier" e).
(** what a contour or a component stands for: the calls of the point pen, and the
    anchors of format 1 *)
Definition componentIs (T : pytext) (format : Z) (e : elem) (part : list gcall * list pyval) : Prop :=
  etag e = u "component" /\ echildren e = [] /\
  onlyAttrs ((if (format =? 1)%Z then [] else ["identifier"]) ++ "base" :: map fst transformationDefaults) e /\
  exists base tr, attrAt "base" e = Some base /\ Forall2 (fun kd v => numberOrIs T (snd kd) (fst kd) e v) transformationDefaults tr /\
    part = ([PComponent base tr (if (format =? 1)%Z then None else Some (attrAt "identifier" e))], []).
Definition contour2Is (T : pytext) (e : elem) (part : list gcall * list pyval) : Prop :=
  etag e = u "contour" /\ onlyAttrs ["identifier"] e /\
  exists pts, Forall2 (pointIs T 2) (echildren e) pts /\ goodContour pts /\
    part = (PBegin (Some (attrAt "identifier" e)) :: map PAdd pts ++ [PEnd], []).
(** format 1: a contour that is a single named "move" point is an anchor *)
Definition anchorContour (e p : elem) (name : str) : Prop :=
  echildren e = [p] /\ etag p = u "point" /\ attrAt "type" p = Some (u "move") /\ attrAt "name" p = Some name.
Definition anchor1Is (T : pytext) (e : elem) (part : list gcall * list pyval) : Prop :=
  etag e = u "contour" /\ exists p name x y, anchorContour e p name /\ numberAt T "x" p x /\ numberAt T "y" p y /\
    part = ([], [PDict [(PStr (u "x"), x); (PStr (u "y"), y); (PStr (u "name"), PStr name)]]).
(** format 1: the off-curve points at the end of an open contour are left out *)
Definition trimmed (all pts : list gpoint) : Prop :=
  (forall p r, all = p :: r -> ptype p = Some (u "move") ->
     exists offs, all = pts ++ offs /\ (forall q, In q offs -> ptype q = None) /\ (forall a q, pts = a ++ [q] -> ptype q <> None)) /\
  ((forall p r, all = p :: r -> ptype p <> Some (u "move")) -> pts = all).
Definition contour1Is (T : pytext) (e : elem) (part : list gcall * list pyval) : Prop :=
  etag e = u "contour" /\ (~ exists p name, anchorContour e p name) /\ eattrib e = [] /\
  exists all pts, Forall2 (pointIs T 1) (echildren e) all /\ (forall p, In p all -> psmooth p = true -> ptype p <> None) /\
    trimmed all pts /\ goodContour pts /\ part = (PBegin None :: map PAdd pts ++ [PEnd], []).
Definition partIs (T : pytext) (format : Z) (e : elem) (part : list gcall * list pyval) : Prop :=
  componentIs T format e part \/
  if (format =? 1)%Z then anchor1Is T e part \/ contour1Is T e part else contour2Is T e part.
Definition callIds (cs : list gcall) : list str := given (map callId cs).
Definition outlineIs (T : pytext) (format : Z) (e : elem) (o : list gcall * list pyval) : Prop :=
  eattrib e = [] /\ white T e /\
  exists parts, Forall2 (partIs T format) (echildren e) parts /\ o = (concat (map fst parts), concat (map snd parts)) /\
    NoDup (callIds (fst o)) /\ forall i, In i (callIds (fst o)) -> identifier (PStr i).

(** ** The other elements *)
Definition advanceIs (T : pytext) (e : elem) (a : pyval * pyval) : Prop := numberOrIs T 0 "width" e (fst a) /\ numberOrIs T 0 "height" e (snd a).
Definition unicodeIs (T : pytext) (e : elem) (z : Z) : Prop := exists s, attrAt "hex" e = Some s /\ parseHex T s = Some z.
(** the lines that are not blank, without the white space around them *)
Definition noteIs (T : pytext) (e : elem) (note : str) : Prop :=
  exists lines, etextOf e = Some (XS (join [10%N] lines)) /\ lines <> [] /\ (forall l, In l lines -> ~ In 10%N l) /\
    note = join [10%N] (map (strip (isSpace T)) (filter (fun l => negb (forallb (isSpace T) l)) lines)).
Definition libIs (T : pytext) (e : elem) (v : pyval) : Prop := exists c, echildren e = [c] /\ fromtree T c = Ok v /\ goodGlyphLib T v.
Definition missing (e : elem) : list (pyval * pyval) :=
  flat_map (fun kd => match attrAt (fst kd) e with None => [(PStr (u (fst kd)), PInt (snd kd))] | Some _ => [] end) transformationDefaults.
Definition imageIs (T : pytext) (e : elem) (v : pyval) : Prop :=
  echildren e = [] /\ exists d, dictIs T (map fst transformationDefaults) e d /\ v = PDict (d ++ missing e) /\ goodImage T v.
Definition itemIs (T : pytext) (nums : list string) (e : elem) (v : pyval) : Prop :=
  echildren e = [] /\ exists d, dictIs T nums e d /\ v = PDict d.

(** ** The document *)
Record meaning := mkMeaning {
  g_outline : option (list gcall * list pyval); g_advance : option (pyval * pyval); g_note : option str; g_lib : option pyval;
  g_image : option pyval; g_unicodes : list Z; g_guidelines : list pyval; g_anchors : list pyval }.
Definition named (t : string) (l : list elem) : list elem := filter (fun c => eqb (etag c) (u t)) l.
(** there is at most one element of this name *)
Definition oneIs {A} (t : string) (P : elem -> A -> Prop) (l : list elem) (o : option A) : Prop :=
  (named t l = [] /\ o = None) \/ exists c v, named t l = [c] /\ P c v /\ o = Some v.
Fixpoint firsts (l : list Z) : list Z := match l with [] => [] | z :: r => z :: List.remove Z.eq_dec z (firsts r) end.
Definition elementNames (format : Z) : list string :=
  ["outline"; "advance"; "unicode"; "note"; "lib"] ++ if (format =? 1)%Z then [] else ["guideline"; "anchor"; "image"].
Record childrenAre (T : pytext) (format : Z) (l : list elem) (m : meaning) : Prop := {
  are_known : forall c, In c l -> exists t, In t (elementNames format) /\ etag c = u t;
  are_outline : oneIs "outline" (outlineIs T format) l (g_outline m);
  are_advance : oneIs "advance" (advanceIs T) l (g_advance m);
  are_note : oneIs "note" (noteIs T) l (g_note m);
  are_lib : oneIs "lib" (libIs T) l (g_lib m);
  are_image : oneIs "image" (imageIs T) l (g_image m);
  are_unicodes : exists zs, Forall2 (unicodeIs T) (named "unicode" l) zs /\ g_unicodes m = firsts zs;
  are_guidelines : Forall2 (itemIs T ["x"; "y"; "angle"]) (named "guideline" l) (g_guidelines m);
  are_anchors : Forall2 (itemIs T ["x"; "y"]) (named "anchor" l) (g_anchors m) }.
Definition callsOf (m : meaning) : list gcall := match g_outline m with Some (cs, _) => cs | None => [] end.
Definition anchorsOf (m : meaning) : list pyval := match g_outline m with Some (_, l) => l | None => [] end ++ g_anchors m.
Record documented (T : pytext) (formats : list Z) (e : elem) (name : str) (m : meaning) : Prop := {
  is_glyph : etag e = u "glyph";
  is_white : white T e;
  is_name : attrAt "name" e = Some name /\ name <> [];
  is_format : exists s z, attrAt "format" e = Some s /\ parseInt T s = Some z /\ In z formats /\ (z = 1 \/ z = 2)%Z /\ childrenAre T z (echildren e) m;
  is_guidelines : Forall (goodGuideline T) (g_guidelines m);
  is_anchors : Forall (goodAnchor T) (anchorsOf m);
  is_once : NoDup (callIds (callsOf m) ++ identifiersOf (g_guidelines m) ++ identifiersOf (anchorsOf m)) }.
(** the attributes set on the glyph object *)
Definition listOr (l : list pyval) : option pyval := match l with [] => None | _ => Some (PList l) end.
Definition attributes (name : str) (m : meaning) : list (str * option pyval) :=
  [(u "name", Some (PStr name)); (u "width", option_map fst (g_advance m)); (u "height", option_map snd (g_advance m));
   (u "note", option_map PStr (g_note m)); (u "lib", g_lib m); (u "image", g_image m);
   (u "unicodes", listOr (map PInt (g_unicodes m))); (u "guidelines", listOr (g_guidelines m)); (u "anchors", listOr (anchorsOf m))].
Definition reads (r : greading) (name : str) (m : meaning) : Prop :=
  rcalls r = callsOf m /\ forall k, get k (rattrs r) = match get k (attributes name m) with Some o => o | None => None end.

(** * Proofs *)
(** what the parser gives: attributes are there once, texts are strings *)
Inductive parsed : elem -> Prop :=
| parsed_intro tag at' text ch tail : NoDup (map fst at') -> (forall b, text <> Some (XB b)) -> Forall parsed ch -> parsed (Elem tag at' text ch tail).
Lemma parsed_attrs e : parsed e -> NoDup (map fst (eattrib e)).
Proof. intro H. destruct H. assumption. Qed.
Lemma parsed_children e c : parsed e -> In c (echildren e) -> parsed c.
Proof. intros H J. destruct H as [? ? ? ch ? _ _ H]. rewrite Forall_forall in H. apply H. exact J. Qed.
Section Docs.
Variable T : pytext.
Lemma number_is s v : number T (Some s) = Ok v <-> numberIs T s v.
Proof.
  unfold number, numberIs. destruct (parseInt T s) as [z|].
  - split; [intro H; injection H as <-; reflexivity|intros ->; reflexivity].
  - destruct (parseFloat T s) as [f|].
    + split; [intro H; injection H as <-; eauto|intros (g & E & ->); injection E as ->; reflexivity].
    + split; [discriminate|intros (g & E & _); discriminate E].
Qed.
Lemma number_at k e v : number T (eget (u k) e) = Ok v <-> numberAt T k e v.
Proof.
  unfold numberAt, attrAt, eget. destruct (get (u k) (eattrib e)) as [s|].
  - rewrite number_is. split; [eauto|]. intros (x & E & H). injection E as <-. exact H.
  - split; [discriminate|]. intros (x & E & _). discriminate E.
Qed.
Lemma numberOr_is d k e v : numberOr T d (eget (u k) e) = Ok v <-> numberOrIs T d k e v.
Proof.
  unfold numberOrIs. rewrite <- number_at. unfold numberOr, attrAt, eget. destruct (get (u k) (eattrib e)) as [s|].
  - split; [auto|]. intros [[E _]|H]; [discriminate E|exact H].
  - split; [intro H; injection H as <-; auto|]. intros [[_ ->]|H]; [reflexivity|discriminate H].
Qed.
Lemma only_attrs l e : forallb (fun a => mem a (map u l)) (map fst (eattrib e)) = true <-> onlyAttrs l e.
Proof.
  rewrite forallb_forall. unfold onlyAttrs. split.
  - intros H k s J. specialize (H k (in_map fst _ _ J)). apply mem_In, in_map_iff in H as (a & <- & J'). eauto.
  - intros H k J. apply in_map_iff in J as ((k' & s) & <- & J). destruct (H _ _ J) as (a & J' & E). cbn [fst]. apply mem_In. rewrite E. apply in_map. exact J'.
Qed.
Lemma no_children {A} (l : list A) : Nat.eqb (length l) 0 = true <-> l = [].
Proof. destruct l; split; try reflexivity; discriminate. Qed.
Lemma white_blank e : parsed e -> (blankText T (etextOf e) = true <-> white T e).
Proof.
  intro H. destruct H as [tag at' text ch tail _ H _]. unfold white. cbn [etextOf]. unfold blankText. destruct text as [[s|b]|]; [|destruct (H b eq_refl)|].
  - rewrite forallb_forall. split; [intros A x E; injection E as <-; exact A|intro A; apply A; reflexivity].
  - split; [discriminate|reflexivity].
Qed.
Lemma identifier_ok i : identifierOk i = true <-> identifier (PStr i).
Proof.
  unfold identifierOk, identifier. split.
  - intro H. exists i. split; [reflexivity|]. destruct i as [|c i]; [discriminate H|]. destruct (Nat.ltb_spec 100 (length (c :: i))); [discriminate H|]. split; [cbn [length] in *; lia|]. rewrite forallb_forall in H. intros x J. specialize (H x J). cbn beta in H. destruct (N.ltb_spec x 32); [discriminate H|]. destruct (N.ltb_spec 126 x); [discriminate H|]. lia.
  - intros (s & E & L & H). injection E as <-. destruct i as [|c i]; [cbn [length] in L; lia|]. destruct (Nat.ltb_spec 100 (length (c :: i))); [lia|]. apply forallb_forall. intros x J. specialize (H x J). destruct (N.ltb_spec x 32); [lia|]. destruct (N.ltb_spec 126 x); [lia|]. reflexivity.
Qed.

(** ** points *)
Definition pointOfV (format : Z) (m : mpoint) : gpoint := mkPoint (Some (mx m, my m)) (mtype m) (msmooth m) (mname m) (if (format =? 1)%Z then None else Some (mid m)).
Definition allowedV (format : Z) : list str := if (format =? 1)%Z then pointAttributes1 else pointAttributes2.
Lemma allowed_attrs format e : forallb (fun a => mem a (allowedV format)) (map fst (eattrib e)) = true <-> onlyAttrs (pointAttrs format) e.
Proof.
  rewrite <- only_attrs. unfold allowedV, pointAttrs. destruct (format =? 1)%Z; [reflexivity|]. rewrite !forallb_forall.
  assert (X : forall a, mem a pointAttributes2 = mem a (map u ["x"; "y"; "type"; "smooth"; "name"; "identifier"])).
  { intro a. apply eq_true_iff_eq. rewrite !mem_In. unfold pointAttributes2, pointAttributes1. cbn [In map]. tauto. }
  split; intros H a J; specialize (H a J); [rewrite <- X|rewrite X]; exact H.
Qed.
Lemma massagePoint_is format i e p :
  (exists m, massagePoint T true (allowedV format) i e = Ok m /\ p = pointOfV format m /\ mid m = attrAt "identifier" e) <->
  pointIs T format e p /\ (psmooth p = true -> ptype p <> None) /\ (ptype p = Some (u "move") -> i = 0).
Proof.
  unfold massagePoint, pointIs. cbn [negb orb andb]. rewrite <- allowed_attrs.
  destruct (eqb_spec (etag e) (u "point")) as [Et|Et]; [|split; [intros (m & H & _); discriminate H|tauto]].
  destruct (forallb _ _); [|split; [intros (m & H & _); discriminate H|intros ((_ & H & _) & _); discriminate H]].
  destruct (Nat.eqb (length (echildren e)) 0) eqn:Ec; [|split; [intros (m & H & _); discriminate H|intros ((_ & _ & H & _) & _); apply no_children in H; congruence]].
  apply no_children in Ec.
  assert (Hx : forall k v, numberAt T k e v -> has (u k) (eattrib e) = true).
  { intros k v (s & E & _). unfold has. unfold attrAt in E. rewrite E. reflexivity. }
  split.
  - intros (m & H & -> & Em). destruct (has (u "x") _); [|discriminate H]. apply bind_Ok in H as (x & Ex & H). destruct (has (u "y") _); [|discriminate H]. apply bind_Ok in H as (y & Ey & H).
    apply number_at in Ex, Ey. change (get (u "type") (eattrib e)) with (attrAt "type" e) in *. unfold eget in H. fold (attrAt "type" e) in H. fold (attrAt "smooth" e) in H. fold (attrAt "name" e) in H. fold (attrAt "identifier" e) in H.
    destruct (mem (match attrAt "type" e with Some t => t | None => u "offcurve" end) pointTypeOptions) eqn:K; [|discriminate H]. apply known_mem in K.
    set (ty := match attrAt "type" e with Some t => t | None => u "offcurve" end) in *.
    set (sg := if eqb ty (u "offcurve") then None else Some ty) in *.
    destruct (eqb sg (Some sMove) && negb (Nat.eqb i 0)) eqn:M; [discriminate H|]. cbn [negb] in H.
    destruct (mem _ [u "no"; u "yes"]) eqn:S; [|discriminate H]. destruct (eqb _ (u "yes") && eqb sg None) eqn:N; [discriminate H|]. cbn [negb] in H. apply Ok_inj in H. subst m.
    unfold pointOfV. cbn [mx my mtype msmooth mname mid pc ptype psmooth pname pkw].
    split; [split; [exact Et|]; split; [reflexivity|]; split; [exact Ec|]; split; [exists x, y; auto|]; split; [|split; [|split; reflexivity]]|].
    + unfold sg, ty in *. destruct (attrAt "type" e) as [t|].
      * destruct (eqb_spec t (u "offcurve")) as [->|n]; [left; auto|right]. split; [|reflexivity]. destruct K as [K|[K|[K|[K|[K|K]]]]]; try contradiction; try discriminate K; injection K as ->; cbn [In]; auto.
      * rewrite eqb_refl. reflexivity.
    + destruct (attrAt "smooth" e) as [s|]; [|reflexivity]. apply mem_In in S. destruct S as [<-|[<-|[]]]; [left|right]; split; reflexivity.
    + split.
      * intros Y E. rewrite Y, E in N. discriminate N.
      * intro E. rewrite E in M. change (Some sMove) with (Some (u "move")) in M. rewrite eqb_refl in M. destruct (Nat.eqb_spec i 0); [assumption|discriminate M].
  - intros ((_ & _ & _ & (x & y & Nx & Ny & Ep) & Ht & Hs & Hn & Hk) & Sm & Mv).
    rewrite (Hx "x" x Nx), (Hx "y" y Ny). apply number_at in Nx, Ny. rewrite Nx, Ny. cbn [bind]. unfold eget. fold (attrAt "type" e) (attrAt "smooth" e) (attrAt "name" e) (attrAt "identifier" e).
    set (ty := match attrAt "type" e with Some t => t | None => u "offcurve" end) in *.
    set (sg := if eqb ty (u "offcurve") then None else Some ty) in *.
    assert (K : mem ty pointTypeOptions = true /\ sg = ptype p).
    { unfold sg, ty. destruct (attrAt "type" e) as [t|]; [|rewrite Ht; split; reflexivity]. destruct Ht as [[-> ->]|[J ->]]; [split; reflexivity|]. destruct J as [<-|[<-|[<-|[<-|[]]]]]; split; reflexivity. }
    destruct K as [-> K]. rewrite K.
    assert (M : eqb (ptype p) (Some sMove) && negb (Nat.eqb i 0) = false).
    { destruct (eqb_spec (ptype p) (Some sMove)) as [E|E]; [|reflexivity]. rewrite (Mv E). reflexivity. }
    rewrite M. cbn [negb].
    assert (S : mem (match attrAt "smooth" e with Some s => s | None => u "no" end) [u "no"; u "yes"] = true /\ eqb (match attrAt "smooth" e with Some s => s | None => u "no" end) (u "yes") = psmooth p).
    { destruct (attrAt "smooth" e) as [s|]; [|rewrite Hs; split; reflexivity]. destruct Hs as [[-> ->]|[-> ->]]; split; reflexivity. }
    destruct S as [-> ->].
    assert (N : psmooth p && eqb (ptype p) None = false).
    { destruct (psmooth p); [|reflexivity]. destruct (eqb_spec (ptype p) None) as [E|]; [destruct (Sm eq_refl E)|reflexivity]. }
    rewrite N. cbn [negb]. eexists. split; [reflexivity|]. split; [|reflexivity]. unfold pointOfV. cbn [mx my mtype msmooth mname mid]. destruct p as [c t s n k]. cbn [pc ptype psmooth pname pkw] in *. subst. f_equal. 
Qed.
Definition onlySmooth (pts : list gpoint) : Prop := forall p, In p pts -> psmooth p = true -> ptype p <> None.
Lemma massageLoop_is format l : forall i pts,
  (exists ms, massageLoop T true (allowedV format) i l = Ok ms /\ pts = map (pointOfV format) ms /\ map mid ms = map (attrAt "identifier") l) <->
  Forall2 (pointIs T format) l pts /\ onlySmooth pts /\ movesOk (Nat.eqb i 0) (map ptype pts).
Proof.
  induction l as [|e l IH]; intros i pts; cbn [massageLoop].
  - split.
    + intros (ms & H & -> & _). injection H as <-. split; [constructor|]. split; [intros p []|exact I].
    + intros (F & _). inversion F; subst. exists []. auto.
  - split.
    + intros (ms & H & -> & E). apply bind_Ok in H as (m & Hm & H). apply bind_Ok in H as (t & Ht & H). apply Ok_inj in H. subst ms. cbn [map] in E |- *. injection E as E1 E2.
      destruct (proj1 (massagePoint_is format i e (pointOfV format m))) as (P & Sm & M); [eauto|].
      destruct (proj1 (IH (S i) (map (pointOfV format) t))) as (F & S' & M'); [eauto|].
      split; [constructor; assumption|]. split; [intros p [<-|J]; [exact Sm|apply S'; exact J]|].
      apply movesOk_cons. split; [split; [|constructor]|exact M']. intros Ei E. apply Nat.eqb_neq in Ei. apply Ei, M, E.
    + intros (F & Sm & M). inversion F as [|? p ? r P F']; subst. cbn [map] in M. apply movesOk_cons in M as [M1 M2].
      destruct (proj2 (massagePoint_is format i e p)) as (m & Hm & -> & Em).
      { split; [exact P|]. split; [apply Sm; left; reflexivity|]. intro E. destruct M1 as [M1 _]. destruct (Nat.eqb_spec i 0) as [->|N]; [reflexivity|]. destruct (M1 eq_refl E). }
      destruct (proj2 (IH (S i) r)) as (ms & Hs & -> & Es).
      { split; [exact F'|]. split; [intros q J; apply Sm; right; exact J|exact M2]. }
      exists (m :: ms). rewrite Hm. cbn [bind]. rewrite Hs. cbn [bind map]. split; [reflexivity|]. split; [reflexivity|]. rewrite Em, Es. reflexivity.
Qed.
Lemma known_types format l pts : Forall2 (pointIs T format) l pts -> forall p, In p pts -> ptypeOf p = ptype p /\ In (ptype p) [None; Some (u "move"); Some (u "line"); Some (u "curve"); Some (u "qcurve")].
Proof.
  intros F. induction F as [|e p l pts P F IH]; intros q J; [destruct J|]. destruct J as [<-|J]; [|apply IH; exact J]. destruct P as (_ & _ & _ & _ & P & _).
  unfold ptypeOf. destruct (attrAt "type" e) as [t|]; [|rewrite P; split; [reflexivity|left; reflexivity]]. destruct P as [[_ ->]|[J ->]]; [split; [reflexivity|left; reflexivity]|].
  destruct J as [<-|[<-|[<-|[<-|[]]]]]; (split; [reflexivity|cbn [In]; auto 6]).
Qed.
Lemma goodContour_is pts : (forall p, In p pts -> ptypeOf p = ptype p /\ In (ptype p) [None; Some (u "move"); Some (u "line"); Some (u "curve"); Some (u "qcurve")]) ->
  (goodContour pts <-> onlySmooth pts /\ movesOk true (map ptype pts) /\ offsOk (endCount 0 (map ptype pts)) (map ptype pts)).
Proof.
  intro K. assert (E : map ptypeOf pts = map ptype pts) by (apply map_ext_in; intros p J; apply (K p J)).
  unfold goodContour. rewrite E, <- moves_iff, <- offsOk_twice, offsOk_spec. split.
  - intros (A & B & C). split; [|split; assumption]. intros p J. rewrite <- (proj1 (K p J)). apply (A p J).
  - intros (A & B & C). split; [|split; assumption]. intros p J. destruct (K p J) as [K1 K2]. rewrite K1. split; [exact K2|apply A; exact J].
Qed.

(** ** contours and components *)
Lemma mapM_iff {A B} (f : A -> res B) l : forall m, mapM f l = Ok m <-> Forall2 (fun x y => f x = Ok y) l m.
Proof.
  induction l as [|a l IH]; intro m; cbn [mapM].
  - split; [intro H; injection H as <-; constructor|intro H; inversion H; reflexivity].
  - split.
    + intro H. apply bind_Ok in H as (b & Hb & H). apply bind_Ok in H as (t & Ht & H). injection H as <-. constructor; [exact Hb|apply IH; exact Ht].
    + intro H. inversion H as [|? b ? t Hb Ht]; subst. rewrite Hb. cbn [bind]. apply IH in Ht. rewrite Ht. reflexivity.
Qed.
Lemma transformation_is e tr : readTransformation T e = Ok tr <-> Forall2 (fun kd v => numberOrIs T (snd kd) (fst kd) e v) transformationDefaults tr.
Proof.
  unfold readTransformation. rewrite mapM_iff. change transformationInfo with (map (fun kd : string * Z => (u (fst kd), snd kd)) transformationDefaults).
  generalize transformationDefaults. intro l. revert tr. induction l as [|[k d] l IH]; intro tr; cbn [map].
  - split; intro H; inversion H; constructor.
  - split; intro H; inversion H as [|? v ? r P F]; subst; (constructor; [apply numberOr_is; exact P|apply IH; exact F]).
Qed.
Lemma massage2_is e pts :
  (exists ms, match echildren e with [] => Ok [] | _ => massage T true pointAttributes2 false e end = Ok ms /\ pts = map (pointOfV 2) ms) <->
  Forall2 (pointIs T 2) (echildren e) pts /\ goodContour pts.
Proof.
  assert (X : forall ms, match echildren e with [] => Ok [] | _ => massage T true pointAttributes2 false e end = Ok ms <->
    massageLoop T true (allowedV 2) 0 (echildren e) = Ok ms /\ offsOk (endCount 0 (map mtype ms)) (map mtype ms)).
  { intro ms. assert (M := massage_iff T pointAttributes2 false e ms). destruct (echildren e) as [|c l] eqn:Ec.
    - cbn [massageLoop]. split; [intro H; injection H as <-; split; [reflexivity|exact I]|intros [H _]; exact H].
    - rewrite M. split; [intros (all & A & -> & B); auto|intros [A B]; exists ms; auto]. }
  assert (Et : forall ms, map ptype (map (pointOfV 2) ms) = map mtype ms) by (intro ms; rewrite map_map; reflexivity).
  split.
  - intros (ms & H & ->). apply X in H as [H O].
    assert (Mi : map mid ms = map (attrAt "identifier") (echildren e)).
    { clear O X. revert ms H. generalize 0. induction (echildren e) as [|c l IH]; intros i ms H; cbn [massageLoop] in H; [injection H as <-; reflexivity|].
      apply bind_Ok in H as (m & Hm & H). apply bind_Ok in H as (t & Ht & H). injection H as <-. cbn [map]. rewrite (IH _ _ Ht). f_equal.
      unfold massagePoint in Hm. repeat match type of Hm with (if ?b then _ else _) = _ => destruct b; [|discriminate Hm] | bind _ _ = _ => apply bind_Ok in Hm as (? & _ & Hm) end. cbn beta zeta in Hm.
      repeat match type of Hm with (if ?b then _ else _) = _ => destruct b; [|discriminate Hm] | bind _ _ = _ => apply bind_Ok in Hm as (? & _ & Hm) end. apply Ok_inj in Hm. subst m. reflexivity. }
    destruct (proj1 (massageLoop_is 2 (echildren e) 0 (map (pointOfV 2) ms))) as (F & Sm & M); [eauto|]. split; [exact F|]. apply goodContour_is; [exact (known_types _ _ _ F)|]. split; [exact Sm|]. split; [exact M|]. rewrite Et. exact O.
  - intros (F & G). apply goodContour_is in G as (Sm & M & O); [|exact (known_types _ _ _ F)].
    destruct (proj2 (massageLoop_is 2 (echildren e) 0 pts)) as (ms & H & -> & _); [auto|]. exists ms. split; [|reflexivity]. apply X. split; [exact H|]. rewrite Et in O. exact O.
Qed.
Lemma identifier_attr e : forallb (fun a => eqb a (u "identifier")) (map fst (eattrib e)) = true <-> onlyAttrs ["identifier"] e.
Proof.
  rewrite <- only_attrs, !forallb_forall. assert (X : forall a, eqb a (u "identifier") = mem a (map u ["identifier"])).
  { intro a. apply eq_true_iff_eq. rewrite mem_In, eqb_eq. cbn [map In]. split; [intros ->; left; reflexivity|intros [E|[]]; symmetry; exact E]. }
  split; intros H a J; specialize (H a J); [rewrite <- X|rewrite X]; exact H.
Qed.
Lemma idsSeq_none l ids ids' : idsSeq (None :: l) ids ids' <-> idsSeq l ids ids'.
Proof. reflexivity. Qed.
Lemma contour2_is e ids cs ids' : etag e = u "contour" -> (contour2 T true e ids = Ok (cs, ids') <-> contour2Is T e (cs, []) /\ idsSeq (map callId cs) ids ids').
Proof.
  intro Et. unfold contour2, contour2Is. cbn [negb orb]. rewrite <- identifier_attr. destruct (forallb _ _); [|split; [discriminate|intros ((_ & H & _) & _); discriminate H]].
  split.
  - intro H. apply bind_Ok in H as (ids1 & H1 & H). apply bind_Ok in H as (ms & H2 & H). apply bind_Ok in H as ((cs1 & ids2) & H3 & H). injection H as <- <-.
    destruct (proj1 (massage2_is e (map (pointOfV 2) ms))) as (F & G); [eauto|]. apply readIdentifier_iff in H1. apply points2_iff in H3 as [H3 ->]. split.
    + split; [exact Et|]. split; [reflexivity|]. exists (map (pointOfV 2) ms). split; [exact F|]. split; [exact G|]. rewrite map_map. reflexivity.
    + cbn [map callId theId]. apply idsSeq_cons. exists ids1. split; [exact H1|]. rewrite map_app, map_map. cbn [map callId]. apply idsSeq_app. exists ids2. split; [exact H3|]. reflexivity.
  - intros ((_ & _ & pts & F & G & E) & H). injection E as ->. cbn [map callId theId] in H. apply idsSeq_cons in H as (ids1 & H1 & H). rewrite map_app, map_map in H. apply idsSeq_app in H as (ids2 & H2 & H).
    cbn [map callId idsSeq] in H. subst ids2. destruct (proj2 (massage2_is e pts)) as (ms & M & ->); [auto|].
    apply readIdentifier_iff in H1. change (eget (u "identifier") e) with (attrAt "identifier" e). rewrite H1. cbn [bind]. rewrite M. cbn [bind].
    rewrite map_map in H2. assert (P := proj2 (points2_iff ms ids1 (map (fun m => PAdd (pointOf m)) ms) ids') (conj H2 eq_refl)). rewrite P. cbn [bind]. rewrite map_map. reflexivity.
Qed.
Lemma component_attrs format e : (format = 1 \/ format = 2)%Z ->
  (forallb (fun a => mem a (if (format =? 1)%Z then componentAttributes1 else componentAttributes2)) (map fst (eattrib e)) = true <->
   onlyAttrs ((if (format =? 1)%Z then [] else ["identifier"]) ++ "base" :: map fst transformationDefaults) e).
Proof. intros [-> | ->]; rewrite <- only_attrs; reflexivity. Qed.
Lemma component2_is e ids cs ids' : etag e = u "component" -> (component2 T true e ids = Ok (cs, ids') <-> componentIs T 2 e (cs, []) /\ idsSeq (map callId cs) ids ids').
Proof.
  intro Et. unfold component2, componentIs. cbn [negb orb]. rewrite <- (component_attrs 2) by auto. change (if (2 =? 1)%Z then componentAttributes1 else componentAttributes2) with componentAttributes2.
  destruct (Nat.eqb (length (echildren e)) 0) eqn:Ec; [apply no_children in Ec|split; [discriminate|intros ((_ & H & _) & _); apply no_children in H; congruence]].
  destruct (forallb _ _); [|split; [discriminate|intros ((_ & _ & H & _) & _); discriminate H]]. unfold has. change (eget (u "base") e) with (attrAt "base" e). change (eget (u "identifier") e) with (attrAt "identifier" e). fold (attrAt "base" e).
  destruct (attrAt "base" e) as [b|]; [|split; [discriminate|intros ((_ & _ & _ & b & tr & H & _) & _); discriminate H]]. split.
  - intro H. apply bind_Ok in H as (tr & Ht & H). apply bind_Ok in H as (ids1 & H1 & H). injection H as <- <-. apply transformation_is in Ht. apply readIdentifier_iff in H1. split; [|exact H1].
    split; [exact Et|]. split; [exact Ec|]. split; [reflexivity|]. exists b, tr. auto.
  - intros ((_ & _ & _ & b' & tr & E & Ht & Ep) & H). injection E as <-. injection Ep as ->. apply transformation_is in Ht. rewrite Ht. cbn [bind]. cbn [map callId theId] in H. apply readIdentifier_iff in H. rewrite H. reflexivity.
Qed.
Lemma outline2_is l : forall ids cs ids', outlineLoop2 T true l ids = Ok (cs, ids') <->
  exists parts, Forall2 (partIs T 2) l parts /\ cs = concat (map fst parts) /\ concat (map snd parts) = [] /\ idsSeq (map callId cs) ids ids'.
Proof.
  assert (One : forall e ids cs ids', (if eqb (etag e) (u "contour") then contour2 T true e ids else if eqb (etag e) (u "component") then component2 T true e ids else Err GlifLibError) = Ok (cs, ids') <->
    partIs T 2 e (cs, []) /\ idsSeq (map callId cs) ids ids').
  { intros e ids cs ids'. unfold partIs. change (2 =? 1)%Z with false. cbn iota. destruct (eqb_spec (etag e) (u "contour")) as [E|N].
    - rewrite contour2_is by exact E. split; [tauto|]. intros [[H|H] K]; [|auto]. destruct H as [H _]. rewrite E in H. discriminate H.
    - destruct (eqb_spec (etag e) (u "component")) as [E|N'].
      + rewrite component2_is by exact E. split; [tauto|]. intros [[H|H] K]; [auto|]. destruct H as [H _]. contradiction.
      + split; [discriminate|]. intros [[[H _]|[H _]] _]; contradiction. }
  assert (Nil : forall e p, partIs T 2 e p -> p = (fst p, [])).
  { intros e p [(_ & _ & _ & b & tr & _ & _ & ->)|(_ & _ & pts & _ & _ & ->)]; reflexivity. }
  induction l as [|e l IH]; intros ids cs ids'; cbn [outlineLoop2].
  - split.
    + intro H. injection H as <- <-. exists []. split; [constructor|]. repeat split.
    + intros (parts & F & -> & _ & H). inversion F; subst. cbn in H. subst ids'. reflexivity.
  - split.
    + intro H. apply bind_Ok in H as ((c1 & ids1) & H1 & H). apply bind_Ok in H as ((c2 & ids2) & H2 & H). injection H as <- <-. apply One in H1 as [P1 S1]. apply IH in H2 as (parts & F & -> & E & S2).
      exists ((c1, []) :: parts). split; [constructor; assumption|]. split; [reflexivity|]. split; [exact E|]. rewrite map_app. apply idsSeq_app. eauto.
    + intros (parts & F & -> & E & S). inversion F as [|? p ? r P1 F']; subst. destruct p as [c1 a1]. assert (X := Nil _ _ P1). injection X as ->. cbn [map fst snd concat app] in *. rewrite map_app in S. apply idsSeq_app in S as (ids1 & S1 & S2).
      rewrite (proj2 (One e ids c1 ids1)) by (split; assumption). cbn [bind]. rewrite (proj2 (IH ids1 (concat (map fst r)) ids')) by eauto. reflexivity.
Qed.

(** ** format 1 *)
Lemma trimmed_unique all p q : trimmed all p -> trimmed all q -> p = q.
Proof.
  intros [A1 A2] [B1 B2]. assert (D : (exists x r, all = x :: r /\ ptype x = Some (u "move")) \/ forall x r, all = x :: r -> ptype x <> Some (u "move")).
  { destruct all as [|x r]; [right; discriminate|]. destruct (eqb_spec (ptype x) (Some (u "move"))); [left; eauto|]. right. intros ? ? E. injection E as <- <-. assumption. }
  destruct D as [(x & r & E & M)|D]; [|rewrite (A2 D), (B2 D); reflexivity].
  destruct (A1 x r E M) as (o1 & E1 & N1 & L1). destruct (B1 x r E M) as (o2 & E2 & N2 & L2). rewrite E1 in E2.
  assert (K : forall (p q o1 o2 : list gpoint), p ++ o1 = q ++ o2 -> (forall x, In x o2 -> ptype x = None) -> (forall a x, p = a ++ [x] -> ptype x <> None) -> length p <= length q).
  { clear. intros p q o1 o2 E N L. destruct (le_lt_dec (length p) (length q)) as [|G]; [assumption|exfalso].
    assert (F : firstn (length q) p = q). { assert (X := f_equal (firstn (length q)) E). rewrite firstn_app, (firstn_app (length q) q o2) in X. replace (length q - length p) with 0 in X by lia. rewrite firstn_O, app_nil_r, Nat.sub_diag, firstn_O, app_nil_r, (firstn_all q) in X. exact X. }
    assert (P : p = q ++ skipn (length q) p) by (rewrite <- F at 1; symmetry; apply firstn_skipn). destruct (exists_last (l := skipn (length q) p)) as (a & x & Ex).
    { intro Z. apply (f_equal (@length gpoint)) in P. rewrite Z, app_length in P. cbn in P. lia. }
    rewrite Ex in P. apply (L (q ++ a) x); [rewrite P, app_assoc; reflexivity|]. apply N. rewrite P, <- app_assoc in E. apply app_inv_head in E. rewrite <- E. apply in_or_app. left. apply in_or_app. right. left. reflexivity. }
  assert (Lp : length p = length q) by (apply Nat.le_antisymm; eapply K; [exact E2|exact N2|exact L1|symmetry; exact E2|exact N1|exact L2]).
  assert (X := f_equal (firstn (length p)) E2). rewrite firstn_app, Nat.sub_diag, firstn_O, app_nil_r, firstn_all in X. rewrite Lp, firstn_app, Nat.sub_diag, firstn_O, app_nil_r, firstn_all in X. exact X.
Qed.
Lemma existsb_none l : existsb on l = false -> forall m, In m l -> mtype m = None.
Proof.
  intros H m J. destruct (mtype m) eqn:E; [|reflexivity]. assert (X : existsb on l = true) by (apply existsb_exists; exists m; split; [exact J|unfold on; rewrite E; reflexivity]). congruence.
Qed.
Lemma leniency_trimmed format ms : trimmed (map (pointOfV format) ms) (map (pointOfV format) (leniency ms)).
Proof.
  destruct ms as [|m ms].
  - split; [discriminate|]. intros _. reflexivity.
  - unfold leniency. destruct (eqb_spec (mtype m) (Some sMove)) as [E|N].
    + split.
      * intros p r _ _. destruct (dropOffs_spec (rev (m :: ms))) as (offs & A & B & C). exists (map (pointOfV format) (rev offs)).
        assert (R : m :: ms = rev (dropOffs (rev (m :: ms))) ++ rev offs) by (rewrite <- rev_app_distr, <- A; symmetry; apply rev_involutive).
        split; [rewrite <- map_app, <- R; reflexivity|]. split.
        -- intros q J. apply in_map_iff in J as (x & <- & J). apply in_rev in J. exact (existsb_none _ B x J).
        -- intros a q Ea. destruct C as (x & r' & D & O). { apply existsb_exists. exists m. split; [apply in_rev; rewrite rev_involutive; left; reflexivity|unfold on; rewrite E; reflexivity]. }
           rewrite D in Ea. cbn [rev] in Ea. rewrite map_app in Ea. cbn [map] in Ea. apply app_inj_tail in Ea as [_ <-]. cbn [pointOfV ptype]. unfold on in O. destruct (mtype x); [discriminate|discriminate O].
      * intro H. destruct (H _ _ eq_refl). exact E.
    + split; [intros p r Ep M; injection Ep as <- _; contradiction|reflexivity].
Qed.
Lemma trimmed_move all pts : trimmed all pts -> (forall p, In p all -> ptypeOf p = ptype p) -> movesOk true (map ptype pts) -> movesOk true (map ptype all).
Proof.
  intros [A B] _ M. destruct all as [|x r]; [exact I|]. destruct (eqb_spec (ptype x) (Some (u "move"))) as [E|N].
  - destruct (A x r eq_refl E) as (offs & Ea & No & _). rewrite Ea, map_app. destruct pts as [|p pts].
    + cbn [app map]. cbn [app] in Ea. rewrite <- Ea in No. rewrite (No x) in E by (left; reflexivity). discriminate E.
    + cbn [map app movesOk] in *. split; [discriminate|]. destruct M as [_ M]. unfold noMoves in *. apply Forall_app. split; [exact M|]. apply Forall_forall. intros t J. apply in_map_iff in J as (q & <- & J). rewrite (No q J). discriminate.
  - rewrite <- B; [exact M|]. intros ? ? Z. injection Z as <- <-. exact N.
Qed.
Lemma trimmed_prefix all pts : trimmed all pts -> exists offs, all = pts ++ offs.
Proof.
  intros [A B]. destruct all as [|x r]; [exists []; rewrite B by discriminate; reflexivity|]. destruct (eqb_spec (ptype x) (Some (u "move"))) as [E|N].
  - destruct (A x r eq_refl E) as (offs & Ea & _). eauto.
  - exists []. rewrite B; [rewrite app_nil_r; reflexivity|]. intros ? ? Z. injection Z as <- <-. exact N.
Qed.
Lemma massage_mids v al l : forall i ms, massageLoop T v al i l = Ok ms -> map mid ms = map (attrAt "identifier") l.
Proof.
  induction l as [|c l IH]; intros i ms H; cbn [massageLoop] in H; [injection H as <-; reflexivity|].
  apply bind_Ok in H as (m & Hm & H). apply bind_Ok in H as (t & Ht & H). injection H as <-. cbn [map]. rewrite (IH _ _ Ht). f_equal.
  unfold massagePoint in Hm. repeat match type of Hm with (if ?b then _ else _) = _ => destruct b; [|discriminate Hm] | bind _ _ = _ => apply bind_Ok in Hm as (? & _ & Hm) end. cbn beta zeta in Hm.
  repeat match type of Hm with (if ?b then _ else _) = _ => destruct b; [|discriminate Hm] | bind _ _ = _ => apply bind_Ok in Hm as (? & _ & Hm) end. apply Ok_inj in Hm. subst m. reflexivity.
Qed.
Lemma massage1_is e pts :
  (exists ms, match echildren e with [] => Ok [] | _ => massage T true pointAttributes1 true e end = Ok ms /\ pts = map (pointOfV 1) ms) <->
  exists all, Forall2 (pointIs T 1) (echildren e) all /\ onlySmooth all /\ trimmed all pts /\ goodContour pts.
Proof.
  assert (X : forall ms, match echildren e with [] => Ok [] | _ => massage T true pointAttributes1 true e end = Ok ms <->
    exists all, massageLoop T true (allowedV 1) 0 (echildren e) = Ok all /\ ms = leniency all /\ offsOk (endCount 0 (map mtype ms)) (map mtype ms)).
  { intro ms. assert (M := massage_iff T pointAttributes1 true e ms). destruct (echildren e) as [|c l] eqn:Ec.
    - cbn [massageLoop]. split; [intro H; injection H as <-; exists []; split; [reflexivity|]; split; [reflexivity|exact I]|intros (all & H & -> & _); injection H as <-; reflexivity].
    - rewrite M. reflexivity. }
  assert (Et : forall ms, map ptype (map (pointOfV 1) ms) = map mtype ms) by (intro ms; rewrite map_map; reflexivity).
  split.
  - intros (ms & H & ->). apply X in H as (all & H & -> & O). assert (Mi := massage_mids _ _ _ _ _ H).
    destruct (proj1 (massageLoop_is 1 (echildren e) 0 (map (pointOfV 1) all))) as (F & Sm & M); [eauto|]. exists (map (pointOfV 1) all). split; [exact F|]. split; [exact Sm|].
    assert (Tr := leniency_trimmed 1 all). split; [exact Tr|]. destruct (trimmed_prefix _ _ Tr) as (offs & Eo).
    assert (Sub : forall p, In p (map (pointOfV 1) (leniency all)) -> In p (map (pointOfV 1) all)) by (intros p J; rewrite Eo; apply in_or_app; left; exact J).
    apply goodContour_is; [intros p J; exact (known_types _ _ _ F p (Sub p J))|]. split; [intros p J; apply Sm, Sub, J|]. split; [|rewrite Et; exact O].
    rewrite Eo, map_app in M. apply GlifAccepted.movesOk_prefix in M. exact M.
  - intros (all & F & Sm & Tr & G). destruct (trimmed_prefix _ _ Tr) as (offs & Eo).
    apply goodContour_is in G as (_ & M & O); [|intros p J; apply (known_types _ _ _ F); rewrite Eo; apply in_or_app; left; exact J].
    destruct (proj2 (massageLoop_is 1 (echildren e) 0 all)) as (ms & H & -> & _).
    { split; [exact F|]. split; [exact Sm|]. eapply trimmed_move; [exact Tr|intros p J; apply (known_types _ _ _ F p J)|exact M]. }
    assert (Ep := trimmed_unique _ _ _ Tr (leniency_trimmed 1 ms)). exists (leniency ms). split; [|exact Ep]. apply X. exists ms. split; [exact H|]. split; [reflexivity|]. rewrite Ep, Et in O. exact O.
Qed.
Lemma contour1_is e cs : etag e = u "contour" -> (~ exists p name, anchorContour e p name) -> (contour1 T true e = Ok cs <-> contour1Is T e (cs, [])).
Proof.
  intros Et Na. unfold contour1, contour1Is. cbn [negb orb]. destruct (Nat.eqb (length (eattrib e)) 0) eqn:Ea; [apply no_children in Ea|split; [discriminate|intros (_ & _ & H & _); apply no_children in H; congruence]].
  split.
  - intro H. apply bind_Ok in H as (ms & H & E). injection E as <-. destruct (proj1 (massage1_is e (map (pointOfV 1) ms))) as (all & F & Sm & Tr & G); [eauto|].
    split; [exact Et|]. split; [exact Na|]. split; [exact Ea|]. exists all, (map (pointOfV 1) ms). split; [exact F|]. split; [exact Sm|]. split; [exact Tr|]. split; [exact G|]. rewrite map_map. reflexivity.
  - intros (_ & _ & _ & all & pts & F & Sm & Tr & G & E). injection E as ->. destruct (proj2 (massage1_is e pts)) as (ms & H & ->); [exists all; auto|]. rewrite H. cbn [bind]. rewrite map_map. reflexivity.
Qed.
Lemma component1_is e cs : etag e = u "component" -> (component1 T true e = Ok cs <-> componentIs T 1 e (cs, [])).
Proof.
  intro Et. unfold component1, componentIs. cbn [negb orb]. rewrite <- (component_attrs 1) by auto. change (if (1 =? 1)%Z then componentAttributes1 else componentAttributes2) with componentAttributes1.
  destruct (Nat.eqb (length (echildren e)) 0) eqn:Ec; [apply no_children in Ec|split; [discriminate|intros (_ & H & _); apply no_children in H; congruence]].
  destruct (forallb _ _); [|split; [discriminate|intros (_ & _ & H & _); discriminate H]]. unfold has. change (eget (u "base") e) with (attrAt "base" e). fold (attrAt "base" e).
  destruct (attrAt "base" e) as [b|]; [|split; [discriminate|intros (_ & _ & _ & b & tr & H & _); discriminate H]]. split.
  - intro H. apply bind_Ok in H as (tr & Ht & H). injection H as <-. apply transformation_is in Ht. split; [exact Et|]. split; [exact Ec|]. split; [reflexivity|]. exists b, tr. auto.
  - intros (_ & _ & _ & b' & tr & E & Ht & Ep). injection E as <-. injection Ep as ->. apply transformation_is in Ht. rewrite Ht. reflexivity.
Qed.
Lemma anchor1_is e : etag e = u "contour" ->
  let r := match echildren e with [p] => if eqb (etag p) (u "point") then buildAnchor1 T true p else Ok None | _ => Ok None end in
  (forall a, r = Ok (Some a) <-> anchor1Is T e ([], [a])) /\ (r = Ok None <-> ~ exists p name, anchorContour e p name).
Proof.
  intros Et. cbn zeta. unfold anchor1Is, anchorContour.
  assert (No : (forall p, echildren e <> [p]) \/ exists p, echildren e = [p]).
  { destruct (echildren e) as [|p [|]]; [left; discriminate|right; eauto|left; discriminate]. }
  destruct No as [No|(p & Ep)].
  - assert (E : match echildren e with [p] => if eqb (etag p) (u "point") then buildAnchor1 T true p else Ok None | _ => Ok None end = Ok None) by (destruct (echildren e) as [|p [|]]; try reflexivity; destruct (No p eq_refl)).
    rewrite E. split; [intro a; split; [discriminate|intros (_ & p & n & x & y & (H & _) & _); destruct (No p H)]|]. split; [intros _ (p & n & H & _); exact (No p H)|reflexivity].
  - rewrite Ep. destruct (eqb_spec (etag p) (u "point")) as [Tp|Tp].
    + unfold buildAnchor1. change (eget (u "type") p) with (attrAt "type" p). change (eget (u "name") p) with (attrAt "name" p). cbn [negb orb].
      destruct (eqb_spec (attrAt "type" p) (Some sMove)) as [Ty|Ty]; cbn [negb].
      * destruct (attrAt "name" p) as [n|] eqn:En.
        -- assert (Ex : exists p0 name, [p] = [p0] /\ etag p0 = u "point" /\ attrAt "type" p0 = Some (u "move") /\ attrAt "name" p0 = Some name) by (exists p, n; auto). split.
           ++ intro a. split.
              ** intro H. destruct (has (u "x") _); [|discriminate H]. destruct (has (u "y") _); [|discriminate H]. apply bind_Ok in H as (x & Hx & H). apply bind_Ok in H as (y & Hy & H). injection H as <-. apply number_at in Hx, Hy.
                 split; [exact Et|]. exists p, n, x, y. auto 8.
              ** intros (_ & q & n' & x & y & (Eq & _ & _ & En') & Hx & Hy & H). injection Eq as <-. rewrite En in En'. injection En' as <-. injection H as ->.
                 destruct Hx as (sx & Ax & Nx). destruct Hy as (sy & Ay & Ny). unfold has, eget. unfold attrAt in Ax, Ay. rewrite Ax, Ay. apply number_is in Nx, Ny. rewrite Nx. cbn [bind]. rewrite Ny. reflexivity.
           ++ split; [|intro H; destruct (H Ex)]. intro H. exfalso. destruct (has (u "x") _); [|discriminate H]. destruct (has (u "y") _); [|discriminate H]. apply bind_Ok in H as (x & Hx & H). apply bind_Ok in H as (y & Hy & H). discriminate H.
        -- split; [intro a; split; [discriminate|intros (_ & q & n & x & y & (Eq & _ & _ & Hn) & _); injection Eq as <-; congruence]|]. split; [intros _ (q & n & Eq & _ & _ & Hn); injection Eq as <-; congruence|reflexivity].
      * split; [intro a; split; [discriminate|intros (_ & q & n & x & y & (Eq & _ & Hn & _) & _); injection Eq as <-; contradiction]|]. split; [intros _ (q & n & Eq & _ & Hn & _); injection Eq as <-; contradiction|reflexivity].
    + split; [intro a; split; [discriminate|intros (_ & q & n & x & y & (Eq & Hn & _) & _); injection Eq as <-; contradiction]|]. split; [intros _ (q & n & Eq & Hn & _); injection Eq as <-; contradiction|reflexivity].
Qed.
Lemma outline1_is l : forall anchors calls, outlineLoop1 T true true l = Ok (anchors, calls) <->
  exists parts, Forall2 (partIs T 1) l parts /\ calls = concat (map fst parts) /\ anchors = concat (map snd parts).
Proof.
  induction l as [|e l IH]; intros anchors calls; cbn [outlineLoop1].
  - split; [intro H; injection H as <- <-; exists []; split; [constructor|split; reflexivity]|]. intros (parts & F & -> & ->). inversion F; subst. reflexivity.
  - unfold partIs at 1. change (1 =? 1)%Z with true. cbn iota.
    destruct (eqb_spec (etag e) (u "contour")) as [Et|Nt].
    + destruct (anchor1_is e Et) as [A1 A2]. set (r := match echildren e with [p] => if eqb (etag p) (u "point") then buildAnchor1 T true p else Ok None | _ => Ok None end) in *. split.
      * intro H. apply bind_Ok in H as ([a|] & Ha & H).
        -- apply A1 in Ha. apply bind_Ok in H as ((an & cs) & H1 & H). injection H as <- <-. apply IH in H1 as (parts & F & -> & ->). exists (([], [a]) :: parts). split; [constructor; [right; left; exact Ha|exact F]|]. split; reflexivity.
        -- apply A2 in Ha. apply bind_Ok in H as (cs & Hc & H). apply bind_Ok in H as ((an & cs') & H1 & H). injection H as <- <-. apply IH in H1 as (parts & F & -> & ->). apply (contour1_is e cs Et Ha) in Hc.
           exists ((cs, []) :: parts). split; [constructor; [right; right; exact Hc|exact F]|]. split; reflexivity.
      * intros (parts & F & -> & ->). inversion F as [|? p ? rr P F']; subst. destruct P as [P|[P|P]].
        -- destruct P as [P _]. rewrite Et in P. discriminate P.
        -- destruct P as (X & q & n & x & y & Y & Nx & Ny & ->). assert (Ha : r = Ok (Some (PDict [(PStr (u "x"), x); (PStr (u "y"), y); (PStr (u "name"), PStr n)]))) by (apply A1; split; [exact X|]; exists q, n, x, y; auto).
           rewrite Ha. cbn [bind]. rewrite (proj2 (IH _ _) (ex_intro _ rr (conj F' (conj eq_refl eq_refl)))). reflexivity.
        -- assert (Na : ~ exists p name, anchorContour e p name) by apply P. assert (Ep : p = (fst p, [])) by (destruct P as (_ & _ & _ & ? & ? & _ & _ & _ & _ & ->); reflexivity). destruct p as [c0 a0]. cbn [fst] in Ep. injection Ep as ->. apply (contour1_is e c0 Et Na) in P.
           rewrite (proj2 A2 Na). cbn [bind]. rewrite P. cbn [bind]. rewrite (proj2 (IH _ _) (ex_intro _ rr (conj F' (conj eq_refl eq_refl)))). reflexivity.
    + destruct (eqb_spec (etag e) (u "component")) as [Et|Nc].
      * split.
        -- intro H. apply bind_Ok in H as (cs & Hc & H). apply bind_Ok in H as ((an & cs') & H1 & H). injection H as <- <-. apply IH in H1 as (parts & F & -> & ->). apply (component1_is e cs Et) in Hc. exists ((cs, []) :: parts). split; [constructor; [left; exact Hc|exact F]|]. split; reflexivity.
        -- intros (parts & F & -> & ->). inversion F as [|? p ? rr P F']; subst. destruct P as [P|[P|P]]; [|destruct P as [P _]; contradiction|destruct P as [P _]; contradiction].
           assert (Ep : p = (fst p, [])) by (destruct P as (_ & _ & _ & ? & ? & _ & _ & ->); reflexivity). destruct p as [c0 a0]. cbn [fst] in Ep. injection Ep as ->. apply (component1_is e c0 Et) in P. rewrite P. cbn [bind]. rewrite (proj2 (IH _ _) (ex_intro _ rr (conj F' (conj eq_refl eq_refl)))). reflexivity.
      * split; [discriminate|]. intros (parts & F & _). inversion F as [|? p ? rr P F']; subst. destruct P as [[P _]|[[P _]|[P _]]]; contradiction.
Qed.
Lemma part1_ids e p : partIs T 1 e p -> callIds (fst p) = [].
Proof.
  intros [P|[P|P]].
  - destruct P as (_ & _ & _ & b & tr & _ & _ & ->). reflexivity.
  - destruct P as (_ & q & n & x & y & _ & _ & _ & ->). reflexivity.
  - destruct P as (_ & _ & _ & all & pts & F & _ & Tr & _ & ->). destruct (trimmed_prefix _ _ Tr) as (offs & ->). cbn [fst]. unfold callIds. cbn [map callId theId]. rewrite map_app, map_map. cbn [map callId].
    assert (K : forall q, In q pts -> theId (pkw q) = None).
    { intros q J. assert (J' : In q (pts ++ offs)) by (apply in_or_app; left; exact J). clear J Tr. induction F as [|c x l m P F IH]; [destruct J'|]. destruct J' as [<-|J']; [|auto]. destruct P as (_ & _ & _ & _ & _ & _ & _ & ->). reflexivity. }
    clear - K. induction pts as [|q pts IH]; [reflexivity|]. cbn [map app given flat_map callId]. rewrite (K q) by (left; reflexivity). apply IH. intros x J. apply K. right. exact J.
Qed.

(** ** dictionaries *)
Definition setAll (l : list (str * pyval)) (d : list (str * pyval)) : list (str * pyval) := fold_left (fun d kv => set (fst kv) (snd kv) d) l d.
Lemma set_old {V} (k : str) (v : V) d : NoDup (keys d) -> has k d = true -> set k v d = map (fun kx => (fst kx, if eqb (fst kx) k then v else snd kx)) d.
Proof.
  induction d as [|[k' x] d IH]; intros ND H; [discriminate H|]. cbn [set map fst snd]. inversion ND as [|? ? N1 N2]; subst. destruct (eqb_spec k k') as [->|n].
  - rewrite eqb_refl. f_equal. rewrite <- (map_id d) at 1. apply map_ext_in. intros [q y] J. cbn [fst snd]. destruct (eqb_spec q k') as [->|]; [|reflexivity]. destruct N1. exact (in_map fst _ _ J).
  - destruct (eqb_spec k' k) as [->|_]; [contradiction|]. f_equal. apply IH; [exact N2|]. unfold has in *. cbn [get] in H. destruct (eqb_spec k k'); [contradiction|exact H].
Qed.
Lemma set_fresh {V} (k : str) (v : V) d : has k d = false -> set k v d = d ++ [(k, v)].
Proof.
  induction d as [|[k' x] d IH]; intro H; [reflexivity|]. cbn [set app]. unfold has in *. cbn [get] in H. destruct (eqb_spec k k'); [discriminate H|]. f_equal. apply IH. exact H.
Qed.
Lemma has_keys {V} (k : str) (d : list (str * V)) : has k d = true <-> In k (keys d).
Proof. apply has_In. Qed.
Lemma setAll_spec l : forall d, NoDup (keys l) -> NoDup (keys d) ->
  setAll l d = map (fun kx => (fst kx, match get (fst kx) l with Some v => v | None => snd kx end)) d ++ filter (fun kv => negb (has (fst kv) d)) l.
Proof.
  induction l as [|[k v] l IH]; intros d Nl Nd.
  - cbn. rewrite app_nil_r. symmetry. rewrite <- (map_id d) at 2. apply map_ext. intros [a b]. reflexivity.
  - inversion Nl as [|? ? N1 N2]; subst. change (setAll ((k, v) :: l) d) with (setAll l (set k v d)). rewrite IH; [|exact N2|apply dict_ok_set; exact Nd].
    assert (Gk : get k l = None) by (apply get_None; exact N1).
    assert (Fl : forall d' : list (str * pyval), (forall x, x <> k -> has x d' = has x d) -> filter (fun kv => negb (has (fst kv) d')) l = filter (fun kv => negb (has (fst kv) d)) l).
    { intros d' H. apply filter_ext_in. intros [x y] J. cbn [fst]. rewrite H; [reflexivity|]. intros ->. apply N1. exact (in_map fst _ _ J). }
    rewrite (Fl (set k v d)) by (intros x Nx; unfold has; rewrite get_set_other by exact Nx; reflexivity). cbn [filter fst]. destruct (has k d) eqn:H.
    + cbn [negb]. f_equal. rewrite (set_old k v d Nd H), map_map. apply map_ext. intros [x y]. cbn [fst snd get]. destruct (eqb_spec x k) as [->|n]; [rewrite Gk; reflexivity|reflexivity].
    + cbn [negb]. rewrite (set_fresh k v d H), map_app. cbn [map fst snd]. rewrite Gk, <- app_assoc. cbn [app]. f_equal. apply map_ext_in. intros [x y] J. cbn [fst snd get]. destruct (eqb_spec x k) as [->|n]; [|reflexivity].
      assert (X : has k d = true) by (apply has_keys; exact (in_map fst _ _ J)). congruence.
Qed.
Fixpoint numsAt (names : list str) (e : elem) : res (list (str * pyval)) :=
  match names with
  | [] => Ok []
  | a :: r => match eget a e with None => numsAt r e | Some s => do v <- number T (Some s); do t <- numsAt r e; Ok ((a, v) :: t) end
  end.
Lemma attribNumbers_set e names : forall d0, attribNumbers T names e d0 = do l <- numsAt names e; Ok (setAll l d0).
Proof.
  induction names as [|a names IH]; intro d0; cbn [attribNumbers numsAt]; [reflexivity|]. destruct (eget a e) as [s|]; [|apply IH]. destruct (number T (Some s)) as [v|]; [|reflexivity]. cbn [bind]. rewrite IH. destruct (numsAt names e); reflexivity.
Qed.
Lemma numsAt_keys e names : forall l, numsAt names e = Ok l -> (NoDup names -> NoDup (keys l)) /\ forall k, In k (keys l) -> In k names /\ eget k e <> None.
Proof.
  induction names as [|a names IH]; intros l H; cbn [numsAt] in H; [injection H as <-; split; [constructor|intros k []]|]. destruct (eget a e) as [s|] eqn:Ea.
  - apply bind_Ok in H as (v & Hv & H). apply bind_Ok in H as (t & Ht & H). injection H as <-. destruct (IH _ Ht) as [A B]. split.
    + intro ND. inversion ND as [|? ? N1 N2]; subst. constructor; [|apply A; exact N2]. intro J. apply N1. apply B. exact J.
    + intros k [<-|J]; [split; [left; reflexivity|cbn [fst]; congruence]|]. destruct (B k J). split; [right; assumption|assumption].
  - destruct (IH _ H) as [A B]. split; [intro ND; inversion ND; subst; auto|]. intros k J. destruct (B k J). split; [right; assumption|assumption].
Qed.
Lemma numsAt_get e names : forall l k s, numsAt names e = Ok l -> In k names -> eget k e = Some s -> exists v, get k l = Some v /\ numberIs T s v.
Proof.
  induction names as [|a names IH]; intros l k s H J E; [destruct J|]. cbn [numsAt] in H. destruct (eget a e) as [s'|] eqn:Ea.
  - apply bind_Ok in H as (v & Hv & H). apply bind_Ok in H as (t & Ht & H). injection H as <-. cbn [get]. destruct (eqb_spec k a) as [->|n]; [rewrite Ea in E; injection E as ->; exists v; split; [reflexivity|apply number_is; exact Hv]|].
    destruct J as [<-|J]; [contradiction|]. eapply IH; eassumption.
  - destruct J as [<-|J]; [congruence|]. eapply IH; eassumption.
Qed.
Lemma numsAt_total e names : (forall k s, In k names -> eget k e = Some s -> exists v, numberIs T s v) -> exists l, numsAt names e = Ok l.
Proof.
  induction names as [|a names IH]; intro H; cbn [numsAt]; [eauto|]. destruct IH as (t & Ht); [intros k s J E; eapply H; [right; exact J|exact E]|]. destruct (eget a e) as [s|] eqn:Ea; [|eauto].
  destruct (H a s (or_introl eq_refl) Ea) as (v & Hv). apply number_is in Hv. rewrite Hv. cbn [bind]. rewrite Ht. cbn [bind]. eauto.
Qed.
Lemma numberIs_fun s v w : numberIs T s v -> numberIs T s w -> v = w.
Proof. rewrite <- !number_is. congruence. Qed.
Lemma dictIs_fun nums e d d' : dictIs T nums e d -> dictIs T nums e d' -> d = d'.
Proof.
  unfold dictIs. intro F. revert d'. induction F as [|a b l m P F IH]; intros d' G; inversion G as [|? b' ? m' P' G']; subst; [reflexivity|]. f_equal; [|apply IH; exact G'].
  destruct P as [K1 P1], P' as [K2 P2]. destruct b, b'. cbn [fst snd] in *. subst. f_equal. destruct P1 as [[A B]|[A B]], P2 as [[A' B']|[A' B']]; try contradiction; [eapply numberIs_fun; eassumption|congruence].
Qed.
Lemma dictIs_numbers nums e d k s : dictIs T nums e d -> (exists n, In n nums /\ k = u n) -> eget k e = Some s -> exists v, numberIs T s v.
Proof.
  unfold dictIs, eget. intros F (n & J & ->) E. apply get_In in E. induction F as [|a b l m P F IH]; [destruct E|]. destruct E as [->|E]; [|auto]. destruct P as [_ [[_ P]|[P _]]]; [eauto|]. destruct P. exists n. auto.
Qed.
Lemma in_names k nums : In k (map u nums) <-> exists n, In n nums /\ k = u n.
Proof. rewrite in_map_iff. split; intros (n & A & B); exists n; auto. Qed.
(** the attributes overwritten with numbers *)
Lemma override_is nums e l : NoDup (map fst (eattrib e)) ->
  (forall k s, eget k e = Some s -> In k (map u nums) -> exists v, get k l = Some v /\ numberIs T s v) ->
  (forall k, ~ In k (map u nums) -> get k l = None) ->
  dictIs T nums e (map (fun '(k, v) => (PStr k, v)) (map (fun kx => (fst kx, match get (fst kx) l with Some v => v | None => snd kx end)) (attribDict e))).
Proof.
  intros ND H1 H2. unfold dictIs. unfold attribDict. rewrite !map_map.
  assert (K : forall k s, In (k, s) (eattrib e) -> eget k e = Some s) by (intros k s J; unfold eget; apply In_get; assumption).
  assert (G : forall m, (forall x, In x m -> In x (eattrib e)) -> Forall2 (fun a b => fst b = PStr (fst a) /\
    ((exists k, In k nums /\ fst a = u k) /\ numberIs T (snd a) (snd b) \/ (~ exists k, In k nums /\ fst a = u k) /\ snd b = PStr (snd a)))
    m (map (fun x => let '(k, v) := (fst (let '(k, v) := x in (k, PStr v)), match get (fst (let '(k, v) := x in (k, PStr v))) l with Some v => v | None => snd (let '(k, v) := x in (k, PStr v)) end) in (PStr k, v)) m)).
  { induction m as [|[k s] m IH]; intro Sub; cbn [map]; [constructor|]. constructor; [|apply IH; intros x J; apply Sub; right; exact J]. cbn [fst snd]. split; [reflexivity|].
    rewrite <- in_names. destruct (in_dec (fun x y => match eqb_spec x y with ReflectT _ e => left e | ReflectF _ n => right n end) k (map u nums)) as [J|N].
    - left. split; [exact J|]. destruct (H1 k s) as (v & -> & Nv); [apply K, Sub; left; reflexivity|exact J|exact Nv].
    - right. split; [exact N|]. rewrite (H2 k N). reflexivity. }
  apply G. auto.
Qed.
Lemma attribDict_keys e : keys (attribDict e) = map fst (eattrib e).
Proof. apply keys_attribDict. Qed.
Lemma no_new e l (d : list (str * pyval)) : (forall k, In k (keys l) -> eget k e <> None) -> keys d = map fst (eattrib e) -> filter (fun kv : str * pyval => negb (has (fst kv) d)) l = [].
Proof.
  intros H K. induction l as [|[k v] l IH]; [reflexivity|]. cbn [filter fst]. assert (X : has k d = true). { apply has_keys. rewrite K. assert (N := H k (or_introl eq_refl)). unfold eget in N. destruct (get k (eattrib e)) as [s|] eqn:E; [|destruct (N eq_refl)]. apply get_In in E. exact (in_map fst _ _ E). }
  rewrite X. apply IH. intros q J. apply H. right. exact J.
Qed.
Lemma attrib_is nums e v : NoDup (map fst (eattrib e)) -> NoDup (map u nums) ->
  ((exists d, attribNumbers T (map u nums) e (attribDict e) = Ok d /\ v = toPDict d) <-> exists d, dictIs T nums e d /\ v = PDict d).
Proof.
  intros ND NN.
  assert (Fw : forall l, numsAt (map u nums) e = Ok l -> exists d, dictIs T nums e d /\ toPDict (setAll l (attribDict e)) = PDict d).
  { intros l Hl. destruct (numsAt_keys _ _ _ Hl) as [A B]. eexists. split; [|unfold toPDict; rewrite setAll_spec; [|exact (A NN)|rewrite attribDict_keys; exact ND]; rewrite (no_new e l); [rewrite app_nil_r; reflexivity|intros k J; apply B, J|apply attribDict_keys]].
    apply override_is; [exact ND| |].
    - intros k s E J. eapply numsAt_get; eassumption.
    - intros k N. apply get_None. intro J. apply N. apply B. exact J. }
  split.
  - intros (d & H & ->). rewrite attribNumbers_set in H. apply bind_Ok in H as (l & Hl & H). injection H as <-. exact (Fw l Hl).
  - intros (d & D & ->). destruct (numsAt_total e (map u nums)) as (l & Hl). { intros k s J E. eapply dictIs_numbers; [exact D|apply in_names; exact J|exact E]. }
    exists (setAll l (attribDict e)). rewrite attribNumbers_set, Hl. split; [reflexivity|]. destruct (Fw l Hl) as (d' & D' & ->). f_equal. eapply dictIs_fun; eassumption.
Qed.
Lemma once_flat d : NoDup (map fst d) -> (forall k x, In (k, x) d -> (exists s, x = PStr s) \/ (exists z, x = PInt z) \/ exists f, x = PFloat f) -> keysOnce (PDict d).
Proof.
  intros ND H. split; [exact ND|]. clear ND. induction d as [|[k x] d IH]; [exact I|]. split; [|apply IH; intros q y J; apply (H q y); right; exact J].
  destruct (H k x (or_introl eq_refl)) as [(s & ->)|[(z & ->)|(f & ->)]]; exact I.
Qed.
Lemma numberIs_num s v : numberIs T s v -> (exists z, v = PInt z) \/ exists f, v = PFloat f.
Proof. unfold numberIs. destruct (parseInt T s); [eauto|]. intros (f & _ & ->). eauto. Qed.
Lemma dictIs_flat nums e d k x : dictIs T nums e d -> In (k, x) d -> (exists s, x = PStr s) \/ (exists z, x = PInt z) \/ exists f, x = PFloat f.
Proof.
  unfold dictIs. intro F. induction F as [|a b l m P F IH]; [intros []|]. intros [->|J]; [|auto]. destruct P as [_ [[_ P]|[_ P]]]; cbn [snd] in P; [apply numberIs_num in P; tauto|left; eauto].
Qed.
Lemma dictIs_keys nums e d : dictIs T nums e d -> map fst d = map PStr (map fst (eattrib e)).
Proof. unfold dictIs. intro F. induction F as [|a b l m [P _] F IH]; [reflexivity|]. cbn [map]. rewrite P, IH. reflexivity. Qed.
Lemma nodup_strs l : NoDup l -> NoDup (map PStr l).
Proof. intro H. induction H as [|x l N H IH]; cbn [map]; constructor; [|exact IH]. intro J. apply in_map_iff in J as (y & E & J). injection E as ->. contradiction. Qed.
Lemma dictIs_once nums e d : NoDup (map fst (eattrib e)) -> dictIs T nums e d -> keysOnce (PDict d).
Proof. intros ND D. apply once_flat; [rewrite (dictIs_keys _ _ _ D); apply nodup_strs; exact ND|]. intros k x J. eapply dictIs_flat; eassumption. Qed.
(** images *)
Lemma imageNumbers_set e info : forall d0, imageNumbers T info e d0 = do l <- mapM (fun kd => do v <- numberOr T (snd kd) (eget (fst kd) e); Ok (fst kd, v)) info; Ok (setAll l d0).
Proof.
  induction info as [|[k d] info IH]; intro d0; cbn [imageNumbers mapM]; [reflexivity|]. cbn [fst snd]. destruct (numberOr T d (eget k e)) as [v|]; [|reflexivity]. cbn [bind]. rewrite IH. destruct (mapM _ info); reflexivity.
Qed.
Definition imageRow (e : elem) (kd : string * Z) (kv : str * pyval) : Prop := fst kv = u (fst kd) /\ numberOrIs T (snd kd) (fst kd) e (snd kv).
Lemma image_rows e l : mapM (fun kd => do v <- numberOr T (snd kd) (eget (fst kd) e); Ok (fst kd, v)) transformationInfo = Ok l <-> Forall2 (imageRow e) transformationDefaults l.
Proof.
  rewrite mapM_iff. change transformationInfo with (map (fun kd : string * Z => (u (fst kd), snd kd)) transformationDefaults). generalize transformationDefaults. intro info. revert l. induction info as [|[k d] info IH]; intro l; cbn [map].
  - split; intro H; inversion H; constructor.
  - split; intro H; inversion H as [|? [k' v] ? r P F]; subst; (constructor; [|apply IH; exact F]); cbn [fst snd] in *.
    + apply bind_Ok in P as (v' & Hv & P). injection P as <- <-. split; [reflexivity|]. apply numberOr_is. exact Hv.
    + destruct P as [E P]. cbn [fst snd] in E, P. subst k'. apply numberOr_is in P. rewrite P. reflexivity.
Qed.
Lemma rows_keys e info l : Forall2 (imageRow e) info l -> keys l = map (fun kd => u (fst kd)) info.
Proof. intro F. induction F as [|a b info l [P _] F IH]; [reflexivity|]. cbn [keys map]. rewrite P. f_equal. exact IH. Qed.
Lemma rows_get e info l : Forall2 (imageRow e) info l -> forall k v, get k l = Some v -> exists n d, In (n, d) info /\ k = u n /\ numberOrIs T d n e v.
Proof.
  intros F k v G. apply get_In in G. induction F as [|[n d] b info l [P Q] F IH]; [destruct G|]. destruct G as [->|G].
  - exists n, d. cbn [fst snd] in *. split; [left; reflexivity|]. auto.
  - destruct (IH G) as (n' & d' & J & H). exists n', d'. split; [right; exact J|exact H].
Qed.
Lemma rows_missing e info l : Forall2 (imageRow e) info l ->
  map (fun '(k, v) => (PStr k, v)) (filter (fun kv : str * pyval => negb (has (fst kv) (attribDict e))) l) =
  flat_map (fun kd => match attrAt (fst kd) e with None => [(PStr (u (fst kd)), PInt (snd kd))] | Some _ => [] end) info.
Proof.
  intro F. induction F as [|[n d] [k v] info l [P Q] F IH]; [reflexivity|]. cbn [fst snd] in P, Q. subst k. cbn [filter flat_map fst snd].
  assert (H : has (u n) (attribDict e) = match attrAt n e with Some _ => true | None => false end).
  { unfold has. rewrite get_attribDict. unfold attrAt, eget. destruct (get (u n) (eattrib e)); reflexivity. }
  rewrite H. destruct Q as [[E ->]|(s & E & _)]; rewrite E; cbn [negb].
  - cbn [map app]. f_equal. exact IH.
  - exact IH.
Qed.
Lemma imageDict_is e v : NoDup (map fst (eattrib e)) ->
  ((exists d, imageNumbers T transformationInfo e (attribDict e) = Ok d /\ v = toPDict d) <-> exists d, dictIs T (map fst transformationDefaults) e d /\ v = PDict (d ++ missing e)).
Proof.
  intro ND. assert (Ks : forall l, Forall2 (imageRow e) transformationDefaults l -> keys l = map u (map fst transformationDefaults)) by (intros l F; rewrite (rows_keys _ _ _ F), map_map; reflexivity).
  assert (Nk : NoDup (map u (map fst transformationDefaults))) by (apply litNoDup; reflexivity).
  assert (Fw : forall l, Forall2 (imageRow e) transformationDefaults l -> exists d, dictIs T (map fst transformationDefaults) e d /\ toPDict (setAll l (attribDict e)) = PDict (d ++ missing e)).
  { intros l F. eexists. split; [|unfold toPDict; rewrite setAll_spec; [|unfold keys in *; rewrite (Ks l F); exact Nk|rewrite attribDict_keys; exact ND]; rewrite map_app, (rows_missing _ _ _ F); reflexivity].
    apply override_is; [exact ND| |].
    - intros k s E J. rewrite <- (Ks l F) in J. destruct (get k l) as [x|] eqn:G; [|apply get_None in G; contradiction]. exists x. split; [reflexivity|]. destruct (rows_get _ _ _ F k x G) as (n & d & _ & -> & Q).
      unfold eget in E. destruct Q as [[Q _]|(s' & Q & R)]; unfold attrAt in Q; rewrite E in Q; [discriminate Q|]. injection Q as <-. exact R.
    - intros k N. apply get_None. intro J. apply N. rewrite <- (Ks l F). exact J. }
  split.
  - intros (d & H & ->). rewrite imageNumbers_set in H. apply bind_Ok in H as (l & Hl & H). injection H as <-. apply image_rows in Hl. exact (Fw l Hl).
  - intros (d & D & ->).
    assert (Tot : forall info, (forall x, In x info -> In x transformationDefaults) -> exists l, Forall2 (imageRow e) info l).
    { induction info as [|[n dd] info IH]; intro Sub; [exists []; constructor|]. destruct IH as (l & F); [intros x J; apply Sub; right; exact J|].
      destruct (attrAt n e) as [s|] eqn:E.
      - destruct (dictIs_numbers _ _ _ (u n) s D) as (x & Hx); [exists n; split; [exact (in_map fst _ _ (Sub (n, dd) (or_introl eq_refl)))|reflexivity]|exact E|].
        exists ((u n, x) :: l). constructor; [|exact F]. split; [reflexivity|]. right. exists s. auto.
      - exists ((u n, PInt dd) :: l). constructor; [|exact F]. split; [reflexivity|]. left. auto. }
    destruct (Tot transformationDefaults (fun x J => J)) as (l & F). exists (setAll l (attribDict e)). rewrite imageNumbers_set, (proj2 (image_rows e l) F). split; [reflexivity|]. destruct (Fw l F) as (d' & D' & ->). rewrite (dictIs_fun _ _ _ _ D D'). reflexivity.
Qed.
Lemma missing_keys e k x : In (k, x) (missing e) -> (exists n d, In (n, d) transformationDefaults /\ k = PStr (u n) /\ x = PInt d /\ attrAt n e = None).
Proof.
  unfold missing. intro J. apply in_flat_map in J as ((n & d) & J & H). cbn [fst snd] in H. destruct (attrAt n e) eqn:E; [destruct H|]. destruct H as [H|[]]. injection H as <- <-. exists n, d. auto.
Qed.
Lemma missing_nodup e : NoDup (map fst (missing e)).
Proof.
  unfold missing. assert (N : NoDup (map (fun kd : string * Z => PStr (u (fst kd))) transformationDefaults)).
  { change (NoDup (map PStr (map u (map fst transformationDefaults)))). apply nodup_strs, litNoDup. reflexivity. }
  induction transformationDefaults as [|[n d] l IH]; [constructor|]. cbn [map] in N. inversion N as [|? ? N1 N2]; subst. cbn [flat_map fst snd]. destruct (attrAt n e); [apply IH; exact N2|]. cbn [app map fst]. constructor; [|apply IH; exact N2].
  intro J. apply N1. apply in_map_iff in J as ((k & x) & E & J). cbn [fst] in E. apply in_flat_map in J as ((n' & d') & J & H). cbn [fst snd] in H. destruct (attrAt n' e); [destruct H|]. destruct H as [H|[]]. injection H as <- <-. rewrite <- E. change (PStr (u n')) with ((fun kd : string * Z => PStr (u (fst kd))) (n', d')). apply in_map. exact J.
Qed.
Lemma image_once e d : NoDup (map fst (eattrib e)) -> dictIs T (map fst transformationDefaults) e d -> keysOnce (PDict (d ++ missing e)).
Proof.
  intros ND D. apply once_flat.
  - rewrite map_app. assert (K := dictIs_keys _ _ _ D).
    assert (A : forall l m : list pyval, NoDup l -> NoDup m -> (forall x, In x l -> In x m -> False) -> NoDup (l ++ m)).
    { clear. induction l as [|x l IH]; intros m H1 H2 H3; [exact H2|]. inversion H1; subst. cbn [app]. constructor; [|apply IH; [assumption|assumption|intros y J1 J2; apply (H3 y); [right; exact J1|exact J2]]]. intro J. apply in_app_or in J as [J|J]; [contradiction|]. apply (H3 x); [left; reflexivity|exact J]. }
    apply A; [rewrite K; apply nodup_strs; exact ND|apply missing_nodup|]. intros x J1 J2. apply in_map_iff in J2 as ((k & y) & <- & J2). cbn [fst] in J1. destruct (missing_keys _ _ _ J2) as (n & dd & _ & -> & _ & E).
    rewrite K in J1. apply in_map_iff in J1 as (s & E1 & J1). injection E1 as ->. unfold attrAt in E. apply get_None in E. contradiction.
  - intros k x J. apply in_app_or in J as [J|J]; [eapply dictIs_flat; eassumption|]. destruct (missing_keys _ _ _ J) as (n & dd & _ & _ & -> & _). eauto.
Qed.

(** ** the elements, one after the other *)
Definition empty : meaning := mkMeaning None None None None None [] [] [].
Inductive step (format : Z) (m : meaning) (c : elem) : meaning -> Prop :=
| step_outline o : etag c = u "outline" -> g_outline m = None -> outlineIs T format c o ->
    step format m c (mkMeaning (Some o) (g_advance m) (g_note m) (g_lib m) (g_image m) (g_unicodes m) (g_guidelines m) (g_anchors m))
| step_advance a : etag c = u "advance" -> g_advance m = None -> advanceIs T c a ->
    step format m c (mkMeaning (g_outline m) (Some a) (g_note m) (g_lib m) (g_image m) (g_unicodes m) (g_guidelines m) (g_anchors m))
| step_note n : etag c = u "note" -> g_note m = None -> noteIs T c n ->
    step format m c (mkMeaning (g_outline m) (g_advance m) (Some n) (g_lib m) (g_image m) (g_unicodes m) (g_guidelines m) (g_anchors m))
| step_lib v : etag c = u "lib" -> g_lib m = None -> libIs T c v ->
    step format m c (mkMeaning (g_outline m) (g_advance m) (g_note m) (Some v) (g_image m) (g_unicodes m) (g_guidelines m) (g_anchors m))
| step_image v : (format =? 1)%Z = false -> etag c = u "image" -> g_image m = None -> imageIs T c v ->
    step format m c (mkMeaning (g_outline m) (g_advance m) (g_note m) (g_lib m) (Some v) (g_unicodes m) (g_guidelines m) (g_anchors m))
| step_unicode z : etag c = u "unicode" -> unicodeIs T c z ->
    step format m c (mkMeaning (g_outline m) (g_advance m) (g_note m) (g_lib m) (g_image m) (if mem z (g_unicodes m) then g_unicodes m else g_unicodes m ++ [z]) (g_guidelines m) (g_anchors m))
| step_guideline v : (format =? 1)%Z = false -> etag c = u "guideline" -> itemIs T ["x"; "y"; "angle"] c v ->
    step format m c (mkMeaning (g_outline m) (g_advance m) (g_note m) (g_lib m) (g_image m) (g_unicodes m) (g_guidelines m ++ [v]) (g_anchors m))
| step_anchor v : (format =? 1)%Z = false -> etag c = u "anchor" -> itemIs T ["x"; "y"] c v ->
    step format m c (mkMeaning (g_outline m) (g_advance m) (g_note m) (g_lib m) (g_image m) (g_unicodes m) (g_guidelines m) (g_anchors m ++ [v])).
Lemma named_other t l c : etag c <> u t -> named t (l ++ [c]) = named t l.
Proof. intro N. unfold named. rewrite filter_app. cbn [filter]. destruct (eqb_spec (etag c) (u t)); [contradiction|]. apply app_nil_r. Qed.
Lemma named_same t l c : etag c = u t -> named t (l ++ [c]) = named t l ++ [c].
Proof. intro E. unfold named. rewrite filter_app. cbn [filter]. rewrite E, eqb_refl. reflexivity. Qed.
Lemma oneIs_other {A} t (P : elem -> A -> Prop) l c o : etag c <> u t -> (oneIs t P (l ++ [c]) o <-> oneIs t P l o).
Proof. intro N. unfold oneIs. rewrite named_other by exact N. reflexivity. Qed.
Lemma oneIs_same {A} t (P : elem -> A -> Prop) l c o : etag c = u t -> (oneIs t P (l ++ [c]) o <-> oneIs t P l None /\ exists v, P c v /\ o = Some v).
Proof.
  intro E. unfold oneIs. rewrite named_same by exact E. split.
  - intros [[H _]|(c' & v & H & Pv & ->)]; [destruct (named t l); discriminate H|]. destruct (named t l) as [|x r] eqn:Et; [|destruct r; discriminate H]. injection H as <-. split; [left; auto|eauto].
  - intros ([[H _]|(c' & v & H & _ & X)] & v' & Pv & ->); [|discriminate X]. right. exists c, v'. rewrite H. auto.
Qed.
Lemma oneIs_none {A} t (P : elem -> A -> Prop) l o : oneIs t P l o -> o = None -> oneIs t P l None.
Proof. intros H ->. exact H. Qed.
Lemma Forall2_snoc {A B} (P : A -> B -> Prop) l c m : Forall2 P (l ++ [c]) m <-> exists m' v, m = m' ++ [v] /\ Forall2 P l m' /\ P c v.
Proof.
  split.
  - intro H. apply Forall2_app_inv_l in H as (m1 & m2 & F1 & F2 & ->). inversion F2 as [|? v ? r P1 F3]; subst. inversion F3; subst. eauto.
  - intros (m' & v & -> & F & Pv). apply Forall2_app; [exact F|]. constructor; [exact Pv|constructor].
Qed.
Lemma firsts_in l z : In z (firsts l) <-> In z l.
Proof.
  induction l as [|a l IH]; [reflexivity|]. cbn [firsts In]. split.
  - intros [H|H]; [auto|]. apply in_remove in H as [H _]. right. apply IH. exact H.
  - intros [H|H]; [auto|]. destruct (Z.eq_dec z a) as [->|n]; [auto|]. right. apply in_in_remove; [exact n|]. apply IH. exact H.
Qed.
Lemma firsts_snoc l z : firsts (l ++ [z]) = if mem z (firsts l) then firsts l else firsts l ++ [z].
Proof.
  induction l as [|a l IH]; [reflexivity|]. cbn [app firsts]. rewrite IH. destruct (mem z (firsts l)) eqn:M.
  - apply mem_In in M. assert (X : mem z (a :: List.remove Z.eq_dec a (firsts l)) = true).
    { apply mem_In. destruct (Z.eq_dec z a) as [->|n]; [left; reflexivity|]. right. apply in_in_remove; assumption. }
    rewrite X. reflexivity.
  - apply mem_nIn in M. rewrite remove_app. cbn [List.remove]. destruct (Z.eq_dec a z) as [->|n].
    + rewrite app_nil_r. assert (X : mem z (z :: List.remove Z.eq_dec z (firsts l)) = true) by (apply mem_In; left; reflexivity). rewrite X. reflexivity.
    + assert (X : mem z (a :: List.remove Z.eq_dec a (firsts l)) = false). { apply mem_nIn. intros [E|H]; [congruence|]. apply in_remove in H as [H _]. contradiction. } rewrite X. reflexivity.
Qed.
Lemma are_nil format m : childrenAre T format [] m <-> m = empty.
Proof.
  split.
  - intros [_ O A N L I' U G An]. destruct m as [o a n l i us gs an]. cbn in *. unfold oneIs in *. cbn in *.
    assert (X : forall B (P : elem -> B -> Prop) (x : option B), (@nil elem = [] /\ x = None) \/ (exists c v, @nil elem = [c] /\ P c v /\ x = Some v) -> x = None) by (intros B P x [[_ H]|(c & v & H & _)]; [exact H|discriminate H]).
    apply X in O, A, N, L, I'. destruct U as (zs & F & ->). inversion F; inversion G; inversion An; subst. reflexivity.
  - intros ->. constructor; try (left; split; reflexivity); try constructor; [intros c []|exists []; split; [constructor|reflexivity]].
Qed.
Local Ltac others E := repeat match goal with
  | H : oneIs _ _ (_ ++ [_]) _ |- _ => rewrite oneIs_other in H by (rewrite E; discriminate)
  | H : context [named ?t (_ ++ [_])] |- _ => rewrite (named_other t) in H by (rewrite E; discriminate) end.
Local Ltac others' E := repeat match goal with
  | |- oneIs _ _ (_ ++ [_]) _ => rewrite oneIs_other by (rewrite E; discriminate)
  | |- context [named ?t (_ ++ [_])] => rewrite (named_other t) by (rewrite E; discriminate) end.
Lemma are_snoc format l c m' : childrenAre T format (l ++ [c]) m' <-> exists m, childrenAre T format l m /\ step format m c m'.
Proof.
  split.
  - intros [K O A N L I' U G An]. destruct m' as [o a n lb i us gs an]. cbn [g_outline g_advance g_note g_lib g_image g_unicodes g_guidelines g_anchors] in *.
    assert (K' : forall x, In x l -> exists t, In t (elementNames format) /\ etag x = u t) by (intros x J; apply K; apply in_or_app; left; exact J).
    destruct (K c) as (t & J & E); [apply in_or_app; right; left; reflexivity|]. unfold elementNames in J. apply in_app_or in J.
    assert (J' : In t ["outline"; "advance"; "unicode"; "note"; "lib"] \/ (format =? 1)%Z = false /\ In t ["guideline"; "anchor"; "image"]) by (destruct (format =? 1)%Z; [destruct J as [J|[]]; auto|tauto]).
    clear J K. destruct J' as [[<-|[<-|[<-|[<-|[<-|[]]]]]]|[F [<-|[<-|[<-|[]]]]]].
    + rewrite (oneIs_same "outline") in O by exact E. destruct O as (O & v & Pv & ->). others E. exists (mkMeaning None a n lb i us gs an). split; [constructor; assumption|]. exact (step_outline format (mkMeaning None a n lb i us gs an) c v E eq_refl Pv).
    + rewrite (oneIs_same "advance") in A by exact E. destruct A as (A & v & Pv & ->). others E. exists (mkMeaning o None n lb i us gs an). split; [constructor; assumption|]. exact (step_advance format (mkMeaning o None n lb i us gs an) c v E eq_refl Pv).
    + rewrite (named_same "unicode") in U by exact E. destruct U as (zs & Z & ->). apply Forall2_snoc in Z as (zs' & z & -> & Z & Pz). others E. exists (mkMeaning o a n lb i (firsts zs') gs an). split; [constructor; try assumption; exists zs'; auto|]. rewrite firsts_snoc. exact (step_unicode format (mkMeaning o a n lb i (firsts zs') gs an) c z E Pz).
    + rewrite (oneIs_same "note") in N by exact E. destruct N as (N & v & Pv & ->). others E. exists (mkMeaning o a None lb i us gs an). split; [constructor; assumption|]. exact (step_note format (mkMeaning o a None lb i us gs an) c v E eq_refl Pv).
    + rewrite (oneIs_same "lib") in L by exact E. destruct L as (L & v & Pv & ->). others E. exists (mkMeaning o a n None i us gs an). split; [constructor; assumption|]. exact (step_lib format (mkMeaning o a n None i us gs an) c v E eq_refl Pv).
    + rewrite (named_same "guideline") in G by exact E. apply Forall2_snoc in G as (gs' & v & -> & G & Pv). others E. exists (mkMeaning o a n lb i us gs' an). split; [constructor; assumption|]. exact (step_guideline format (mkMeaning o a n lb i us gs' an) c v F E Pv).
    + rewrite (named_same "anchor") in An by exact E. apply Forall2_snoc in An as (an' & v & -> & An & Pv). others E. exists (mkMeaning o a n lb i us gs an'). split; [constructor; assumption|]. exact (step_anchor format (mkMeaning o a n lb i us gs an') c v F E Pv).
    + rewrite (oneIs_same "image") in I' by exact E. destruct I' as (I' & v & Pv & ->). others E. exists (mkMeaning o a n lb None us gs an). split; [constructor; assumption|]. exact (step_image format (mkMeaning o a n lb None us gs an) c v F E eq_refl Pv).
  - intros (m & [K O A N L I' U G An] & S).
    assert (K' : (exists t, In t (elementNames format) /\ etag c = u t) -> forall x, In x (l ++ [c]) -> exists t, In t (elementNames format) /\ etag x = u t) by (intros H x J; apply in_app_or in J as [J|[<-|[]]]; [apply K; exact J|exact H]).
    unfold elementNames in K'. destruct S as [o E Z P|a E Z P|n E Z P|v E Z P|v F E Z P|z E P|v F E P|v F E P]; try rewrite F in K'.
    + constructor; cbn [g_outline g_advance g_note g_lib g_image g_unicodes g_guidelines g_anchors]; others' E; try assumption; [unfold elementNames; apply K'; exists "outline"; split; [apply in_or_app; left; cbn [In]; tauto|exact E]|]. rewrite oneIs_same by exact E. split; [apply (oneIs_none _ _ _ _ O Z)|eauto].
    + constructor; cbn [g_outline g_advance g_note g_lib g_image g_unicodes g_guidelines g_anchors]; others' E; try assumption; [unfold elementNames; apply K'; exists "advance"; split; [apply in_or_app; left; cbn [In]; tauto|exact E]|]. rewrite oneIs_same by exact E. split; [apply (oneIs_none _ _ _ _ A Z)|eauto].
    + constructor; cbn [g_outline g_advance g_note g_lib g_image g_unicodes g_guidelines g_anchors]; others' E; try assumption; [unfold elementNames; apply K'; exists "note"; split; [apply in_or_app; left; cbn [In]; tauto|exact E]|]. rewrite oneIs_same by exact E. split; [apply (oneIs_none _ _ _ _ N Z)|eauto].
    + constructor; cbn [g_outline g_advance g_note g_lib g_image g_unicodes g_guidelines g_anchors]; others' E; try assumption; [unfold elementNames; apply K'; exists "lib"; split; [apply in_or_app; left; cbn [In]; tauto|exact E]|]. rewrite oneIs_same by exact E. split; [apply (oneIs_none _ _ _ _ L Z)|eauto].
    + constructor; cbn [g_outline g_advance g_note g_lib g_image g_unicodes g_guidelines g_anchors]; others' E; try assumption; [unfold elementNames; rewrite F; apply K'; exists "image"; split; [apply in_or_app; right; cbn [In]; tauto|exact E]|]. rewrite oneIs_same by exact E. split; [apply (oneIs_none _ _ _ _ I' Z)|eauto].
    + constructor; cbn [g_outline g_advance g_note g_lib g_image g_unicodes g_guidelines g_anchors]; others' E; try assumption; [unfold elementNames; apply K'; exists "unicode"; split; [apply in_or_app; left; cbn [In]; tauto|exact E]|]. rewrite named_same by exact E. destruct U as (zs & U & ->). exists (zs ++ [z]). split; [apply Forall2_snoc; eauto|]. symmetry. apply firsts_snoc.
    + constructor; cbn [g_outline g_advance g_note g_lib g_image g_unicodes g_guidelines g_anchors]; others' E; try assumption; [unfold elementNames; rewrite F; apply K'; exists "guideline"; split; [apply in_or_app; right; cbn [In]; tauto|exact E]|]. rewrite named_same by exact E. apply Forall2_snoc; eauto.
    + constructor; cbn [g_outline g_advance g_note g_lib g_image g_unicodes g_guidelines g_anchors]; others' E; try assumption; [unfold elementNames; rewrite F; apply K'; exists "anchor"; split; [apply in_or_app; right; cbn [In]; tauto|exact E]|]. rewrite named_same by exact E. apply Forall2_snoc; eauto.
Qed.

(** ** the state of the reader *)
Definition some {A} (o : option A) : bool := match o with Some _ => true | None => false end.
Definition stored (m : meaning) : meaning := mkMeaning (g_outline m) (g_advance m) (g_note m) (g_lib m) (g_image m) [] [] [].
Definition look (k : str) (l : list (str * option pyval)) : option pyval := match get k l with Some o => o | None => None end.
Record holds (name : str) (s : gstate) (m : meaning) : Prop := {
  h_adv : sadvance s = some (g_advance m);
  h_img : simage s = some (g_image m);
  h_out : soutline s = some (g_outline m);
  h_lib : slib s = some (g_lib m);
  h_note : snote s = some (g_note m);
  h_uni : sunicodes s = g_unicodes m;
  h_gl : sguidelines s = g_guidelines m;
  h_an : sanchors s = g_anchors m;
  h_ids : idsSeq (map callId (callsOf m)) [] (sids s);
  h_calls : rcalls (sread s) = callsOf m;
  h_attr : forall k, get k (rattrs (sread s)) = look k (attributes name (stored m)) }.
Lemma some_false {A} (o : option A) : some o = false <-> o = None.
Proof. destruct o; split; try reflexivity; discriminate. Qed.
Local Ltac fields := cbn [g_outline g_advance g_note g_lib g_image g_unicodes g_guidelines g_anchors sadvance simage soutline slib snote sunicodes sguidelines sanchors sids sread rattrs rcalls setattr draws seenAdvance seenNote seenLib seenImage seenOutline withRead].
Local Ltac keysOf k Z := unfold look, attributes, stored; fields; rewrite ?Z; cbn [get]; repeat match goal with |- context [eqb k ?x] => destruct (eqb_spec k x) as [->|?]; [reflexivity|] end; reflexivity.
Lemma advance_is e r r' : readAdvance T e r = Ok r' <-> exists a, advanceIs T e a /\ r' = setattr (u "height") (snd a) (setattr (u "width") (fst a) r).
Proof.
  unfold readAdvance, advanceIs. split.
  - intro H. apply bind_Ok in H as (w & Hw & H). apply bind_Ok in H as (h & Hh & H). apply Ok_inj in H. subst r'. apply numberOr_is in Hw, Hh. exists (w, h). auto.
  - intros ((w & h) & [Hw Hh] & ->). cbn [fst snd] in *. apply numberOr_is in Hw, Hh. rewrite Hw. cbn [bind]. rewrite Hh. reflexivity.
Qed.
Lemma note_is e r r' : readNote T e r = Ok r' <-> exists n, noteIs T e n /\ r' = setattr (u "note") (PStr n) r.
Proof.
  unfold readNote, noteIs. split.
  - destruct (etextOf e) as [[s|b]|]; try discriminate. intro H. apply Ok_inj in H. subst r'. exists (noteLines T s). split; [|reflexivity]. exists (split1 10 s). rewrite join_split1. split; [reflexivity|]. split; [apply split1_nonempty|]. split; [intros l; apply split1_no_sep|reflexivity].
  - intros (n & (lines & -> & Ne & H & ->) & ->). unfold noteLines. rewrite split1_join by assumption. reflexivity.
Qed.
Lemma lib_is e r r' : Glif.readLib T true e r = Ok r' <-> exists v, libIs T e v /\ r' = setattr (u "lib") v r.
Proof.
  unfold Glif.readLib, libIs. split.
  - destruct (echildren e) as [|c [|]] eqn:Ec; try discriminate. intro H. apply bind_Ok in H as (v & Hv & H). apply bind_Ok in H as (b & Hb & H). destruct b; [|discriminate H]. apply Ok_inj in H. subst r'. exists v. split; [|reflexivity]. exists c. split; [reflexivity|]. split; [exact Hv|]. apply C95_libs. exact Hb.
  - intros (v & (c & -> & Hv & G) & ->). apply C95_libs in G. rewrite Hv. cbn [bind]. rewrite G. reflexivity.
Qed.
Lemma image_is e r r' : NoDup (map fst (eattrib e)) -> echildren e = [] -> (Glif.readImage T true e r = Ok r' <-> exists v, imageIs T e v /\ r' = setattr (u "image") v r).
Proof.
  intros ND Ec. unfold Glif.readImage, imageIs. cbn [negb orb]. split.
  - intro H. apply bind_Ok in H as (d & Hd & H). destruct (imageValidator T (toPDict d)) eqn:V; [|discriminate H]. apply Ok_inj in H. subst r'. destruct (proj1 (imageDict_is e (toPDict d) ND)) as (d' & D & E); [eauto|].
    exists (toPDict d). split; [|reflexivity]. split; [exact Ec|]. exists d'. split; [exact D|]. split; [exact E|]. apply C95_images; [rewrite E; apply image_once; assumption|exact V].
  - intros (v & (_ & d' & D & E & G) & ->). destruct (proj2 (imageDict_is e v ND)) as (d & Hd & ->); [eauto|]. rewrite Hd. cbn [bind]. apply C95_images in G; [|rewrite E; apply image_once; assumption]. rewrite G. reflexivity.
Qed.
Lemma unicode_is e us us' : readUnicode T e us = Ok us' <-> exists z, unicodeIs T e z /\ us' = if mem z us then us else us ++ [z].
Proof.
  unfold readUnicode, unicodeIs, attrAt, eget. destruct (get (u "hex") (eattrib e)) as [s|].
  - destruct (parseHex T s) as [z|] eqn:P.
    + split; [intro H; apply Ok_inj in H; subst; exists z; split; [eauto|reflexivity]|]. intros (z' & (s' & E & P') & ->). injection E as <-. rewrite P in P'. injection P' as <-. reflexivity.
    + split; [discriminate|]. intros (z' & (s' & E & P') & ->). injection E as <-. congruence.
  - split; [discriminate|]. intros (z' & (s' & E & P') & ->). discriminate E.
Qed.
Lemma item_is nums e v : NoDup (map fst (eattrib e)) -> NoDup (map u nums) -> echildren e = [] ->
  ((exists d, attribNumbers T (map u nums) e (attribDict e) = Ok d /\ v = toPDict d) <-> itemIs T nums e v).
Proof. intros ND NN Ec. rewrite attrib_is by assumption. unfold itemIs. tauto. Qed.
Lemma anchor1_good e p : anchor1Is T e p -> Forall (goodAnchor T) (snd p) /\ identifiersOf (snd p) = [] /\ forall a, In a (snd p) -> keysOnce a.
Proof.
  intros (_ & q & n & x & y & _ & (sx & _ & Nx) & (sy & _ & Ny) & ->). cbn [snd]. apply numberIs_num in Nx, Ny.
  assert (K : keysOnce (PDict [(PStr (u "x"), x); (PStr (u "y"), y); (PStr (u "name"), PStr n)])).
  { apply once_flat; [cbn [map fst]; change [PStr (u "x"); PStr (u "y"); PStr (u "name")] with (map PStr (map u ["x"; "y"; "name"])); apply nodup_strs, litNoDup; reflexivity|]. intros k v [E|[E|[E|[]]]]; injection E as <- <-; eauto; tauto. }
  split; [|split; [reflexivity|intros a [<-|[]]; exact K]]. constructor; [|constructor]. split; [|split; [|split; [|split; [|split]]]].
  - eexists. split; [reflexivity|]. intros k v [E|[E|[E|[]]]]; injection E as <- <-; [exists "x"|exists "y"|exists "name"]; (split; [cbn [In]; tauto|reflexivity]).
  - destruct Nx as [(z & ->)|(f & ->)]; [left|right; right]; eexists; reflexivity.
  - destruct Ny as [(z & ->)|(f & ->)]; [left|right; right]; eexists; reflexivity.
  - right. exists n. reflexivity.
  - left. reflexivity.
  - left. reflexivity.
Qed.
Lemma outline1_anchors l parts : Forall2 (partIs T 1) l parts ->
  Forall (goodAnchor T) (concat (map snd parts)) /\ identifiersOf (concat (map snd parts)) = [] /\ (forall a, In a (concat (map snd parts)) -> keysOnce a) /\ callIds (concat (map fst parts)) = [].
Proof.
  intro F. induction F as [|e p l parts P F (A & B & C & D)]; [repeat split; [constructor|intros a []]|]. cbn [map concat].
  assert (X : Forall (goodAnchor T) (snd p) /\ identifiersOf (snd p) = [] /\ forall a, In a (snd p) -> keysOnce a).
  { destruct P as [P|[P|P]]; [destruct P as (_ & _ & _ & b & tr & _ & _ & ->)|eapply anchor1_good; exact P|destruct P as (_ & _ & _ & all & pts & _ & _ & _ & _ & ->)]; (split; [constructor|split; [reflexivity|intros a []]]). }
  destruct X as (A' & B' & C'). split; [apply Forall_app; auto|]. split; [unfold identifiersOf in *; rewrite map_app, concat_app, B', B; reflexivity|]. split; [intros a J; apply in_app_or in J as [J|J]; auto|].
  unfold callIds, given in *. rewrite map_app, flat_map_app, D. assert (E := part1_ids _ _ P). unfold callIds, given in E. rewrite E. reflexivity.
Qed.
Lemma idsSeq_distinct l ids' : idsSeq l [] ids' <-> ids' = rev (given l) /\ NoDup (given l) /\ forall i, In i (given l) -> identifier (PStr i).
Proof.
  rewrite idsSeq_fresh, fresh_iff. change (somes l) with (given l). rewrite app_nil_r. split.
  - intros ((-> & A & _) & B). split; [reflexivity|]. split; [exact A|]. intros i J. apply identifier_ok. apply B. exact J.
  - intros (-> & A & B). split; [split; [reflexivity|]; split; [exact A|intros i _ []]|]. intros i J. apply identifier_ok. apply B. exact J.
Qed.
Lemma outline_ok c s : parsed c -> (outlineOk T true c s = true <-> soutline s = false /\ eattrib c = [] /\ white T c).
Proof.
  intro P. unfold outlineOk. cbn [negb orb]. rewrite !andb_true_iff, no_children, white_blank by exact P. rewrite negb_true_iff. tauto.
Qed.
Section Step.
Variable name : str.
(** elements common to both formats *)
Lemma common_is format c s m r : (format = 1 \/ format = 2)%Z -> holds name s m -> commonElement T true c s = Some r ->
  (forall s', r = Ok s' -> exists m', step format m c m' /\ holds name s' m') /\ (forall m', step format m c m' -> exists s', r = Ok s' /\ holds name s' m').
Proof.
  intros Fm [Ha Hi Ho Hl Hn Hu Hg Han Hd Hc Hat]. unfold commonElement. cbn [andb].
  destruct (eqb_spec (etag c) (u "advance")) as [E|N1].
  { intro X. injection X as <-. rewrite Ha. split.
    - intros s' H. destruct (g_advance m) as [|] eqn:Z; [discriminate H|]. cbn [some negb] in H. unfold withRead in H. apply bind_Ok in H as (r' & Hr & H). apply advance_is in Hr as (a & Pa & ->). apply Ok_inj in H. subst s'.
      eexists. split; [exact (step_advance format m c a E Z Pa)|]. constructor; fields; try assumption; try reflexivity. intro k. rewrite !get_set, Hat. keysOf k Z.
    - intros m' S. destruct S as [o E' Z P|a E' Z P|n E' Z P|v E' Z P|v F E' Z P|z E' P|v F E' P|v F E' P]; rewrite E in E'; try discriminate E'.
      rewrite Z. cbn [some negb]. unfold withRead. rewrite (proj2 (advance_is c (sread (seenAdvance s)) _) (ex_intro _ a (conj P eq_refl))). cbn [bind]. eexists. split; [reflexivity|].
      constructor; fields; try assumption; try reflexivity. intro k. rewrite !get_set, Hat. keysOf k Z. }
  destruct (eqb_spec (etag c) (u "unicode")) as [E|N2].
  { intro X. injection X as <-. split.
    - intros s' H. apply bind_Ok in H as (us & Hus & H). apply unicode_is in Hus as (z & Pz & ->). apply Ok_inj in H. subst s'. eexists. split; [exact (step_unicode format m c z E Pz)|]. constructor; fields; try assumption. rewrite Hu. reflexivity.
    - intros m' S. destruct S as [o E' Z P|a E' Z P|n E' Z P|v E' Z P|v F E' Z P|z E' P|v F E' P|v F E' P]; rewrite E in E'; try discriminate E'.
      rewrite (proj2 (unicode_is c (sunicodes s) _) (ex_intro _ z (conj P eq_refl))). cbn [bind]. eexists. split; [reflexivity|]. constructor; fields; try assumption. rewrite Hu. reflexivity. }
  destruct (eqb_spec (etag c) (u "note")) as [E|N3].
  { intro X. injection X as <-. rewrite Hn. split.
    - intros s' H. destruct (g_note m) as [|] eqn:Z; [discriminate H|]. cbn [some negb] in H. unfold withRead in H. apply bind_Ok in H as (r' & Hr & H). apply note_is in Hr as (a & Pa & ->). apply Ok_inj in H. subst s'.
      eexists. split; [exact (step_note format m c a E Z Pa)|]. constructor; fields; try assumption; try reflexivity. intro k. rewrite !get_set, Hat. keysOf k Z.
    - intros m' S. destruct S as [o E' Z P|a E' Z P|n E' Z P|v E' Z P|v F E' Z P|z E' P|v F E' P|v F E' P]; rewrite E in E'; try discriminate E'.
      rewrite Z. cbn [some negb]. unfold withRead. rewrite (proj2 (note_is c (sread (seenNote s)) _) (ex_intro _ n (conj P eq_refl))). cbn [bind]. eexists. split; [reflexivity|].
      constructor; fields; try assumption; try reflexivity. intro k. rewrite !get_set, Hat. keysOf k Z. }
  destruct (eqb_spec (etag c) (u "lib")) as [E|N4]; [|discriminate].
  intro X. injection X as <-. rewrite Hl. split.
  - intros s' H. destruct (g_lib m) as [|] eqn:Z; [discriminate H|]. cbn [some negb] in H. unfold withRead in H. apply bind_Ok in H as (r' & Hr & H). apply lib_is in Hr as (a & Pa & ->). apply Ok_inj in H. subst s'.
    eexists. split; [exact (step_lib format m c a E Z Pa)|]. constructor; fields; try assumption; try reflexivity. intro k. rewrite !get_set, Hat. keysOf k Z.
  - intros m' S. destruct S as [o E' Z P|a E' Z P|n E' Z P|v E' Z P|v F E' Z P|z E' P|v F E' P|v F E' P]; rewrite E in E'; try discriminate E'.
    rewrite Z. cbn [some negb]. unfold withRead. rewrite (proj2 (lib_is c (sread (seenLib s)) _) (ex_intro _ v (conj P eq_refl))). cbn [bind]. eexists. split; [reflexivity|].
    constructor; fields; try assumption; try reflexivity. intro k. rewrite !get_set, Hat. keysOf k Z.
Qed.
Lemma common_none c s : commonElement T true c s = None -> etag c <> u "advance" /\ etag c <> u "unicode" /\ etag c <> u "note" /\ etag c <> u "lib".
Proof.
  unfold commonElement. destruct (eqb_spec (etag c) (u "advance")); [discriminate|]. destruct (eqb_spec (etag c) (u "unicode")); [discriminate|]. destruct (eqb_spec (etag c) (u "note")); [discriminate|]. destruct (eqb_spec (etag c) (u "lib")); [discriminate|]. auto.
Qed.
Lemma element2_is c s m : parsed c -> holds name s m ->
  (forall s', element2 T true true true s c = Ok s' -> exists m', step 2 m c m' /\ holds name s' m') /\ (forall m', step 2 m c m' -> exists s', element2 T true true true s c = Ok s' /\ holds name s' m').
Proof.
  intros Pc H0. assert (ND := parsed_attrs _ Pc). unfold element2. cbn [negb orb].
  destruct (eqb_spec (etag c) (u "outline")) as [E|N0].
  { destruct H0 as [Ha Hi Ho Hl Hn Hu Hg Han Hd Hc Hat]. split.
    - intros s' H. destruct (outlineOk T true c s) eqn:Ok1; [|discriminate H]. apply outline_ok in Ok1 as (S0 & Ea & Wh); [|exact Pc]. rewrite Ho in S0. apply some_false in S0.
      apply bind_Ok in H as ((cs & ids) & Hcs & H). apply Ok_inj in H. subst s'.
      assert (Z : callsOf m = []) by (unfold callsOf; rewrite S0; reflexivity). rewrite Z in *. cbn [map idsSeq] in Hd. cbn [seenOutline sids] in Hcs. rewrite Hd in Hcs.
      apply outline2_is in Hcs as (parts & F & -> & En & Sq). assert (Sq' := Sq). apply idsSeq_distinct in Sq' as (_ & D1 & D2).
      assert (P : outlineIs T 2 c (concat (map fst parts), [])). { split; [exact Ea|]. split; [exact Wh|]. exists parts. split; [exact F|]. split; [rewrite En; reflexivity|]. split; [exact D1|exact D2]. }
      eexists. split; [exact (step_outline 2 m c _ E S0 P)|]. constructor; fields; try assumption; try reflexivity.
      + rewrite Hc. reflexivity.
      + intro k. rewrite Hat. unfold look, attributes, stored, anchorsOf. rewrite S0. reflexivity.
    - intros m' S. destruct S as [o E' Z P|a E' Z P|n E' Z P|v E' Z P|v F E' Z P|z E' P|v F E' P|v F E' P]; rewrite E in E'; try discriminate E'.
      destruct P as (Ea & Wh & parts & F & -> & D1 & D2). cbn [fst] in *.
      assert (O1 : outlineOk T true c s = true) by (apply outline_ok; [exact Pc|]; split; [rewrite Ho, Z; reflexivity|auto]). rewrite O1.
      assert (Zc : callsOf m = []) by (unfold callsOf; rewrite Z; reflexivity). rewrite Zc in *. cbn [map idsSeq] in Hd.
      assert (En : concat (map snd parts) = []). { clear - F. induction F as [|e p l parts P F IH]; [reflexivity|]. cbn [map concat]. rewrite IH. destruct P as [(_ & _ & _ & b & tr & _ & _ & ->)|(_ & _ & pts & _ & _ & ->)]; reflexivity. }
      assert (Sq : idsSeq (map callId (concat (map fst parts))) [] (rev (given (map callId (concat (map fst parts)))))) by (apply idsSeq_distinct; auto).
      cbn [seenOutline sids]. rewrite Hd. rewrite (proj2 (outline2_is (echildren c) [] _ _) (ex_intro _ parts (conj F (conj eq_refl (conj En Sq))))). cbn [bind]. eexists. split; [reflexivity|].
      constructor; fields; try assumption; try reflexivity.
      + unfold callsOf. fields. rewrite Hc. reflexivity.
      + intro k. rewrite Hat. unfold look, attributes, stored, anchorsOf. fields. rewrite Z, En. reflexivity. }
  destruct (commonElement T true c s) as [r|] eqn:Ec; [apply (common_is 2 c s m r); auto|]. apply common_none in Ec as (N1 & N2 & N3 & N4).
  destruct H0 as [Ha Hi Ho Hl Hn Hu Hg Han Hd Hc Hat].
  destruct (eqb_spec (etag c) (u "guideline")) as [E|N5].
  { split.
    - intros s' H. destruct (Nat.eqb (length (echildren c)) 0) eqn:Ech; [|discriminate H]. apply no_children in Ech. apply bind_Ok in H as (d & Hd' & H). apply Ok_inj in H. subst s'.
      assert (P : itemIs T ["x"; "y"; "angle"] c (toPDict d)) by (apply item_is; [exact ND|apply litNoDup; reflexivity|exact Ech|exists d; split; [exact Hd'|reflexivity]]).
      eexists. split; [exact (step_guideline 2 m c _ eq_refl E P)|]. constructor; fields; try assumption. rewrite Hg. reflexivity.
    - intros m' S. destruct S as [o E' Z P|a E' Z P|n E' Z P|v E' Z P|v F E' Z P|z E' P|v F E' P|v F E' P]; rewrite E in E'; try discriminate E'.
      assert (Ech : echildren c = []) by apply P. apply item_is in P as (d & Hd' & ->); [|exact ND|apply litNoDup; reflexivity|exact Ech]. rewrite Ech. cbn [length Nat.eqb]. change [u "x"; u "y"; u "angle"] with (map u ["x"; "y"; "angle"]). rewrite Hd'. cbn [bind].
      eexists. split; [reflexivity|]. constructor; fields; try assumption. rewrite Hg. reflexivity. }
  destruct (eqb_spec (etag c) (u "anchor")) as [E|N6].
  { split.
    - intros s' H. destruct (Nat.eqb (length (echildren c)) 0) eqn:Ech; [|discriminate H]. apply no_children in Ech. apply bind_Ok in H as (d & Hd' & H). apply Ok_inj in H. subst s'.
      assert (P : itemIs T ["x"; "y"] c (toPDict d)) by (apply item_is; [exact ND|apply litNoDup; reflexivity|exact Ech|exists d; split; [exact Hd'|reflexivity]]).
      eexists. split; [exact (step_anchor 2 m c _ eq_refl E P)|]. constructor; fields; try assumption. rewrite Han. reflexivity.
    - intros m' S. destruct S as [o E' Z P|a E' Z P|n E' Z P|v E' Z P|v F E' Z P|z E' P|v F E' P|v F E' P]; rewrite E in E'; try discriminate E'.
      assert (Ech : echildren c = []) by apply P. apply item_is in P as (d & Hd' & ->); [|exact ND|apply litNoDup; reflexivity|exact Ech]. rewrite Ech. cbn [length Nat.eqb]. change [u "x"; u "y"] with (map u ["x"; "y"]). rewrite Hd'. cbn [bind].
      eexists. split; [reflexivity|]. constructor; fields; try assumption. rewrite Han. reflexivity. }
  destruct (eqb_spec (etag c) (u "image")) as [E|N7].
  { rewrite Hi. cbn [andb]. split.
    - intros s' H. destruct (g_image m) as [|] eqn:Z; [discriminate H|]. cbn [some negb] in H. destruct (Nat.eqb (length (echildren c)) 0) eqn:Ech; [|discriminate H]. apply no_children in Ech. unfold withRead in H. apply bind_Ok in H as (r' & Hr & H). apply image_is in Hr as (a & Pa & ->); [|exact ND|exact Ech]. apply Ok_inj in H. subst s'.
      eexists. split; [exact (step_image 2 m c a eq_refl E Z Pa)|]. constructor; fields; try assumption; try reflexivity. intro k. rewrite !get_set, Hat. keysOf k Z.
    - intros m' S. destruct S as [o E' Z P|a E' Z P|n E' Z P|v E' Z P|v F E' Z P|z E' P|v F E' P|v F E' P]; rewrite E in E'; try discriminate E'.
      assert (Ech : echildren c = []) by apply P. rewrite Z, Ech. cbn [some negb length Nat.eqb]. unfold withRead. rewrite (proj2 (image_is c (sread (seenImage s)) _ ND Ech) (ex_intro _ v (conj P eq_refl))). cbn [bind]. eexists. split; [reflexivity|].
      constructor; fields; try assumption; try reflexivity. intro k. rewrite !get_set, Hat. keysOf k Z. }
  split; [discriminate|]. intros m' S. destruct S as [o E' Z P|a E' Z P|n E' Z P|v E' Z P|v F E' Z P|z E' P|v F E' P|v F E' P]; contradiction.
Qed.
Lemma element1_is c s m : parsed c -> holds name s m ->
  (forall s', element1 T true true true s c = Ok s' -> exists m', step 1 m c m' /\ holds name s' m') /\ (forall m', step 1 m c m' -> exists s', element1 T true true true s c = Ok s' /\ holds name s' m').
Proof.
  intros Pc H0. unfold element1. cbn [negb orb].
  destruct (eqb_spec (etag c) (u "outline")) as [E|N0].
  { destruct H0 as [Ha Hi Ho Hl Hn Hu Hg Han Hd Hc Hat].
    assert (Bo : forall parts r, Forall2 (partIs T 1) (echildren c) parts -> buildOutline1 T true true true c r =
      Ok (match concat (map snd parts) with [] => draws (concat (map fst parts)) r | l => setattr (u "anchors") (PList l) (draws (concat (map fst parts)) r) end)).
    { intros parts r F. unfold buildOutline1. rewrite (proj2 (outline1_is (echildren c) _ _) (ex_intro _ parts (conj F (conj eq_refl eq_refl)))). cbn [bind]. destruct (outline1_anchors _ _ F) as (A & B & C & _). destruct (concat (map snd parts)) as [|a l]; [reflexivity|].
      assert (V : fst (anchorsValidator T (PList (a :: l)) []) = true).
      { apply (proj2 (C95_lists T (PList (a :: l)) [] (ltac:(clear - C; induction (a :: l) as [|x r IH]; [exact I|split; [apply C; left; reflexivity|apply IH; intros y J; apply C; right; exact J]])))). exists (a :: l). split; [reflexivity|]. split; [exact A|]. rewrite B. split; [apply NoDup_nil|intros s0 Hs0; destruct Hs0]. }
      cbn [negb orb]. rewrite V. reflexivity. }
    assert (Hold : forall parts, Forall2 (partIs T 1) (echildren c) parts -> g_outline m = None ->
      holds name (mkG (sadvance (seenOutline s)) (simage (seenOutline s)) (soutline (seenOutline s)) (slib (seenOutline s)) (snote (seenOutline s)) (sunicodes (seenOutline s)) (sguidelines (seenOutline s)) (sanchors (seenOutline s)) (sids (seenOutline s))
        (match concat (map snd parts) with [] => draws (concat (map fst parts)) (sread (seenOutline s)) | l => setattr (u "anchors") (PList l) (draws (concat (map fst parts)) (sread (seenOutline s))) end))
        (mkMeaning (Some (concat (map fst parts), concat (map snd parts))) (g_advance m) (g_note m) (g_lib m) (g_image m) (g_unicodes m) (g_guidelines m) (g_anchors m))).
    { intros parts F Z. destruct (outline1_anchors _ _ F) as (_ & _ & _ & Ci). assert (Zc : callsOf m = []) by (unfold callsOf; rewrite Z; reflexivity). rewrite Zc in *. cbn [map idsSeq] in Hd.
      constructor; fields; try assumption; try reflexivity.
      - unfold callsOf. fields. rewrite Hd. apply idsSeq_distinct. unfold callIds in Ci. rewrite Ci. split; [reflexivity|]. split; [constructor|intros i []].
      - unfold callsOf. fields. destruct (concat (map snd parts)); fields; rewrite Hc; reflexivity.
      - intro k. destruct (concat (map snd parts)) as [|a l] eqn:Ea; fields.
        + rewrite Hat. unfold look, attributes, stored, anchorsOf. fields. rewrite Z. reflexivity.
        + rewrite get_set, Hat. unfold anchorsOf. unfold look, attributes, stored, anchorsOf; fields; rewrite ?Z, ?app_nil_r. cbn [get listOr]. destruct (eqb_spec k (u "anchors")) as [->|n]; reflexivity. }
    split.
    - intros s' H. destruct (outlineOk T true c s) eqn:Ok1; [|discriminate H]. apply outline_ok in Ok1 as (S0 & Ea & Wh); [|exact Pc]. rewrite Ho in S0. apply some_false in S0.
      unfold withRead in H. apply bind_Ok in H as (r & Hr & H). apply Ok_inj in H. subst s'. assert (Hp : exists parts, Forall2 (partIs T 1) (echildren c) parts).
      { unfold buildOutline1 in Hr. apply bind_Ok in Hr as ((an & cs) & Hl' & _). apply outline1_is in Hl' as (parts & F & _). eauto. }
      destruct Hp as (parts & F). rewrite (Bo parts _ F) in Hr. apply Ok_inj in Hr. subst r.
      assert (P : outlineIs T 1 c (concat (map fst parts), concat (map snd parts))). { split; [exact Ea|]. split; [exact Wh|]. exists parts. split; [exact F|]. split; [reflexivity|]. cbn [fst]. destruct (outline1_anchors _ _ F) as (_ & _ & _ & ->). split; [constructor|intros i []]. }
      eexists. split; [exact (step_outline 1 m c _ E S0 P)|]. apply Hold; assumption.
    - intros m' S. destruct S as [o E' Z P|a E' Z P|n E' Z P|v E' Z P|v F E' Z P|z E' P|v F E' P|v F E' P]; rewrite E in E'; try discriminate E'.
      destruct P as (Ea & Wh & parts & F & -> & D1 & D2). assert (O1 : outlineOk T true c s = true) by (apply outline_ok; [exact Pc|]; split; [rewrite Ho, Z; reflexivity|auto]). rewrite O1.
      unfold withRead. rewrite (Bo parts _ F). cbn [bind]. eexists. split; [reflexivity|]. apply Hold; assumption. }
  destruct (commonElement T true c s) as [r|] eqn:Ec; [apply (common_is 1 c s m r); auto|]. apply common_none in Ec as (N1 & N2 & N3 & N4).
  split; [discriminate|]. intros m' S. destruct S as [o E' Z P|a E' Z P|n E' Z P|v E' Z P|v F E' Z P|z E' P|v F E' P|v F E' P]; try contradiction; discriminate F.
Qed.
Lemma fold_is (el : gstate -> elem -> res gstate) format s0 :
  (forall c s m, parsed c -> holds name s m -> (forall s', el s c = Ok s' -> exists m', step format m c m' /\ holds name s' m') /\ (forall m', step format m c m' -> exists s', el s c = Ok s' /\ holds name s' m')) ->
  holds name s0 empty -> forall l, Forall parsed l ->
  (forall s, foldM el s0 l = Ok s -> exists m, childrenAre T format l m /\ holds name s m) /\ (forall m, childrenAre T format l m -> exists s, foldM el s0 l = Ok s /\ holds name s m).
Proof.
  intros Hel H0 l. induction l as [|c l IH] using rev_ind; intro Pl.
  - split; [intros s H; injection H as <-; exists empty; split; [apply are_nil; reflexivity|exact H0]|]. intros m H. apply are_nil in H. subst m. exists s0. split; [reflexivity|exact H0].
  - apply Forall_app in Pl as [Pl Pc]. inversion Pc as [|? ? Pc' _]; subst. destruct (IH Pl) as [A B]. rewrite foldM_app'. split.
    + intros s H. apply bind_Ok in H as (s1 & H1 & H). cbn [foldM] in H. apply bind_Ok in H as (s2 & H2 & H). injection H as <-. destruct (A _ H1) as (m & Am & Hm). destruct (proj1 (Hel c s1 m Pc' Hm) _ H2) as (m' & St & Hm'). exists m'. split; [apply are_snoc; eauto|exact Hm'].
    + intros m' H. apply are_snoc in H as (m & Am & St). destruct (B _ Am) as (s1 & H1 & Hm). destruct (proj2 (Hel c s1 m Pc' Hm) _ St) as (s2 & H2 & Hm'). exists s2. rewrite H1. cbn [bind foldM]. rewrite H2. split; [reflexivity|exact Hm'].
Qed.
End Step.
(** ** the end of the document *)
Lemma ids_somes l : identifiersOf l = somes (map gid l).
Proof. induction l as [|g l IH]; [reflexivity|]. unfold identifiersOf, somes, gid in *. cbn [map concat flat_map]. rewrite IH. destruct (vget (u "identifier") g); reflexivity. Qed.
Definition ends (m : meaning) : Prop :=
  Forall (goodGuideline T) (g_guidelines m) /\ Forall (goodAnchor T) (anchorsOf m) /\ NoDup (callIds (callsOf m) ++ identifiersOf (g_guidelines m) ++ identifiersOf (anchorsOf m)).
Definition outlineAnchors (m : meaning) : list pyval := match g_outline m with Some (_, l) => l | None => [] end.
Lemma are_nil_anchors l m : childrenAre T 2 l m -> outlineAnchors m = [].
Proof.
  intro A. unfold outlineAnchors. destruct (are_outline _ _ _ _ A) as [[_ ->]|(c & v & _ & (_ & _ & parts & F & -> & _) & ->)]; [reflexivity|].
  clear - F. induction F as [|e p l parts P F IH]; [reflexivity|]. cbn [map concat]. rewrite IH. destruct P as [(_ & _ & _ & b & tr & _ & _ & ->)|(_ & _ & pts & _ & _ & ->)]; reflexivity.
Qed.
Lemma named_in t l c : In c (named t l) -> In c l /\ etag c = u t.
Proof. unfold named. intro J. apply filter_In in J as [J E]. split; [exact J|]. apply eqb_eq. exact E. Qed.
Lemma items_once t nums l vs : Forall parsed l -> Forall2 (itemIs T nums) (named t l) vs -> forall v, In v vs -> keysOnce v.
Proof.
  intros P F v J. rewrite Forall_forall in P. assert (X : forall c, In c (named t l) -> NoDup (map fst (eattrib c))) by (intros c Jc; apply parsed_attrs, P; apply named_in in Jc as [Jc _]; exact Jc).
  revert X J. induction F as [|c w l' vs H F IH]; [intros _ []|]. intros X [->|J]; [|apply IH; [intros x Jx; apply X; right; exact Jx|exact J]]. destruct H as (_ & d & D & ->). eapply dictIs_once; [apply X; left; reflexivity|exact D].
Qed.
Lemma none_named t l format : (forall c, In c l -> exists t', In t' (elementNames format) /\ etag c = u t') -> (forall t', In t' (elementNames format) -> u t' <> u t) -> named t l = [].
Proof.
  intros K N. destruct (named t l) as [|c r] eqn:E; [reflexivity|]. assert (J : In c (named t l)) by (rewrite E; left; reflexivity). apply named_in in J as [J Et]. destruct (K c J) as (t' & J' & E'). exfalso. apply (N t' J'). congruence.
Qed.
Lemma are_one l m : childrenAre T 1 l m -> g_guidelines m = [] /\ g_anchors m = [] /\ g_image m = None /\ Forall (goodAnchor T) (outlineAnchors m) /\ identifiersOf (outlineAnchors m) = [] /\ callIds (callsOf m) = [].
Proof.
  intro A. assert (K := are_known _ _ _ _ A).
  assert (Ng : named "guideline" l = []) by (apply (none_named _ _ 1 K); intros t' [<-|[<-|[<-|[<-|[<-|[]]]]]]; discriminate).
  assert (Na : named "anchor" l = []) by (apply (none_named _ _ 1 K); intros t' [<-|[<-|[<-|[<-|[<-|[]]]]]]; discriminate).
  assert (Ni : named "image" l = []) by (apply (none_named _ _ 1 K); intros t' [<-|[<-|[<-|[<-|[<-|[]]]]]]; discriminate).
  assert (G := are_guidelines _ _ _ _ A). assert (H := are_anchors _ _ _ _ A). rewrite Ng in G. rewrite Na in H. inversion G. inversion H. split; [reflexivity|]. split; [reflexivity|].
  split; [destruct (are_image _ _ _ _ A) as [[_ E]|(c & v & E & _)]; [exact E|congruence]|].
  unfold outlineAnchors, callsOf. destruct (are_outline _ _ _ _ A) as [[_ ->]|(c & v & _ & (_ & _ & parts & F & -> & _) & ->)]; [split; [constructor|split; reflexivity]|].
  destruct (outline1_anchors _ _ F) as (X & Y & _ & Z). auto.
Qed.
Lemma put_unicodes s m name : holds name s m -> forall k, get k (rattrs (setUnicodes s (sread s))) = if eqb k (u "unicodes") then listOr (map PInt (g_unicodes m)) else look k (attributes name (stored m)).
Proof.
  intros H k. assert (Hat := h_attr _ _ _ H k). unfold setUnicodes. rewrite (h_uni _ _ _ H). destruct (g_unicodes m) as [|z zs]; [|cbn [setattr rattrs]; rewrite get_set; destruct (eqb k (u "unicodes")); [reflexivity|exact Hat]].
  rewrite Hat. destruct (eqb_spec k (u "unicodes")) as [->|_]; reflexivity.
Qed.
Lemma calls_unicodes s r : rcalls (setUnicodes s r) = rcalls r.
Proof. unfold setUnicodes. destruct (sunicodes s); reflexivity. Qed.
Lemma finish1_is name l s m : childrenAre T 1 l m -> holds name s m -> reads (setUnicodes s (sread s)) name m /\ ends m.
Proof.
  intros A H. destruct (are_one _ _ A) as (G & An & Im & X & Y & Z). split.
  - split; [rewrite calls_unicodes; apply H|]. intro k. rewrite (put_unicodes _ _ _ H k). unfold look, attributes, stored, anchorsOf. fields. rewrite ?G, ?An. cbn [get listOr map].
    destruct (eqb_spec k (u "unicodes")) as [->|n]; [reflexivity|]. reflexivity.
  - unfold ends, anchorsOf. rewrite G, An, app_nil_r. fold (outlineAnchors m). rewrite Y, Z. split; [constructor|]. split; [exact X|]. constructor.
Qed.
Lemma nodup3 (a b c : list str) : NoDup (a ++ b ++ c) <-> (NoDup a /\ NoDup b /\ (forall i, In i b -> ~ In i (rev a))) /\ NoDup c /\ (forall i, In i c -> ~ In i (rev b ++ rev a)).
Proof.
  assert (Two : forall x y : list str, NoDup (x ++ y) <-> NoDup x /\ NoDup y /\ forall i, In i y -> ~ In i x).
  { clear. intros x y. induction x as [|e x IH]; cbn [app]; [split; [intro H; repeat split; [constructor|exact H|intros i _ []]|tauto]|]. split.
    - intro H. inversion H as [|? ? N H']; subst. apply IH in H' as (A & B & C). split; [constructor; [intro J; apply N, in_or_app; left; exact J|exact A]|]. split; [exact B|]. intros i J [->|J']; [apply N, in_or_app; right; exact J|apply (C i J J')].
    - intros (A & B & C). inversion A; subst. constructor; [|apply IH; repeat split; [assumption|assumption|intros i J J'; apply (C i J); right; exact J']]. intro J. apply in_app_or in J as [J|J]; [contradiction|]. apply (C e J). left. reflexivity. }
  rewrite app_assoc, Two, Two. split.
  - intros ((A & B & C) & D & E). split; [split; [exact A|split; [exact B|intros i J; rewrite <- in_rev; apply C; exact J]]|]. split; [exact D|]. intros i J. rewrite in_app_iff, <- !in_rev. intro Z. apply (E i J). apply in_or_app. tauto.
  - intros ((A & B & C) & D & E). split; [split; [exact A|split; [exact B|intros i J; rewrite (in_rev a); apply C; exact J]]|]. split; [exact D|]. intros i J Z. apply (E i J). rewrite in_app_iff, <- !in_rev. apply in_app_or in Z. tauto.
Qed.
Definition tail2 (s : gstate) : res greading :=
  let r := setUnicodes s (sread s) in
  do (r, ids) <- match sguidelines s with
                 | [] => Ok (r, sids s)
                 | l =>
                   let '(ok, ids) := guidelinesValidator T (PList l) (sids s) in
                   check (negb true || ok) else GlifLibError;
                   Ok (setattr (u "guidelines") (PList l) r, ids)
                 end;
  match sanchors s with
  | [] => Ok r
  | l =>
    check (negb true || fst (anchorsValidator T (PList l) ids)) else GlifLibError;
    Ok (setattr (u "anchors") (PList l) r)
  end.
Lemma good_all {A : pyval -> bool} {G : pyval -> Prop} (l : list pyval) : (forall v, keysOnce v -> (A v = true <-> G v)) -> (forall v, In v l -> keysOnce v) -> (Forall (fun v => A v = true) l <-> Forall G l).
Proof. intros H K. rewrite !Forall_forall. split; intros F v J; apply (H v (K v J)), F, J. Qed.
Definition optAttr (k : str) (l : list pyval) (r : greading) : greading := match l with [] => r | _ => setattr k (PList l) r end.
Lemma tail2_is name s m : outlineAnchors m = [] -> holds name s m -> (forall v, In v (g_guidelines m) -> keysOnce v) -> (forall v, In v (g_anchors m) -> keysOnce v) ->
  forall r, tail2 s = Ok r <-> ends m /\ r = optAttr (u "anchors") (g_anchors m) (optAttr (u "guidelines") (g_guidelines m) (setUnicodes s (sread s))).
Proof.
  intros No H Kg Ka r. assert (Hd := proj1 (idsSeq_distinct _ _) (h_ids _ _ _ H)). destruct Hd as (Hd & D1 & D2). change (given (map callId (callsOf m))) with (callIds (callsOf m)) in *.
  unfold tail2, ends, anchorsOf. fold (outlineAnchors m). rewrite No. cbn [app]. rewrite (h_gl _ _ _ H), (h_an _ _ _ H), Hd, nodup3. cbn [negb orb].
  rewrite <- (good_all (g_guidelines m) (C95_guidelines T) Kg), <- (good_all (g_anchors m) (C95_anchors T) Ka).
  assert (G : forall ids', uniqueLoop (guidelineValidator T) (g_guidelines m) (rev (callIds (callsOf m))) = (true, ids') <-> Forall (fun v => guidelineValidator T v = true) (g_guidelines m) /\ NoDup (identifiersOf (g_guidelines m)) /\ (forall i, In i (identifiersOf (g_guidelines m)) -> ~ In i (rev (callIds (callsOf m)))) /\ ids' = rev (identifiersOf (g_guidelines m)) ++ rev (callIds (callsOf m))).
  { intro ids'. rewrite uniqueLoop_iff, fresh_iff, <- ids_somes. tauto. }
  assert (An : forall ids, fst (anchorsValidator T (PList (g_anchors m)) ids) = true <-> Forall (fun v => anchorValidator T v = true) (g_anchors m) /\ NoDup (identifiersOf (g_anchors m)) /\ forall i, In i (identifiersOf (g_anchors m)) -> ~ In i ids).
  { intro ids. cbn [anchorsValidator]. split.
    - destruct (uniqueLoop (anchorValidator T) (g_anchors m) ids) as [b ids'] eqn:U. cbn [fst]. intros ->. apply uniqueLoop_iff in U as [U1 U2]. rewrite fresh_iff, <- ids_somes in U2. tauto.
    - intros (X & Y & Z). rewrite (proj2 (uniqueLoop_iff _ (g_anchors m) ids (rev (identifiersOf (g_anchors m)) ++ ids))); [reflexivity|]. split; [exact X|]. apply fresh_iff. rewrite <- ids_somes. auto. }
  assert (First : (do (r0, ids) <- match g_guidelines m with [] => Ok (setUnicodes s (sread s), rev (callIds (callsOf m))) | v :: l => let '(ok, ids) := guidelinesValidator T (PList (v :: l)) (rev (callIds (callsOf m))) in check ok else GlifLibError; Ok (setattr (u "guidelines") (PList (v :: l)) (setUnicodes s (sread s)), ids) end;
      match g_anchors m with [] => Ok r0 | v :: l => check fst (anchorsValidator T (PList (v :: l)) ids) else GlifLibError; Ok (setattr (u "anchors") (PList (v :: l)) r0) end) = Ok r <->
    (Forall (fun v => guidelineValidator T v = true) (g_guidelines m) /\ NoDup (identifiersOf (g_guidelines m)) /\ (forall i, In i (identifiersOf (g_guidelines m)) -> ~ In i (rev (callIds (callsOf m))))) /\
    match g_anchors m with [] => Ok (optAttr (u "guidelines") (g_guidelines m) (setUnicodes s (sread s))) | v :: l => check fst (anchorsValidator T (PList (v :: l)) (rev (identifiersOf (g_guidelines m)) ++ rev (callIds (callsOf m)))) else GlifLibError; Ok (setattr (u "anchors") (PList (v :: l)) (optAttr (u "guidelines") (g_guidelines m) (setUnicodes s (sread s)))) end = Ok r).
  { destruct (g_guidelines m) as [|g gl] eqn:Eg.
    - cbn [bind]. change (identifiersOf []) with (@nil str). cbn [rev app optAttr]. split; [intro X; split; [split; [constructor|split; [apply NoDup_nil|intros i []]]|exact X]|intros [_ X]; exact X].
    - cbn [guidelinesValidator optAttr]. destruct (uniqueLoop (guidelineValidator T) (g :: gl) (rev (callIds (callsOf m)))) as [b ids] eqn:U. destruct b; cbn [bind].
      + destruct (proj1 (G ids) eq_refl) as (U1 & U2 & U3 & ->). tauto.
      + split; [discriminate|]. intros ((X & Y & Z) & _). discriminate (proj2 (G _) (conj X (conj Y (conj Z eq_refl)))). }
  cbv zeta. etransitivity; [exact First|]. clear First G.
  destruct (g_anchors m) as [|a al].
  - change (identifiersOf []) with (@nil str). split.
    + intros ((X & Y & Z) & E). apply Ok_inj in E. subst r. repeat split; auto; [apply NoDup_nil].
    + intros ((X & _ & (_ & Y & Z) & _) & ->). auto.
  - destruct (fst (anchorsValidator T (PList (a :: al)) (rev (identifiersOf (g_guidelines m)) ++ rev (callIds (callsOf m))))) eqn:V.
    + apply An in V as (V1 & V2 & V3). split; [intros ((X & Y & Z) & E); apply Ok_inj in E; subst r; repeat split; auto|]. intros ((X & _ & (_ & Y & Z) & _) & ->). auto.
    + split; [intros [_ E]; discriminate E|]. intros ((_ & X & _ & Y & Z) & _). rewrite (proj2 (An _) (conj X (conj Y Z))) in V. discriminate V.
Qed.
Lemma finish2_reads name s m : outlineAnchors m = [] -> holds name s m -> reads (optAttr (u "anchors") (g_anchors m) (optAttr (u "guidelines") (g_guidelines m) (setUnicodes s (sread s)))) name m.
Proof.
  intros No H. assert (Hu := put_unicodes _ _ _ H). set (r := setUnicodes s (sread s)) in *. split.
  - assert (X : rcalls r = callsOf m) by (unfold r; rewrite calls_unicodes; apply H). unfold optAttr. destruct (g_anchors m), (g_guidelines m); exact X.
  - intro k. assert (Lk : forall k, get k (rattrs (optAttr (u "anchors") (g_anchors m) (optAttr (u "guidelines") (g_guidelines m) r))) = if eqb k (u "anchors") then listOr (g_anchors m) else if eqb k (u "guidelines") then listOr (g_guidelines m) else get k (rattrs r)).
    { clear k. intro k. assert (A0 : get (u "anchors") (rattrs r) = None) by (rewrite Hu; unfold look, attributes, stored, anchorsOf; fields; fold (outlineAnchors m); rewrite No; reflexivity). assert (G0 : get (u "guidelines") (rattrs r) = None) by (rewrite Hu; reflexivity).
      unfold optAttr. destruct (g_anchors m) as [|a al], (g_guidelines m) as [|g gl]; cbn [setattr rattrs listOr]; rewrite ?get_set;
        (destruct (eqb_spec k (u "anchors")) as [->|n]; [try reflexivity; exact A0|]); (destruct (eqb_spec k (u "guidelines")) as [->|n']; [try reflexivity; exact G0|]); reflexivity. }
    rewrite Lk, Hu. unfold look, attributes, stored, anchorsOf. fields. fold (outlineAnchors m). rewrite No. cbn [app get].
    destruct (eqb_spec k (u "anchors")) as [->|n1]; [reflexivity|]. destruct (eqb_spec k (u "guidelines")) as [->|n2]; [reflexivity|]. destruct (eqb_spec k (u "unicodes")) as [->|n3]; [reflexivity|]. reflexivity.
Qed.
Lemma start_holds name : holds name (startState (setattr (u "name") (PStr name) (mkReading [] []))) empty.
Proof. constructor; try reflexivity. intro k. unfold look, attributes, stored, startState, setattr. cbn [sread rattrs get set]. destruct (eqb k (u "name")); [reflexivity|]. repeat match goal with |- context [if ?b then _ else _] => destruct b end; reflexivity. Qed.
Lemma readName_is e r r' : readName true true e r = Ok r' <-> exists name, attrAt "name" e = Some name /\ name <> [] /\ r' = setattr (u "name") (PStr name) r.
Proof.
  unfold readName, attrAt, eget. destruct (get (u "name") (eattrib e)) as [[|c n]|]; cbn [negb].
  - split; [discriminate|]. intros (x & E & N & _). injection E as <-. contradiction.
  - split; [intro H; apply Ok_inj in H; subst; exists (c :: n); repeat split; discriminate|]. intros (x & E & N & ->). injection E as <-. reflexivity.
  - split; [discriminate|]. intros (x & E & _). discriminate E.
Qed.
Lemma readFormat1_is e : parsed e -> (forall r, readFormat1 T true true true e = Ok r -> exists name m, attrAt "name" e = Some name /\ name <> [] /\ childrenAre T 1 (echildren e) m /\ ends m /\ reads r name m) /\
  (forall name m, attrAt "name" e = Some name -> name <> [] -> childrenAre T 1 (echildren e) m -> exists r, readFormat1 T true true true e = Ok r /\ reads r name m).
Proof.
  intro P. assert (Pc : Forall parsed (echildren e)) by (apply Forall_forall; intros c; apply parsed_children; exact P). unfold readFormat1. split.
  - intros r H. apply bind_Ok in H as (r0 & Hn & H). apply readName_is in Hn as (name & N1 & N2 & ->). apply bind_Ok in H as (s & Hs & H). apply Ok_inj in H. subst r.
    destruct (proj1 (fold_is name (element1 T true true true) 1 _ (element1_is name) (start_holds name) _ Pc) s Hs) as (m & A & Hm). destruct (finish1_is _ _ _ _ A Hm) as [R E]. exists name, m. auto.
  - intros name m N1 N2 A. rewrite (proj2 (readName_is e _ _) (ex_intro _ name (conj N1 (conj N2 eq_refl)))). cbn [bind].
    destruct (proj2 (fold_is name (element1 T true true true) 1 _ (element1_is name) (start_holds name) _ Pc) m A) as (s & -> & Hm). cbn [bind]. destruct (finish1_is _ _ _ _ A Hm) as [R _]. eauto.
Qed.
Lemma readFormat2_tail e : readFormat2 T true true true e = do r <- readName true true e (mkReading [] []); do s <- foldM (element2 T true true true) (startState r) (echildren e); tail2 s.
Proof. reflexivity. Qed.
Lemma readFormat2_is e : parsed e -> (forall r, readFormat2 T true true true e = Ok r -> exists name m, attrAt "name" e = Some name /\ name <> [] /\ childrenAre T 2 (echildren e) m /\ ends m /\ reads r name m) /\
  (forall name m, attrAt "name" e = Some name -> name <> [] -> childrenAre T 2 (echildren e) m -> ends m -> exists r, readFormat2 T true true true e = Ok r /\ reads r name m).
Proof.
  intro P. assert (Pc : Forall parsed (echildren e)) by (apply Forall_forall; intros c; apply parsed_children; exact P). rewrite readFormat2_tail. split.
  - intros r H. apply bind_Ok in H as (r0 & Hn & H). apply readName_is in Hn as (name & N1 & N2 & ->). apply bind_Ok in H as (s & Hs & H).
    destruct (proj1 (fold_is name (element2 T true true true) 2 _ (element2_is name) (start_holds name) _ Pc) s Hs) as (m & A & Hm). assert (No := are_nil_anchors _ _ A).
    destruct (proj1 (tail2_is name s m No Hm (items_once _ _ _ _ Pc (are_guidelines _ _ _ _ A)) (items_once _ _ _ _ Pc (are_anchors _ _ _ _ A)) r) H) as [E ->]. exists name, m. repeat (split; [assumption|]). apply finish2_reads; assumption.
  - intros name m N1 N2 A E. rewrite (proj2 (readName_is e _ _) (ex_intro _ name (conj N1 (conj N2 eq_refl)))). cbn [bind]. assert (No := are_nil_anchors _ _ A).
    destruct (proj2 (fold_is name (element2 T true true true) 2 _ (element2_is name) (start_holds name) _ Pc) m A) as (s & -> & Hm). cbn [bind].
    eexists. split; [apply (tail2_is name s m No Hm (items_once _ _ _ _ Pc (are_guidelines _ _ _ _ A)) (items_once _ _ _ _ Pc (are_anchors _ _ _ _ A))); split; [exact E|reflexivity]|]. apply finish2_reads; assumption.
Qed.
End Docs.

(** ** what the parser gives *)
Definition onceTok (t : tok) : Prop := match t with TOpen _ at' => NoDup (map fst at') | _ => True end.
Definition onceMode (m : mode) : Prop :=
  match m with MEnd _ a | MTag _ a | MAttr _ a _ | MEq _ a _ | MQuote _ a _ | MVal _ a _ _ _ | MSlash _ a => NoDup (map fst a) | _ => True end.
Lemma flush_once acc t : flush acc = Some t -> Forall onceTok t.
Proof. unfold flush. destruct acc as [|c acc]; [intro H; injection H as <-; constructor|]. destruct (hasCdEnd _); [discriminate|]. destruct (unescape _ _ _); [|discriminate]. intro H. injection H as <-. repeat constructor. Qed.
Lemma emit_once t r l : emit t r = Some l -> Forall onceTok t -> (forall l', r = Some l' -> Forall onceTok l') -> Forall onceTok l.
Proof. intros E Ht Hr. destruct r as [l'|]; [|discriminate]. injection E as <-. apply Forall_app. split; [exact Ht|apply Hr; reflexivity]. Qed.
Lemma lex_once s : forall m l, onceMode m -> lex m s = Some l -> Forall onceTok l.
Proof.
  induction s as [|c s IH]; intros m l G E.
  - destruct m; try discriminate E. eapply flush_once; exact E.
  - destruct m as [acc| |acc|tag at'|tag at'|tag at' acc|tag at' name|tag at' name|tag at' name q acc|tag at'|acc|tag|acc|k|acc|acc| |only]; cbn [lex onceMode] in E, G.
    15: { assert (D : (exists acc', acc = 93%N :: 93%N :: acc' /\ emit [TCdata (rev acc')] (lex (MText []) s) = Some l) \/ lex (MCdata (c :: acc)) s = Some l).
      { destruct (XmlClean.cdata_end acc) as [(acc' & ->)|N]; [destruct (N.eqb c 62); eauto|right; rewrite N in E; exact E]. }
      destruct D as [(acc' & -> & D)|D]; [|eapply IH; [|exact D]; exact I]. eapply emit_once; [exact D|repeat constructor|intros l' D'; eapply IH; [|exact D']; exact I]. }
    9: { destruct (N.eqb c q); [|destruct (N.eqb c 60); [discriminate E|eapply IH; [|exact E]; exact G]]. destruct (unescape _ _ _) as [v|]; [|discriminate E]. destruct (mem name (map fst at')) eqn:M; [discriminate E|]. cbn [orb] in E. destruct (eqb name (u "xmlns")); [discriminate E|].
      eapply IH; [|exact E]. cbn [onceMode]. rewrite map_app. cbn [map fst]. apply (Permutation_NoDup (Permutation_cons_append _ _)). constructor; [apply mem_nIn; exact M|exact G]. }
    all: cbv zeta in E; repeat match type of E with
      | emit _ _ = Some _ => fail 1
      | lex _ _ = Some _ => fail 1
      | match flush ?x with _ => _ end = _ => let Fl := fresh "Fl" in destruct (flush x) eqn:Fl; [|discriminate E]
      | context [if ?b then _ else _] => destruct b
      | match ?x with _ => _ end = Some _ => destruct x
      | None = Some _ => discriminate E
      end.
    all: try (eapply emit_once; [exact E| |intros l' E'; eapply IH; [|exact E']; first [exact I|exact G|constructor]]; first [eapply flush_once; eassumption|constructor; [first [exact G|apply NoDup_nil|exact I]|first [constructor; fail|constructor; [exact I|constructor]]]]; fail).
    all: try (eapply IH; [|exact E]; first [exact I|exact G|apply NoDup_nil]; fail).
    all: try (eapply emit_once; [exact E|repeat constructor; exact G|intros l' E'; eapply IH; [|exact E']; exact I]; fail).
    all: try (eapply emit_once; [exact E|repeat constructor|intros l' E'; eapply IH; [|exact E']; exact I]; fail).
    all: eapply IH; [|exact E]; destruct (c =? 63)%N; exact I.
Qed.
Definition onceOpen (o : open) : Prop := NoDup (map fst (oattrib o)) /\ Forall parsed (orev o).
Lemma addText_once s o : onceOpen o -> onceOpen (addText s o).
Proof.
  intros [A D]. unfold addText. destruct (orev o) as [|e r]; [split; [exact A|constructor]|]. inversion D as [|? ? De Dr]; subst. split; [exact A|]. cbn [orev]. constructor; [|exact Dr]. destruct De. cbn [setTail]. constructor; assumption.
Qed.
Lemma build_once l : forall st done e, Forall onceTok l -> Forall onceOpen st -> (forall x, done = Some x -> parsed x) -> build l st done = Some e -> parsed e.
Proof.
  induction l as [|t l IH]; intros st done e G S D E; cbn [build] in E.
  - destruct st; [exact (D e E)|discriminate].
  - inversion G as [|? ? Gt G']; subst. destruct t as [tag at'|tag|s|s].
    + assert (E' : build l (mkOpen tag at' None [] :: st) done = Some e) by (destruct st; [destruct done; [discriminate|exact E]|exact E]).
      apply IH in E'; [exact E'|exact G'| |exact D]. constructor; [|exact S]. split; [exact Gt|constructor].
    + destruct st as [|o st]; [discriminate|]. destruct (eqb tag (otag o)); [|discriminate]. inversion S as [|? ? So S']; subst. destruct So as (B & K).
      set (x := Elem (otag o) (oattrib o) (option_map XS (otext o)) (rev (orev o)) None) in *.
      assert (Gx : parsed x). { constructor; [exact B|destruct (otext o); discriminate|apply Forall_rev; exact K]. }
      destruct st as [|p st]; [apply IH in E; [exact E|exact G'|constructor|]; intros y Y; injection Y as <-; exact Gx|].
      apply IH in E; [exact E|exact G'| |exact D]. inversion S' as [|? ? (B' & K') S'']; subst. constructor; [|exact S'']. split; [exact B'|constructor; assumption].
    + destruct st as [|o st]; [destruct (forallb xmlSpace s); [apply IH in E; assumption|discriminate]|]. inversion S as [|? ? So S']; subst. apply IH in E; [exact E|exact G'| |exact D]. constructor; [apply addText_once; assumption|exact S'].
    + destruct st as [|o st]; [discriminate|]. inversion S as [|? ? So S']; subst. apply IH in E; [exact E|exact G'| |exact D]. constructor; [|exact S']. destruct s; [exact So|apply addText_once; assumption].
Qed.
Lemma parseBytes_parsed b e : parseBytes b = Ok e -> parsed e.
Proof.
  unfold parseBytes, parseXml. destruct (Ufo.utf8Decode b) as [s|]; [|discriminate]. destruct (forallb xmlChar s); [|discriminate]. destruct (skipProlog (normEol s)) as [r|]; [|discriminate].
  destruct (lex (MText []) r) as [l|] eqn:L; [|discriminate]. destruct (build l [] None) as [x|] eqn:Bd; [|discriminate]. intro H. injection H as <-.
  eapply (build_once l [] None); [eapply lex_once; [|exact L]; exact I|constructor|discriminate|exact Bd].
Qed.

(** C102: the GLIF documents that are accepted, and what is read from them *)
Theorem C102_documents : forall T formats b,
  (forall r, readGlyphBytes T true true formats true b = Ok r ->
     exists e name m, parseBytes b = Ok e /\ documented T formats e name m /\ reads r name m) /\
  (forall e name m, parseBytes b = Ok e -> documented T formats e name m ->
     exists r, readGlyphBytes T true true formats true b = Ok r /\ reads r name m).
Proof.
  intros T formats b. unfold readGlyphBytes, glifTree. split.
  - intros r H. apply bind_Ok in H as (e & He & H). apply bind_Ok in He as (e' & Hp & He). destruct (eqb_spec (etag e') (u "glyph")) as [Et|]; [|discriminate He]. destruct (blankText T (etextOf e')) eqn:Bl; [|discriminate He]. apply Ok_inj in He. subst e'.
    assert (P := parseBytes_parsed _ _ Hp). apply (white_blank T) in Bl; [|exact P]. exists e. unfold readGlyphTree in H. unfold eget in H. destruct (get (u "format") (eattrib e)) as [s|] eqn:Fo; [|discriminate H]. cbn [negb orb] in H.
    destruct (parseInt T s) as [z|] eqn:Pz; [|discriminate H]. destruct (mem z formats) eqn:Mz; [|discriminate H]. apply mem_In in Mz.
    assert (D : (z = 1 /\ readFormat1 T true true true e = Ok r \/ z = 2 /\ readFormat2 T true true true e = Ok r)%Z).
    { destruct z as [|p|p]; try discriminate H. destruct p as [p|p|]; [destruct p; discriminate H|destruct p; try discriminate H; auto|auto]. }
    destruct D as [[-> D]|[-> D]].
    + apply (readFormat1_is T e P) in D as (name & m & N1 & N2 & A & (E1 & E2 & E3) & R). exists name, m. split; [exact Hp|]. split; [|exact R]. constructor; [exact Et|exact Bl|split; assumption| |exact E1|exact E2|exact E3]. exists s, 1%Z. split; [exact Fo|]. split; [exact Pz|]. split; [exact Mz|]. split; [left; reflexivity|exact A].
    + apply (readFormat2_is T e P) in D as (name & m & N1 & N2 & A & (E1 & E2 & E3) & R). exists name, m. split; [exact Hp|]. split; [|exact R]. constructor; [exact Et|exact Bl|split; assumption| |exact E1|exact E2|exact E3]. exists s, 2%Z. split; [exact Fo|]. split; [exact Pz|]. split; [exact Mz|]. split; [right; reflexivity|exact A].
  - intros e name m Hp [D1 D2 [D3 D4] (s & z & Fo & Pz & Mz & Dz & A) D5 D6 D7]. assert (P := parseBytes_parsed _ _ Hp). rewrite Hp. cbn [bind]. rewrite D1, eqb_refl. apply (white_blank T) in D2; [|exact P]. rewrite D2. cbn [bind].
    unfold readGlyphTree, eget. unfold attrAt in Fo. rewrite Fo, Pz. cbn [negb orb]. apply mem_In in Mz. rewrite Mz. destruct Dz as [-> | ->].
    + apply (readFormat1_is T e P); assumption.
    + apply (readFormat2_is T e P); try assumption. split; [exact D5|split; assumption].
Qed.
Print Assumptions C102_documents.
Definition wrap (format body : string) : str := u "<glyph name=""a"" format=""" ++ u format ++ u """>" ++ u body ++ u "</glyph>".
Definition isOk {A} (r : res A) : bool := match r with Ok _ => true | Err _ => false end.
Definition takes (format body : string) : bool := isOk (readGlyphBytes asciiText true true [1%Z; 2%Z] true (wrap format body)).
Definition caseBody : string :=
  "<!-- a glyph --><unicode hex=""0041""/><advance width=""500""/><unicode hex=""41""/><guideline x=""1"" identifier=""g""/><anchor x=""1"" y=""-2"" name=""top""/>" ++
  "<outline><contour identifier=""c""><point x=""0"" y=""0"" type=""line"" smooth=""yes""/><point x=""5"" y=""5""/><point x=""9"" y=""1"" type=""qcurve"" name=""p""/></contour><component base=""b"" xScale=""2"" identifier=""d""/></outline>" ++
  "<note>
   one

   two </note><image fileName=""x.png"" xOffset=""3""/>".
Definition caseReading : greading := Eval vm_compute in match readGlyphBytes asciiText true true [1%Z; 2%Z] true (wrap "2" caseBody) with Ok r => r | Err _ => mkReading [] [] end.
(** GLIF 2 documents with one thing wrong *)
Definition wrong2 : list string := [
  "<advance/><advance/>"; "<note>a</note><note>b</note>"; "<outline/><outline/>"; "<lib><dict/></lib><lib><dict/></lib>"; "<image fileName=""a""/><image fileName=""b""/>";
  "<glyph/>"; "words"; "<advance width=""wide""/>"; "<unicode/>"; "<unicode hex=""g""/>"; "<note/>"; "<lib/>"; "<lib><dict/><dict/></lib>"; "<lib><array/></lib>";
  "<guideline x=""1"" width=""2""/>"; "<guideline x=""1"" y=""2""/>"; "<guideline x=""1""><a/></guideline>"; "<anchor x=""1""/>"; "<anchor x=""1"" y=""2""/><anchor x=""1"" y=""2"" identifier=""i""/><guideline x=""1"" identifier=""i""/>";
  "<image/>"; "<image fileName=""a"" size=""3""/>"; "<image fileName=""a""><b/></image>";
  "<outline a=""b""/>"; "<outline>words</outline>"; "<outline><point/></outline>"; "<outline><contour name=""a""/></outline>"; "<outline><contour><component/></contour></outline>";
  "<outline><contour><point x=""1""/></contour></outline>"; "<outline><contour><point x=""1"" y=""1"" type=""spline""/></contour></outline>"; "<outline><contour><point x=""1"" y=""1"" smooth=""yes""/></contour></outline>";
  "<outline><contour><point x=""1"" y=""1"" type=""line""/><point x=""1"" y=""1"" type=""move""/></contour></outline>"; "<outline><contour><point x=""1"" y=""1"" colour=""red""/></contour></outline>"; "<outline><contour><point x=""1"" y=""1""><a/></point></contour></outline>";
  "<outline><contour identifier=""i""/><component base=""a"" identifier=""i""/></outline>"; "<outline><component/></outline>"; "<outline><component base=""a"" x=""1""/></outline>"; "<outline><component base=""a""><b/></component></outline>";
  "<outline><component base=""a"" identifier=""i""/></outline><guideline x=""1"" identifier=""i""/>"].
Definition wrong1 : list string := ["<guideline x=""1""/>"; "<anchor x=""1"" y=""1""/>"; "<image fileName=""a""/>"; "<outline><contour identifier=""i""/></outline>"; "<outline><component base=""a"" identifier=""i""/></outline>"; "<outline/><outline/>"].
Example C102_case :
  (exists e name m, parseBytes (wrap "2" caseBody) = Ok e /\ documented asciiText [1%Z; 2%Z] e name m /\ reads caseReading name m) /\
  rcalls caseReading = [PBegin (Some (Some (u "c")));
    PAdd (mkPoint (Some (PInt 0, PInt 0)) (Some (u "line")) true None (Some None)); PAdd (mkPoint (Some (PInt 5, PInt 5)) None false None (Some None));
    PAdd (mkPoint (Some (PInt 9, PInt 1)) (Some (u "qcurve")) false (Some (u "p")) (Some None)); PEnd;
    PComponent (u "b") [PInt 2; PInt 0; PInt 0; PInt 1; PInt 0; PInt 0] (Some (Some (u "d")))] /\
  get (u "note") (rattrs caseReading) = Some (PStr (u "one" ++ [10%N] ++ u "two")) /\ get (u "unicodes") (rattrs caseReading) = Some (PList [PInt 65]) /\
  get (u "height") (rattrs caseReading) = Some (PInt 0) /\ get (u "lib") (rattrs caseReading) = None /\
  forallb (fun b => negb (takes "2" b)) wrong2 = true /\ forallb (fun b => negb (takes "1" b)) wrong1 = true /\
  takes "2" "" = true /\ takes "1" "" = true /\ takes "3" "" = false /\ takes "" "" = false /\
  takes "1" "<outline><contour><point x=""1"" y=""2"" type=""move"" name=""top""/></contour></outline>" = true /\
  takes "2" "<outline><contour>words</contour>more words</outline>words" = true.
Proof.
  split; [apply (proj1 (C102_documents asciiText [1%Z; 2%Z] (wrap "2" caseBody))); vm_compute; reflexivity|]. vm_compute. repeat split.
Qed.
