(** C82 for documents: what is read from a GLIF file that gives no tab or carriage return
    by number can be written and read again. *)
From Coq Require Import String NArith ZArith Bool Lia List Permutation.
From Coq.Floats Require Import SpecFloat.
From Verif Require Import Base PyVal PyText FloatRepr Xml FS Ufo UfoProofs PropUfoFiles Plist PlistProofs PropPlist Etree EtreeProofs PropEtree PlistFiles XmlClean PropPlistLoaded Validators PointPen Glif GlifProofs GlifOutline GlifElements GlifFiles GlifNotes GlifAccepted PropGlif.
Import ListNotations.
Local Open Scope string_scope.
Local Open Scope list_scope.
Local Notation draws := Glif.draws.

Definition cleanItem (v : pyval) : Prop := forall k s, vget k v = PStr s -> valOk s.
Definition attrClean (k : str) (v : pyval) : Prop :=
  if eqb k (u "name") then forall s, v = PStr s -> valOk s
  else if eqb k (u "note") then forall s, v = PStr s -> textOk s
  else if eqb k (u "image") then cleanItem v
  else if eqb k (u "guidelines") then Forall cleanItem (listed v)
  else if eqb k (u "anchors") then Forall cleanItem (listed v)
  else if eqb k (u "lib") then v = PNone \/ plistData textOk v
  else True.
Record cleanR (r : greading) : Prop := {
  clean_calls : Forall callText (rcalls r);
  clean_attrs : forall k v, get k (rattrs r) = Some v -> attrClean k v }.
Lemma clean_set k v r : cleanR r -> attrClean k v -> cleanR (setattr k v r).
Proof.
  intros [A B] H. constructor; [exact A|]. intros k' v' G. cbn [setattr rattrs] in G. rewrite get_set in G. destruct (eqb_spec k' k) as [E|N]; [injection G as <-; rewrite E; exact H|exact (B _ _ G)].
Qed.
Lemma clean_draws cs r : cleanR r -> Forall callText cs -> cleanR (draws cs r).
Proof. intros [A B] H. constructor; [apply Forall_app; auto|exact B]. Qed.

(** attributes of the elements *)
Lemma eget_val e k s : goodTree e -> eget k e = Some s -> valOk s.
Proof. intros G E. inversion G as [tag at' text ch tail N ND A X Tl K]; subst. unfold eget in E. cbn [eattrib] in E. apply get_In in E. rewrite Forall_forall in A. apply (A _ E). Qed.
Lemma children_good e : goodTree e -> Forall goodTree (echildren e).
Proof. intro G. inversion G; subst. assumption. Qed.
Definition cleanD (d : list (str * pyval)) : Prop := forall k s, get k d = Some (PStr s) -> valOk s.
Lemma cleanD_item d : cleanD d -> cleanItem (toPDict d).
Proof. intros H k s E. rewrite vget_toPDict in E. destruct (get k d) as [v|] eqn:G; [|discriminate]. subst v. exact (H _ _ G). Qed.
Lemma attribDict_clean e : goodTree e -> cleanD (attribDict e).
Proof.
  intros G k s E. unfold attribDict in E. assert (X : get k (eattrib e) = Some s).
  { revert E. generalize (eattrib e). induction l as [|[a b] l IH]; cbn [map get]; [discriminate|]. destruct (eqb k a); [intro E; injection E as ->; reflexivity|exact IH]. }
  exact (eget_val e k s G X).
Qed.
Section Clean.
Variable T : pytext.
Variable R : spec_float -> str.
Hypothesis LR : repr_laws T R.
Lemma number_nostr s v x : number T s = Ok v -> v <> PStr x.
Proof. unfold number. destruct s as [s|]; [|discriminate]. destruct (parseInt T s); [intro E; injection E as <-; discriminate|]. destruct (parseFloat T s); [intro E; injection E as <-; discriminate|discriminate]. Qed.
Lemma numberOr_nostr d s v x : numberOr T d s = Ok v -> v <> PStr x.
Proof. unfold numberOr. destruct s; [apply number_nostr|]. intro E. injection E as <-. discriminate. Qed.
Lemma set_clean k v d : (forall s, v <> PStr s) -> cleanD d -> cleanD (set k v d).
Proof. intros N H k' s G. rewrite get_set in G. destruct (eqb_spec k' k); [injection G as ->; destruct (N s eq_refl)|exact (H _ _ G)]. Qed.
Lemma imageNumbers_clean info e : forall d d', cleanD d -> imageNumbers T info e d = Ok d' -> cleanD d'.
Proof.
  induction info as [|[a n] info IH]; intros d d' H E; cbn [imageNumbers] in E; [injection E as <-; exact H|]. apply bind_Ok in E as (v & Ev & E).
  eapply IH; [|exact E]. apply set_clean; [intro s; eapply numberOr_nostr; exact Ev|exact H].
Qed.
Lemma attribNumbers_clean names e : forall d d', cleanD d -> attribNumbers T names e d = Ok d' -> cleanD d'.
Proof.
  induction names as [|a names IH]; intros d d' H E; cbn [attribNumbers] in E; [injection E as <-; exact H|]. destruct (eget a e); [|eapply IH; eassumption].
  apply bind_Ok in E as (v & Ev & E). eapply IH; [|exact E]. apply set_clean; [intro s; eapply number_nostr; exact Ev|exact H].
Qed.

(** points and components *)
Definition cleanM (m : mpoint) : Prop := forall n, mname m = Some n -> valOk n.
Lemma massagePoint_clean v al i e m : goodTree e -> massagePoint T v al i e = Ok m -> cleanM m.
Proof.
  intros G E. unfold massagePoint in E. destruct (eqb (etag e) (u "point")); [|discriminate].
  repeat match type of E with (if ?q then _ else _) = _ => destruct q; [|discriminate] end. apply bind_Ok in E as (x & _ & E).
  repeat match type of E with (if ?q then _ else _) = _ => destruct q; [|discriminate] end. apply bind_Ok in E as (y & _ & E). cbv zeta in E.
  repeat match type of E with (if ?q then _ else _) = _ => destruct q; [|discriminate] end. injection E as <-. intros n E. cbn [mname] in E. eapply eget_val; eassumption.
Qed.
Lemma massageLoop_clean v al l : forall i ms, Forall goodTree l -> massageLoop T v al i l = Ok ms -> Forall cleanM ms.
Proof.
  induction l as [|e l IH]; intros i ms G E; cbn [massageLoop] in E; [injection E as <-; constructor|]. inversion G; subst. apply bind_Ok in E as (m & Em & E). apply bind_Ok in E as (t & Et & E). injection E as <-.
  constructor; [eapply massagePoint_clean; eassumption|eapply IH; eassumption].
Qed.
Lemma dropOffs_sub l m : In m (dropOffs l) -> In m l.
Proof. induction l as [|p l IH]; cbn [dropOffs]; [auto|]. destruct (mtype p); [auto|]. intro I. right. auto. Qed.
Lemma leniency_sub l m : In m (leniency l) -> In m l.
Proof.
  unfold leniency. destruct l as [|p l]; [auto|]. destruct (eqb (mtype p) (Some sMove)); [|auto]. intro I. apply in_rev in I. apply dropOffs_sub in I. apply in_rev. exact I.
Qed.
Lemma massage_clean v al len e ms : goodTree e -> massage T v al len e = Ok ms -> Forall cleanM ms.
Proof.
  intros G E. unfold massage in E. apply bind_Ok in E as (all & Ea & E). apply massageLoop_clean in Ea; [|apply children_good; exact G].
  assert (X : Forall cleanM (if len then leniency all else all)).
  { destruct len; [|exact Ea]. rewrite Forall_forall in *. intros m I. apply Ea. apply leniency_sub. exact I. }
  cbv zeta in E. destruct (lastOn all 0 None); [|injection E as <-; exact X]. destruct (v && hasOff all); [apply bind_Ok in E as (? & _ & E)|]; injection E as <-; exact X.
Qed.
Lemma contour1_clean v e cs : goodTree e -> contour1 T v e = Ok cs -> Forall callText cs.
Proof.
  intros G E. unfold contour1 in E. match type of E with (if ?q then _ else _) = _ => destruct q; [|discriminate] end. apply bind_Ok in E as (ms & Em & E). injection E as <-.
  assert (X : Forall cleanM ms) by (destruct (echildren e) eqn:Ec; [injection Em as <-; constructor|eapply massage_clean; [exact G|exact Em]]).
  constructor; [exact Logic.I|]. apply Forall_app. split; [|repeat constructor]. clear -X. induction X as [|m ms H X IH]; constructor; auto.
Qed.
Lemma points2_clean v ms : forall ids cs ids', Forall cleanM ms -> points2 v ms ids = Ok (cs, ids') -> Forall callText cs.
Proof.
  induction ms as [|m ms IH]; intros ids cs ids' X E; cbn [points2] in E; [injection E as <- _; constructor|]. inversion X; subst. apply bind_Ok in E as (i1 & _ & E). apply bind_Ok in E as ([t i2] & Et & E). injection E as <- _.
  constructor; [assumption|eapply IH; eassumption].
Qed.
Lemma contour2_clean v e ids cs ids' : goodTree e -> contour2 T v e ids = Ok (cs, ids') -> Forall callText cs.
Proof.
  intros G E. unfold contour2 in E. match type of E with (if ?q then _ else _) = _ => destruct q; [|discriminate] end. cbv zeta in E. apply bind_Ok in E as (i1 & _ & E). apply bind_Ok in E as (ms & Em & E). apply bind_Ok in E as ([cs' i2] & Ep & E). injection E as <- _.
  assert (X : Forall cleanM ms) by (destruct (echildren e) eqn:Ec; [injection Em as <-; constructor|eapply massage_clean; [exact G|exact Em]]).
  constructor; [exact Logic.I|]. apply Forall_app. split; [eapply points2_clean; eassumption|repeat constructor].
Qed.
Lemma component1_clean v e cs : goodTree e -> component1 T v e = Ok cs -> Forall callText cs.
Proof.
  intros G E. unfold component1 in E. repeat match type of E with (if ?q then _ else _) = _ => destruct q; [|discriminate] end. apply bind_Ok in E as (tr & _ & E).
  destruct (eget (u "base") e) as [b|] eqn:Eb; [|discriminate]. injection E as <-. constructor; [|constructor]. cbn. eapply eget_val; eassumption.
Qed.
Lemma component2_clean v e ids cs ids' : goodTree e -> component2 T v e ids = Ok (cs, ids') -> Forall callText cs.
Proof.
  intros G E. unfold component2 in E. repeat match type of E with (if ?q then _ else _) = _ => destruct q; [|discriminate] end. apply bind_Ok in E as (tr & _ & E). cbv zeta in E. apply bind_Ok in E as (i1 & _ & E).
  destruct (eget (u "base") e) as [b|] eqn:Eb; [|discriminate]. injection E as <- _. constructor; [|constructor]. cbn. eapply eget_val; eassumption.
Qed.
Lemma outline2_clean v l : forall ids cs ids', Forall goodTree l -> outlineLoop2 T v l ids = Ok (cs, ids') -> Forall callText cs.
Proof.
  induction l as [|e l IH]; intros ids cs ids' G E; cbn [outlineLoop2] in E; [injection E as <- _; constructor|]. inversion G; subst. apply bind_Ok in E as ([c1 i1] & E1 & E). apply bind_Ok in E as ([c2 i2] & E2 & E). injection E as <- _.
  apply Forall_app. split; [|eapply IH; eassumption]. destruct (eqb (etag e) (u "contour")); [eapply contour2_clean; eassumption|]. destruct (eqb (etag e) (u "component")); [eapply component2_clean; eassumption|discriminate].
Qed.
Lemma anchor1_clean v e a : goodTree e -> buildAnchor1 T v e = Ok (Some a) -> cleanItem a.
Proof.
  intros G E. unfold buildAnchor1 in E. destruct (negb _); [discriminate|]. destruct (eget (u "name") e) as [n|] eqn:En; [|discriminate].
  repeat match type of E with (if ?q then _ else _) = _ => destruct q; [|discriminate] end. apply bind_Ok in E as (x & Ex & E). apply bind_Ok in E as (y & Ey & E). injection E as <-.
  change (PDict _) with (toPDict [(u "x", x); (u "y", y); (u "name", PStr n)]). apply cleanD_item. intros k s Gk. cbn [get] in Gk.
  destruct (eqb k (u "x")); [injection Gk as ->; destruct (number_nostr _ _ s Ex eq_refl)|]. destruct (eqb k (u "y")); [injection Gk as ->; destruct (number_nostr _ _ s Ey eq_refl)|].
  destruct (eqb k (u "name")); [injection Gk as ->; eapply eget_val; eassumption|discriminate].
Qed.
Lemma outline1_clean pen v l : forall an cs, Forall goodTree l -> outlineLoop1 T pen v l = Ok (an, cs) -> Forall cleanItem an /\ Forall callText cs.
Proof.
  induction l as [|e l IH]; intros an cs G E; cbn [outlineLoop1] in E; [injection E as <- <-; split; constructor|]. inversion G as [|? ? Ge Gl]; subst.
  destruct (eqb (etag e) (u "contour")).
  - apply bind_Ok in E as (a & Ea & E). destruct a as [a|].
    + apply bind_Ok in E as ([an' cs'] & E2 & E). injection E as <- <-. destruct (IH _ _ Gl E2) as [A B]. split; [|exact B]. constructor; [|exact A].
      apply children_good in Ge. destruct (echildren e) as [|p [|]]; try discriminate. inversion Ge; subst. destruct (eqb (etag p) (u "point")); [eapply anchor1_clean; eassumption|discriminate].
    + apply bind_Ok in E as (c1 & E1 & E). apply bind_Ok in E as ([an' cs'] & E2 & E). injection E as <- <-. destruct (IH _ _ Gl E2) as [A B]. split; [exact A|]. apply Forall_app. split; [|exact B].
      destruct pen; [eapply contour1_clean; eassumption|injection E1 as <-; constructor].
  - destruct (eqb (etag e) (u "component")); [|discriminate]. apply bind_Ok in E as (c1 & E1 & E). apply bind_Ok in E as ([an' cs'] & E2 & E). injection E as <- <-. destruct (IH _ _ Gl E2) as [A B]. split; [exact A|]. apply Forall_app. split; [|exact B].
    destruct pen; [eapply component1_clean; eassumption|injection E1 as <-; constructor].
Qed.
Lemma buildOutline1_clean obj pen v e r r' : goodTree e -> cleanR r -> buildOutline1 T obj pen v e r = Ok r' -> cleanR r'.
Proof.
  intros G Cr E. unfold buildOutline1 in E. apply bind_Ok in E as ([an cs] & E1 & E). apply outline1_clean in E1 as [A B]; [|apply children_good; exact G]. cbv zeta in E.
  pose proof (clean_draws cs r Cr B) as Cd. destruct an as [|a an]; [injection E as <-; exact Cd|]. destruct obj; [|injection E as <-; exact Cd].
  match type of E with (if ?q then _ else _) = _ => destruct q; [|discriminate] end. injection E as <-. apply clean_set; [exact Cd|]. exact A.
Qed.

(** other elements *)
Lemma noteLines_chars s c : In c (noteLines T s) -> In c s \/ c = 10%N.
Proof.
  unfold noteLines. intro I. assert (J : exists l, In l (split1 10 s) /\ (In c l \/ c = 10%N)).
  { assert (Jn : forall ls, In c (join [10%N] ls) -> c = 10%N \/ exists l, In l ls /\ In c l).
    { induction ls as [|a [|b ls] IH]; [intros []|intro H; right; exists a; cbn in *; auto|]. intro H. change (join [10%N] (a :: b :: ls)) with (a ++ [10%N] ++ join [10%N] (b :: ls)) in H.
      apply in_app_or in H as [H|H]; [right; exists a; split; [left; reflexivity|exact H]|]. apply in_app_or in H as [[H|[]]|H]; [left; auto|]. destruct (IH H) as [->|(l & I1 & I2)]; [auto|]. right. exists l. split; [right; exact I1|exact I2]. }
    apply Jn in I as [->|(l & I1 & I2)].
    - destruct (split1 10 s) as [|l ls] eqn:Es; [destruct s; cbn in Es; [discriminate|destruct (N.eqb n 10); [discriminate|destruct (split1 10 s); discriminate]]|]. exists l. split; [left; reflexivity|right; reflexivity].
    - apply in_map_iff in I1 as (l' & <- & I1). apply filter_In in I1 as [I1 _]. exists l'. split; [exact I1|]. left. eapply strip_sub. exact I2. }
  destruct J as (l & I1 & [I2|I2]); [|right; exact I2]. left. revert l I1 I2. clear. induction s as [|x s IH]; intros l I1 I2.
  - cbn in I1. destruct I1 as [<-|[]]. destruct I2.
  - cbn [split1] in I1. destruct (N.eqb x 10); [destruct I1 as [<-|I1]; [destruct I2|right; eapply IH; eassumption]|]. destruct (split1 10 s) as [|y ys]; [destruct I1 as [<-|[]]; destruct I2 as [->|[]]; left; reflexivity|].
    destruct I1 as [<-|I1]; [destruct I2 as [->|I2]; [left; reflexivity|right; apply (IH y); [left; reflexivity|exact I2]]|]. right. apply (IH l); [right; exact I1|exact I2].
Qed.
Lemma note_clean e r r' : goodTree e -> cleanR r -> readNote T e r = Ok r' -> cleanR r'.
Proof.
  intros G Cr E. unfold readNote in E. destruct (etextOf e) as [[s|b]|] eqn:Et; try discriminate. injection E as <-. apply clean_set; [exact Cr|]. intros s' X. injection X as <-.
  assert (Ts : textOk s) by (inversion G as [tag at' text ch tail N ND A X Tl K]; subst; cbn in Et; subst text; exact X). destruct Ts as [A B]. split.
  - apply Forall_forall. intros c I. apply noteLines_chars in I as [I| ->]; [rewrite Forall_forall in A; apply A; exact I|]. unfold xmlCompat. lia.
  - intro I. apply noteLines_chars in I as [I|I]; [contradiction|discriminate].
Qed.
Lemma lib_clean v e r r' : goodTree e -> cleanR r -> readLib T v e r = Ok r' -> cleanR r'.
Proof.
  intros G Cr E. unfold readLib in E. apply children_good in G. destruct (echildren e) as [|c [|]]; try discriminate. inversion G; subst. apply bind_Ok in E as (p & Ep & E). apply bind_Ok in E as (ok & _ & E).
  destruct ok; [|discriminate]. injection E as <-. apply clean_set; [exact Cr|]. change (p = PNone \/ plistData textOk p).
  eapply (run_good T R LR textOk textOk_nil textOk_app); [|exact Ep]. apply walk_good; [exact textOk_nil|]. apply goodTree_texts. assumption.
Qed.
Record cleanS (s : gstate) : Prop := { clean_read : cleanR (sread s); clean_guides : Forall cleanItem (sguidelines s); clean_anchors : Forall cleanItem (sanchors s) }.
Lemma withRead_clean f s s' : cleanS s -> (forall r r', cleanR r -> f r = Ok r' -> cleanR r') -> withRead f s = Ok s' -> cleanS s'.
Proof. intros [A B D] H E. apply bind_Ok in E as (r & Er & E). injection E as <-. constructor; try assumption. eapply H; eassumption. Qed.
Lemma advance_clean e r r' : cleanR r -> readAdvance T e r = Ok r' -> cleanR r'.
Proof. intros Cr E. apply bind_Ok in E as (w & _ & E). apply bind_Ok in E as (h & _ & E). injection E as <-. apply clean_set; [apply clean_set; [exact Cr|exact Logic.I]|exact Logic.I]. Qed.
Lemma common_clean v e s s' : goodTree e -> cleanS s -> commonElement T v e s = Some (Ok s') -> cleanS s'.
Proof.
  intros G Cs E. unfold commonElement in E.
  destruct (eqb (etag e) (u "advance")).
  { injection E as E. match type of E with (if ?q then _ else _) = _ => destruct q; [|discriminate] end. eapply withRead_clean; [| |exact E]; [destruct Cs; constructor; assumption|]. intros r r'. apply advance_clean. }
  destruct (eqb (etag e) (u "unicode")).
  { injection E as E. apply bind_Ok in E as (us & _ & E). injection E as <-. destruct Cs. constructor; assumption. }
  destruct (eqb (etag e) (u "note")).
  { injection E as E. match type of E with (if ?q then _ else _) = _ => destruct q; [|discriminate] end. eapply withRead_clean; [| |exact E]; [destruct Cs; constructor; assumption|]. intros r r'. apply note_clean. exact G. }
  destruct (eqb (etag e) (u "lib")); [|discriminate].
  injection E as E. match type of E with (if ?q then _ else _) = _ => destruct q; [|discriminate] end. eapply withRead_clean; [| |exact E]; [destruct Cs; constructor; assumption|]. intros r r'. apply lib_clean. exact G.
Qed.
Lemma element1_clean obj pen v s e s' : goodTree e -> cleanS s -> element1 T obj pen v s e = Ok s' -> cleanS s'.
Proof.
  intros G Cs E. unfold element1 in E. destruct (eqb (etag e) (u "outline")).
  - match type of E with (if ?q then _ else _) = _ => destruct q; [|discriminate] end. eapply withRead_clean; [| |exact E]; [destruct Cs; constructor; assumption|]. intros r r'. apply buildOutline1_clean. exact G.
  - destruct (negb obj); [injection E as <-; exact Cs|]. destruct (commonElement T v e s) as [r|] eqn:Ec; [|discriminate]. subst r. eapply common_clean; eassumption.
Qed.
Lemma element2_clean obj pen v s e s' : goodTree e -> cleanS s -> element2 T obj pen v s e = Ok s' -> cleanS s'.
Proof.
  intros G Cs E. unfold element2 in E. destruct (eqb (etag e) (u "outline")).
  - match type of E with (if ?q then _ else _) = _ => destruct q; [|discriminate] end. cbv zeta in E. destruct pen; [|injection E as <-; destruct Cs; constructor; assumption].
    apply bind_Ok in E as ([cs ids] & Eo & E). injection E as <-. destruct Cs. constructor; try assumption. cbn [sread]. apply clean_draws; [assumption|]. eapply outline2_clean; [|exact Eo]. apply children_good. exact G.
  - destruct (negb obj); [injection E as <-; exact Cs|]. destruct (commonElement T v e s) as [r|] eqn:Ec; [subst r; eapply common_clean; eassumption|].
    destruct (eqb (etag e) (u "guideline")).
    { match type of E with (if ?q then _ else _) = _ => destruct q; [|discriminate] end. apply bind_Ok in E as (d & Ed & E). injection E as <-. destruct Cs. constructor; try assumption. cbn [sguidelines]. apply Forall_app. split; [assumption|]. constructor; [|constructor].
      apply cleanD_item. eapply attribNumbers_clean; [|exact Ed]. apply attribDict_clean. exact G. }
    destruct (eqb (etag e) (u "anchor")).
    { match type of E with (if ?q then _ else _) = _ => destruct q; [|discriminate] end. apply bind_Ok in E as (d & Ed & E). injection E as <-. destruct Cs. constructor; try assumption. cbn [sanchors]. apply Forall_app. split; [assumption|]. constructor; [|constructor].
      apply cleanD_item. eapply attribNumbers_clean; [|exact Ed]. apply attribDict_clean. exact G. }
    destruct (eqb (etag e) (u "image")); [|discriminate].
    repeat match type of E with (if ?q then _ else _) = _ => destruct q; [|discriminate] end. eapply withRead_clean; [| |exact E]; [destruct Cs; constructor; assumption|]. intros r r' Cr Er. unfold readImage in Er. apply bind_Ok in Er as (d & Ed & Er).
    match type of Er with (if ?q then _ else _) = _ => destruct q; [|discriminate] end. injection Er as <-. apply clean_set; [exact Cr|]. change (cleanItem (toPDict d)). apply cleanD_item. eapply imageNumbers_clean; [|exact Ed]. apply attribDict_clean. exact G.
Qed.
Lemma fold_clean step l : (forall s e s', goodTree e -> cleanS s -> step s e = Ok s' -> cleanS s') -> Forall goodTree l -> forall s s', cleanS s -> foldM step s l = Ok s' -> cleanS s'.
Proof.
  intros H F. induction F as [|e l Ge F IH]; intros s s' Cs E; cbn [foldM] in E; [injection E as <-; exact Cs|]. apply bind_Ok in E as (s1 & E1 & E). eapply IH; [|exact E]. eapply H; eassumption.
Qed.
Lemma name_clean obj v e r r' : goodTree e -> cleanR r -> readName obj v e r = Ok r' -> cleanR r'.
Proof.
  intros G Cr E. unfold readName in E. destruct (eget (u "name") e) as [[|c n]|] eqn:En; [destruct (negb v); [injection E as <-; exact Cr|discriminate]| |destruct (negb v); [injection E as <-; exact Cr|discriminate]].
  injection E as <-. destruct obj; [|exact Cr]. apply clean_set; [exact Cr|]. intros s X. injection X as <-. eapply eget_val; eassumption.
Qed.
Lemma unicodes_clean s r : cleanR r -> cleanR (setUnicodes s r).
Proof. intro Cr. unfold setUnicodes. destruct (sunicodes s); [exact Cr|]. apply clean_set; [exact Cr|exact Logic.I]. Qed.
Lemma start_clean r : cleanR r -> cleanS (startState r).
Proof. intro Cr. constructor; [exact Cr|constructor|constructor]. Qed.
Lemma nil_clean : cleanR (mkReading [] []).
Proof. constructor; [constructor|discriminate]. Qed.
Lemma read_clean obj pen vs v e r : goodTree e -> readGlyphTree T obj pen vs v e = Ok r -> cleanR r.
Proof.
  intros G E. unfold readGlyphTree in E. destruct (eget (u "format") e) as [s|]; [|destruct v; discriminate]. cbv zeta in E. match type of E with (if ?q then _ else _) = _ => destruct q; [|discriminate] end.
  destruct (parseInt T s) as [z|]; [|discriminate]. assert (K : forall P : Prop, (readFormat1 T obj pen v e = Ok r -> P) -> (readFormat2 T obj pen v e = Ok r -> P) -> P).
  { intros P H1 H2. destruct z as [|[p|[p|p|]|]|p]; try discriminate E; auto. }
  apply K; clear K E; intro E.
  - apply bind_Ok in E as (r0 & E0 & E). apply bind_Ok in E as (st & E1 & E). injection E as <-. apply name_clean in E0; [|exact G|exact nil_clean].
    apply fold_clean in E1; [|apply element1_clean|apply children_good; exact G|apply start_clean; exact E0]. apply unicodes_clean. apply E1.
  - unfold readFormat2 in E. apply bind_Ok in E as (r0 & E0 & E). apply bind_Ok in E as (st & E1 & E). cbv zeta in E. apply bind_Ok in E as ([r1 ids] & E2 & E). apply name_clean in E0; [|exact G|exact nil_clean].
    apply fold_clean in E1; [|apply element2_clean|apply children_good; exact G|apply start_clean; exact E0]. destruct E1 as [A B D].
    assert (C1 : cleanR r1).
    { pose proof (unicodes_clean st _ A) as Cu. destruct (sguidelines st) as [|g gs]; [injection E2 as <- _; exact Cu|]. destruct (guidelinesValidator T (PList (g :: gs)) (sids st)) as [ok ids']. match type of E2 with (if ?q then _ else _) = _ => destruct q; [|discriminate] end. injection E2 as <- _. apply clean_set; [exact Cu|exact B]. }
    destruct (sanchors st) as [|a an]; [injection E as <-; exact C1|]. match type of E with (if ?q then _ else _) = _ => destruct q; [|discriminate] end. injection E as <-. apply clean_set; [exact C1|exact D].
Qed.
End Clean.

(** ** C82 *)
(** Whatever GLIF file without tabs and carriage returns given by number is accepted: what is
    read from it can be written, and is read again from what is written.  The
    integers in the lib have to fit property lists. *)
Theorem C82_document_partial : forall T R ro vs b0 r, pytext_laws T -> repr_laws T R ->
  noWhiteRefs b0 -> readGlyphBytes T true true vs true b0 = Ok r -> wholeRange (attr (rattrs r) "lib") ->
  exists name b r', get (u "name") (rattrs r) = Some (PStr name) /\ writeGlyphBytes T R ro (PStr name) (rattrs r) (Some (rcalls r)) 2 true = Ok b /\
    readGlyphBytes T true true [1%Z; 2%Z] true b = Ok r' /\ sameReading r r'.
Proof.
  intros T R ro vs b0 r LT LR Nr E W. apply (C82_read_write_read_partial T R ro vs b0 r LT LR E).
  unfold readGlyphBytes in E. apply bind_Ok in E as (e & Ee & E). unfold glifTree in Ee. apply bind_Ok in Ee as (root & Er & Ee).
  assert (G : goodTree e) by (destruct (eqb (etag root) (u "glyph")); [|discriminate]; destruct (blankText T (etextOf root)); [|discriminate]; injection Ee as <-; eapply parseBytes_good; eassumption).
  apply (read_clean T R LR) in E; [|exact G]. destruct E as [A B].
  assert (X : forall k v, attr (rattrs r) k = v -> v = PNone \/ attrClean (u k) v).
  { intros k v Ek. unfold attr in Ek. destruct (get (u k) (rattrs r)) as [w|] eqn:Gk; [subst w; right; apply B; exact Gk|left; auto]. }
  assert (L : attr (rattrs r) "lib" = PNone \/ plistData textOk (attr (rattrs r) "lib")) by (destruct (X "lib" _ eq_refl) as [H|H]; [left; exact H|exact H]).
  constructor.
  - exact A.
  - intros s Es. destruct (X "name" _ Es) as [H|H]; [discriminate|]. apply H. reflexivity.
  - intros s Es. destruct (X "note" _ Es) as [H|H]; [discriminate|]. apply H. reflexivity.
  - intros k s Es. destruct (X "image" _ eq_refl) as [H|H]; [rewrite H in Es; discriminate Es|]. exact (H k s Es).
  - intros v k s I Es. destruct (X "guidelines" _ eq_refl) as [H|H]; [rewrite H in I; destruct I|]. change (Forall cleanItem (listed (attr (rattrs r) "guidelines"))) in H. rewrite Forall_forall in H. exact (H v I k s Es).
  - intros v k s I Es. destruct (X "anchors" _ eq_refl) as [H|H]; [rewrite H in I; destruct I|]. change (Forall cleanItem (listed (attr (rattrs r) "anchors"))) in H. rewrite Forall_forall in H. exact (H v I k s Es).
  - intro Tr. destruct L as [H|H]; [rewrite H in Tr; discriminate Tr|]. eapply data_plistable; eassumption.
  - destruct L as [H|H]; [|apply data_texts; exact H]. rewrite H. split; [intros s I; inversion I|intros d k x I; inversion I].
Qed.
Print Assumptions C82_document_partial.

(** Without the hypotheses it is false: a carriage return that a document spells
    [&#13;] is written as such and read as a line feed, and a lib with an integer
    beyond 64 bits is read but can not be written. *)
Definition docNote : bytes := u "<glyph name=""a"" format=""2""><note>x&#13;y</note></glyph>".
Definition docLib (z : string) : bytes := u "<glyph name=""a"" format=""2""><lib><dict><key>k</key><integer>" ++ u z ++ u "</integer></dict></lib></glyph>".
Definition again (b : bytes) : res (greading * res greading) :=
  do r <- readGlyphBytes asciiText true true [1%Z; 2%Z] true b;
  Ok (r, do b' <- writeGlyphBytes asciiText toyRepr roCase (attr (rattrs r) "name") (rattrs r) (Some (rcalls r)) 2 true; readGlyphBytes asciiText true true [1%Z; 2%Z] true b').
Theorem C82_document_refuted :
  match again docNote with Ok (r, Ok r') => attr (rattrs r) "note" = PStr [120; 13; 121]%N /\ attr (rattrs r') "note" = PStr [120; 10; 121]%N | _ => False end /\
  match again (docLib "99999999999999999999") with Ok (r, Err e) => attr (rattrs r) "lib" = PDict [(PStr (u "k"), PInt 99999999999999999999)] /\ e = OverflowError | _ => False end.
Proof. vm_compute. repeat split. Qed.
Print Assumptions C82_document_refuted.

(** A lib, a note and an outline in one document, in no canonical order or spelling. *)
Definition docCase : bytes := u "<glyph format='2' name='a&amp;b&#xE9;'><outline><contour/><component  base='c'/></outline><note> x </note><lib><dict><key>k</key><integer>7</integer></dict></lib></glyph>".
Example C82_document_case :
  noWhiteRefs docCase /\
  match again docCase with
  | Ok (r, Ok r') => attr (rattrs r) "lib" = PDict [(PStr (u "k"), PInt 7)] /\ attr (rattrs r) "name" = PStr (u "a&b" ++ [233%N]) /\ length (rcalls r) = 3%nat /\
                     rcalls r' = rcalls r /\ map (attr (rattrs r')) ["name"; "note"; "lib"] = map (attr (rattrs r)) ["name"; "note"; "lib"]
  | _ => False
  end.
Proof.
  split; [|vm_compute; repeat split].
  apply whiteless_ok. vm_compute. reflexivity.
Qed.
