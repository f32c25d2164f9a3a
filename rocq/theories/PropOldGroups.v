(** Property C106: which groups and kerning of a UFO 1 or 2 can be read.  They are
    converted when they are read, and the result has to be valid in UFO 3. *)
From Coq Require Import String NArith ZArith Bool Lia List Permutation.
From Coq.Floats Require Import SpecFloat.
From Verif Require Import Base PyVal PyText Validators ValidatorsProofs PropValidators PropFontInfoAccepts.
From Verif Require Import Kerning KerningProofs PropKerning FS FSProofs Ufo ToyCodec PropUfo PropUfoFiles PropSaveAs PropReader.
Import ListNotations.
Local Open Scope string_scope.
Local Open Scope list_scope.

(** ** the statements *)
(** the groups of groups.plist and the pairs of kerning.plist as plist values *)
Definition groupsFile (gs : list (str * list str)) : pyval := PDict (map (fun g => (PStr (fst g), PList (map PStr (snd g)))) gs).
Definition kerningFile (kn : list (str * list (str * pyval))) : pyval :=
  PDict (map (fun f => (PStr (fst f), PDict (map (fun s => (PStr (fst s), snd s)) (snd f)))) kn).
(** the groups of the first and the second side: those with the name MetricsMachine
    gives to a kerning group, and those used in the kerning *)
Definition side1 (gs : list (str * list str)) (kn : list (str * list (str * pyval))) (g : str) : Prop :=
  In g (keys gs) /\ ((exists r, g = u "@MMK_L_" ++ r) \/ In g (keys kn)).
Definition side2 (gs : list (str * list str)) (kn : list (str * list (str * pyval))) (g : str) : Prop :=
  In g (keys gs) /\ ((exists r, g = u "@MMK_R_" ++ r) \/ exists first seconds, In (first, seconds) kn /\ In g (keys seconds)).
(** no glyph is in the groups of a side twice *)
Definition oncePerSide (gs : list (str * list str)) (side : str -> Prop) : Prop :=
  (forall g l, side g -> get g gs = Some l -> NoDup l) /\
  (forall g h l m x, side g -> side h -> get g gs = Some l -> get h gs = Some m -> In x l -> In x m -> g = h).
Definition oldGroups (gs : list (str * list str)) (kn : list (str * list (str * pyval))) : Prop :=
  ~ In [] (keys gs) /\
  (forall g, side1 gs kn g -> removeAll (u "@MMK_L_") g <> []) /\ (forall g, side2 gs kn g -> removeAll (u "@MMK_R_") g <> []) /\
  oncePerSide gs (side1 gs kn) /\ oncePerSide gs (side2 gs kn).
(** the names say the same in UFO 3 *)
Definition plainNames (gs : list (str * list str)) (kn : list (str * list (str * pyval))) : Prop :=
  (forall g, In g (keys gs) \/ In g (keys kn) \/ (exists f s, In (f, s) kn /\ In g (keys s)) ->
     ~ (exists r, g = u "public.kern1." ++ r) /\ ~ (exists r, g = u "public.kern2." ++ r)) /\
  (forall g h, side1 gs kn g -> side1 gs kn h -> removeAll (u "@MMK_L_") g = removeAll (u "@MMK_L_") h -> g = h) /\
  (forall g h, side2 gs kn g -> side2 gs kn h -> removeAll (u "@MMK_R_") g = removeAll (u "@MMK_R_") h -> g = h).

(** ** proofs *)
Lemma sw_iff p (x : str) : startswith p x = true <-> exists r, x = p ++ r.
Proof. destruct (startswith_spec p x); split; auto; discriminate. Qed.
Lemma sw_not p (x : str) : startswith p x = false <-> ~ exists r, x = p ++ r.
Proof. destruct (startswith_spec p x); split; auto; try discriminate. contradiction. Qed.
Lemma strings_map l : strings (map PStr l) = l.
Proof. unfold strings. induction l as [|x r IH]; [reflexivity|]. cbn [map List.concat app]. rewrite IH. reflexivity. Qed.
Lemma nodup_app {A} (l m : list A) : NoDup (l ++ m) <-> NoDup l /\ NoDup m /\ forall x, In x l -> ~ In x m.
Proof.
  induction l as [|a l IH]; cbn [app].
  - split; [intro H; split; [apply NoDup_nil|]; split; [exact H|intros x []]|intros (_ & H & _); exact H].
  - split.
    + intro H. inversion H as [|? ? N1 N2]; subst. apply IH in N2 as (A1 & A2 & A3). split; [apply NoDup_cons; [|exact A1]|split; [exact A2|]].
      * intro I. apply N1. apply in_or_app. left. exact I.
      * intros x [<-|I]; [intro J; apply N1; apply in_or_app; right; exact J|apply A3; exact I].
    + intros (A1 & A2 & A3). inversion A1 as [|? ? N1 N2]; subst. apply NoDup_cons.
      * intro I. apply in_app_or in I as [I|I]; [contradiction|]. exact (A3 a (or_introl eq_refl) I).
      * apply IH. split; [exact N2|]. split; [exact A2|]. intros x I. apply A3. right. exact I.
Qed.
(** the members of the groups with a prefix, as a set of lists *)
Lemma members_once p (g : list (str * list str)) : dict_ok g ->
  (NoDup (membersOf p (map (fun g => (PStr (fst g), PList (map PStr (snd g)))) g)) <->
   (forall n l, startswith p n = true -> get n g = Some l -> NoDup l) /\
   (forall n m l k x, startswith p n = true -> startswith p m = true -> get n g = Some l -> get m g = Some k -> In x l -> In x k -> n = m)).
Proof.
  induction g as [|[n l] r IH]; intro D.
  - split; [intros _; split; intros; discriminate|intros _; apply NoDup_nil].
  - unfold dict_ok, keys in D. cbn [map fst] in D. inversion D as [|? ? N1 N2]; subst. specialize (IH N2).
    assert (M : forall x, In x (membersOf p (map (fun g => (PStr (fst g), PList (map PStr (snd g)))) r)) <-> exists m k, startswith p m = true /\ get m r = Some k /\ In x k).
    { intro x. unfold membersOf. rewrite in_concat. split.
      - intros (y & I & X). rewrite map_map in I. apply in_map_iff in I as ([m k] & <- & I). cbn [fst snd elems] in X. destruct (startswith p m) eqn:S; [|destruct X]. rewrite strings_map in X.
        exists m, k. split; [exact S|]. split; [apply In_get; [exact N2|exact I]|exact X].
      - intros (m & k & S & G & X). exists k. split; [|exact X]. rewrite map_map. apply in_map_iff. exists (m, k). cbn [fst snd elems]. rewrite S, strings_map. split; [reflexivity|apply get_In; exact G]. }
    assert (Gr : forall m k, get m r = Some k -> m <> n /\ get m ((n, l) :: r) = Some k).
    { intros m k G. assert (m <> n) by (intros ->; apply get_In in G; apply N1; apply (in_map fst) in G; exact G). split; [assumption|]. cbn [get]. destruct (eqb_spec m n); [contradiction|exact G]. }
    assert (Gn : get n ((n, l) :: r) = Some l) by (cbn [get]; rewrite eqb_refl; reflexivity).
    assert (Gi : forall m k, get m ((n, l) :: r) = Some k -> m = n /\ k = l \/ m <> n /\ get m r = Some k).
    { intros m k G. cbn [get] in G. destruct (eqb_spec m n) as [->|ne]; [left; split; [reflexivity|congruence]|right; split; assumption]. }
    unfold membersOf in *. cbn [map List.concat fst snd elems]. rewrite strings_map. destruct (startswith p n) eqn:S.
    + rewrite nodup_app, IH. split.
      * intros (A1 & (A2 & A3) & A4). split.
        -- intros m k Sm G. apply Gi in G as [(-> & ->)|(ne & G)]; [exact A1|exact (A2 _ _ Sm G)].
        -- intros m m' k k' x Sm Sm' G G' I I'. apply Gi in G as [(-> & ->)|(ne & G)]; apply Gi in G' as [(-> & ->)|(ne' & G')]; [reflexivity| | |eapply A3; eassumption].
           ++ exfalso. apply (A4 x I). apply M. eauto.
           ++ exfalso. apply (A4 x I'). apply M. eauto.
      * intros (A1 & A2). split; [exact (A1 n l S Gn)|]. split; [split|].
        -- intros m k Sm G. apply Gr in G as (ne & G). exact (A1 m k Sm G).
        -- intros m m' k k' x Sm Sm' G G' I I'. apply Gr in G as (ne & G). apply Gr in G' as (ne' & G'). exact (A2 m m' k k' x Sm Sm' G G' I I').
        -- intros x I J. apply M in J as (m & k & Sm & G & J). apply Gr in G as (ne & G). apply ne. exact (A2 m n k l x Sm S G Gn J I).
    + cbn [app]. rewrite IH. split; intros (A1 & A2); split.
      * intros m k Sm G. apply Gi in G as [(-> & ->)|(ne & G)]; [congruence|exact (A1 _ _ Sm G)].
      * intros m m' k k' x Sm Sm' G G' I I'. apply Gi in G as [(-> & ->)|(ne & G)]; [congruence|]. apply Gi in G' as [(-> & ->)|(ne' & G')]; [congruence|]. eapply A2; eassumption.
      * intros m k Sm G. apply Gr in G as (ne & G). exact (A1 m k Sm G).
      * intros m m' k k' x Sm Sm' G G' I I'. apply Gr in G as (ne & G). apply Gr in G' as (ne' & G'). exact (A2 m m' k k' x Sm Sm' G G' I I').
Qed.
Lemma asTexts_map l : asTexts (map PStr l) = Some l.
Proof. induction l as [|x r IH]; [reflexivity|]. cbn [map asTexts]. rewrite IH. reflexivity. Qed.
Lemma asGroups_file gs : asTextGroups (map (fun g : str * list str => (PStr (fst g), PList (map PStr (snd g)))) gs) = Some gs.
Proof. induction gs as [|[n l] r IH]; [reflexivity|]. cbn [map asTextGroups fst snd]. rewrite asTexts_map, IH. reflexivity. Qed.
Lemma asInner_file l : asInner (map (fun s : str * pyval => (PStr (fst s), snd s)) l) = Some l.
Proof. induction l as [|[n x] r IH]; [reflexivity|]. cbn [map asInner fst snd]. rewrite IH. reflexivity. Qed.
Lemma asNested_file kn : asNested (map (fun f : str * list (str * pyval) => (PStr (fst f), PDict (map (fun s => (PStr (fst s), snd s)) (snd f)))) kn) = Some kn.
Proof. induction kn as [|[n l] r IH]; [reflexivity|]. cbn [map asNested fst snd]. rewrite asInner_file, IH. reflexivity. Qed.

(** a side of the converted groups *)
Lemma side_once p q (gs gs' : list (str * list str)) (m other : list (str * str)) (side : str -> Prop) :
  (forall g, In g (keys gs) -> startswith p g = false) ->
  dict_ok m -> (forall g, In g (keys m) <-> side g) ->
  (forall g, In g (keys gs') <-> In g (keys gs) \/ In g (values m) \/ In g (values other)) ->
  (forall g, In g (values other) -> startswith p g = false) ->
  (forall o n, In (o, n) m -> startswith p n = true) ->
  (forall o n, In (o, n) m -> n = p ++ removeAll q o) ->
  (forall g h, side g -> side h -> removeAll q g = removeAll q h -> g = h) ->
  (forall g, In g (values m) -> exists o, In (o, g) m /\ get g gs' = get o gs) ->
  dict_ok gs' ->
  (NoDup (membersOf p (map (fun g => (PStr (fst g), PList (map PStr (snd g)))) gs')) <-> oncePerSide gs side).
Proof.
  intros Pl Dm Km Kg Ot Sp Nm Inj New Dg. rewrite (members_once p gs' Dg). unfold oncePerSide.
  assert (A : forall n l, startswith p n = true -> get n gs' = Some l -> exists o, side o /\ In (o, n) m /\ get o gs = Some l).
  { intros n l S G. assert (I : In n (keys gs')) by (apply get_In in G; apply (in_map fst) in G; exact G). apply Kg in I as [I|[I|I]].
    - rewrite (Pl n I) in S. discriminate.
    - destruct (New n I) as (o & Io & E). exists o. split; [apply Km; apply (in_map fst) in Io; exact Io|]. split; [exact Io|congruence].
    - rewrite (Ot n I) in S. discriminate. }
  assert (B : forall o l, side o -> get o gs = Some l -> exists n, In (o, n) m /\ startswith p n = true /\ get n gs' = Some l).
  { intros o l S G. apply Km in S as I. apply in_map_iff in I as ([o' n] & E & I). cbn [fst] in E. subst o'. exists n. split; [exact I|]. split; [eapply Sp; exact I|].
    destruct (New n) as (o2 & I2 & E2); [apply (in_map snd) in I; exact I|]. assert (o2 = o); [|subst; congruence].
    apply Inj; [apply Km; apply (in_map fst) in I2; exact I2|exact S|]. apply Nm in I, I2. rewrite I in I2. apply app_inv_head in I2. symmetry. exact I2. }
  split; intros (H1 & H2); split.
  - intros g l S G. destruct (B g l S G) as (n & _ & Sn & Gn). exact (H1 n l Sn Gn).
  - intros g h l k x S S' G G' I I'. destruct (B g l S G) as (n & In1 & Sn & Gn). destruct (B h k S' G') as (n' & In2 & Sn' & Gn').
    assert (n = n') as <- by exact (H2 n n' l k x Sn Sn' Gn Gn' I I'). apply Inj; [exact S|exact S'|]. apply Nm in In1, In2. rewrite In1 in In2. apply app_inv_head in In2. exact In2.
  - intros n l S G. destruct (A n l S G) as (o & So & _ & Go). exact (H1 o l So Go).
  - intros n n' l k x S S' G G' I I'. destruct (A n l S G) as (o & So & Io & Go). destruct (A n' k S' G') as (o' & So' & Io' & Go').
    assert (o = o') as <- by exact (H2 o o' l k x So So' Go Go' I I'). apply Nm in Io, Io'. congruence.
Qed.
Lemma valid_file gs : dict_ok gs -> (groupsValidator (groupsFile gs) = true <->
  ~ In [] (keys gs) /\ (forall r, In (kern1 ++ r) (keys gs) -> r <> []) /\ (forall r, In (kern2 ++ r) (keys gs) -> r <> []) /\
  NoDup (membersOf kern1 (map (fun g => (PStr (fst g), PList (map PStr (snd g)))) gs)) /\ NoDup (membersOf kern2 (map (fun g => (PStr (fst g), PList (map PStr (snd g)))) gs))).
Proof.
  intro D. rewrite C43_groups_rule. unfold groupsFile. split.
  - intros (d & E & F1 & F2 & N1 & N2). inversion E; subst d. rewrite Forall_forall in F1, F2. split; [|split; [|split; [|split; [exact N1|exact N2]]]].
    + intro I. apply in_map_iff in I as ([n l] & En & I). cbn [fst] in En. subst n. specialize (F1 (PStr [], PList (map PStr l))). destruct F1 as (k & Ek & nk & _); [apply in_map_iff; exists ([], l); split; [reflexivity|exact I]|]. cbn [fst] in Ek. inversion Ek; subst. contradiction.
    + intros r I. apply in_map_iff in I as ([n l] & En & I). cbn [fst] in En. subst n. specialize (F2 (PStr (kern1 ++ r), PList (map PStr l))). eapply F2; [apply in_map_iff; eexists; split; [|exact I]; reflexivity|reflexivity|left; reflexivity|reflexivity].
    + intros r I. apply in_map_iff in I as ([n l] & En & I). cbn [fst] in En. subst n. specialize (F2 (PStr (kern2 ++ r), PList (map PStr l))). eapply F2; [apply in_map_iff; eexists; split; [|exact I]; reflexivity|reflexivity|right; left; reflexivity|reflexivity].
  - intros (A & B1 & B2 & N1 & N2). eexists. split; [reflexivity|]. split; [|split; [|split; [exact N1|exact N2]]]; apply Forall_forall; intros kv I; apply in_map_iff in I as ([n l] & <- & I); cbn [fst snd].
    + exists n. split; [reflexivity|]. split; [|reflexivity]. intros ->. apply A. apply (in_map fst) in I. exact I.
    + intros k rest side E S ->. cbn [fst snd elems] in *. injection E as ->. split.
      * apply (in_map fst) in I. cbn [fst] in I. destruct S as [<-|[<-|[]]]; [exact (B1 rest I)|exact (B2 rest I)].
      * intros x J. apply in_map_iff in J as (s & <- & _). eauto.
Qed.
Section Convert.
Variables (perm : list str -> list str) (gs : list (str * list str)) (kn : list (str * list (str * pyval))).
Hypothesis O : set_order perm.
Hypothesis D : dict_ok gs.
Hypothesis Pl : plainNames gs kn.
Lemma converted : exists g' m1 m2, convertKerning perm kn gs = Ok (renameKerning m1 m2 kn, g', (m1, m2)) /\ dict_ok g' /\
  NoDup (values (m1 ++ m2)) /\ (forall x, In x (values (m1 ++ m2)) -> (exists r, x = kern1 ++ r) \/ exists r, x = kern2 ++ r) /\
  (groupsValidator (groupsFile g') = true <-> oldGroups gs kn).
Proof.
  destruct Pl as (P0 & P1 & P2). destruct (convert_spec perm kn gs D O) as (g' & m1 & m2 & E & D1 & D2 & K1 & K2 & N1 & N2 & Dg & Keep & Keys & New).
  assert (Q1 : forall g, In g (keys gs) -> startswith kern1 g = false) by (intros g I; apply sw_not; apply P0; left; exact I).
  assert (Q2 : forall g, In g (keys gs) -> startswith kern2 g = false) by (intros g I; apply sw_not; apply P0; left; exact I).
  assert (S1 : forall g, In g (keys m1) <-> side1 gs kn g).
  { intro g. rewrite K1. unfold side1. rewrite sw_iff. split; (intros (I & X); split; [exact I|]); [destruct X as [X|(X & _)]; auto|destruct X as [X|X]; [left; exact X|right; split; [exact X|apply Q1; exact I]]]. }
  assert (S2 : forall g, In g (keys m2) <-> side2 gs kn g).
  { intro g. rewrite K2. unfold side2. rewrite sw_iff. split; (intros (I & X); split; [exact I|]); [destruct X as [X|(X & _)]; auto|destruct X as [X|X]; [left; exact X|right; split; [exact X|apply Q2; exact I]]]. }
  assert (V1 : forall o n, In (o, n) m1 -> n = kern1 ++ removeAll (u "@MMK_L_") o) by (intros o n I; eapply newNameOk_plain; [exact Q1|apply N1; exact I]).
  assert (V2 : forall o n, In (o, n) m2 -> n = kern2 ++ removeAll (u "@MMK_R_") o) by (intros o n I; eapply newNameOk_plain; [exact Q2|apply N2; exact I]).
  assert (W1 : forall o n, In (o, n) m1 -> startswith kern1 n = true) by (intros o n I; eapply new_prefix; apply N1; exact I).
  assert (W2 : forall o n, In (o, n) m2 -> startswith kern2 n = true) by (intros o n I; eapply new_prefix; apply N2; exact I).
  assert (X1 : forall g, In g (values m1) -> startswith kern1 g = true) by (intros g I; apply in_map_iff in I as ([o n] & <- & I); eapply W1; exact I).
  assert (X2 : forall g, In g (values m2) -> startswith kern2 g = true) by (intros g I; apply in_map_iff in I as ([o n] & <- & I); eapply W2; exact I).
  assert (Y1 : forall g, In g (values m1) -> startswith kern2 g = false) by (intros g I; destruct (startswith kern2 g) eqn:S; [destruct (kern1_not_kern2 g (X1 g I) S)|reflexivity]).
  assert (Y2 : forall g, In g (values m2) -> startswith kern1 g = false) by (intros g I; destruct (startswith kern1 g) eqn:S; [destruct (kern1_not_kern2 g S (X2 g I))|reflexivity]).
  assert (Vs : forall g, In g (values (m1 ++ m2)) <-> In g (values m1) \/ In g (values m2)) by (intro g; unfold values; rewrite map_app; apply in_app_iff).
  exists g', m1, m2. split; [exact E|]. split; [exact Dg|]. split; [|split].
  - unfold values. rewrite map_app. eapply C17_distinct_partial; [exact O|exact D|exact E| | |].
    + intros g I. split; [apply Q1; exact I|apply Q2; exact I].
    + intros g h I J. apply P1; apply S1; assumption.
    + intros g h I J. apply P2; apply S2; assumption.
  - intros x I. apply Vs in I as [I|I]; [left; apply sw_iff; exact (X1 x I)|right; apply sw_iff; exact (X2 x I)].
  - rewrite (valid_file g' Dg). unfold oldGroups.
    assert (M1 : NoDup (membersOf kern1 (map (fun g => (PStr (fst g), PList (map PStr (snd g)))) g')) <-> oncePerSide gs (side1 gs kn)).
    { apply (side_once kern1 (u "@MMK_L_") gs g' m1 m2); try assumption. intros g I. destruct (New g) as (o & Io & Eo); [apply Vs; left; exact I|]. exists o. split; [|exact Eo].
      apply in_app_or in Io as [Io|Io]; [exact Io|]. apply W2 in Io. rewrite (Y1 g I) in Io. discriminate. }
    assert (M2 : NoDup (membersOf kern2 (map (fun g => (PStr (fst g), PList (map PStr (snd g)))) g')) <-> oncePerSide gs (side2 gs kn)).
    { apply (side_once kern2 (u "@MMK_R_") gs g' m2 m1); try assumption.
      - intro g. rewrite Keys. tauto.
      - intros g I. destruct (New g) as (o & Io & Eo); [apply Vs; right; exact I|]. exists o. split; [|exact Eo].
        apply in_app_or in Io as [Io|Io]; [|exact Io]. apply W1 in Io. rewrite (Y2 g I) in Io. discriminate. }
    rewrite M1, M2.
    assert (E0 : ~ In [] (keys g') <-> ~ In [] (keys gs)).
    { rewrite Keys. split; [tauto|]. intros H [I|[I|I]]; [exact (H I)|apply X1 in I; discriminate|apply X2 in I; discriminate]. }
    assert (E1 : (forall r, In (kern1 ++ r) (keys g') -> r <> []) <-> (forall g, side1 gs kn g -> removeAll (u "@MMK_L_") g <> [])).
    { split.
      - intros H g S. apply S1 in S. apply in_map_iff in S as ([o n] & Eo & I). cbn [fst] in Eo. subst o. apply H. apply Keys. right. left. rewrite <- (V1 _ _ I). apply (in_map snd) in I. exact I.
      - intros H r I. apply Keys in I as [I|[I|I]].
        + apply Q1 in I. apply sw_not in I. destruct I. eexists. reflexivity.
        + apply in_map_iff in I as ([o n] & En & I). cbn [snd] in En. subst n. pose proof (V1 _ _ I) as Q. apply app_inv_head in Q. subst r. apply H. apply S1. apply (in_map fst) in I. exact I.
        + apply Y2 in I. apply sw_not in I. destruct I. eexists. reflexivity. }
    assert (E2 : (forall r, In (kern2 ++ r) (keys g') -> r <> []) <-> (forall g, side2 gs kn g -> removeAll (u "@MMK_R_") g <> [])).
    { split.
      - intros H g S. apply S2 in S. apply in_map_iff in S as ([o n] & Eo & I). cbn [fst] in Eo. subst o. apply H. apply Keys. right. right. rewrite <- (V2 _ _ I). apply (in_map snd) in I. exact I.
      - intros H r I. apply Keys in I as [I|[I|I]].
        + apply Q2 in I. apply sw_not in I. destruct I. eexists. reflexivity.
        + apply Y1 in I. apply sw_not in I. destruct I. eexists. reflexivity.
        + apply in_map_iff in I as ([o n] & En & I). cbn [snd] in En. subst n. pose proof (V2 _ _ I) as Q. apply app_inv_head in Q. subst r. apply H. apply S2. apply (in_map fst) in I. exact I. }
    rewrite E0, E1, E2. reflexivity.
Qed.
End Convert.

Definition numbers (kn : list (str * list (str * pyval))) : Prop := forall f s b x, In (f, s) kn -> In (b, x) s -> isNum x.
Lemma renamed_nested (m1 m2 : list (str * str)) (kn : list (str * list (str * pyval))) : nested_dict kn -> nested_dict (renameKerning m1 m2 kn).
Proof.
  intros (D1 & D2). rewrite renameKerning_alt. split.
  - apply dict_ok_fold_rename. constructor.
  - intros f s I. assert (G : get f (fold_left (fun nk '(s, v) => set (getd s m1) v nk) (map (fun '(a, s) => (a, renamedSeconds m2 s)) kn) []) = Some s) by (apply In_get; [apply dict_ok_fold_rename; constructor|exact I]).
    apply (fold_rename_src (fun x => getd x m1)) in G as [(a & J & E)|G]; [|discriminate]. apply in_map_iff in J as ([a' s'] & Q & J). inversion Q; subst. apply dict_ok_fold_rename. constructor.
Qed.
Lemma nested_valid (k : list (str * list (str * pyval))) : kerningValidator (nestedVal k) = true <-> numbers k.
Proof.
  rewrite C75_kerning_rule. unfold nestedVal, numbers. split.
  - intros (d & E & F) f s b x I J. inversion E; subst d. destruct (F (PStr f) (PDict (map (fun '(b, x) => (PStr b, x)) s))) as (_ & e & Ee & Fe); [apply in_map_iff; exists (f, s); split; [reflexivity|exact I]|].
    inversion Ee; subst e. apply (Fe (PStr b) x). apply in_map_iff. exists (b, x). split; [reflexivity|exact J].
  - intro H. eexists. split; [reflexivity|]. intros f s I. apply in_map_iff in I as ([n l] & Q & I). inversion Q; subst. split; [eexists; reflexivity|]. eexists. split; [reflexivity|].
    intros b x J. apply in_map_iff in J as ([b' x'] & Q' & J). inversion Q'; subst. split; [eexists; reflexivity|]. exact (H _ _ _ _ I J).
Qed.
Lemma nestedVal_pairs k : exists n, asNested (items (nestedVal k)) = Some n.
Proof.
  apply asNested_total. intros f s I. unfold nestedVal in I. cbn [items] in I. apply in_map_iff in I as ([n l] & Q & I). inversion Q; subst. split; [eexists; reflexivity|].
  eexists. split; [reflexivity|]. intros b x J. apply in_map_iff in J as ([b' x'] & Q' & J). inversion Q'; subst. eexists. reflexivity.
Qed.
(** partial: for names that say the same in UFO 3, see C106_merged_refuted.  The
    first reading of a reader, as groups or as kerning. *)
Theorem C106_old_partial : forall C perm t v gs kn, (v < 3)%Z -> set_order perm -> dict_ok gs -> nested_dict kn -> plainNames gs kn ->
  holds C t "groups.plist" empty (groupsFile gs) -> holds C t "kerning.plist" empty (kerningFile kn) ->
  (oldGroups gs kn /\ (exists g, snd (readGroups C (convPy perm) v t None true) = Ok g) \/
   ~ oldGroups gs kn /\ snd (readGroups C (convPy perm) v t None true) = Err UFOLibError) /\
  (numbers kn /\ (exists k, snd (readKerning C (convPy perm) v t None true) = Ok k) \/
   ~ numbers kn /\ snd (readKerning C (convPy perm) v t None true) = Err UFOLibError).
Proof.
  intros C perm t v gs kn V O D Dk Pl G K. destruct (converted perm gs kn O D Pl) as (g' & m1 & m2 & E & Dg & ND & Px & Iff).
  apply getPlist_holds in G. apply getPlist_holds in K.
  assert (U : upConvert C (convPy perm) t None true =
    (Some (mkUpc (nestedVal (renameKerning m1 m2 kn)) (kerningFile kn) (groupsFile g') (groupsFile gs) (Some (PDict [(PStr (u "side1"), mapVal m1); (PStr (u "side2"), mapVal m2)]))), Ok tt)).
  { unfold upConvert, readGroupsRaw, readKerningRaw. change nGroups with (u "groups.plist"). change nKerning with (u "kerning.plist"). fold empty. rewrite G, K.
    unfold groupsFile at 1. rewrite (textGroups_ok _ gs (asGroups_file gs)). cbn [negb andb]. unfold convPy. unfold kerningFile at 1, groupsFile at 1. rewrite asNested_file, asGroups_file, E.
    repeat f_equal. unfold groupsVal, groupsFile. f_equal. rewrite map_map. apply map_ext. intros [n l]. reflexivity. }
  split.
  - unfold readGroups. rewrite (proj2 (Z.ltb_lt _ _) V). rewrite U. cbn [bind snd upGroups]. cbn [andb negb]. destruct (groupsValidator (groupsFile g')) eqn:VG; cbn [negb].
    + left. split; [apply Iff; reflexivity|eexists; reflexivity].
    + right. split; [intro H; apply Iff in H; discriminate|reflexivity].
  - unfold readKerning. rewrite (proj2 (Z.ltb_lt _ _) V). rewrite U. cbn [bind snd upKerning]. cbn [andb negb].
    assert (S : kerningValidator (nestedVal (renameKerning m1 m2 kn)) = true <-> numbers kn).
    { rewrite nested_valid. pose proof (renamed_nested m1 m2 kn Dk) as (R1 & R2).
      assert (MN : merges_nothing kn m1 m2).
      { destruct Pl as (P0 & P1 & P2). pose proof (C19_groups_kept pyval perm kn gs O D) as (k0 & g0 & a0 & b0 & E0 & _ & _ & _ & S1 & S2). rewrite E in E0. inversion E0; subst a0 b0.
        eapply C20_plain_data_merges_nothing; [exact O|exact D|exact E| | |].
        - intros g I. split; apply sw_not; apply P0; exact I.
        - intros g h I J. apply P1; (split; [apply S1; assumption|]); [apply S1 in I as (_ & [I|(I & _)])|apply S1 in J as (_ & [I0|(I0 & _)])]; auto.
        - intros g h I J. apply P2; (split; [apply S2; assumption|]); [apply S2 in I as (_ & [I|(I & _)])|apply S2 in J as (_ & [I0|(I0 & _)])]; auto. }
      destruct MN as (A1 & A2 & A3). split.
      - intros H f s b x I J. 
        assert (I1 : forall a b, In a (keys kn) -> In b (keys kn) -> rename m1 a = rename m1 b -> a = b) by (apply (ren_inj m1 (m1 ++ m2)); [exact A1|apply incl_appl, incl_refl|exact A2]).
        assert (I2 : forall f s a b, In (f, s) kn -> In a (keys s) -> In b (keys s) -> rename m2 a = rename m2 b -> a = b).
        { intros f0 s0 a0 b0 If. apply (ren_inj m2 (m1 ++ m2)); [exact A1|apply incl_appr, incl_refl|intros; eapply A3; eassumption]. }
        assert (Vx : value kn f b = Some x) by (unfold value; rewrite (In_get f s kn (proj1 Dk) I); apply In_get; [exact (proj2 Dk _ _ I)|exact J]).
        pose proof (C18_values_preserved pyval perm kn gs _ _ _ _ O D Dk E I1 I2 f b x Vx) as W. unfold value in W. destruct (get (rename m1 f) _) as [s'|] eqn:G1; [|discriminate].
        apply get_In in G1. apply get_In in W. exact (H _ _ _ _ G1 W).
      - intros H f s b x I J. assert (W : value (renameKerning m1 m2 kn) f b = Some x) by (unfold value; rewrite (In_get f s _ R1 I); apply In_get; [exact (R2 _ _ I)|exact J]).
        destruct (C18_nothing_else pyval perm kn gs _ _ _ _ O D Dk E f b x W) as (a0 & b0 & _ & _ & W0). unfold value in W0. destruct (get a0 kn) as [s0|] eqn:G0; [|discriminate].
        apply get_In in G0. apply get_In in W0. exact (H _ _ _ _ G0 W0). }
    destruct (kerningValidator (nestedVal (renameKerning m1 m2 kn))) eqn:VK; cbn [negb].
    + left. split; [apply S; reflexivity|]. destruct (nestedVal_pairs (renameKerning m1 m2 kn)) as (n & En). unfold nestedVal in *. cbn [items] in *. rewrite En. eexists. reflexivity.
    + right. split; [intro H; apply S in H; discriminate|reflexivity].
Qed.
Print Assumptions C106_old_partial.

(** other files: groups.plist that does not map texts to lists of texts is refused
    with UFOLibError, kerning.plist that does not map texts to dictionaries of texts
    with some exception *)
Theorem C106_other_files : forall C perm t v, (v < 3)%Z ->
  (forall g, holds C t "groups.plist" empty g -> ~ (exists gs, g = groupsFile gs) ->
     snd (readGroups C (convPy perm) v t None true) = Err UFOLibError /\ snd (readKerning C (convPy perm) v t None true) = Err UFOLibError) /\
  (forall k, holds C t "kerning.plist" empty k -> ~ (exists kn, k = kerningFile kn) ->
     (exists e, snd (readGroups C (convPy perm) v t None true) = Err e) /\ exists e, snd (readKerning C (convPy perm) v t None true) = Err e).
Proof.
  intros C perm t v V. unfold readGroups, readKerning. rewrite (proj2 (Z.ltb_lt _ _) V). unfold upConvert, readGroupsRaw, readKerningRaw. change nGroups with (u "groups.plist"). change nKerning with (u "kerning.plist"). fold empty. split.
  - intros g H N. apply getPlist_holds in H. rewrite H. assert (R : rawGroupsOk g = false).
    { destruct (rawGroupsOk g) eqn:R; [|reflexivity]. exfalso. apply N. unfold rawGroupsOk in R. apply andb_prop in R as (Dg & R). destruct g; try discriminate Dg. cbn [items] in R. clear -R. induction d as [|[k l] r IH]; [exists []; reflexivity|].
      cbn [forallb] in R. apply andb_prop in R as (R1 & R). destruct (IH R) as (gs & E). unfold groupsFile in E. injection E as E. apply andb_prop in R1 as (R1 & R3). apply andb_prop in R1 as (R1 & R2). destruct k; try discriminate R1. destruct l; try discriminate R2. cbn [elems] in R3.
      assert (exists ms, l = map PStr ms) as (ms & ->). { clear -R3. induction l as [|x l IH]; [exists []; reflexivity|]. cbn [forallb] in R3. apply andb_prop in R3 as (A & B). destruct (IH B) as (ms & ->). destruct x; try discriminate A. exists (s :: ms). reflexivity. }
      exists ((s, ms) :: gs). unfold groupsFile. cbn [map fst snd]. rewrite E. reflexivity. }
    rewrite R. cbn [negb andb]. split; reflexivity.
  - intros k H N. apply getPlist_holds in H. rewrite H. destruct (getPlist C t (u "groups.plist") empty) as [g|e]; [|split; eexists; reflexivity].
    destruct (rawGroupsOk g); cbn [negb andb]; [|split; eexists; reflexivity].
    assert (R : exists e, convPy perm k g = Err e).
    { unfold convPy. destruct k; try (eexists; reflexivity). destruct g; try (eexists; reflexivity). destruct (asNested d) as [kn|] eqn:A; [|eexists; reflexivity]. exfalso. apply N. exists kn. unfold kerningFile. f_equal.
      rewrite (asNested_vals _ _ A). apply map_ext. intros [a i]. cbn [fst snd]. do 2 f_equal. apply map_ext. intros [b x]. reflexivity. }
    destruct R as (e & ->). split; eexists; reflexivity.
Qed.
Print Assumptions C106_other_files.
(** "A" and "@MMK_L_A" become one group, which hides that they share a glyph *)
Theorem C106_merged_refuted : forall C perm t v, (v < 3)%Z -> set_order perm ->
  let gs := [(u "A", [u "x"]); (u "@MMK_L_A", [u "x"])] in let kn := [(u "A", [(u "V", PInt 1)])] in
  holds C t "groups.plist" empty (groupsFile gs) -> holds C t "kerning.plist" empty (kerningFile kn) ->
  ~ oldGroups gs kn /\ exists g, snd (readGroups C (convPy perm) v t None true) = Ok g.
Proof.
  intros C perm t v V O gs kn G K. split.
  - intros (_ & _ & _ & (_ & H) & _). specialize (H (u "A") (u "@MMK_L_A") [u "x"] [u "x"] (u "x")). discriminate H; try reflexivity; try (left; reflexivity).
    + split; [left; reflexivity|]. right. left. reflexivity.
    + split; [right; left; reflexivity|]. left. exists (u "A"). reflexivity.
  - apply getPlist_holds in G. apply getPlist_holds in K. unfold readGroups. rewrite (proj2 (Z.ltb_lt _ _) V). unfold upConvert, readGroupsRaw, readKerningRaw. change nGroups with (u "groups.plist"). change nKerning with (u "kerning.plist"). fold empty. rewrite G, K.
    replace (rawGroupsOk (groupsFile gs)) with true by (vm_compute; reflexivity). cbn [negb andb].
    assert (R : exists m, convertKerning perm kn gs = Ok ([(u "public.kern1.A", [(u "V", PInt 1)])], gs ++ [(u "public.kern1.A", [u "x"])], m)).
    { unfold convertKerning. replace (referencedGroups kn gs (findKnownKerningGroups gs)) with ([u "@MMK_L_A"; u "A"], @nil str) by (vm_compute; reflexivity).
      replace (perm []) with (@nil str) by (symmetry; apply Permutation_nil, Permutation_sym, O).
      destruct (Permutation_length_2_inv (Permutation_sym (O [u "@MMK_L_A"; u "A"]))) as [-> | ->]; (eexists; vm_compute; reflexivity). }
    destruct R as ([m1 m2] & R). unfold convPy. unfold kerningFile at 1, groupsFile at 1. rewrite asNested_file, asGroups_file, R. eexists. vm_compute. reflexivity.
Qed.
Print Assumptions C106_merged_refuted.
(** two groups of the first side share a glyph; a group that is not used in the kerning may *)
Example C106_case :
  let file v := match dumps toy v with Ok b => File b | Err _ => File [] end in
  let read gs kn := match snd (readGroups toy (convPy (fun l => l)) 2 (Dir [(u "groups.plist", file (groupsFile gs)); (u "kerning.plist", file (kerningFile kn))]) None true) with Ok _ => true | Err _ => false end in
  read [(u "@MMK_L_A", [u "A"]); (u "first", [u "A"; u "B"])] [(u "first", [(u "V", PInt 1)])] = false /\
  read [(u "@MMK_L_A", [u "A"]); (u "first", [u "A"; u "B"])] [(u "@MMK_L_A", [(u "first", PInt 1)])] = true.
Proof. vm_compute. split; reflexivity. Qed.
