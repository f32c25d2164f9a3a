(** Properties C15 - C22: kerning lookup, conversion, round trip. *)
From Coq Require Import String NArith ZArith Bool Lia List Permutation.
From Verif Require Import Base PyVal Kerning KerningProofs.
Import ListNotations.
Local Open Scope string_scope.
Local Open Scope list_scope.

(** ** Vocabulary *)
(** [glyph] is a member of the group [G], whose name starts with [prefix] *)
Definition member_of (prefix : str) (groups : groupsT) (glyph G : str) : Prop :=
  exists members r, In (G, members) groups /\ G = prefix ++ r /\ In glyph members.
(** what a name on one side stands for: a kerning group stands for itself and
    is no glyph; a glyph may have a group of this side *)
Definition stands_for (prefix : str) (groups : groupsT) (name : str) (glyph group : option str) : Prop :=
  (exists r, name = prefix ++ r) /\ glyph = None /\ group = Some name \/
  ~ (exists r, name = prefix ++ r) /\ glyph = Some name /\
  ((exists G, group = Some G /\ member_of prefix groups name G) \/
   group = None /\ forall G, ~ member_of prefix groups name G).
(** no glyph is in two groups of one side *)
Definition single_group (prefix : str) (groups : groupsT) : Prop :=
  forall glyph G H, member_of prefix groups glyph G -> member_of prefix groups glyph H -> G = H.
(** the value of the first pair of the list that is in the kerning *)
Inductive first_value {V} (kerning : list (str * str * V)) : list (option str * option str) -> option V -> Prop :=
| fv_none : first_value kerning [] None
| fv_hit a b v l : get (a, b) kerning = Some v -> first_value kerning ((Some a, Some b) :: l) (Some v)
| fv_miss a b l r : (forall x y, a = Some x -> b = Some y -> get (x, y) kerning = None) ->
    first_value kerning l r -> first_value kerning ((a, b) :: l) r.

Lemma member_in_side p groups g G : member_of p groups g G <-> in_side p groups g G.
Proof.
  unfold member_of, in_side. split.
  - intros (ms & r & I & -> & M). exists ms. split; [exact I|]. split; [|exact M].
    destruct (startswith_spec p (p ++ r)) as [|H]; [reflexivity|]. exfalso; apply H; eauto.
  - intros (ms & I & S & M). destruct (startswith_spec p G) as [(r & ->)|]; [|discriminate]. exists ms, r. auto.
Qed.
Lemma firstMatch_spec {V} (kerning : list (str * str * V)) l : first_value kerning l (firstMatch kerning l).
Proof.
  induction l as [|[a b] l IH]; cbn [firstMatch]; [constructor|].
  destruct (lookupPair kerning a b) as [v|] eqn:E.
  - destruct a as [x|], b as [y|]; cbn in E; try discriminate. constructor. exact E.
  - constructor; [|exact IH]. intros x y -> ->. exact E.
Qed.
Lemma first_value_det {V} (kerning : list (str * str * V)) l r r' : first_value kerning l r -> first_value kerning l r' -> r = r'.
Proof.
  intro H. revert r'. induction H as [|a b v l G|a b l r M H IH]; intros r' H'.
  - inversion H'; reflexivity.
  - inversion H' as [|? ? v' ? G'|? ? ? ? M' H'']; subst; [congruence|]. specialize (M' a b eq_refl eq_refl). congruence.
  - inversion H' as [|x y v' ? G'|? ? ? ? M' H'']; subst; [|auto]. specialize (M x y eq_refl eq_refl). congruence.
Qed.

(** ** C15 *)
Lemma stands_ok p groups m name : map_ok p groups m ->
  let '(g, G) := if startswith p name then (None, Some name) else (Some name, get name m) in
  stands_for p groups name g G.
Proof.
  intro O. unfold stands_for. destruct (startswith_spec p name) as [(r & ->)|H].
  - left. eauto.
  - right. split; [exact H|]. split; [reflexivity|]. specialize (O name). destruct (get name m) as [G|].
    + left. exists G. split; [reflexivity|]. apply member_in_side. exact O.
    + right. split; [reflexivity|]. intros G M. apply member_in_side in M. exact (O G M).
Qed.
Lemma lookup_spec {V} pair (kerning : list (str * str * V)) groups fallback m1 m2 :
  map_ok kern1 groups m1 -> map_ok kern2 groups m2 ->
  exists g1 G1 g2 G2 r, stands_for kern1 groups (fst pair) g1 G1 /\ stands_for kern2 groups (snd pair) g2 G2 /\
    first_value kerning [(Some (fst pair), Some (snd pair)); (g1, g2); (g1, G2); (G1, g2); (G1, G2)] r /\
    lookupKerningValue pair kerning groups fallback (Some m1) (Some m2) = Ok (match r with Some v => v | None => fallback end).
Proof.
  intros O1 O2. destruct pair as [f s]. cbn [fst snd].
  pose proof (stands_ok kern1 groups m1 f O1) as S1. pose proof (stands_ok kern2 groups m2 s O2) as S2.
  unfold lookupKerningValue. cbn [bind].
  destruct (if startswith kern1 f then (None, Some f) else (Some f, get f m1)) as [g1 G1].
  destruct (if startswith kern2 s then (None, Some s) else (Some s, get s m2)) as [g2 G2].
  exists g1, G1, g2, G2. destruct (get (f, s) kerning) as [v|] eqn:G.
  - exists (Some v). split; [exact S1|]. split; [exact S2|]. split; [constructor; exact G|reflexivity].
  - exists (firstMatch kerning [(g1, g2); (g1, G2); (G1, g2); (G1, G2)]). split; [exact S1|]. split; [exact S2|].
    split; [constructor; [congruence|apply firstMatch_spec]|].
    destruct (firstMatch _ _); reflexivity.
Qed.
Lemma lookup_default {V} pair (kerning : list (str * str * V)) groups fallback :
  lookupKerningValue pair kerning groups fallback None None =
  lookupKerningValue pair kerning groups fallback (Some (fst (glyphToGroupMaps groups))) (Some (snd (glyphToGroupMaps groups))).
Proof. unfold lookupKerningValue. cbn [bind]. destruct (glyphToGroupMaps groups) as [m1 m2]. reflexivity. Qed.

Theorem C15_precedence : forall V pair (kerning : list (str * str * V)) groups fallback,
  exists g1 G1 g2 G2 r,
    stands_for kern1 groups (fst pair) g1 G1 /\ stands_for kern2 groups (snd pair) g2 G2 /\
    first_value kerning [(Some (fst pair), Some (snd pair)); (g1, g2); (g1, G2); (G1, g2); (G1, G2)] r /\
    lookupKerningValue pair kerning groups fallback None None = Ok (match r with Some v => v | None => fallback end).
Proof.
  intros V pair kerning groups fallback. rewrite lookup_default.
  destruct (glyphToGroupMaps_ok groups) as (O1 & O2). apply lookup_spec; assumption.
Qed.
Print Assumptions C15_precedence.
Example C15_case :
  let groups := [(u "public.kern1.O", [u "O"; u "D"]); (u "public.kern2.E", [u "E"])] in
  let k := [((u "public.kern1.O", u "E"), 2); ((u "public.kern1.O", u "public.kern2.E"), 1); ((u "O", u "public.kern2.E"), 3)]%Z in
  lookupKerningValue (u "O", u "E") k groups 0%Z None None = Ok 3%Z /\
  lookupKerningValue (u "D", u "E") k groups 0%Z None None = Ok 2%Z /\
  lookupKerningValue (u "public.kern1.O", u "public.kern2.E") k groups 0%Z None None = Ok 1%Z /\
  lookupKerningValue (u "E", u "E") k groups 0%Z None None = Ok 0%Z.
Proof. repeat split; vm_compute; reflexivity. Qed.

(** ** C16 *)
Lemma stands_for_det p groups name g G g' G' : single_group p groups ->
  stands_for p groups name g G -> stands_for p groups name g' G' -> g = g' /\ G = G'.
Proof.
  intros S [(H & -> & ->)|(H & -> & [(X & -> & M)|(-> & M)])] [(H' & -> & ->)|(H' & -> & [(X' & -> & M')|(-> & M')])];
    try contradiction; split; auto.
  - f_equal. eapply S; eauto.
  - exfalso. eapply M'; eauto.
  - exfalso. eapply M; eauto.
Qed.
Lemma stands_for_perm p groups groups' name g G : Permutation groups groups' ->
  stands_for p groups name g G -> stands_for p groups' name g G.
Proof.
  intros P S. assert (M : forall H, member_of p groups name H <-> member_of p groups' name H).
  { intro H. unfold member_of. split; intros (ms & r & I & E); exists ms, r; (split; [|exact E]).
    - eapply Permutation_in; eauto.
    - eapply Permutation_in; [apply Permutation_sym|]; eauto. }
  destruct S as [S|(N & E & [(X & -> & Y)|(-> & Y)])]; [left; exact S|right; split; [exact N|]; split; [exact E|]..].
  - left. exists X. split; [reflexivity|]. apply M. exact Y.
  - right. split; [reflexivity|]. intros X Z. apply M in Z. exact (Y X Z).
Qed.
(** the maps describe the groups *)
Definition describes (prefix : str) (groups : groupsT) (m : list (str * str)) : Prop :=
  forall glyph G, get glyph m = Some G <-> member_of prefix groups glyph G.

Lemma describes_ok p groups m : describes p groups m -> map_ok p groups m.
Proof.
  intros D g. destruct (get g m) as [G|] eqn:E.
  - apply member_in_side. apply D. exact E.
  - intros G I. apply member_in_side in I. apply D in I. congruence.
Qed.
Theorem C16_order_and_maps_irrelevant : forall V pair (kerning : list (str * str * V)) groups groups' fallback m1 m2,
  Permutation groups groups' -> single_group kern1 groups -> single_group kern2 groups ->
  describes kern1 groups m1 -> describes kern2 groups m2 ->
  lookupKerningValue pair kerning groups' fallback None None = lookupKerningValue pair kerning groups fallback None None /\
  lookupKerningValue pair kerning groups' fallback (Some m1) (Some m2) = lookupKerningValue pair kerning groups fallback None None.
Proof.
  intros V pair kerning groups groups' fallback m1 m2 P S1 S2 D1 D2. rewrite !lookup_default.
  destruct (glyphToGroupMaps_ok groups) as (O1 & O2).
  destruct (lookup_spec pair kerning groups fallback _ _ O1 O2) as (g1 & G1 & g2 & G2 & r & A1 & A2 & F & E).
  rewrite E.
  assert (K : forall grp n1 n2, grp = groups \/ grp = groups' -> map_ok kern1 grp n1 -> map_ok kern2 grp n2 ->
     lookupKerningValue pair kerning grp fallback (Some n1) (Some n2) = Ok (match r with Some v => v | None => fallback end)).
  { intros grp n1 n2 Hg B1 B2.
    destruct (lookup_spec pair kerning grp fallback n1 n2 B1 B2) as (h1 & H1 & h2 & H2 & q & C1 & C2 & F' & E').
    rewrite E'.
    assert (stands_for kern1 groups (fst pair) h1 H1 /\ stands_for kern2 groups (snd pair) h2 H2) as (T1 & T2).
    { destruct Hg as [->| ->]; [auto|]. split; (eapply stands_for_perm; [apply Permutation_sym; exact P|eassumption]). }
    destruct (stands_for_det _ _ _ _ _ _ _ S1 A1 T1) as (<- & <-). destruct (stands_for_det _ _ _ _ _ _ _ S2 A2 T2) as (<- & <-).
    rewrite (first_value_det _ _ _ _ F F'). reflexivity. }
  split.
  - apply K; [auto|apply glyphToGroupMaps_ok..].
  - transitivity (lookupKerningValue pair kerning groups fallback (Some m1) (Some m2)); [reflexivity|].
    apply K; [auto|apply describes_ok; assumption..].
Qed.
Print Assumptions C16_order_and_maps_irrelevant.
Example C16_case :
  let groups := [(u "public.kern1.O", [u "O"; u "D"]); (u "public.kern2.E", [u "E"])] in
  let m1 := [(u "O", u "public.kern1.O"); (u "D", u "public.kern1.O")] in
  let m2 := [(u "E", u "public.kern2.E")] in
  fst (glyphToGroupMaps groups) = m1 /\ snd (glyphToGroupMaps groups) = m2 /\
  lookupKerningValue (u "D", u "E") [((u "D", u "public.kern2.E"), 7%Z)] (rev groups) 0%Z (Some m1) (Some m2) = Ok 7%Z.
Proof. repeat split; vm_compute; reflexivity. Qed.
(** the two maps must be given together *)
Theorem C16_one_map_rejected : forall V pair (kerning : list (str * str * V)) groups fallback m,
  get pair kerning = None ->
  lookupKerningValue pair kerning groups fallback (Some m) None = Err AssertionError /\
  lookupKerningValue pair kerning groups fallback None (Some m) = Err AssertionError.
Proof. intros V pair kerning groups fallback m H. unfold lookupKerningValue. rewrite H. split; reflexivity. Qed.
Print Assumptions C16_one_map_rejected.

(** ** C17 *)
Definition set_order (perm : list str -> list str) : Prop := forall l, Permutation (perm l) l.
(** conversion never fails, and a new name never is the name of a group *)
Theorem C17_no_reuse : forall V perm (kerning : list (str * list (str * V))) groups,
  set_order perm -> dict_ok groups ->
  exists kerning' groups' side1 side2, convertKerning perm kerning groups = Ok (kerning', groups', (side1, side2)) /\
    (forall old new, In (old, new) side1 -> In old (keys groups) /\ ~ In new (keys groups) /\ exists r, new = kern1 ++ r) /\
    (forall old new, In (old, new) side2 -> In old (keys groups) /\ ~ In new (keys groups) /\ exists r, new = kern2 ++ r).
Proof.
  intros V perm kerning groups P D.
  destruct (convert_spec perm kerning groups D P) as (g' & m1 & m2 & E & D1 & D2 & K1 & K2 & N1 & N2 & _).
  exists (renameKerning m1 m2 kerning), g', m1, m2. split; [exact E|].
  assert (A : forall p (n : str), startswith p n = true -> exists r, n = p ++ r).
  { intros p n H. destruct (startswith_spec p n); [assumption|discriminate]. }
  split; intros o n I.
  - split; [|split; [apply N1 in I; apply I|apply A; eapply new_prefix, N1, I]].
    apply (in_map fst) in I. apply K1 in I. tauto.
  - split; [|split; [apply N2 in I; apply I|apply A; eapply new_prefix, N2, I]].
    apply (in_map fst) in I. apply K2 in I. tauto.
Qed.
Print Assumptions C17_no_reuse.
(** Distinct groups may get the same new name, whatever the iteration order:
    [existingGroupNames] is built from the old names of the renamed groups
    ([firstRenamedGroups.keys()]), not from the new ones. *)
Definition C17_groups : groupsT := [(u "@MMK_L_A", [u "A"]); (u "A", [u "Aacute"])].
Theorem C17_distinct_refuted : forall perm, set_order perm ->
  let kerning := [(u "A", [(u "V", 1%Z)])] in
  exists kerning' groups' side1 side2,
    convertKerning perm kerning C17_groups = Ok (kerning', groups', (side1, side2)) /\
    get (u "@MMK_L_A") side1 = Some (u "public.kern1.A") /\ get (u "A") side1 = Some (u "public.kern1.A").
Proof.
  intros perm P kerning. unfold convertKerning.
  replace (referencedGroups kerning C17_groups (findKnownKerningGroups C17_groups)) with ([u "@MMK_L_A"; u "A"], @nil str) by (vm_compute; reflexivity).
  replace (perm []) with (@nil str) by (symmetry; apply Permutation_nil, Permutation_sym, P).
  destruct (Permutation_length_2_inv (Permutation_sym (P [u "@MMK_L_A"; u "A"]))) as [-> | ->];
    (eexists _, _, _, _; split; [vm_compute; reflexivity|split; vm_compute; reflexivity]).
Qed.
Print Assumptions C17_distinct_refuted.
(** What holds: the new names are distinct when no group has a UFO 3 kerning
    name yet and removing the old prefix keeps the renamed names distinct. *)
Theorem C17_distinct_partial : forall V perm (kerning : list (str * list (str * V))) groups kerning' groups' side1 side2,
  set_order perm -> dict_ok groups ->
  convertKerning perm kerning groups = Ok (kerning', groups', (side1, side2)) ->
  (forall g, In g (keys groups) -> startswith kern1 g = false /\ startswith kern2 g = false) ->
  (forall g h, In g (keys side1) -> In h (keys side1) -> removeAll (u "@MMK_L_") g = removeAll (u "@MMK_L_") h -> g = h) ->
  (forall g h, In g (keys side2) -> In h (keys side2) -> removeAll (u "@MMK_R_") g = removeAll (u "@MMK_R_") h -> g = h) ->
  NoDup (values side1 ++ values side2).
Proof.
  intros V perm kerning groups k' g' m1 m2 P D E Hp I1 I2.
  destruct (convert_spec perm kerning groups D P) as (g'' & m1' & m2' & E' & D1 & D2 & K1 & K2 & N1 & N2 & _).
  rewrite E' in E. inversion E; subst.
  apply NoDup_app_intro.
  - eapply plain_NoDup; eauto. intros g Hg. apply Hp. exact Hg.
  - eapply plain_NoDup; eauto. intros g Hg. apply Hp. exact Hg.
  - intros x Hx Hy. eapply kern1_not_kern2; [eapply side_values; [exact N1|exact Hx]|eapply side_values; [exact N2|exact Hy]].
Qed.
Print Assumptions C17_distinct_partial.

(** a conversion used in the examples *)
Definition ex_groups : groupsT := [(u "@MMK_L_A", [u "A"; u "Aacute"]); (u "@MMK_R_V", [u "V"]); (u "misc", [u "x"]); (u "unref", [u "y"])].
Definition ex_kerning : list (str * list (str * Z)) :=
  [(u "@MMK_L_A", [(u "@MMK_R_V", -10); (u "misc", 5)]); (u "x", [(u "V", 1)])]%Z.
Example C17_case : convertKerning (fun l => rev l) ex_kerning ex_groups =
  Ok ([(u "public.kern1.A", [(u "public.kern2.V", -10); (u "public.kern2.misc", 5)]); (u "x", [(u "V", 1)])]%Z,
      ex_groups ++ [(u "public.kern1.A", [u "A"; u "Aacute"]); (u "public.kern2.misc", [u "x"]); (u "public.kern2.V", [u "V"])],
      ([(u "@MMK_L_A", u "public.kern1.A")], [(u "misc", u "public.kern2.misc"); (u "@MMK_R_V", u "public.kern2.V")])).
Proof. vm_compute. reflexivity. Qed.

(** ** C18 *)
(** the value of a pair in nested kerning *)
Definition value {V} (kerning : list (str * list (str * V))) (a b : str) : option V :=
  match get a kerning with Some seconds => get b seconds | None => None end.
(** the name after renaming with a map *)
Definition rename (m : list (str * str)) (n : str) : str := match get n m with Some n' => n' | None => n end.
(** dictionaries inside dictionaries *)
Definition nested_dict {V} (k : list (str * list (str * V))) : Prop := dict_ok k /\ forall f s, In (f, s) k -> dict_ok s.

Theorem C18_values_preserved : forall V perm (kerning : list (str * list (str * V))) groups kerning' groups' side1 side2,
  set_order perm -> dict_ok groups -> nested_dict kerning ->
  convertKerning perm kerning groups = Ok (kerning', groups', (side1, side2)) ->
  (forall a b, In a (keys kerning) -> In b (keys kerning) -> rename side1 a = rename side1 b -> a = b) ->
  (forall f s a b, In (f, s) kerning -> In a (keys s) -> In b (keys s) -> rename side2 a = rename side2 b -> a = b) ->
  forall a b v, value kerning a b = Some v -> value kerning' (rename side1 a) (rename side2 b) = Some v.
Proof.
  intros V perm kerning groups k' g' m1 m2 P D (Dk & Ds) E I1 I2 a b v H.
  destruct (convert_spec perm kerning groups D P) as (g'' & m1' & m2' & E' & _).
  rewrite E' in E. inversion E; subst.
  change (klook (getd a m1) (getd b m2) (renameKerning m1 m2 kerning) = Some v). rewrite <- H.
  change (value kerning a b) with (klook a b kerning).
  unfold value in H. destruct (get a kerning) as [s|] eqn:G; [|discriminate].
  apply klook_renamed; auto.
  - intros f t It. split; [eapply Ds; exact It|]. intros x y Hx Hy. eapply I2; eauto.
  - apply get_In in G. apply (in_map fst) in G. exact G.
  - intros t It. apply In_get in It; [|exact Dk]. apply get_In in H. apply (in_map fst) in H. rewrite G in It. inversion It; subst. exact H.
Qed.
Print Assumptions C18_values_preserved.
(** nothing is invented, with no condition on the renaming *)
Theorem C18_nothing_else : forall V perm (kerning : list (str * list (str * V))) groups kerning' groups' side1 side2,
  set_order perm -> dict_ok groups -> nested_dict kerning ->
  convertKerning perm kerning groups = Ok (kerning', groups', (side1, side2)) ->
  forall x y v, value kerning' x y = Some v ->
  exists a b, rename side1 a = x /\ rename side2 b = y /\ value kerning a b = Some v.
Proof.
  intros V perm kerning groups k' g' m1 m2 P D (Dk & Ds) E x y v H.
  destruct (convert_spec perm kerning groups D P) as (g'' & m1' & m2' & E' & _).
  rewrite E' in E. inversion E; subst. apply klook_renamed_src in H; assumption.
Qed.
Print Assumptions C18_nothing_else.
Example C18_case : value ex_kerning (u "@MMK_L_A") (u "misc") = Some 5%Z /\
  match convertKerning (fun l => l) ex_kerning ex_groups with
  | Ok (k', _, (s1, s2)) => rename s2 (u "misc") = u "public.kern2.misc" /\ value k' (u "public.kern1.A") (u "public.kern2.misc") = Some 5%Z
  | Err _ => False
  end.
Proof. split; [|split]; vm_compute; reflexivity. Qed.
(** without the condition a value is lost: the two groups of C17 are merged *)
Theorem C18_merge_refuted : forall perm, set_order perm ->
  let kerning := [(u "A", [(u "V", 1%Z)]); (u "@MMK_L_A", [(u "T", 2%Z)])] in
  exists kerning' groups' maps, convertKerning perm kerning C17_groups = Ok (kerning', groups', maps) /\
    kerning' = [(u "public.kern1.A", [(u "T", 2%Z)])].
Proof.
  intros perm P kerning. unfold convertKerning.
  replace (referencedGroups kerning C17_groups (findKnownKerningGroups C17_groups)) with ([u "@MMK_L_A"; u "A"], @nil str) by (vm_compute; reflexivity).
  replace (perm []) with (@nil str) by (symmetry; apply Permutation_nil, Permutation_sym, P).
  destruct (Permutation_length_2_inv (Permutation_sym (P [u "@MMK_L_A"; u "A"]))) as [-> | ->];
    (eexists _, _, _; split; vm_compute; reflexivity).
Qed.
Print Assumptions C18_merge_refuted.

(** ** C19 *)
Theorem C19_groups_kept : forall V perm (kerning : list (str * list (str * V))) groups,
  set_order perm -> dict_ok groups ->
  exists kerning' groups' side1 side2, convertKerning perm kerning groups = Ok (kerning', groups', (side1, side2)) /\
    (forall g, In g (keys groups) -> get g groups' = get g groups) /\
    (forall new members, ~ In new (keys groups) -> get new groups' = Some members ->
       exists old, In (old, new) (side1 ++ side2) /\ get old groups = Some members) /\
    (forall old new, In (old, new) (side1 ++ side2) -> In new (keys groups') /\ ~ In new (keys groups)) /\
    (* which groups are renamed *)
    (forall g, In g (keys side1) <-> In g (keys groups) /\
       ((exists r, g = u "@MMK_L_" ++ r) \/ In g (keys kerning) /\ ~ (exists r, g = kern1 ++ r))) /\
    (forall g, In g (keys side2) <-> In g (keys groups) /\
       ((exists r, g = u "@MMK_R_" ++ r) \/ (exists first seconds, In (first, seconds) kerning /\ In g (keys seconds)) /\ ~ (exists r, g = kern2 ++ r))).
Proof.
  intros V perm kerning groups P D.
  destruct (convert_spec perm kerning groups D P) as (g' & m1 & m2 & E & D1 & D2 & K1 & K2 & N1 & N2 & Dg & Keep & Keys & New).
  exists (renameKerning m1 m2 kerning), g', m1, m2. split; [exact E|]. split; [exact Keep|].
  assert (SW : forall p (x : str), startswith p x = true <-> exists r, x = p ++ r).
  { intros p x. destruct (startswith_spec p x); split; auto; discriminate. }
  assert (SF : forall p (x : str), startswith p x = false <-> ~ exists r, x = p ++ r).
  { intros p x. destruct (startswith_spec p x); split; auto; try discriminate. contradiction. }
  split; [|split; [|split]].
  - intros new ms Hn G. assert (I : In new (keys g')) by (apply get_In in G; apply (in_map fst) in G; exact G).
    assert (V' : In new (values (m1 ++ m2))).
    { apply Keys in I as [I|I]; [contradiction|]. unfold values. rewrite map_app. apply in_or_app. exact I. }
    destruct (New new V') as (o & Io & Go). exists o. split; [exact Io|]. congruence.
  - intros o n I. split.
    + apply Keys. right. apply (in_map snd) in I. rewrite map_app in I. apply in_app_or in I. exact I.
    + apply in_app_or in I as [I|I]; [apply N1 in I|apply N2 in I]; apply I.
  - intro g. rewrite K1, SW, SF. reflexivity.
  - intro g. rewrite K2, SW, SF. reflexivity.
Qed.
Print Assumptions C19_groups_kept.
Example C19_case : match convertKerning (fun l => l) ex_kerning ex_groups with
  | Ok (_, g', _) => get (u "misc") g' = Some [u "x"] /\ get (u "public.kern2.misc") g' = Some [u "x"] /\ get (u "public.kern1.unref") g' = None
  | Err _ => False
  end.
Proof. repeat split; vm_compute; reflexivity. Qed.

(** ** C20 *)
(** the renaming merges nothing: new names are distinct and not used by the kerning *)
Definition merges_nothing {V} (kerning : list (str * list (str * V))) (side1 side2 : list (str * str)) : Prop :=
  NoDup (values (side1 ++ side2)) /\
  (forall a, In a (keys kerning) -> ~ In a (values (side1 ++ side2))) /\
  (forall a s b, In (a, s) kerning -> In b (keys s) -> ~ In b (values (side1 ++ side2))).
(** reading (flat kerning), flipping the maps, remapping, and writing (nested) *)
Theorem C20_down_undoes_up : forall V perm (kerning : list (str * list (str * V))) groups kerning' groups' maps,
  set_order perm -> dict_ok groups -> nested_dict kerning ->
  convertKerning perm kerning groups = Ok (kerning', groups', maps) ->
  merges_nothing kerning (fst maps) (snd maps) ->
  (forall a b, value (nest (remapKerning (flipMaps maps) (flatten kerning'))) a b = value kerning a b) /\
  (forall g, get g (remapGroups (flipMaps maps) groups') = get g groups).
Proof.
  intros V perm kerning groups k' g' [m1 m2] P D Dk E M. cbn [fst snd] in M.
  destruct (convert_spec perm kerning groups D P) as (g'' & m1' & m2' & E' & D1 & D2 & K1 & K2 & N1 & N2 & Dg & Keep & Keys & New).
  rewrite E' in E. inversion E; subst. split.
  - intros a b. change (klook a b (nest (remapKerning (flipMaps (m1, m2)) (flatten (renameKerning m1 m2 kerning)))) = klook a b kerning).
    rewrite (proj2 (nest_spec _ ltac:(apply dict_ok_remap))). apply down_kerning; assumption.
  - intro g. apply (down_groups groups); auto.
    + apply M.
    + intros o n I. split.
      * apply in_app_or in I as [I|I]; apply (in_map fst) in I; [apply K1 in I|apply K2 in I]; tauto.
      * apply in_app_or in I as [I|I]; [apply N1 in I|apply N2 in I]; apply I.
    + intro x. rewrite Keys. unfold values. rewrite map_app, in_app_iff. reflexivity.
Qed.
Print Assumptions C20_down_undoes_up.
(** the condition holds for data without UFO 3 names *)
Theorem C20_plain_data_merges_nothing : forall V perm (kerning : list (str * list (str * V))) groups kerning' groups' side1 side2,
  set_order perm -> dict_ok groups ->
  convertKerning perm kerning groups = Ok (kerning', groups', (side1, side2)) ->
  (forall g, In g (keys groups) \/ In g (keys kerning) \/ (exists f s, In (f, s) kerning /\ In g (keys s)) ->
     startswith kern1 g = false /\ startswith kern2 g = false) ->
  (forall g h, In g (keys side1) -> In h (keys side1) -> removeAll (u "@MMK_L_") g = removeAll (u "@MMK_L_") h -> g = h) ->
  (forall g h, In g (keys side2) -> In h (keys side2) -> removeAll (u "@MMK_R_") g = removeAll (u "@MMK_R_") h -> g = h) ->
  merges_nothing kerning side1 side2.
Proof.
  intros V perm kerning groups k' g' m1 m2 P D E Hp I1 I2.
  destruct (convert_spec perm kerning groups D P) as (g'' & m1' & m2' & E' & D1 & D2 & K1 & K2 & N1 & N2 & _).
  rewrite E' in E. inversion E; subst. eapply plain_collision_free; eauto.
Qed.
Print Assumptions C20_plain_data_merges_nothing.
Example C20_case : match convertKerning (fun l => l) ex_kerning ex_groups with
  | Ok (k', g', maps) => nest (remapKerning (flipMaps maps) (flatten k')) = ex_kerning /\
      get (u "misc") (remapGroups (flipMaps maps) g') = Some [u "x"] /\ length (remapGroups (flipMaps maps) g') = 4
  | Err _ => False
  end.
Proof. repeat split; vm_compute; reflexivity. Qed.

(** ** C21 *)
(** the [k]-th candidate: the name, then name1, name2, ... *)
Definition candidate (name : str) (k : N) : str := match k with 0%N => name | _ => name ++ str_of_N k end.
Theorem C21_unique_name : forall name names,
  exists k, makeUniqueGroupName name names = Ok (candidate name k) /\ ~ In (candidate name k) names /\
    forall j, (j < k)%N -> In (candidate name j) names.
Proof.
  intros name names. destruct (makeUnique_spec name names) as (n & k & E & -> & Hn & Hj). exists k.
  assert (C : forall i, uniqueCand name i = candidate name i) by (intros [|i]; reflexivity).
  rewrite <- C. split; [exact E|]. split; [exact Hn|]. intros j H. rewrite <- C. apply Hj. exact H.
Qed.
Print Assumptions C21_unique_name.
Corollary C21_free_name_kept : forall name names, ~ In name names -> makeUniqueGroupName name names = Ok name.
Proof.
  intros name names H. destruct (C21_unique_name name names) as (k & E & _ & Hj). rewrite E.
  destruct (N.eq_dec k 0) as [->|]; [reflexivity|]. exfalso. apply H. apply (Hj 0%N). lia.
Qed.
Print Assumptions C21_free_name_kept.
Example C21_case : makeUniqueGroupName (u "a") (map u ["b"; "a1"; "a"; "a3"]) = Ok (u "a2").
Proof. vm_compute. reflexivity. Qed.

(** ** C22 *)
Theorem C22_round_trip : forall V (kerning : list (str * str * V)), dict_ok kerning ->
  (forall pair, get pair (flatten (nest kerning)) = get pair kerning) /\ dict_ok (flatten (nest kerning)) /\ nested_dict (nest kerning).
Proof.
  intros V kerning D. destruct (nest_spec kerning D) as (O & G). split; [|split].
  - intros [a b]. rewrite get_flatten by exact O. apply G.
  - apply dict_ok_flatten.
  - exact O.
Qed.
Print Assumptions C22_round_trip.
(** nothing of a first name is left when it has no pair: the nested form has no empty inner dictionary *)
Theorem C22_no_empty_inner : forall V (kerning : list (str * str * V)), dict_ok kerning ->
  forall a s, In (a, s) (nest kerning) -> s <> [].
Proof. exact (@nest_inner_nonempty). Qed.
Print Assumptions C22_no_empty_inner.
Example C22_case :
  let k := [((u "A", u "V"), 1); ((u "T", u "o"), 2); ((u "A", u "o"), 3)]%Z in
  nest k = [(u "A", [(u "V", 1); (u "o", 3)]); (u "T", [(u "o", 2)])]%Z /\
  flatten (nest k) = [((u "A", u "V"), 1); ((u "A", u "o"), 3); ((u "T", u "o"), 2)]%Z.
Proof. split; vm_compute; reflexivity. Qed.
