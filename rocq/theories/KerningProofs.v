(** Lemmas about the kerning models. *)
From Coq Require Import String NArith ZArith Bool Lia List Permutation.
From Verif Require Import Base PyVal Kerning.
Import ListNotations.

(** ** glyph to group maps *)
Lemma get_fold_set (x G : str) members m :
  get x (fold_left (fun m glyph => set glyph G m) members m) = if mem x members then Some G else get x m.
Proof.
  revert m; induction members as [|a r IH]; intro m; cbn [fold_left]; [reflexivity|].
  rewrite IH. unfold mem at 2. cbn [existsb]. fold (mem x r). destruct (mem x r); [rewrite orb_true_r; reflexivity|].
  rewrite orb_false_r. apply get_set.
Qed.

(** membership of a glyph in a group of the given side *)
Definition in_side (prefix : str) (groups : groupsT) (glyph G : str) : Prop :=
  exists members, In (G, members) groups /\ startswith prefix G = true /\ In glyph members.

Lemma kern1_not_kern2 G : startswith kern1 G = true -> startswith kern2 G = true -> False.
Proof.
  intros H1 H2. destruct (startswith_spec kern1 G) as [(r & E)|]; [|discriminate].
  destruct (startswith_spec kern2 G) as [(r2 & E2)|]; [|discriminate].
  subst G. vm_compute in E2. discriminate.
Qed.

Definition map_ok (prefix : str) (groups : groupsT) (m : list (str * str)) : Prop :=
  forall g, match get g m with
            | Some G => in_side prefix groups g G
            | None => forall G, ~ in_side prefix groups g G
            end.

Lemma in_side_app p g1 g2 x G : in_side p (g1 ++ g2) x G <-> in_side p g1 x G \/ in_side p g2 x G.
Proof.
  unfold in_side. split.
  - intros (m & Hi & H). apply in_app_or in Hi as [Hi|Hi]; [left|right]; exists m; auto.
  - intros [(m & Hi & H)|(m & Hi & H)]; exists m; (split; [apply in_or_app; auto|exact H]).
Qed.
Lemma in_side_one p x G H ms : in_side p [(H, ms)] x G <-> G = H /\ startswith p H = true /\ In x ms.
Proof.
  unfold in_side. split.
  - intros (m & [E|[]] & H1 & H2). inversion E; subst. auto.
  - intros (-> & H1 & H2). exists ms. cbn. auto.
Qed.

Lemma glyphToGroupMaps_ok groups :
  map_ok kern1 groups (fst (glyphToGroupMaps groups)) /\ map_ok kern2 groups (snd (glyphToGroupMaps groups)).
Proof.
  unfold glyphToGroupMaps.
  enough (A : forall rest done m1 m2, map_ok kern1 done m1 -> map_ok kern2 done m2 ->
    map_ok kern1 (done ++ rest) (fst (fold_left addGroup rest (m1, m2))) /\
    map_ok kern2 (done ++ rest) (snd (fold_left addGroup rest (m1, m2)))).
  { apply (A groups []); intros g; cbn; intros G (m & [] & _). }
  induction rest as [|[H ms] rest IH]; intros done m1 m2 O1 O2.
  - rewrite app_nil_r. cbn. auto.
  - cbn [fold_left]. replace (done ++ (H, ms) :: rest) with ((done ++ [(H, ms)]) ++ rest) by (rewrite <- app_assoc; reflexivity).
    assert (Up : forall p m, map_ok p done m ->
      map_ok p (done ++ [(H, ms)]) (if startswith p H then fold_left (fun m g => set g H m) ms m else m)).
    { intros p m O g. destruct (startswith p H) eqn:S.
      - rewrite get_fold_set. destruct (mem_spec g ms) as [Hi|Hn].
        + apply in_side_app. right. apply in_side_one. auto.
        + specialize (O g). destruct (get g m) as [G|].
          * apply in_side_app. left. exact O.
          * intros G I. apply in_side_app in I as [I|I]; [exact (O G I)|]. apply in_side_one in I. tauto.
      - specialize (O g). destruct (get g m) as [G|].
        + apply in_side_app. left. exact O.
        + intros G I. apply in_side_app in I as [I|I]; [exact (O G I)|]. apply in_side_one in I as (_ & I & _). congruence. }
    pose proof (Up kern1 m1 O1) as U1. pose proof (Up kern2 m2 O2) as U2.
    unfold addGroup at 2 4. destruct (startswith kern1 H) eqn:S1.
    + destruct (startswith kern2 H) eqn:S2; [destruct (kern1_not_kern2 H S1 S2)|]. apply IH; assumption.
    + destruct (startswith kern2 H); apply IH; assumption.
Qed.

(** ** makeUniqueGroupName *)
Definition uniqueCand (name : str) (k : N) : str := if (0 <? k)%N then name ++ str_of_N k else name.
Lemma uniqueCand_inj name i j : uniqueCand name i = uniqueCand name j -> i = j.
Proof.
  unfold uniqueCand. destruct (N.ltb_spec 0 i), (N.ltb_spec 0 j); intro E.
  - apply app_inv_head in E. apply str_of_N_inj. exact E.
  - exfalso. rewrite <- (app_nil_r name) in E at 2. apply app_inv_head in E. exact (str_of_N_nonempty _ E).
  - exfalso. rewrite <- (app_nil_r name) in E at 1. apply app_inv_head in E. symmetry in E. exact (str_of_N_nonempty _ E).
  - lia.
Qed.
Lemma makeUniqueAux_spec fuel name names c r : makeUniqueGroupNameAux fuel name names c = r ->
  match r with
  | Ok n => exists k, (c <= k)%N /\ n = uniqueCand name k /\ ~ In n names /\ forall j, (c <= j < k)%N -> In (uniqueCand name j) names
  | Err e => e = OutOfFuel /\ forall k, (c <= k < c + N.of_nat fuel)%N -> In (uniqueCand name k) names
  end.
Proof.
  revert c; induction fuel as [|fuel IH]; intros c E.
  - cbn in E. subst r. split; [reflexivity|]. intros; lia.
  - cbn [makeUniqueGroupNameAux] in E. change (if (0 <? c)%N then name ++ str_of_N c else name) with (uniqueCand name c) in E.
    destruct (mem_spec (uniqueCand name c) names) as [Hi|Hn].
    + apply IH in E. destruct r as [n|e].
      * destruct E as (k & Hk & En & Hn & Hj). exists k. split; [lia|]. split; [exact En|]. split; [exact Hn|].
        intros j H. destruct (N.eq_dec j c) as [->|]; [exact Hi|]. apply Hj. lia.
      * destruct E as (-> & E). split; [reflexivity|]. intros k H. destruct (N.eq_dec k c) as [->|]; [exact Hi|]. apply E. lia.
    + subst r. exists c. split; [lia|]. split; [reflexivity|]. split; [exact Hn|]. intros; lia.
Qed.
Lemma makeUnique_spec name names : exists n k, makeUniqueGroupName name names = Ok n /\
  n = uniqueCand name k /\ ~ In n names /\ forall j, (j < k)%N -> In (uniqueCand name j) names.
Proof.
  destruct (makeUniqueGroupName name names) as [n|e] eqn:E; unfold makeUniqueGroupName in E; apply makeUniqueAux_spec in E.
  - destruct E as (k & _ & En & Hn & Hj). exists n, k. repeat split; auto. intros j H. apply Hj. lia.
  - exfalso. destruct E as (_ & E).
    set (l := map (fun i => uniqueCand name (N.of_nat i)) (seq 0 (S (length names)))).
    assert (L : length l <= length names).
    { apply NoDup_incl_length.
      - unfold l. apply FinFun.Injective_map_NoDup; [|apply seq_NoDup]. intros i j Eij. apply uniqueCand_inj in Eij. lia.
      - intros x Hx. apply in_map_iff in Hx as (i & <- & Hi). apply in_seq in Hi. apply E. lia. }
    unfold l in L. rewrite map_length, seq_length in L. lia.
Qed.

(** ** the set of referenced groups *)
Lemma In_sadd x y s : In x (sadd y s) <-> x = y \/ In x s.
Proof.
  unfold sadd. destruct (mem_spec y s) as [Hi|Hn].
  - intuition (subst; auto).
  - rewrite in_app_iff. cbn [In]. intuition.
Qed.
Lemma NoDup_sadd y s : NoDup s -> NoDup (sadd y s).
Proof.
  unfold sadd. destruct (mem_spec y s) as [Hi|Hn]; [auto|]. intro N.
  apply NoDup_Add with (a := y) (l := s); [|auto]. rewrite <- (app_nil_r s) at 1. apply Add_app.
Qed.

Definition L_ : str := u "@MMK_L_". Definition R_ : str := u "@MMK_R_".

Lemma findKnown_spec groups : let '(f, s) := findKnownKerningGroups groups in
  NoDup f /\ NoDup s /\
  (forall x, In x f <-> In x (keys groups) /\ startswith L_ x = true) /\
  (forall x, In x s <-> In x (keys groups) /\ startswith R_ x = true).
Proof.
  unfold findKnownKerningGroups. fold L_ R_.
  enough (A : forall l (f s : list str), NoDup f -> NoDup s ->
    let '(f', s') := fold_left (fun '(f, s) name => (if startswith L_ name then sadd name f else f, if startswith R_ name then sadd name s else s)) l (f, s) in
    NoDup f' /\ NoDup s' /\ (forall x, In x f' <-> In x f \/ In x l /\ startswith L_ x = true) /\
    (forall x, In x s' <-> In x s \/ In x l /\ startswith R_ x = true)).
  { specialize (A (keys groups) [] [] (NoDup_nil _) (NoDup_nil _)). destruct (fold_left _ _ _) as [f s].
    destruct A as (A & B & C & D). split; [exact A|]. split; [exact B|].
    split; intro x; [rewrite C|rewrite D]; cbn [In]; tauto. }
  induction l as [|a l IH]; intros f s Nf Ns; cbn [fold_left].
  - repeat split; auto; cbn; tauto.
  - set (f1 := if startswith L_ a then sadd a f else f). set (s1 := if startswith R_ a then sadd a s else s).
    specialize (IH f1 s1). destruct (fold_left _ l (f1, s1)) as [f' s'].
    assert (Hf1 : NoDup f1) by (unfold f1; destruct (startswith L_ a); [apply NoDup_sadd|]; assumption).
    assert (Hs1 : NoDup s1) by (unfold s1; destruct (startswith R_ a); [apply NoDup_sadd|]; assumption).
    destruct (IH Hf1 Hs1) as (A & B & C & D). split; [exact A|]. split; [exact B|]. split.
    + intro x. rewrite C. unfold f1. destruct (startswith L_ a) eqn:S; [rewrite In_sadd|]; cbn [In negb]; intuition (subst; try congruence; auto).
    + intro x. rewrite D. unfold s1. destruct (startswith R_ a) eqn:S; [rewrite In_sadd|]; cbn [In negb]; intuition (subst; try congruence; auto).
Qed.

Section Conv.
Context {V : Type}.

Lemma referenced_spec (kerning : @nestedT V) groups acc :
  NoDup (fst acc) -> NoDup (snd acc) ->
  let '(f, s) := referencedGroups kerning groups acc in
  NoDup f /\ NoDup s /\
  (forall x, In x f <-> In x (fst acc) \/ In x (keys groups) /\ In x (keys kerning) /\ startswith kern1 x = false) /\
  (forall x, In x s <-> In x (snd acc) \/ In x (keys groups) /\ (exists first seconds, In (first, seconds) kerning /\ In x (keys seconds)) /\ startswith kern2 x = false).
Proof.
  unfold referencedGroups. revert acc; induction kerning as [|[a seconds] k IH]; intros [f0 s0] Nf Ns; cbn [fst snd] in *; cbn [fold_left].
  - repeat split; auto; cbn; try tauto. intros [H|(_ & (a & b & [] & _) & _)]; exact H.
  - set (f1 := if has a groups then if negb (startswith kern1 a) then sadd a f0 else f0 else f0).
    set (s1 := fold_left (fun s second => if has second groups then if negb (startswith kern2 second) then sadd second s else s else s) (keys seconds) s0).
    assert (Hf1 : NoDup f1 /\ forall x, In x f1 <-> In x f0 \/ x = a /\ In x (keys groups) /\ startswith kern1 x = false).
    { unfold f1. destruct (has a groups) eqn:Ha.
      - apply has_In in Ha. destruct (startswith kern1 a) eqn:S; cbn [negb].
        + split; [exact Nf|]. intro x. intuition (subst; try congruence; auto).
        + split; [apply NoDup_sadd; exact Nf|]. intro x. rewrite In_sadd. intuition (subst; auto).
      - apply has_nIn in Ha. split; [exact Nf|]. intro x. intuition (subst; try congruence; auto). }
    assert (Hs1 : NoDup s1 /\ forall x, In x s1 <-> In x s0 \/ In x (keys seconds) /\ In x (keys groups) /\ startswith kern2 x = false).
    { unfold s1. clear -Ns. revert s0 Ns; induction (keys seconds) as [|b l IH]; intros s0 Ns; cbn [fold_left].
      - split; [exact Ns|]. cbn [In keys map]. tauto.
      - set (s2 := if has b groups then if negb (startswith kern2 b) then sadd b s0 else s0 else s0).
        assert (N2 : NoDup s2).
        { unfold s2. destruct (has b groups); [|exact Ns]. destruct (negb _); [apply NoDup_sadd|]; exact Ns. }
        destruct (IH s2 N2) as (A & B). split; [exact A|]. intro x. rewrite B. unfold s2.
        destruct (has b groups) eqn:Hb.
        + apply has_In in Hb. destruct (startswith kern2 b) eqn:S; cbn; [|rewrite In_sadd]; intuition (subst; try congruence; auto).
        + apply has_nIn in Hb. cbn [In]. intuition (subst; try congruence; auto). }
    destruct Hf1 as (Nf1 & Hf1), Hs1 as (Ns1 & Hs1).
    specialize (IH (f1, s1) Nf1 Ns1). cbn [fst snd] in IH.
    destruct (fold_left _ k (f1, s1)) as [f s]. destruct IH as (A & B & C & D).
    split; [exact A|]. split; [exact B|]. split.
    + intro x. rewrite C, Hf1. cbn [keys map fst In]. fold (keys k). intuition (subst; auto).
    + intro x. rewrite D, Hs1. cbn [keys map fst In]. split.
      * intros [[H|(H1 & H2 & H3)]|(H1 & (p & q & Hp & Hq) & H3)]; [auto| |].
        -- right. split; [exact H2|]. split; [|exact H3]. exists a, seconds. auto.
        -- right. split; [exact H1|]. split; [|exact H3]. exists p, q. auto.
      * intros [H|(H1 & (p & q & [E|Hp] & Hq) & H3)]; [auto| |].
        -- inversion E; subst. auto.
        -- right. split; [exact H1|]. split; [|exact H3]. exists p, q. auto.
Qed.

(** ** the renaming loop *)
Definition newNameOk (newP oldP : str) (groups : groupsT) (old new : str) : Prop :=
  ~ In new (keys groups) /\ exists k, new = uniqueCand (newP ++ removeAll oldP old) k /\
    (k = 0%N \/ exists j, In (uniqueCand (newP ++ removeAll oldP old) j) (keys groups)).

Lemma renameLoop_spec newP oldP groups order renamed :
  incl (keys renamed) (keys groups) -> incl order (keys groups) -> dict_ok renamed ->
  (forall o n, In (o, n) renamed -> newNameOk newP oldP groups o n) ->
  exists r, renameLoop newP oldP groups order renamed = Ok r /\ dict_ok r /\
    (forall x, In x (keys r) <-> In x (keys renamed) \/ In x order) /\
    (forall o n, In (o, n) r -> newNameOk newP oldP groups o n).
Proof.
  revert renamed; induction order as [|a order IH]; intros renamed Hr Ho Hd Hn; cbn [renameLoop].
  - exists renamed. split; [reflexivity|]. split; [exact Hd|]. split; [|exact Hn]. intro x. cbn [In]. tauto.
  - set (nm := newP ++ removeAll oldP a).
    destruct (makeUnique_spec nm (keys groups ++ keys renamed)) as (n & k & E & En & Nn & Nj).
    rewrite E. cbn [bind].
    assert (Hnew : newNameOk newP oldP groups a n).
    { split; [intro I; apply Nn; apply in_or_app; auto|]. exists k. split; [exact En|].
      destruct (N.eq_dec k 0) as [->|Hk]; [auto|right]. exists 0%N. specialize (Nj 0%N).
      assert (In (uniqueCand nm 0) (keys groups ++ keys renamed)) as I by (apply Nj; lia).
      apply in_app_or in I as [I|I]; [exact I|]. apply Hr. exact I. }
    destruct (IH (set a n renamed)) as (r & Er & Dr & Kr & Pr).
    + intros x Hx. apply In_keys_set in Hx as [->|Hx]; [apply Ho; left; reflexivity|apply Hr; exact Hx].
    + intros x Hx. apply Ho. right. exact Hx.
    + apply dict_ok_set. exact Hd.
    + intros o n' I. apply In_get in I; [|apply dict_ok_set; exact Hd]. rewrite get_set in I.
      destruct (eqb_spec o a) as [->|ne]; [inversion I; subst; exact Hnew|]. apply Hn. apply get_In. exact I.
    + exists r. split; [exact Er|]. split; [exact Dr|]. split; [|exact Pr].
      intro x. rewrite Kr, In_keys_set. cbn [In]. intuition (subst; auto).
Qed.

(** ** copying groups *)
Lemma copyGroups_spec (renamed : list (str * str)) groups0 groups :
  dict_ok groups ->
  (forall o n, In (o, n) renamed -> In o (keys groups0) /\ ~ In n (keys groups0)) ->
  (forall g, In g (keys groups0) -> get g groups = get g groups0) ->
  (forall g, In g (keys groups0) -> In g (keys groups)) ->
  exists groups', copyGroups renamed groups = Ok groups' /\ dict_ok groups' /\
    (forall g, In g (keys groups0) -> get g groups' = get g groups0) /\
    (forall g, In g (keys groups') <-> In g (keys groups) \/ In g (values renamed)) /\
    (forall g, In g (values renamed) -> exists o, In (o, g) renamed /\ get g groups' = get o groups0) /\
    (forall g, ~ In g (values renamed) -> get g groups' = get g groups).
Proof.
  revert groups; induction renamed as [|[o n] renamed IH]; intros groups Hd Hr Hg Hk; cbn [copyGroups].
  - exists groups. split; [reflexivity|]. split; [exact Hd|]. split; [exact Hg|]. split; [cbn; tauto|]. split; cbn; [tauto|auto].
  - destruct (Hr o n (or_introl eq_refl)) as (Ho & Hn).
    pose proof (Hg o Ho) as Go. destruct (get o groups) as [ms|] eqn:Eo.
    2:{ exfalso. apply get_None in Eo. apply Eo. apply Hk. exact Ho. }
    destruct (IH (set n ms groups)) as (g' & E & D & Keep & Keys & New & Old).
    + apply dict_ok_set; exact Hd.
    + intros o' n' I. apply Hr. right. exact I.
    + intros g Ig. rewrite get_set_other; [auto|]. intros ->. contradiction.
    + intros g Ig. apply In_keys_set. auto.
    + exists g'. split; [exact E|]. split; [exact D|]. split; [exact Keep|]. split.
      * intro g. rewrite Keys, In_keys_set. cbn [values map snd In]. fold (values renamed). intuition (subst; auto).
      * split.
        -- intros g Ig. destruct (in_dec (fun a b => eq_decide a b) g (values renamed)) as [I|I].
           ++ destruct (New g I) as (o' & I' & G'). exists o'. split; [right; exact I'|exact G'].
           ++ destruct Ig as [<-|Ig]; [|contradiction]. cbn in *. exists o. split; [left; reflexivity|].
              rewrite Old by exact I. rewrite get_set_same. rewrite <- Go. reflexivity.
        -- intros g Ig. rewrite Old by (intro I; apply Ig; right; exact I). apply get_set_other.
           intros ->. apply Ig. left. reflexivity.
Qed.

(** ** renaming the kerning *)
Definition klook (a b : str) (k : @nestedT V) : option V :=
  match get a k with Some s => get b s | None => None end.

Lemma fold_rename_get {A B W} {EA : Eqb A} {EB : Eqb B} (ren : A -> B) (l : list (A * W)) acc y :
  (forall a b, In a (keys l) -> In b (keys l) -> ren a = ren b -> a = b) -> dict_ok l ->
  get y (fold_left (fun ns '(s, v) => set (ren s) v ns) l acc) =
  match find (fun kv => eqb y (ren (fst kv))) l with Some (_, v) => Some v | None => get y acc end.
Proof.
  revert acc; induction l as [|[s v] l IH]; intros acc Inj D; cbn [fold_left find fst]; [reflexivity|].
  inversion D as [|? ? Hn D']; subst. rewrite IH; [|intros a b Ha Hb; apply Inj; right; assumption|exact D'].
  destruct (eqb_spec y (ren s)) as [->|ne].
  - destruct (find _ l) as [[s' v']|] eqn:F.
    + exfalso. apply find_some in F as (I & E). cbn [fst] in E. apply (proj1 (eqb_eq _ _)) in E. apply Inj in E; [|left; reflexivity|right; change s' with (fst (s', v')); apply in_map; exact I].
      subst. apply Hn. change s' with (fst (s', v')). apply in_map. exact I.
    + apply get_set_same.
  - destruct (find _ l) as [[s' v']|]; [reflexivity|]. apply get_set_other. exact ne.
Qed.
(** without injectivity: the last one wins, but values come from the source *)
Lemma fold_rename_src {A B W} {EB : Eqb B} (ren : A -> B) (l : list (A * W)) acc y v :
  get y (fold_left (fun ns '(s, v) => set (ren s) v ns) l acc) = Some v ->
  (exists s, In (s, v) l /\ ren s = y) \/ get y acc = Some v.
Proof.
  revert acc; induction l as [|[s w] l IH]; intros acc H; cbn [fold_left] in H; [auto|].
  apply IH in H as [(s' & I & E)|H]; [left; exists s'; split; [right; exact I|exact E]|].
  rewrite get_set in H. destruct (eqb_spec y (ren s)) as [->|ne]; [|auto]. inversion H; subst. left. exists s. split; [left; reflexivity|reflexivity].
Qed.
Lemma dict_ok_fold_rename {A B W} {EB : Eqb B} (ren : A -> B) (l : list (A * W)) acc : dict_ok acc ->
  dict_ok (fold_left (fun ns '(s, v) => set (ren s) v ns) l acc).
Proof. revert acc; induction l as [|[s v] l IH]; intros acc H; cbn [fold_left]; [exact H|]. apply IH. apply dict_ok_set. exact H. Qed.
Lemma fold_rename_keys {A B W} {EB : Eqb B} (ren : A -> B) (l : list (A * W)) acc y :
  In y (keys (fold_left (fun ns '(s, v) => set (ren s) v ns) l acc)) <-> In y (keys acc) \/ exists s, In s (keys l) /\ ren s = y.
Proof.
  revert acc; induction l as [|[s v] l IH]; intros acc; cbn [fold_left].
  - cbn. split; [auto|]. intros [H|(s & [] & _)]; exact H.
  - rewrite IH, In_keys_set. cbn. split.
    + intros [[->|H]|(s' & H & E)]; [right; exists s; auto|auto|right; exists s'; auto].
    + intros [H|(s' & [<-|H] & E)]; [auto|auto|right; exists s'; auto].
Qed.

Definition renamedSeconds (r2 : list (str * str)) (seconds : list (str * V)) : list (str * V) :=
  fold_left (fun ns '(second, value) => set (getd second r2) value ns) seconds [].
Lemma renameKerning_alt r1 r2 kerning :
  renameKerning r1 r2 kerning =
  fold_left (fun nk '(s, v) => set (getd s r1) v nk) (map (fun '(a, s) => (a, renamedSeconds r2 s)) kerning) [].
Proof.
  unfold renameKerning. generalize (@nil (str * list (str * V))) as acc.
  induction kerning as [|[a s] k IH]; intro acc; [reflexivity|]. cbn [fold_left map]. rewrite IH. reflexivity.
Qed.
Lemma find_renamed {A B W} {EA : Eqb A} {EB : Eqb B} (ren : A -> B) (l : list (A * W)) a :
  (forall a b, In a (keys l) -> In b (keys l) -> ren a = ren b -> a = b) -> dict_ok l -> In a (keys l) ->
  find (fun kv => eqb (ren a) (ren (fst kv))) l = match get a l with Some v => Some (a, v) | None => None end.
Proof.
  induction l as [|[b v] l IH]; intros Inj D I; [destruct I|]. cbn [find fst get].
  inversion D as [|? ? Hn D']; subst.
  destruct (eqb_spec a b) as [->|ne].
  - rewrite eqb_refl. reflexivity.
  - destruct (eqb_spec (ren a) (ren b)) as [E|ne2].
    + exfalso. apply ne. apply Inj; [exact I|left; reflexivity|exact E].
    + destruct I as [I|I]; [cbn in I; congruence|]. apply IH; [|exact D'|exact I].
      intros x y Hx Hy. apply Inj; right; assumption.
Qed.

Lemma rename_get_key {A B W} {EA : Eqb A} {EB : Eqb B} (ren : A -> B) (l : list (A * W)) a :
  (forall a b, In a (keys l) -> In b (keys l) -> ren a = ren b -> a = b) -> dict_ok l -> In a (keys l) ->
  get (ren a) (fold_left (fun ns '(s, v) => set (ren s) v ns) l []) = get a l.
Proof.
  intros Inj D I. rewrite fold_rename_get by assumption. rewrite find_renamed by assumption. destruct (get a l); reflexivity.
Qed.

Lemma keys_map_snd {W X} (f : W -> X) (l : list (str * W)) : keys (map (fun '(a, s) => (a, f s)) l) = keys l.
Proof. unfold keys. rewrite map_map. apply map_ext. intros [a s]. reflexivity. Qed.
Lemma get_map_snd {W X} (f : W -> X) (l : list (str * W)) a :
  get a (map (fun '(a, s) => (a, f s)) l) = match get a l with Some s => Some (f s) | None => None end.
Proof. induction l as [|[b s] l IH]; cbn; [reflexivity|]. destruct (eqb a b); [reflexivity|exact IH]. Qed.

(** renaming is injective on the names occurring in the kerning *)
Definition inj_on (ren : str -> str) (names : list str) : Prop :=
  forall a b, In a names -> In b names -> ren a = ren b -> a = b.

Lemma klook_renamed r1 r2 kerning a b :
  dict_ok kerning -> (forall f s, In (f, s) kerning -> dict_ok s /\ inj_on (fun x => getd x r2) (keys s)) ->
  inj_on (fun x => getd x r1) (keys kerning) ->
  In a (keys kerning) -> (forall s, In (a, s) kerning -> In b (keys s)) ->
  klook (getd a r1) (getd b r2) (renameKerning r1 r2 kerning) = klook a b kerning.
Proof.
  intros D Ds I1 Ia Ib. unfold klook. rewrite renameKerning_alt.
  set (l := map (fun '(a, s) => (a, renamedSeconds r2 s)) kerning).
  assert (Kl : keys l = keys kerning) by apply keys_map_snd.
  rewrite (fold_rename_get (fun x => getd x r1)); [|rewrite Kl; exact I1|unfold dict_ok; rewrite Kl; exact D].
  rewrite (find_renamed (fun x => getd x r1)); [|rewrite Kl; exact I1|unfold dict_ok; rewrite Kl; exact D|rewrite Kl; exact Ia].
  unfold l. rewrite get_map_snd.
  destruct (get a kerning) as [s|] eqn:G; [|reflexivity].
  apply get_In in G. destruct (Ds a s G) as (Dsec & Isec). specialize (Ib s G).
  unfold renamedSeconds. rewrite (fold_rename_get (fun x => getd x r2)); [|exact Isec|exact Dsec].
  rewrite (find_renamed (fun x => getd x r2)) by assumption.
  destruct (get b s); reflexivity.
Qed.
Lemma klook_renamed_src r1 r2 kerning x y v :
  dict_ok kerning -> (forall f s, In (f, s) kerning -> dict_ok s) ->
  klook x y (renameKerning r1 r2 kerning) = Some v ->
  exists a b, getd a r1 = x /\ getd b r2 = y /\ klook a b kerning = Some v.
Proof.
  intros D Ds H. unfold klook in H. rewrite renameKerning_alt in H.
  destruct (get x _) as [s'|] eqn:G; [|discriminate].
  apply (fold_rename_src (fun x => getd x r1)) in G as [(a & I & E)|G]; [|discriminate].
  apply in_map_iff in I as ([a' s] & E' & I). inversion E'; subst.
  unfold renamedSeconds in H. apply (fold_rename_src (fun x => getd x r2)) in H as [(b & Ib & Eb)|H]; [|discriminate].
  exists a, b. split; [reflexivity|]. split; [exact Eb|]. unfold klook.
  rewrite (In_get a s kerning D I). apply In_get; [|exact Ib]. eapply Ds; exact I.
Qed.

(** ** the whole conversion *)
Lemma convert_spec perm (kerning : @nestedT V) groups :
  dict_ok groups -> (forall l, Permutation (perm l) l) ->
  exists groups' m1 m2,
    convertKerning perm kerning groups = Ok (renameKerning m1 m2 kerning, groups', (m1, m2)) /\
    dict_ok m1 /\ dict_ok m2 /\
    (forall x, In x (keys m1) <-> In x (keys groups) /\ (startswith L_ x = true \/ In x (keys kerning) /\ startswith kern1 x = false)) /\
    (forall x, In x (keys m2) <-> In x (keys groups) /\ (startswith R_ x = true \/
        (exists first seconds, In (first, seconds) kerning /\ In x (keys seconds)) /\ startswith kern2 x = false)) /\
    (forall o n, In (o, n) m1 -> newNameOk kern1 L_ groups o n) /\
    (forall o n, In (o, n) m2 -> newNameOk kern2 R_ groups o n) /\
    dict_ok groups' /\
    (forall g, In g (keys groups) -> get g groups' = get g groups) /\
    (forall g, In g (keys groups') <-> In g (keys groups) \/ In g (values m1) \/ In g (values m2)) /\
    (forall g, In g (values (m1 ++ m2)) -> exists o, In (o, g) (m1 ++ m2) /\ get g groups' = get o groups).
Proof.
  intros D P. unfold convertKerning.
  pose proof (findKnown_spec groups) as FK. destruct (findKnownKerningGroups groups) as [f0 s0].
  destruct FK as (Nf & Ns & Hf & Hs).
  pose proof (referenced_spec kerning groups (f0, s0) Nf Ns) as RS.
  destruct (referencedGroups kerning groups (f0, s0)) as [f s]. cbn [fst snd] in RS.
  destruct RS as (Nf' & Ns' & Hf' & Hs').
  assert (In1 : forall x, In x (perm f) <-> In x (keys groups) /\ (startswith L_ x = true \/ In x (keys kerning) /\ startswith kern1 x = false)).
  { intro x. split; intro H.
    - apply (Permutation_in x (P f)) in H. apply Hf' in H. rewrite Hf in H. tauto.
    - apply (Permutation_in x (Permutation_sym (P f))). apply Hf'. rewrite Hf. tauto. }
  assert (In2 : forall x, In x (perm s) <-> In x (keys groups) /\ (startswith R_ x = true \/
        (exists first seconds, In (first, seconds) kerning /\ In x (keys seconds)) /\ startswith kern2 x = false)).
  { intro x. split; intro H.
    - apply (Permutation_in x (P s)) in H. apply Hs' in H. rewrite Hs in H. tauto.
    - apply (Permutation_in x (Permutation_sym (P s))). apply Hs'. rewrite Hs. tauto. }
  destruct (renameLoop_spec kern1 L_ groups (perm f) []) as (m1 & E1 & D1 & K1 & N1).
  { intros x []. } { intros x Hx. apply In1 in Hx. tauto. } { constructor. } { intros o n []. }
  destruct (renameLoop_spec kern2 R_ groups (perm s) []) as (m2 & E2 & D2 & K2 & N2).
  { intros x []. } { intros x Hx. apply In2 in Hx. tauto. } { constructor. } { intros o n []. }
  unfold L_ in E1. unfold R_ in E2. rewrite E1. cbn [bind]. rewrite E2. cbn [bind].
  destruct (copyGroups_spec (m1 ++ m2) groups groups) as (g' & Eg & Dg & Keep & Keys & New & _); auto.
  { intros o n I. apply in_app_or in I as [I|I].
    - split; [|apply N1 in I; apply I]. assert (In o (keys m1)) as Ho by (change o with (fst (o, n)); apply in_map; exact I).
      apply K1 in Ho as [[]|Ho]. apply In1 in Ho. tauto.
    - split; [|apply N2 in I; apply I]. assert (In o (keys m2)) as Ho by (change o with (fst (o, n)); apply in_map; exact I).
      apply K2 in Ho as [[]|Ho]. apply In2 in Ho. tauto. }
  exists g', m1, m2. rewrite Eg. cbn [bind].
  split; [reflexivity|]. split; [exact D1|]. split; [exact D2|].
  split; [intro x; rewrite K1, In1; cbn [keys map In]; tauto|].
  split; [intro x; rewrite K2, In2; cbn [keys map In]; tauto|].
  split; [exact N1|]. split; [exact N2|]. split; [exact Dg|]. split; [exact Keep|]. split; [|exact New].
  intro g. rewrite Keys. unfold values. rewrite map_app, in_app_iff. reflexivity.
Qed.

(** ** flat and nested kerning *)
Lemma fold_set_get {A W} {EA : Eqb A} (l : list (A * W)) acc x : dict_ok l ->
  get x (fold_left (fun m '(k, v) => set k v m) l acc) = match get x l with Some v => Some v | None => get x acc end.
Proof.
  revert acc; induction l as [|[k v] l IH]; intros acc D; cbn [fold_left get]; [reflexivity|].
  inversion D as [|? ? Hn D']; subst. rewrite IH by exact D'. rewrite get_set.
  destruct (eqb_spec x k) as [->|ne]; [|reflexivity].
  assert (get k l = None) as -> by (apply get_None; exact Hn). reflexivity.
Qed.

Lemma get_fold_pair (a : str) (s : list (str * V)) (acc : list (str * str * V)) x y : dict_ok s ->
  get (x, y) (fold_left (fun acc '(r, v) => set (a, r) v acc) s acc) =
  if eqb x a then match get y s with Some v => Some v | None => get (x, y) acc end else get (x, y) acc.
Proof.
  revert acc; induction s as [|[r v] s IH]; intros acc D; cbn [fold_left get]; [destruct (eqb x a); reflexivity|].
  inversion D as [|? ? Hn D']; subst. rewrite IH by exact D'. rewrite get_set.
  destruct (eqb_spec x a) as [->|ne].
  - destruct (eqb_spec y r) as [->|ne].
    + assert (get r s = None) as -> by (apply get_None; exact Hn). rewrite eqb_refl. reflexivity.
    + destruct (eqb_spec (a, y) (a, r)) as [E|_]; [congruence|]. reflexivity.
  - destruct (eqb_spec (x, y) (a, r)) as [E|_]; [congruence|]. reflexivity.
Qed.
Definition nested_ok (k : @nestedT V) : Prop := dict_ok k /\ forall f s, In (f, s) k -> dict_ok s.

Lemma get_flatten (k : @nestedT V) x y : nested_ok k -> get (x, y) (flatten k) = klook x y k.
Proof.
  intros (D & Ds). unfold flatten, klook.
  enough (A : forall acc, get (x, y) (fold_left (fun acc '(lft, rights) => fold_left (fun acc '(rgt, value) => set (lft, rgt) value acc) rights acc) k acc)
     = match get x k with Some s => match get y s with Some v => Some v | None => get (x, y) acc end | None => get (x, y) acc end).
  { rewrite A. cbn [get]. destruct (get x k) as [s|]; [destruct (get y s)|]; reflexivity. }
  induction k as [|[a s] k IH]; intros acc; cbn [fold_left get]; [reflexivity|].
  inversion D as [|? ? Hn D']; subst. rewrite IH; [|exact D'|intros f t I; apply (Ds f); right; exact I].
  rewrite get_fold_pair by (apply (Ds a); left; reflexivity).
  destruct (eqb_spec x a) as [->|ne]; [|reflexivity].
  assert (get a k = None) as -> by (apply get_None; exact Hn). reflexivity.
Qed.
Lemma dict_ok_flatten (k : @nestedT V) : dict_ok (flatten k).
Proof.
  unfold flatten. enough (A : forall acc, dict_ok acc -> dict_ok (fold_left (fun (acc : list (str * str * V)) '(lft, rights) => fold_left (fun acc '(rgt, value) => set (lft, rgt) value acc) rights acc) k acc)) by (apply A; constructor).
  induction k as [|[a s] k IH]; intros acc O; cbn [fold_left]; [exact O|]. apply IH.
  clear IH. revert acc O; induction s as [|[r v] s IH]; intros acc O; cbn [fold_left]; [exact O|]. apply IH, dict_ok_set, O.
Qed.

Lemma nest_spec (k : list (str * str * V)) : dict_ok k ->
  nested_ok (nest k) /\ forall x y, klook x y (nest k) = get (x, y) k.
Proof.
  intro D. unfold nest.
  set (step := fun (d : list (str * list (str * V))) '((lft, rgt), value) => set lft (set rgt value match get lft d with Some i => i | None => [] end) d).
  assert (A : forall (l : list (str * str * V)) d, dict_ok l -> nested_ok d ->
     nested_ok (fold_left step l d) /\ forall x y, klook x y (fold_left step l d) = match get (x, y) l with Some v => Some v | None => klook x y d end).
  { induction l as [|[[a b] v] l IH]; intros d Dl Nd; cbn [fold_left get]; [auto|].
    inversion Dl as [|? ? Hn Dl']; subst.
    destruct Nd as (Dd & Ds).
    assert (Nd' : nested_ok (step d ((a, b), v))).
    { split; [apply dict_ok_set; exact Dd|]. intros f s I. unfold step in I.
      apply In_get in I; [|apply dict_ok_set; exact Dd]. rewrite get_set in I.
      destruct (eqb_spec f a) as [->|ne]; [|apply get_In in I; eapply Ds; exact I].
      inversion I; subst. apply dict_ok_set. destruct (get a d) as [i|] eqn:G; [|constructor]. apply get_In in G. eapply Ds; exact G. }
    destruct (IH (step d ((a, b), v)) Dl' Nd') as (O & G). split; [exact O|]. intros x y. rewrite G.
    assert (S : klook x y (step d ((a, b), v)) = if eqb (x, y) (a, b) then Some v else klook x y d).
    { unfold klook, step. rewrite get_set. destruct (eqb_spec x a) as [->|ne].
      - rewrite get_set. destruct (eqb_spec y b) as [->|ne].
        + rewrite eqb_refl. reflexivity.
        + destruct (eqb_spec (a, y) (a, b)) as [E|_]; [congruence|]. destruct (get a d); reflexivity.
      - destruct (eqb_spec (x, y) (a, b)) as [E|_]; [congruence|]. reflexivity. }
    rewrite S. destruct (eqb_spec (x, y) (a, b)) as [E|ne]; [|reflexivity].
    inversion E; subst. assert (get (a, b) l = None) as -> by (apply get_None; exact Hn). reflexivity. }
  destruct (A k [] D) as (O & G); [split; [constructor|intros f s []]|].
  split; [exact O|]. intros x y. rewrite G. destruct (get (x, y) k); reflexivity.
Qed.

(** ** down conversion *)
(** no two names are merged by the renaming *)
Definition collision_free (kerning : @nestedT V) (m1 m2 : list (str * str)) : Prop :=
  NoDup (values (m1 ++ m2)) /\
  (forall a, In a (keys kerning) -> ~ In a (values (m1 ++ m2))) /\
  (forall a s b, In (a, s) kerning -> In b (keys s) -> ~ In b (values (m1 ++ m2))).

Lemma get_flip (l : list (str * str)) n : NoDup (values l) ->
  get n (fold_left (fun m '(w, d) => set d w m) l []) = match find (fun kv => eqb n (snd kv)) l with Some (o, _) => Some o | None => None end.
Proof.
  intro N. enough (A : forall acc, get n (fold_left (fun m '(w, d) => set d w m) l acc) = match find (fun kv => eqb n (snd kv)) l with Some (o, _) => Some o | None => get n acc end) by apply A.
  induction l as [|[o d] l IH]; intro acc; cbn [fold_left find snd]; [reflexivity|].
  inversion N as [|? ? Hn N']; subst. rewrite IH by exact N'.
  destruct (eqb_spec n d) as [->|ne].
  - destruct (find _ l) as [[o' d']|] eqn:F; [|apply get_set_same].
    exfalso. apply find_some in F as (I & E). cbn [snd] in E. apply (proj1 (eqb_eq _ _)) in E. subst d'.
    apply Hn. change d with (snd (o', d)). apply in_map. exact I.
  - destruct (find _ l) as [[o' d']|]; [reflexivity|]. apply get_set_other. exact ne.
Qed.
Lemma get_flip_in (l : list (str * str)) o n : NoDup (values l) -> In (o, n) l ->
  get n (fold_left (fun m '(w, d) => set d w m) l []) = Some o.
Proof.
  intros N I. rewrite get_flip by exact N.
  induction l as [|[o' d] l IH]; [destruct I|]. cbn [find snd]. inversion N as [|? ? Hn N']; subst.
  destruct I as [E|I].
  - inversion E; subst. rewrite eqb_refl. reflexivity.
  - destruct (eqb_spec n d) as [->|ne]; [|apply IH; assumption].
    exfalso. apply Hn. change d with (snd (o, d)). apply in_map. exact I.
Qed.
Lemma get_flip_out (l : list (str * str)) n : NoDup (values l) -> ~ In n (values l) ->
  get n (fold_left (fun m '(w, d) => set d w m) l []) = None.
Proof.
  intros N H. rewrite get_flip by exact N. destruct (find _ l) as [[o d]|] eqn:F; [|reflexivity].
  exfalso. apply find_some in F as (I & E). cbn [snd] in E. apply (proj1 (eqb_eq _ _)) in E. subst d.
  apply H. change n with (snd (o, n)). apply in_map. exact I.
Qed.

Lemma remap_renamed m m' a : NoDup (values m') -> incl m m' -> ~ In a (values m') ->
  getd (getd a m) (fold_left (fun x '(w, d) => set d w x) m' []) = a.
Proof.
  intros N I H. unfold getd at 2. destruct (get a m) as [n|] eqn:G.
  - unfold getd. apply get_In in G. rewrite (get_flip_in m' a n) by auto. reflexivity.
  - unfold getd. rewrite get_flip_out by assumption. reflexivity.
Qed.
Lemma ren_inj m m' names : NoDup (values m') -> incl m m' -> (forall a, In a names -> ~ In a (values m')) ->
  inj_on (fun x => getd x m) names.
Proof.
  intros N I H a b Ha Hb E. pose proof (remap_renamed m m' a N I (H a Ha)) as Ra.
  pose proof (remap_renamed m m' b N I (H b Hb)) as Rb. cbn in E. rewrite E in Ra. congruence.
Qed.

Lemma down_kerning (kerning : @nestedT V) m1 m2 : nested_ok kerning -> collision_free kerning m1 m2 ->
  forall a b, get (a, b) (remapKerning (flipMaps (m1, m2)) (flatten (renameKerning m1 m2 kerning))) = klook a b kerning.
Proof.
  intros (D & Ds) (N & C1 & C2) a b. unfold flipMaps. cbn [fst snd].
  set (remap := fold_left _ (m1 ++ m2) []).
  set (K' := renameKerning m1 m2 kerning).
  assert (I1 : incl m1 (m1 ++ m2)) by (intros x Hx; apply in_or_app; auto).
  assert (I2 : incl m2 (m1 ++ m2)) by (intros x Hx; apply in_or_app; auto).
  assert (O' : nested_ok K').
  { unfold K'. rewrite renameKerning_alt. split; [apply (dict_ok_fold_rename (fun x => getd x m1)); constructor|].
    intros f s I. apply In_get in I; [|apply (dict_ok_fold_rename (fun x => getd x m1)); constructor].
    apply (fold_rename_src (fun x => getd x m1)) in I as [(x & I & E)|I]; [|discriminate].
    apply in_map_iff in I as ([x' s'] & E' & I). inversion E'; subst.
    apply (dict_ok_fold_rename (fun x => getd x m2)). constructor. }
  assert (Back1 : forall x, In x (keys kerning) -> getd (getd x m1) remap = x).
  { intros x Hx. apply remap_renamed; auto. }
  assert (Back2 : forall f s x, In (f, s) kerning -> In x (keys s) -> getd (getd x m2) remap = x).
  { intros f s x Hf Hx. apply remap_renamed; auto. eapply C2; eauto. }
  assert (Kin : forall x y v, klook x y kerning = Some v -> In x (keys kerning) /\ exists s, In (x, s) kerning /\ In y (keys s)).
  { intros x y v H. unfold klook in H. destruct (get x kerning) as [s|] eqn:G; [|discriminate].
    apply get_In in G. apply get_In in H. split; [change x with (fst (x, s)); apply in_map; exact G|].
    exists s. split; [exact G|]. change y with (fst (y, v)). apply in_map. exact H. }
  assert (Src : forall x y v, get (x, y) (flatten K') = Some v -> exists p q, getd p m1 = x /\ getd q m2 = y /\ klook p q kerning = Some v /\ getd x remap = p /\ getd y remap = q).
  { intros x y v H. rewrite get_flatten in H by exact O'. apply klook_renamed_src in H as (p & q & E1 & E2 & H); [|exact D|exact Ds].
    exists p, q. repeat split; auto; destruct (Kin p q v H) as (Hp & s & Hs & Hq); subst; eauto. }
  assert (Inj : forall k l, In k (keys (flatten K')) -> In l (keys (flatten K')) ->
     (fun '(s1, s2) => (getd s1 remap, getd s2 remap)) k = (fun '(s1, s2) => (getd s1 remap, getd s2 remap)) l -> k = l).
  { intros [x y] [x' y'] Hk Hl E. inversion E as [[E1 E2]].
    apply in_map_iff in Hk as ([[? ?] v] & Ev & Hk). cbn in Ev. inversion Ev; subst. apply In_get in Hk; [|apply dict_ok_flatten].
    apply in_map_iff in Hl as ([[? ?] w] & Ew & Hl). cbn in Ew. inversion Ew; subst. apply In_get in Hl; [|apply dict_ok_flatten].
    destruct (Src _ _ _ Hk) as (p & q & P1 & P2 & _ & P3 & P4). destruct (Src _ _ _ Hl) as (p' & q' & Q1 & Q2 & _ & Q3 & Q4).
    congruence. }
  assert (Alt : remapKerning remap (flatten K') = fold_left (fun ns '(s, v) => set ((fun '(s1, s2) => (getd s1 remap, getd s2 remap)) s) v ns) (flatten K') []).
  { clear Inj Src. unfold remapKerning. generalize (@nil (str * str * V)) as acc. induction (flatten K') as [|[[x y] v] l IH]; intro acc; [reflexivity|]. cbn [fold_left]. apply IH. }
  rewrite Alt. destruct (klook a b kerning) as [v|] eqn:G.
  - destruct (Kin a b v G) as (Ha & s & Hs & Hb).
    assert (G' : get (getd a m1, getd b m2) (flatten K') = Some v).
    { rewrite get_flatten by exact O'. unfold K'. rewrite klook_renamed; auto.
      - intros f t It. split; [eapply Ds; exact It|]. apply (ren_inj m2 (m1 ++ m2)); auto. intros x Hx. eapply C2; eauto.
      - apply (ren_inj m1 (m1 ++ m2)); auto.
      - intros t It. assert (t = s) as -> by (apply (In_get a t kerning D) in It; apply (In_get a s kerning D) in Hs; congruence). exact Hb. }
    pose proof (rename_get_key (fun '(s1, s2) => (getd s1 remap, getd s2 remap)) (flatten K') (getd a m1, getd b m2) Inj (dict_ok_flatten _)) as F.
    cbv beta iota in F. rewrite (Back1 a Ha), (Back2 a s b Hs Hb), G' in F. apply F.
    apply get_In in G'. change (getd a m1, getd b m2) with (fst ((getd a m1, getd b m2), v)). apply in_map. exact G'.
  - destruct (get (a, b) _) as [v|] eqn:G2; [|reflexivity]. exfalso.
    apply (fold_rename_src (fun '(s1, s2) => (getd s1 remap, getd s2 remap))) in G2 as [([x y] & I & E)|G2]; [|discriminate].
    apply In_get in I; [|apply dict_ok_flatten]. destruct (Src x y v I) as (p & q & _ & _ & H & P3 & P4).
    inversion E; subst. congruence.
Qed.
End Conv.

Lemma remapGroups_spec (remap : list (str * str)) (groups : groupsT) x :
  dict_ok groups ->
  (forall n o, get n remap = Some o -> forall n' o', get n' remap = Some o' -> o = o' -> In n (keys groups) -> In n' (keys groups) -> get n groups = get n' groups) ->
  get x (remapGroups remap groups) =
    match find (fun kv => match get (fst kv) remap with Some o => eqb o x | None => false end) groups with
    | Some (_, c) => Some c
    | None => if has x remap then None else get x groups
    end.
Proof.
  intros D Same. unfold remapGroups.
  set (kept := fold_left _ groups []).
  assert (Kept : get x kept = if has x remap then None else get x groups).
  { unfold kept. clear Same kept.
    enough (A : forall acc, get x (fold_left (fun g '(name, contents) => if has name remap then g else set name contents g) groups acc)
       = if has x remap then get x acc else match get x groups with Some c => Some c | None => get x acc end).
    { rewrite A. cbn [get]. destruct (has x remap); [reflexivity|]. destruct (get x groups); reflexivity. }
    induction groups as [|[n c] g IH]; intro acc; cbn [fold_left get]; [destruct (has x remap); reflexivity|].
    inversion D as [|? ? Hn D']; subst. rewrite IH by exact D'. clear IH.
    destruct (eqb_spec x n) as [->|ne].
    - assert (get n g = None) as -> by (apply get_None; exact Hn).
      destruct (has n remap) eqn:Hh; [reflexivity|]. apply get_set_same.
    - assert (get x (if has n remap then acc else set n c acc) = get x acc) as ->; [|reflexivity].
      destruct (has n remap); [reflexivity|]. apply get_set_other. exact ne. }
  enough (A : forall l acc, incl l groups -> get x (fold_left (fun g '(name, contents) => match get name remap with None => g | Some old => set old contents g end) l acc)
     = match find (fun kv => match get (fst kv) remap with Some o => eqb o x | None => false end) l with Some (_, c) => Some c | None => get x acc end).
  { rewrite A by (intros y; auto). destruct (find _ groups) as [[n c]|]; [reflexivity|exact Kept]. }
  induction l as [|[n c] l IH]; intros acc Il; cbn [fold_left find fst]; [reflexivity|].
  rewrite IH by (intros y Hy; apply Il; right; exact Hy).
  destruct (get n remap) as [o|] eqn:G.
  - destruct (eqb_spec o x) as [->|ne].
    + destruct (find _ l) as [[n' c']|] eqn:F; [|apply get_set_same].
      apply find_some in F as (I & E). cbn [fst] in E. destruct (get n' remap) as [o'|] eqn:G'; [|discriminate].
      apply (proj1 (eqb_eq _ _)) in E. subst o'.
      assert (I1 : In (n, c) groups) by (apply Il; left; reflexivity). assert (I2 : In (n', c') groups) by (apply Il; right; exact I).
      apply In_get in I1; [|exact D]. apply In_get in I2; [|exact D].
      rewrite (Same n x G n' x G' eq_refl) in I1; [congruence| |]; apply has_In; unfold has; [rewrite I1|rewrite I2]; reflexivity.
    + destruct (find _ l) as [[n' c']|]; [reflexivity|]. apply get_set_other. congruence.
  - reflexivity.
Qed.

Lemma down_groups (groups groups' : groupsT) (m1 m2 : list (str * str)) :
  dict_ok groups -> dict_ok groups' -> NoDup (values (m1 ++ m2)) ->
  (forall o n, In (o, n) (m1 ++ m2) -> In o (keys groups) /\ ~ In n (keys groups)) ->
  (forall g, In g (keys groups) -> get g groups' = get g groups) ->
  (forall g, In g (keys groups') <-> In g (keys groups) \/ In g (values (m1 ++ m2))) ->
  (forall g, In g (values (m1 ++ m2)) -> exists o, In (o, g) (m1 ++ m2) /\ get g groups' = get o groups) ->
  forall x, get x (remapGroups (flipMaps (m1, m2)) groups') = get x groups.
Proof.
  intros D D' N Hr Keep Keys New x. unfold flipMaps. cbn [fst snd].
  set (m := m1 ++ m2) in *. set (remap := fold_left _ m []).
  assert (R : forall n o, get n remap = Some o -> In (o, n) m /\ get n groups' = get o groups).
  { intros n o G. destruct (in_dec (fun a b => eq_decide a b) n (values m)) as [I|I].
    - destruct (New n I) as (o' & I' & E). unfold remap in G. rewrite (get_flip_in m o' n) in G by assumption.
      inversion G; subst. auto.
    - unfold remap in G. rewrite get_flip_out in G by assumption. discriminate. }
  rewrite remapGroups_spec; [|exact D'|].
  - destruct (find _ groups') as [[n c]|] eqn:F.
    + apply find_some in F as (I & E). cbn [fst] in E. destruct (get n remap) as [o|] eqn:G; [|discriminate].
      apply (proj1 (eqb_eq _ _)) in E. subst o. apply R in G as (_ & G). apply In_get in I; [|exact D']. congruence.
    + unfold has. destruct (get x remap) as [o|] eqn:G.
      * apply R in G as (G & _). apply Hr in G as (_ & G). symmetry. apply get_None. exact G.
      * destruct (in_dec (fun a b => eq_decide a b) x (keys groups)) as [I|I]; [apply Keep; exact I|].
        transitivity (@None (list str)); [|symmetry; apply get_None; exact I].
        apply get_None. intro I'. apply Keys in I' as [I'|I']; [contradiction|].
        destruct (New x I') as (o & Io & _). unfold remap in G. rewrite (get_flip_in m o x) in G by assumption. discriminate.
  - intros n o G n' o' G' -> I I'. apply R in G as (_ & G). apply R in G' as (_ & G'). congruence.
Qed.

(** ** when renaming is collision free *)
Lemma kern_prefix_uniqueCand p x k : startswith p (uniqueCand (p ++ x) k) = true.
Proof.
  destruct (startswith_spec p (uniqueCand (p ++ x) k)) as [|H]; [reflexivity|]. exfalso. apply H.
  unfold uniqueCand. destruct (0 <? k)%N; [rewrite <- app_assoc|]; eexists; reflexivity.
Qed.
Lemma newNameOk_plain p q groups o n :
  (forall g, In g (keys groups) -> startswith p g = false) -> newNameOk p q groups o n -> n = p ++ removeAll q o.
Proof.
  intros H (_ & k & -> & [->|(j & I)]); [reflexivity|].
  apply H in I. rewrite kern_prefix_uniqueCand in I. discriminate.
Qed.
Lemma plain_NoDup p q groups (m : list (str * str)) :
  dict_ok m -> (forall g, In g (keys groups) -> startswith p g = false) ->
  (forall o n, In (o, n) m -> newNameOk p q groups o n) ->
  (forall g h, In g (keys m) -> In h (keys m) -> removeAll q g = removeAll q h -> g = h) ->
  NoDup (values m).
Proof.
  intros D H N I. induction m as [|[o n] m IH]; cbn; [constructor|].
  inversion D as [|? ? Hn D']; subst. constructor.
  - intro J. apply in_map_iff in J as ([o' n'] & E & J). cbn in E. subst n'.
    pose proof (newNameOk_plain p q groups o n H (N o n (or_introl eq_refl))) as E1.
    pose proof (newNameOk_plain p q groups o' n H (N o' n (or_intror J))) as E2.
    rewrite E1 in E2. apply app_inv_head in E2. 
    assert (o' <> o) as NE by (intros ->; apply Hn; change o with (fst (o, n)); apply in_map; exact J).
    apply NE. symmetry. apply I; [left; reflexivity| |exact E2].
    right. change o' with (fst (o', n)). apply in_map. exact J.
  - apply IH; [exact D'| |].
    + intros o' n' J. apply N. right. exact J.
    + intros g h Hg Hh. apply I; right; assumption.
Qed.
Lemma new_prefix p q groups o n : newNameOk p q groups o n -> startswith p n = true.
Proof. intros (_ & k & -> & _). apply kern_prefix_uniqueCand. Qed.
Lemma NoDup_app_intro {A} (l m : list A) : NoDup l -> NoDup m -> (forall x, In x l -> In x m -> False) -> NoDup (l ++ m).
Proof.
  induction l as [|a l IH]; intros Nl Nm D; cbn; [exact Nm|]. inversion Nl as [|? ? Ha Nl']; subst. constructor.
  - intro I. apply in_app_or in I as [I|I]; [contradiction|]. apply (D a); [left; reflexivity|exact I].
  - apply IH; auto. intros x Hx. apply D. right. exact Hx.
Qed.
Lemma side_values p q groups (m : list (str * str)) n :
  (forall o n, In (o, n) m -> newNameOk p q groups o n) -> In n (values m) -> startswith p n = true.
Proof. intros N I. apply in_map_iff in I as ([o n'] & E & J). cbn in E; subst n'. eapply new_prefix, N, J. Qed.

Lemma plain_collision_free {V} (kerning : @nestedT V) groups m1 m2 :
  dict_ok m1 -> dict_ok m2 ->
  (forall o n, In (o, n) m1 -> newNameOk kern1 L_ groups o n) ->
  (forall o n, In (o, n) m2 -> newNameOk kern2 R_ groups o n) ->
  (forall g, In g (keys groups) \/ In g (keys kerning) \/ (exists f s, In (f, s) kerning /\ In g (keys s)) ->
     startswith kern1 g = false /\ startswith kern2 g = false) ->
  (forall g h, In g (keys m1) -> In h (keys m1) -> removeAll L_ g = removeAll L_ h -> g = h) ->
  (forall g h, In g (keys m2) -> In h (keys m2) -> removeAll R_ g = removeAll R_ h -> g = h) ->
  collision_free kerning m1 m2.
Proof.
  intros D1 D2 N1 N2 P I1 I2.
  assert (Vp : forall n, In n (values (m1 ++ m2)) -> startswith kern1 n = true \/ startswith kern2 n = true).
  { intros n I. unfold values in I. rewrite map_app in I. apply in_app_or in I as [I|I].
    - left. eapply side_values; [exact N1|exact I].
    - right. eapply side_values; [exact N2|exact I]. }
  split; [|split].
  - unfold values. rewrite map_app. apply NoDup_app_intro.
    + eapply plain_NoDup; eauto. intros g Hg. apply P. auto.
    + eapply plain_NoDup; eauto. intros g Hg. apply P. auto.
    + intros x Hx Hy. eapply kern1_not_kern2; [eapply side_values; [exact N1|exact Hx]|eapply side_values; [exact N2|exact Hy]].
  - intros a Ha I. destruct (P a) as (Pa & Pb); [auto|]. destruct (Vp a I); congruence.
  - intros a s b Hs Hb I. destruct (P b) as (Pa & Pb); [right; right; eauto|]. destruct (Vp b I); congruence.
Qed.
Lemma dict_ok_remap {V} remap (k : list (str * str * V)) : dict_ok (remapKerning remap k).
Proof.
  unfold remapKerning. enough (A : forall acc : list (str * str * V), dict_ok acc -> dict_ok (fold_left (fun k '((s1, s2), value) => set (getd s1 remap, getd s2 remap) value k) k acc)) by (apply A; constructor).
  induction k as [|[[a b] v] k IH]; intros acc O; cbn [fold_left]; [exact O|]. apply IH, dict_ok_set, O.
Qed.
Lemma set_nonempty {K V} `{Eqb K} k (v : V) m : set k v m <> [].
Proof. destruct m as [|[a b] m]; cbn; [discriminate|]. destruct (eqb k a); discriminate. Qed.
Lemma nest_inner_nonempty {V} (k : list (str * str * V)) : dict_ok k -> forall a s, In (a, s) (nest k) -> s <> [].
Proof.
  intros _. unfold nest. enough (A : forall acc : list (str * list (str * V)), (forall a s, In (a, s) acc -> s <> []) ->
    forall a s, In (a, s) (fold_left (fun d '((lft, rgt), value) => set lft (set rgt value match get lft d with Some i => i | None => [] end) d) k acc) -> s <> []).
  { apply A. intros a s []. }
  induction k as [|[[a b] v] k IH]; intros acc O; cbn [fold_left]; [exact O|]. apply IH.
  intros x s. set (new := set b v _). generalize (set_nonempty b v match get a acc with Some i => i | None => [] end). fold new. clearbody new. intro Hn.
  induction acc as [|[y t] acc IHa]; cbn.
  - intros [E|[]]. inversion E; subst. exact Hn.
  - destruct (eqb a y).
    + intros [E|I]; [inversion E; subst; exact Hn|]. apply (O x). right. exact I.
    + intros [E|I]; [apply (O x); left; exact E|]. apply IHa; [|exact I]. intros z w J. apply (O z). right. exact J.
Qed.
