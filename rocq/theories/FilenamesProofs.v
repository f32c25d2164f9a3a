(** Lemmas about the model of filenames.py. *)
From Coq Require Import String NArith ZArith Bool Lia List.
From Verif Require Import Base LowerLaws Filenames.
Import ListNotations.

Lemma pigeon (cand : N -> str) (ex : list str) (lo n : N) :
  (forall i j, lo <= i -> lo <= j -> cand i = cand j -> i = j)%N ->
  (forall k, lo <= k < lo + n -> In (cand k) ex)%N -> (n <= N.of_nat (length ex))%N.
Proof.
  intros Hinj Hin.
  set (l := map (fun i => cand (lo + N.of_nat i)%N) (seq 0 (N.to_nat n))).
  assert (L : (length l <= length ex)%nat).
  { apply NoDup_incl_length.
    - unfold l. apply FinFun.Injective_map_NoDup; [|apply seq_NoDup].
      intros i j E. apply Hinj in E; lia.
    - intros x Hx. unfold l in Hx. apply in_map_iff in Hx as (i & <- & Hi).
      apply in_seq in Hi. apply Hin. lia. }
  unfold l in L. rewrite map_length, seq_length in L. lia.
Qed.

Section Proofs.
Variable lower : str -> str.

(** ** the search loops *)
Definition cand1 (userName prefix suffix : str) (k : N) : str :=
  prefix ++ (userName ++ zfill 15 (str_of_N k)) ++ suffix.
Definition cand2 (prefix suffix : str) (k : N) : str := prefix ++ str_of_N k ++ suffix.

Lemma clash1Loop_spec fuel c n ex p s r :
  clash1Loop lower fuel c n ex p s = r -> (c < 999999999999999)%N ->
  match r with
  | Ok (Some f) => exists k, (c <= k < 999999999999999)%N /\ f = cand1 n p s k /\ ~ In (lower f) ex
  | Ok None => forall k, (c <= k < 999999999999999)%N -> In (lower (cand1 n p s k)) ex
  | Err e => e = OutOfFuel /\ forall k, (c <= k < c + N.of_nat fuel)%N -> In (lower (cand1 n p s k)) ex
  end.
Proof.
  revert c; induction fuel as [|fuel IH]; intros c E Hc.
  - cbn in E. subst r. split; [reflexivity|]. intros k Hk. lia.
  - cbn [clash1Loop] in E.
    destruct (mem_spec (lower (p ++ (n ++ zfill 15 (str_of_N c)) ++ s)) ex) as [Hi|Hn]; cbn [negb] in E.
    + destruct (N.leb_spec 999999999999999 (c + 1)) as [L|L].
      * subst r. intros k Hk. assert (k = c) as -> by lia. exact Hi.
      * apply IH in E; [|exact L]. destruct r as [[f|]|e].
        -- destruct E as (k & Hk & Ef & Hf). exists k. split; [lia|auto].
        -- intros k Hk. destruct (N.eq_dec k c) as [->|Hkc]; [exact Hi|]. apply E. lia.
        -- destruct E as (-> & E). split; [reflexivity|]. intros k Hk.
           destruct (N.eq_dec k c) as [->|Hkc]; [exact Hi|]. apply E. lia.
    + subst r. exists c. split; [lia|]. split; [reflexivity|exact Hn].
Qed.

Lemma clash2Loop_spec fuel c M ex p s r :
  clash2Loop lower fuel c M ex p s = r ->
  match r with
  | Ok (Some f) => exists k, (c <= k)%N /\ (k = c \/ k < M)%N /\ f = cand2 p s k /\ ~ In (lower f) ex
  | Ok None => forall k, (c <= k < M)%N -> In (lower (cand2 p s k)) ex
  | Err e => e = OutOfFuel /\ forall k, (c <= k < c + N.of_nat fuel)%N -> In (lower (cand2 p s k)) ex
  end.
Proof.
  revert c; induction fuel as [|fuel IH]; intros c E.
  - cbn in E. subst r. split; [reflexivity|]. intros k Hk. lia.
  - cbn [clash2Loop] in E.
    destruct (mem_spec (lower (p ++ str_of_N c ++ s)) ex) as [Hi|Hn]; cbn [negb] in E.
    + destruct (N.leb_spec M (c + 1)) as [L|L].
      * subst r. intros k Hk. assert (k = c) as -> by lia. exact Hi.
      * apply IH in E. destruct r as [[f|]|e].
        -- destruct E as (k & Hk & Hk2 & Ef & Hf). exists k. split; [lia|]. split; [lia|auto].
        -- intros k Hk. destruct (N.eq_dec k c) as [->|Hkc]; [exact Hi|]. apply E. lia.
        -- destruct E as (-> & E). split; [reflexivity|]. intros k Hk.
           destruct (N.eq_dec k c) as [->|Hkc]; [exact Hi|]. apply E. lia.
    + subst r. exists c. split; [lia|]. split; [lia|]. split; [reflexivity|exact Hn].
Qed.

(** the user name after the slice at the beginning of handleClash1 *)
Definition clash1Name (n p s : str) : str :=
  let l := (Z.of_nat (length p) + Z.of_nat (length n) + Z.of_nat (length s) + 15)%Z in
  if (255 <? l)%Z then slice_to (255 - l) n else n.

Lemma clash1Name_prefix n p s : exists r, n = clash1Name n p s ++ r.
Proof.
  unfold clash1Name. destruct (255 <? _)%Z; [apply slice_to_prefix|exists []; rewrite app_nil_r; reflexivity].
Qed.
Lemma clash1Name_length n p s : (length p + length s + 15 <= 255)%nat ->
  (length p + length (clash1Name n p s) + length s + 15 <= 255)%nat.
Proof.
  intro H. unfold clash1Name. destruct (Z.ltb_spec 255 (Z.of_nat (length p) + Z.of_nat (length n) + Z.of_nat (length s) + 15)) as [L|L]; [|lia].
  rewrite slice_to_length_neg by lia. lia.
Qed.

(** the shape of every result *)
Inductive result_shape (n : str) (ex : list str) (p s : str) : str -> Prop :=
| shape_plain : result_shape n ex p s (p ++ n ++ s)
| shape_clash1 k : (1 <= k < 999999999999999)%N -> In (lower (p ++ n ++ s)) ex ->
    result_shape n ex p s (p ++ (clash1Name n p s ++ zfill 15 (str_of_N k)) ++ s)
| shape_clash2 k m : (1 <= k < 10 ^ N.of_nat m)%N -> (length p + m + length s = 255)%nat -> (0 < m)%nat ->
    result_shape n ex p s (p ++ str_of_N k ++ s).

Lemma userNameToFileName_shape name ex p s f :
  userNameToFileName lower name ex p s = Ok f ->
  exists n, replaceInitialPeriod p name = Ok n /\ result_shape (cleanName lower p s n) ex p s f /\ ~ In (lower f) ex.
Proof.
  unfold userNameToFileName. intro H. apply bind_Ok in H as (n & Hn & H). exists n. split; [exact Hn|].
  set (c := cleanName lower p s n) in *.
  destruct (mem_spec (lower (p ++ c ++ s)) ex) as [Hi|Hni].
  2:{ inversion H; subst. split; [constructor|exact Hni]. }
  unfold handleClash1 in H. apply bind_Ok in H as (o & Ho & H).
  apply clash1Loop_spec in Ho; [|lia].
  destruct o as [f'|].
  - inversion H; subst f'. destruct Ho as (k & Hk & Ef & Hf). subst f. split; [|exact Hf].
    unfold cand1. apply shape_clash1; assumption.
  - unfold handleClash2 in H.
    set (m := (maxFileNameLength - Z.of_nat (length p) - Z.of_nat (length s))%Z) in *.
    destruct (Z.leb_spec m 0) as [L|L]; [discriminate|].
    apply bind_Ok in H as (o & Ho2 & H). apply clash2Loop_spec in Ho2.
    destruct o as [f'|]; [|discriminate]. inversion H; subst f'.
    destruct Ho2 as (k & Hk1 & Hk2 & Ef & Hf). subst f. split; [|exact Hf].
    apply shape_clash2 with (m := Z.to_nat m); [|unfold m, maxFileNameLength in *; lia|lia].
    replace (N.of_nat (Z.to_nat m)) with (Z.to_N m) by lia.
    assert (10 <= 10 ^ Z.to_N m)%N; [|lia].
    transitivity (10 ^ 1)%N; [reflexivity|]. apply N.pow_le_mono_r; lia.
Qed.

Theorem fresh name ex p s f : userNameToFileName lower name ex p s = Ok f -> ~ In (lower f) ex.
Proof. intro H. apply userNameToFileName_shape in H as (n & _ & _ & H). exact H. Qed.

(** ** legal characters *)
Definition legal (c : N) : Prop := ~ In c illegalCharacters.

Lemma filter_legal c x : In x (filterCharacter lower c) -> legal x.
Proof.
  unfold filterCharacter, legal.
  assert (Hu : ~ In underscore illegalCharacters) by (apply mem_nIn; reflexivity).
  destruct (mem_spec c illegalCharacters) as [Hi|Hn].
  - intros [<-|[]]. exact Hu.
  - destruct (negb _).
    + intros [<-|[<-|[]]]; assumption.
    + intros [<-|[]]; assumption.
Qed.
Lemma legal_digit c : is_digit c = true -> legal c.
Proof.
  unfold is_digit, legal. intro H. apply andb_prop in H as [H1 H2]. apply N.leb_le in H1, H2.
  assert (E : c = N.of_nat (N.to_nat c)) by lia. apply mem_nIn.
  assert (A : forallb (fun i => negb (mem (48 + N.of_nat i)%N illegalCharacters)) (seq 0 10) = true) by reflexivity.
  rewrite forallb_forall in A. specialize (A (N.to_nat (c - 48))).
  assert (I : In (N.to_nat (c - 48)) (seq 0 10)) by (apply in_seq; lia).
  apply A in I. apply negb_true_iff in I. replace (48 + N.of_nat (N.to_nat (c - 48)))%N with c in I by lia. exact I.
Qed.
Lemma legal_digits s x : forallb is_digit s = true -> In x s -> legal x.
Proof. intros H I. rewrite forallb_forall in H. apply legal_digit. apply H. exact I. Qed.

Lemma cleanName_legal p s n x : In x (cleanName lower p s n) -> legal x.
Proof.
  unfold cleanName. intro H. apply In_join in H as [H|(q & Hq & H)].
  - cbn in H. destruct H as [<-|[]]. apply mem_nIn. reflexivity.
  - apply in_map_iff in Hq as (r & <- & Hr). unfold escapePart in H.
    assert (Hx : x = underscore \/ In x r) by (destruct (mem _ _); cbn in H; [intuition congruence|auto]).
    destruct Hx as [->|Hx]; [apply mem_nIn; reflexivity|].
    apply In_split1 with (x := x) in Hr; [|exact Hx]. apply slice_to_In in Hr.
    apply in_concat in Hr as (y & Hy & Hxy). apply in_map_iff in Hy as (c & <- & _).
    eapply filter_legal; exact Hxy.
Qed.

Theorem legal_result name ex p s f : userNameToFileName lower name ex p s = Ok f ->
  exists body, f = p ++ body ++ s /\ Forall legal body.
Proof.
  intro H. apply userNameToFileName_shape in H as (n & _ & Sh & _).
  inversion Sh as [E|k Hk Hi E|k m Hk Hm Hp E]; eexists; (split; [reflexivity|]); apply Forall_forall; intros x Hx.
  - eapply cleanName_legal; exact Hx.
  - apply in_app_or in Hx as [Hx|Hx].
    + destruct (clash1Name_prefix (cleanName lower p s n) p s) as (r & Er).
      eapply (cleanName_legal p s n). rewrite Er. apply in_or_app. left. exact Hx.
    + eapply legal_digits; [|exact Hx]. apply zfill_digit, str_of_N_digit.
  - eapply legal_digits; [|exact Hx]. apply str_of_N_digit.
Qed.

(** ** length *)
Definition escaped (part : str) : bool :=
  match part with c :: r => N.eqb c underscore && mem (lower r) reservedFileNames | [] => false end.

Lemma join_length_cons sep x l : length (join sep (x :: l)) = match l with [] => length x | _ => length x + length sep + length (join sep l) end.
Proof. destruct l; [reflexivity|]. rewrite join_cons by discriminate. rewrite !app_length. lia. Qed.

Lemma escape_length l :
  length (join [period] (map (escapePart lower) l)) <= length (join [period] l) + length (filter escaped (map (escapePart lower) l)).
Proof.
  induction l as [|x l IH]; [reflexivity|]. cbn [map]. rewrite !join_length_cons.
  assert (Hx : length (escapePart lower x) <= length x + if escaped (escapePart lower x) then 1 else 0).
  { unfold escapePart. destruct (mem (lower x) reservedFileNames) eqn:E; [|destruct (escaped x); lia].
    unfold escaped. rewrite N.eqb_refl, E. cbn. lia. }
  cbn [filter]. destruct l as [|y l].
  - cbn. destruct (escaped (escapePart lower x)); cbn; lia.
  - cbn [map] in *. destruct (escaped (escapePart lower x)); cbn [length] in *; lia.
Qed.

Lemma escape_no_period x : ~ In period x -> ~ In period (escapePart lower x).
Proof. unfold escapePart. destruct (mem _ _); cbn; [|auto]. intros H [E|E]; [discriminate|auto]. Qed.

Lemma cleanName_parts p s n :
  exists l, split1 period (cleanName lower p s n) = map (escapePart lower) l /\ l <> [] /\
    join [period] l = slice_to (255 - Z.of_nat (length p) - Z.of_nat (length s)) (concat (map (filterCharacter lower) n)).
Proof.
  unfold cleanName, maxFileNameLength.
  set (cl := slice_to _ _). exists (split1 period cl). split; [|split; [apply split1_nonempty|apply join_split1]].
  apply split1_join.
  - intro E. apply map_eq_nil in E. exact (split1_nonempty _ _ E).
  - intros q Hq. apply in_map_iff in Hq as (r & <- & Hr). apply escape_no_period. eapply split1_no_sep. exact Hr.
Qed.

Theorem length_result name ex p s f : (length p + length s + 15 <= 255)%nat ->
  userNameToFileName lower name ex p s = Ok f ->
  exists body, f = p ++ body ++ s /\ length f <= 255 + length (filter escaped (split1 period body)).
Proof.
  intros HL H. apply userNameToFileName_shape in H as (n & _ & Sh & _).
  inversion Sh as [E|k Hk Hi E|k m Hk Hm Hp E]; eexists; (split; [reflexivity|]); rewrite !app_length.
  - destruct (cleanName_parts p s n) as (l & El & _ & Ej).
    rewrite El. rewrite <- (join_split1 period (cleanName lower p s n)) at 1. rewrite El.
    pose proof (escape_length l) as L. rewrite Ej in L.
    pose proof (slice_to_length_nonneg (255 - Z.of_nat (length p) - Z.of_nat (length s))%Z (concat (map (filterCharacter lower) n))). lia.
  - rewrite zfill_length. assert (length (str_of_N k) <= 15)%nat.
    { apply str_of_N_length; [lia|]. change (10 ^ N.of_nat 15)%N with 1000000000000000%N. lia. }
    pose proof (clash1Name_length (cleanName lower p s n) p s HL). lia.
  - pose proof (str_of_N_length k m Hp (proj2 Hk)). lia.
Qed.

(** ** reserved names *)
Lemma firstn_parts c k s : exists l last rest tail,
  split1 c (firstn k s) = l ++ [last] /\ split1 c s = l ++ (last ++ rest) :: tail.
Proof.
  revert k; induction s as [|x s IH]; intros k.
  - exists [], [], [], []. rewrite firstn_nil. cbn. auto.
  - destruct k as [|k].
    + cbn [firstn split1]. destruct (N.eqb x c).
      * exists [], [], [], (split1 c s). auto.
      * destruct (split1 c s) as [|h t] eqn:E; [exists [], [], [x], []; auto|]. exists [], [], (x :: h), t. auto.
    + cbn [firstn split1]. destruct (IH k) as (l & last & rest & tail & E1 & E2).
      destruct (N.eqb x c).
      * exists ([] :: l), last, rest, tail. rewrite E1, E2. auto.
      * rewrite E1, E2. destruct l as [|h l]; cbn.
        -- exists [], (x :: last), rest, tail. auto.
        -- exists ((x :: h) :: l), last, rest, tail. auto.
Qed.

Lemma clash1Name_firstn n p s : exists k, clash1Name n p s = firstn k n.
Proof.
  unfold clash1Name. destruct (255 <? _)%Z; [|exists (length n); symmetry; apply firstn_all].
  unfold slice_to. destruct (0 <=? _)%Z; eexists; reflexivity.
Qed.

Hypothesis laws : lower_laws lower.

Lemma lower_digits d : d <> [] -> forallb is_digit d = true -> lower d = d.
Proof.
  intros Hd H. pose proof (lower_sep _ laws [] d []) as L. rewrite app_nil_r in L. cbn [app] in L.
  rewrite (lower_nil _ laws), app_nil_r in L. apply L; [exact Hd|].
  rewrite forallb_forall in *. intros x Hx. unfold sep_char. rewrite (H x Hx). reflexivity.
Qed.
Lemma lower_app_digits a d : d <> [] -> forallb is_digit d = true -> lower (a ++ d) = lower a ++ d.
Proof.
  intros Hd H. pose proof (lower_sep _ laws a d []) as L. rewrite app_nil_r in L.
  rewrite (lower_nil _ laws), app_nil_r in L. apply L; [exact Hd|].
  rewrite forallb_forall in *. intros x Hx. unfold sep_char. rewrite (H x Hx). reflexivity.
Qed.
Lemma lower_mid_digits a d b : d <> [] -> forallb is_digit d = true -> lower (a ++ d ++ b) = lower a ++ d ++ lower b.
Proof.
  intros Hd H. apply (lower_sep _ laws); [exact Hd|].
  rewrite forallb_forall in *. intros x Hx. unfold sep_char. rewrite (H x Hx). reflexivity.
Qed.
Lemma lower_underscore r : lower (underscore :: r) = underscore :: lower r.
Proof.
  pose proof (lower_sep _ laws [] [underscore] r) as L. cbn [app] in L. rewrite (lower_nil _ laws) in L.
  apply L; [discriminate|reflexivity].
Qed.

Definition reserved (part : str) : Prop := In (lower part) reservedFileNames.

Lemma not_reserved_underscore r : ~ reserved (underscore :: r).
Proof.
  unfold reserved. rewrite lower_underscore. vm_compute. intuition discriminate.
Qed.
Lemma escapePart_not_reserved x : ~ reserved (escapePart lower x).
Proof.
  unfold escapePart. destruct (mem_spec (lower x) reservedFileNames) as [Hi|Hn]; [apply not_reserved_underscore|exact Hn].
Qed.
Lemma reserved_length x : In x reservedFileNames -> length x <= 6.
Proof. intro H. vm_compute in H. repeat (destruct H as [<-|H]; [cbn; lia|]). destruct H. Qed.
Lemma long_not_reserved a d : forallb is_digit d = true -> 15 <= length d -> ~ reserved (a ++ d).
Proof.
  intros H L R. unfold reserved in R. rewrite lower_app_digits in R; [|destruct d; [cbn in L; lia|discriminate]|exact H].
  apply reserved_length in R. rewrite app_length in R. lia.
Qed.
Lemma digits_not_reserved d : d <> [] -> forallb is_digit d = true -> ~ reserved d.
Proof.
  intros Hd H R. unfold reserved in R. rewrite lower_digits in R by assumption.
  vm_compute in R. repeat (destruct R as [<-|R]; [cbn in H; discriminate|]). destruct R.
Qed.
Lemma digits_no_period d : forallb is_digit d = true -> ~ In period d.
Proof. intros H I. rewrite forallb_forall in H. apply H in I. discriminate. Qed.

Theorem not_reserved_result name ex p s f : userNameToFileName lower name ex p s = Ok f ->
  exists body, f = p ++ body ++ s /\ forall part, In part (split1 period body) -> ~ reserved part.
Proof.
  intro H. apply userNameToFileName_shape in H as (n & _ & Sh & _).
  inversion Sh as [E|k Hk Hi E|k m Hk Hm Hp E]; eexists; (split; [reflexivity|]); intros part Hpart.
  - destruct (cleanName_parts p s n) as (l & El & _). rewrite El in Hpart.
    apply in_map_iff in Hpart as (x & <- & _). apply escapePart_not_reserved.
  - set (d := zfill 15 (str_of_N k)) in *.
    assert (Hd : forallb is_digit d = true) by (apply zfill_digit, str_of_N_digit).
    assert (Hl : 15 <= length d) by (unfold d; rewrite zfill_length; lia).
    destruct (clash1Name_firstn (cleanName lower p s n) p s) as (j & Ej). rewrite Ej in Hpart.
    destruct (firstn_parts period j (cleanName lower p s n)) as (l & last & rest & tail & E1 & E2).
    destruct (@split1_app_nosep period (firstn j (cleanName lower p s n)) d (digits_no_period d Hd)) as (l' & last' & E3 & E4).
    rewrite E4 in Hpart. rewrite E1 in E3. apply app_inj_tail in E3 as (<- & <-).
    apply in_app_or in Hpart as [Hpart|[<-|[]]]; [|apply long_not_reserved; assumption].
    destruct (cleanName_parts p s n) as (ll & El & _). rewrite El in E2.
    assert (I : In part (map (escapePart lower) ll)) by (rewrite E2; apply in_or_app; auto).
    apply in_map_iff in I as (x & <- & _). apply escapePart_not_reserved.
  - rewrite split1_none in Hpart by (apply digits_no_period, str_of_N_digit).
    destruct Hpart as [<-|[]]. apply digits_not_reserved; [apply str_of_N_nonempty|apply str_of_N_digit].
Qed.

(** ** hidden files *)
Lemma filterCharacter_nonempty c : exists r, filterCharacter lower c = (if mem c illegalCharacters then underscore else c) :: r.
Proof. unfold filterCharacter. destruct (mem c illegalCharacters); [eexists; reflexivity|]. destruct (negb _); eexists; reflexivity. Qed.

Lemma cleanName_head s name n : name <> [] -> (length s < 255)%nat -> replaceInitialPeriod [] name = Ok n ->
  exists c r, cleanName lower [] s n = c :: r /\ c <> period.
Proof.
  intros Hn Hs Hr. destruct n as [|c n].
  { destruct name as [|c r]; [contradiction|]. cbn in Hr. destruct (N.eqb c period); discriminate. }
  assert (Hc : c <> period).
  { destruct name as [|c' r]; [contradiction|]. cbn in Hr. destruct (N.eqb_spec c' period) as [->|Hne]; inversion Hr; subst; [discriminate|exact Hne]. }
  destruct (cleanName_parts [] s (c :: n)) as (l & El & Hl & Ej).
  assert (exists c' r, join [period] l = c' :: r /\ c' <> period) as (c' & r & Ej' & Hc').
  { rewrite Ej. cbn [map concat]. destruct (filterCharacter_nonempty c) as (r & ->). cbn [length].
    unfold slice_to. destruct (Z.leb_spec 0 (255 - Z.of_nat 0 - Z.of_nat (length s))); [|lia].
    destruct (Z.to_nat (255 - Z.of_nat 0 - Z.of_nat (length s))) eqn:EZ; [lia|]. cbn [firstn app].
    do 2 eexists. split; [reflexivity|]. destruct (mem c illegalCharacters); [discriminate|exact Hc]. }
  rewrite <- (join_split1 period (cleanName lower [] s (c :: n))), El.
  destruct l as [|x l]; [contradiction|].
  assert (Hx : exists r', x = c' :: r').
  { destruct l as [|y l]; [cbn in Ej'; eauto|]. rewrite join_cons in Ej' by discriminate.
    destruct x as [|z x]; cbn in Ej'; inversion Ej'; subst; [contradiction|eauto]. }
  destruct Hx as (r' & ->).
  assert (exists c2 r2, escapePart lower (c' :: r') = c2 :: r2 /\ c2 <> period) as (c2 & r2 & E2 & H2).
  { unfold escapePart. destruct (mem _ _); do 2 eexists; (split; [reflexivity|]); [discriminate|exact Hc']. }
  cbn [map]. destruct l as [|y l].
  - cbn. rewrite E2. exists c2, r2. split; [reflexivity|exact H2].
  - cbn [map]. rewrite join_cons by discriminate. rewrite E2. cbn. eauto.
Qed.

Theorem not_hidden name ex s f : name <> [] -> (length s < 255)%nat ->
  userNameToFileName lower name ex [] s = Ok f -> exists c r, f = c :: r /\ c <> period.
Proof.
  intros Hn Hs H. apply userNameToFileName_shape in H as (n & Hr & Sh & _).
  destruct (cleanName_head s name n Hn Hs Hr) as (c & r & Ec & Hc).
  assert (Dg : forall d : str, d <> [] -> forallb is_digit d = true -> exists c r, d = c :: r /\ c <> period).
  { intros [|d0 d] Hd Hdd; [contradiction|]. exists d0, d. split; [reflexivity|]. intros ->. cbn in Hdd. discriminate. }
  inversion Sh as [E|k Hk Hi E|k m Hk Hm Hp E]; cbn [app].
  - rewrite Ec. cbn. eauto.
  - destruct (clash1Name_firstn (cleanName lower [] s n) [] s) as (j & Ej). rewrite Ej, Ec.
    destruct j as [|j]; cbn [firstn app].
    + destruct (Dg (zfill 15 (str_of_N k))) as (a & b & Eab & Ha).
      * intro E0. apply (f_equal (@length N)) in E0. rewrite zfill_length in E0. cbn [length] in E0. lia.
      * apply zfill_digit, str_of_N_digit.
      * rewrite Eab. cbn [app]. eauto.
    + eauto.
  - destruct (Dg (str_of_N k)) as (a & b & Eab & Ha); [apply str_of_N_nonempty|apply str_of_N_digit|].
    rewrite Eab. cbn [app]. eauto.
Qed.

(** ** termination *)
Lemma lower_cand1_inj n p s i j : (1 <= i)%N -> (1 <= j)%N ->
  lower (cand1 n p s i) = lower (cand1 n p s j) -> i = j.
Proof.
  intros Hi Hj E. unfold cand1 in E.
  assert (Z : forall k, zfill 15 (str_of_N k) <> []).
  { intros k E0. apply (f_equal (@length N)) in E0. rewrite zfill_length in E0. cbn [length] in E0. lia. }
  assert (D : forall k, forallb is_digit (zfill 15 (str_of_N k)) = true) by (intro; apply zfill_digit, str_of_N_digit).
  rewrite !app_assoc in E. rewrite <- (app_assoc (p ++ n)) in E.
  rewrite <- (app_assoc (p ++ n)) in E. rewrite !lower_mid_digits in E by auto.
  apply app_inv_head in E. apply app_inv_tail in E. apply zfill_str_of_N_inj in E; [exact E|lia|lia].
Qed.
Lemma lower_cand2_inj p s i j : lower (cand2 p s i) = lower (cand2 p s j) -> i = j.
Proof.
  intro E. unfold cand2 in E. rewrite !lower_mid_digits in E by (apply str_of_N_nonempty || apply str_of_N_digit).
  apply app_inv_head in E. apply app_inv_tail in E. apply str_of_N_inj. exact E.
Qed.

Theorem no_out_of_fuel name ex p s : userNameToFileName lower name ex p s <> Err OutOfFuel.
Proof.
  intro H. unfold userNameToFileName in H.
  destruct (replaceInitialPeriod p name) as [n|e] eqn:Er; cbn [bind] in H.
  2:{ inversion H; subst. destruct p, name; cbn in Er; try discriminate. destruct (N.eqb n period); discriminate. }
  destruct (mem _ ex); [|discriminate]. unfold handleClash1 in H.
  match type of H with context [clash1Loop lower _ _ ?x ex p s] => set (n' := x) in * end.
  destruct (clash1Loop lower _ _ n' ex p s) as [o|e] eqn:E1; cbn [bind] in H.
  2:{ inversion H; subst e. apply clash1Loop_spec in E1; [|lia]. destruct E1 as (_ & E1).
      apply pigeon with (cand := fun k => lower (cand1 n' p s k)) in E1; [lia|].
      intros i j Hi Hj E. eapply lower_cand1_inj; eauto. }
  destruct o as [f|]; [discriminate|]. unfold handleClash2 in H.
  destruct (_ <=? 0)%Z; [discriminate|].
  destruct (clash2Loop lower _ _ _ ex p s) as [o|e] eqn:E2; cbn [bind] in H.
  2:{ inversion H; subst e. apply clash2Loop_spec in E2. destruct E2 as (_ & E2).
      apply pigeon with (cand := fun k => lower (cand2 p s k)) in E2; [lia|].
      intros i j _ _ E. eapply lower_cand2_inj; eauto. }
  destruct o; discriminate.
Qed.

Theorem always_found name ex p s :
  (name <> [] \/ p <> []) -> (N.of_nat (length ex) < 999999999999998)%N ->
  exists f, userNameToFileName lower name ex p s = Ok f.
Proof.
  intros Hne Hex. unfold userNameToFileName.
  assert (exists n, replaceInitialPeriod p name = Ok n) as (n & ->).
  { destruct p; cbn; [|eauto]. destruct name as [|c r]; [tauto|]. destruct (N.eqb c period); eauto. }
  cbn [bind]. destruct (mem _ ex); [|eauto]. unfold handleClash1.
  match goal with |- context [clash1Loop lower _ _ ?x ex p s] => set (n' := x) in * end.
  destruct (clash1Loop lower _ _ n' ex p s) as [[f|]|e] eqn:E1; cbn [bind]; [eauto| |].
  - exfalso. apply clash1Loop_spec in E1; [|lia].
    assert (P : (999999999999998 <= N.of_nat (length ex))%N); [|lia].
    apply pigeon with (cand := fun k => lower (cand1 n' p s k)) (lo := 1%N).
    + intros i j Hi Hj E. eapply lower_cand1_inj; eauto.
    + intros k Hk. apply E1. lia.
  - exfalso. apply clash1Loop_spec in E1; [|lia]. destruct E1 as (_ & E1).
    apply pigeon with (cand := fun k => lower (cand1 n' p s k)) in E1; [lia|].
    intros i j Hi Hj E. eapply lower_cand1_inj; eauto.
Qed.
End Proofs.

(** ** ASCII names: the result does not depend on the choice of [lower] *)
Section Ascii.
Variable lower : str -> str.
Hypothesis laws : lower_laws lower.
Definition asciis (s : str) : Prop := forallb is_ascii s = true.

Lemma asciis_app a b : asciis (a ++ b) <-> asciis a /\ asciis b.
Proof. unfold asciis. rewrite forallb_app, andb_true_iff. reflexivity. Qed.
Lemma asciis_In s : asciis s <-> forall x, In x s -> is_ascii x = true.
Proof. unfold asciis. apply forallb_forall. Qed.
Lemma asciis_digits s : forallb is_digit s = true -> asciis s.
Proof.
  intro H. apply asciis_In. intros x Hx. rewrite forallb_forall in H. apply H in Hx.
  unfold is_digit in Hx. apply andb_prop in Hx as [_ Hx]. apply N.leb_le in Hx. unfold is_ascii. apply N.ltb_lt. lia.
Qed.
Lemma lower_asc s : asciis s -> lower s = ascii_lower s.
Proof. apply (lower_ascii _ laws). Qed.

Lemma filterCharacter_ascii c : is_ascii c = true -> filterCharacter lower c = filterCharacter ascii_lower c.
Proof.
  intro H. unfold filterCharacter. rewrite lower_asc; [reflexivity|]. unfold asciis. cbn. rewrite H. reflexivity.
Qed.
Lemma filterCharacter_asciis f c : is_ascii c = true -> asciis (filterCharacter f c).
Proof.
  intro H. unfold filterCharacter, asciis. destruct (mem _ _); [reflexivity|].
  destruct (negb _); cbn [forallb]; rewrite H; reflexivity.
Qed.
Lemma filtered_ascii n : asciis n ->
  concat (map (filterCharacter lower) n) = concat (map (filterCharacter ascii_lower) n) /\
  asciis (concat (map (filterCharacter ascii_lower) n)).
Proof.
  induction n as [|c n IH]; intro H; [split; reflexivity|].
  unfold asciis in H. cbn in H. apply andb_prop in H as [Hc H]. destruct (IH H) as (E & A).
  cbn [map concat]. rewrite E, filterCharacter_ascii by exact Hc. split; [reflexivity|].
  apply asciis_app. split; [apply filterCharacter_asciis; exact Hc|exact A].
Qed.
Lemma asciis_slice k s : asciis s -> asciis (slice_to k s).
Proof. intro H. rewrite asciis_In in *. intros x Hx. apply H. eapply slice_to_In; exact Hx. Qed.
Lemma asciis_parts c s q : asciis s -> In q (split1 c s) -> asciis q.
Proof. intros H Hq. rewrite asciis_In in *. intros x Hx. apply H. eapply In_split1; eauto. Qed.
Lemma escapePart_ascii q : asciis q -> escapePart lower q = escapePart ascii_lower q.
Proof. intro H. unfold escapePart. rewrite lower_asc by exact H. reflexivity. Qed.
Lemma escapePart_asciis f q : asciis q -> asciis (escapePart f q).
Proof. intro H. unfold escapePart. destruct (mem _ _); [|exact H]. unfold asciis in *. cbn. exact H. Qed.
Lemma asciis_join c l : is_ascii c = true -> (forall q, In q l -> asciis q) -> asciis (join [c] l).
Proof.
  intros Hc H. apply asciis_In. intros x Hx. apply In_join in Hx. destruct Hx as [Hx|(q & Hq & Hx)].
  - destruct Hx as [<-|[]]. exact Hc.
  - exact (proj1 (asciis_In q) (H q Hq) x Hx).
Qed.
Lemma cleanName_ascii p s n : asciis n ->
  cleanName lower p s n = cleanName ascii_lower p s n /\ asciis (cleanName ascii_lower p s n).
Proof.
  intro H. destruct (filtered_ascii n H) as (E & A). unfold cleanName. rewrite E.
  set (cl := slice_to _ _). assert (Acl : asciis cl) by (apply asciis_slice; exact A). split.
  - f_equal. apply map_ext_in. intros q Hq. apply escapePart_ascii. eapply asciis_parts; eauto.
  - apply asciis_join; [reflexivity|]. intros q Hq. apply in_map_iff in Hq as (r & <- & Hr).
    apply escapePart_asciis. eapply asciis_parts; eauto.
Qed.
Lemma clash1Loop_ascii fuel c n ex p s : asciis n -> asciis p -> asciis s ->
  clash1Loop lower fuel c n ex p s = clash1Loop ascii_lower fuel c n ex p s.
Proof.
  intros Hn Hp Hs. revert c; induction fuel as [|fuel IH]; intro c; [reflexivity|].
  cbn [clash1Loop]. rewrite lower_asc, IH; [reflexivity|].
  rewrite !asciis_app. repeat split; try assumption. apply asciis_digits, zfill_digit, str_of_N_digit.
Qed.
Lemma clash2Loop_ascii fuel c M ex p s : asciis p -> asciis s ->
  clash2Loop lower fuel c M ex p s = clash2Loop ascii_lower fuel c M ex p s.
Proof.
  intros Hp Hs. revert c; induction fuel as [|fuel IH]; intro c; [reflexivity|].
  cbn [clash2Loop]. rewrite lower_asc, IH; [reflexivity|].
  rewrite !asciis_app. repeat split; try assumption. apply asciis_digits, str_of_N_digit.
Qed.
Theorem userNameToFileName_ascii name ex p s : asciis name -> asciis p -> asciis s ->
  userNameToFileName lower name ex p s = userNameToFileName ascii_lower name ex p s.
Proof.
  intros Hn Hp Hs. unfold userNameToFileName.
  destruct (replaceInitialPeriod p name) as [n|e] eqn:E; [|reflexivity]. cbn [bind].
  assert (A : asciis n).
  { destruct p; [|inversion E; subst; exact Hn]. destruct name as [|c r]; [discriminate|]. cbn in E.
    unfold asciis in Hn. cbn in Hn. apply andb_prop in Hn as [Hc Hr].
    destruct (N.eqb c period); inversion E; subst; unfold asciis; cbn; rewrite ?Hc; exact Hr. }
  destruct (cleanName_ascii p s n A) as (-> & Ac).
  rewrite lower_asc by (repeat (apply asciis_app; split); assumption).
  destruct (mem _ ex); [|reflexivity]. unfold handleClash1, handleClash2.
  rewrite clash1Loop_ascii; [|destruct (maxFileNameLength <? _)%Z; [apply asciis_slice|]; exact Ac|exact Hp|exact Hs].
  rewrite clash2Loop_ascii by assumption. reflexivity.
Qed.
End Ascii.
