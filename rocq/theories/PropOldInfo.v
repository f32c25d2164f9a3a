(** Property C111: which font info of an older UFO can be read. *)
From Coq Require Import String NArith ZArith Bool QArith Qabs Qround Lqa Lia List Permutation.
From Coq.Floats Require Import SpecFloat.
From Verif Require Import Base PyVal PyText Validators ValidatorsProofs PropValidators FontInfoTables FontInfo FontInfoProofs PropFontInfo PropFontInfoTypes PropFontInfoAccepts PropFontInfo2 PropInfoUpgrade PropInfoDowngrade.
Import ListNotations.
Local Open Scope string_scope.
Local Open Scope list_scope.

(** * The statement *)
(** a value of the type documented for the attribute in UFO 3 *)
Definition typed3 (T : pytext) (a : str) (w : pyval) : Prop := exists name sh, a = u name /\ In (name, sh) documented /\ exactly3 T sh w.
(** each attribute of the version has a value that becomes one of UFO 3 *)
Definition fitsInfo2 (T : pytext) (d : infoT) : Prop :=
  forall a v, In a namesIn2 -> get a d = Some v -> v <> PNone -> exists w, upgradedTo a v w /\ typed3 T a w.
Definition fitsInfo1 (T : pytext) (d : infoT) : Prop :=
  forall a1 a v1, In (a1, a) namesIn1 -> setIn1 d a1 v1 -> exists v2 w, means a1 v1 v2 /\ upgradedTo a v2 w /\ typed3 T a w.
(** the same said of the values of UFO 2 themselves: integers of UFO 3 may be any
    finite number except a float that is whole already (versionMinor: whole and not
    negative), which is kept and then refused; the three that can not be negative
    any finite number; all others are as in UFO 3 *)
Definition aNumber (v : pyval) : Prop := amount v <> None.
Definition wholeF (v : pyval) (P : Z -> Prop) : Prop := exists f z, v = PFloat f /\ isWhole v z /\ P z.
Definition fitsFrom2 (T : pytext) (a : str) (v : pyval) : Prop :=
  (In a integerIn3 -> aNumber v /\ ~ wholeF v (fun _ => True)) /\
  (a = u "versionMinor" -> aNumber v /\ ~ wholeF v (fun z => (0 <= z)%Z)) /\
  (In a nonNegativeIn3 -> aNumber v) /\
  (~ In a integerIn3 -> ~ In a nonNegativeIn3 -> a <> u "versionMinor" -> typed3 T a v).

(** * Proofs *)
Lemma amount_of2 a v w e : numberIn3 a -> upgradedTo a v w -> ~ notAmount v e.
Proof.
  intros N (A & B & C & _) X. assert (exists q, amount v = Some q) as (q & Q) by (destruct N as [N|[N| ->]]; [destruct (A N) as (q & _ & Q & _)|destruct (B N) as (q & _ & Q & _)|destruct (C eq_refl) as (q & _ & Q & _)]; eauto).
  unfold notAmount in X. destruct v as [| | |f| | | | | | |]; try (destruct X as (X & _); congruence). destruct f; try (destruct X as (X & _); congruence). discriminate Q.
Qed.
Lemma once_upgraded a v w : In a namesIn2 -> keysOnce v -> upgradedTo a v w -> keysOnce w.
Proof.
  intros I K (A & B & C & D).
  assert (K' : forall z, keptOr v z w -> keysOnce w) by (intros z [(_ & ->)|(_ & ->)]; [exact K|exact Logic.I]).
  destruct (in_dec (list_eq_dec N.eq_dec) a integerIn3) as [N|N1]; [destruct (A N) as (q & z & _ & _ & X); exact (K' _ X)|].
  destruct (in_dec (list_eq_dec N.eq_dec) a nonNegativeIn3) as [N|N2]; [destruct (B N) as (q & z & _ & _ & X); exact (K' _ X)|].
  destruct (list_eq_dec N.eq_dec a (u "versionMinor")) as [N|N3]; [destruct (C N) as (q & z & _ & _ & _ & X); exact (K' _ X)|].
  rewrite (D N1 N2 N3). exact K.
Qed.
Lemma once_means a1 v1 v2 : keysOnce v1 -> means a1 v1 v2 -> keysOnce v2.
Proof.
  intros K (x & W & A & B & C & D). assert (Kx : keysOnce x) by (destruct v1; cbn [wholeAsInt] in W; try (subst x; exact K); destruct W as [(z & _ & ->)|(_ & _ & ->)]; exact Logic.I).
  destruct (list_eq_dec N.eq_dec a1 (u "fontStyle")) as [N|N1]; [destruct (A N) as (n & s & _ & _ & ->); exact Logic.I|].
  destruct (list_eq_dec N.eq_dec a1 (u "widthName")) as [N|N2]; [destruct (B N) as (n & s & _ & _ & ->); exact Logic.I|].
  destruct (list_eq_dec N.eq_dec a1 (u "msCharSet")) as [N|N3]; [destruct (C N) as (n & s & _ & _ & ->); exact Logic.I|].
  rewrite (D N1 N2 N3). exact Kx.
Qed.
Lemma once_value d a v : keysOnce (asDict d) -> get a d = Some v -> keysOnce v.
Proof. intros K G. apply (keys_in _ (PStr a) v K). apply get_In in G. apply in_map_iff. exists (a, v). split; [reflexivity|exact G]. Qed.
Lemma validated T ver perm d info : ver = 1%Z \/ ver = 2%Z -> readInfo T perm ver false (asDict d) = Ok info ->
  ((exists i, readInfo T perm ver true (asDict d) = Ok i) <-> forall a w, get a info = Some w -> valid3 T a w).
Proof.
  intros V E. pose proof (info_keys T perm ver d info E V) as ND. rewrite readInfo_checked, E. cbn [bind]. split.
  - intros (i & H) a w G. apply validate_3 in H as (_ & F); [|exact ND]. rewrite Forall_forall in F. exact (F (a, w) (get_In _ _ _ G)).
  - intro H. exists info. apply validate_3_ok; [exact ND|]. apply Forall_forall. intros [a w] I. apply H. apply In_get; assumption.
Qed.

(** * C111 *)
Theorem C111_version_2 : forall T perm d, pytext_laws T -> keysOnce (asDict d) ->
  ((exists info, readInfo T perm 2 true (asDict d) = Ok info) <-> fitsInfo2 T d).
Proof.
  intros T perm d L K. destruct (readInfo T perm 2 false (asDict d)) as [info|e] eqn:E.
  - rewrite (validated T 2 perm d info (or_intror eq_refl) E). pose proof (C99_from_version_2 T perm false d info E) as G. split.
    + intros H a v I Gv Nv. pose proof (readInfo_2 _ _ _ _ _ E) as E'.
      assert (In (a, v) (collect namesIn2 (asDict d) [])) as Ic by (apply get_In; apply collected; [exact names2_nodup|split; [exact I|split; [exact Gv|exact Nv]]]).
      destruct (conv23_total _ _ _ a v E' Ic) as (w & C). apply convert23_iff in C as (_ & U); [|exact I].
      exists w. split; [exact U|]. apply (C104_version_3 T a w L); [exact (once_upgraded a v w I (once_value d a v K Gv) U)|].
      apply H. apply G. split; [exact I|]. exists v. split; [exact Gv|]. split; [exact Nv|exact U].
    + intros H a w Gw. pose proof Gw as Gw'. apply G in Gw' as (I & v & Gv & Nv & U). destruct (H a v I Gv Nv) as (w' & U' & X).
      assert (Gx : get a info = Some w') by (apply G; split; [exact I|]; exists v; split; [exact Gv|]; split; [exact Nv|exact U']).
      rewrite Gw in Gx. injection Gx as <-. apply (C104_version_3 T a w L); [exact (once_upgraded a v w I (once_value d a v K Gv) U)|exact X].
  - split; [intros (i & H); rewrite readInfo_checked, E in H; discriminate H|]. intro H. exfalso.
    destruct (proj1 (C99_from_version_2_refused T perm d) e E) as (a & v & I & Gv & Nv & N & X). destruct (H a v I Gv Nv) as (w & U & _). exact (amount_of2 a v w e N U X).
Qed.
Print Assumptions C111_version_2.

(** what the conversion of UFO 1 makes of the attributes *)
Lemma read1_total T perm d info : Permutation (perm fontInfoAttributesVersion1) fontInfoAttributesVersion1 ->
  readInfo T perm 1 false (asDict d) = Ok info ->
  forall a1 a v1, In (a1, a) namesIn1 -> setIn1 d a1 v1 -> exists v2 w, means a1 v1 v2 /\ upgradedTo a v2 w.
Proof.
  intros P H. pose proof (names1_nodup perm P) as NP. destruct (readInfo_1 _ _ _ _ _ H) as (d2 & E2 & E3).
  set (c := collect (perm fontInfoAttributesVersion1) (asDict d) []) in *. assert (Dc : NoDup (keys c)) by (apply collect_keys; constructor).
  assert (Cc : forall a v, In (a, v) c -> In a fontInfoAttributesVersion1 /\ get a d = Some v /\ v <> PNone).
  { intros k v I. apply (collected_none _ d) in I as (I & R); [|exact NP]. split; [exact (Permutation_in _ P I)|exact R]. }
  assert (Nc : forall a v, In (a, v) c -> is_none v = false) by (intros k v I; apply Cc in I as (_ & _ & Nv); destruct v; congruence || reflexivity).
  assert (Ic : incl (keys c) fontInfoAttributesVersion1) by (intros k I; unfold keys in I; apply in_map_iff in I as ([k' v] & <- & I); exact (proj1 (Cc _ _ I))).
  intros a1 a v1 I (G & Nv & Ct). pose proof I as I'. apply names_table in I' as (I1 & ->).
  assert (J : In (a1, v1) c) by (apply get_In; apply collected; [exact NP|]; split; [exact (Permutation_in _ (Permutation_sym P) I1)|split; [exact G|exact Nv]]).
  destruct (conv12_total T c Nc [] d2 a1 v1 E2 J Ct) as (v2 & M).
  assert (G2 : get (to2 a1) d2 = Some v2).
  { apply (conv12_get T c [] d2 Dc Ic Nc E2). left. exists a1, v1. split; [exact J|]. split; [exact Ct|]. split; [reflexivity|exact M]. }
  destruct (conv23_total _ _ _ _ _ E3 (get_In _ _ _ G2)) as (w & C). apply convert23_iff in C as (_ & U); [|exact (in2_of _ _ I)].
  exists v2, w. split; [exact M|exact U].
Qed.
Lemma means_refused a1 v1 v2 e : means a1 v1 v2 -> ~ refused a1 v1 e.
Proof.
  intros M R. pose proof M as (x & Wx & _). unfold refused in R.
  destruct v1 as [|b|z|f| | | | | | |]; try (destruct R as (R & _); exact (R v2 M)).
  destruct f as [s|s| |s m ex]; try (destruct R as (R & _); exact (R v2 M)).
  - destruct Wx as [(z & (q & C & _) & _)|(C & _)]; [discriminate|exact (C eq_refl)].
  - destruct Wx as [(z & (q & C & _) & _)|(C & _)]; [discriminate|exact (C eq_refl)].
Qed.
Lemma names1_fun a1 a a1' : In (a1, a) namesIn1 -> In (a1', a) namesIn1 -> a1 = a1'.
Proof. intros I J. apply names_table in I as (I & ->). apply names_table in J as (J & E). exact (to2_inj a1 a1' I J E). Qed.
Theorem C111_version_1 : forall T perm d, pytext_laws T -> keysOnce (asDict d) ->
  Permutation (perm fontInfoAttributesVersion1) fontInfoAttributesVersion1 ->
  ((exists info, readInfo T perm 1 true (asDict d) = Ok info) <-> fitsInfo1 T d).
Proof.
  intros T perm d L K P.
  assert (Once : forall a1 a v1 v2 w, In (a1, a) namesIn1 -> setIn1 d a1 v1 -> means a1 v1 v2 -> upgradedTo a v2 w -> keysOnce w).
  { intros a1 a v1 v2 w I (G & _) M U. apply (once_upgraded a v2 w (in2_of _ _ I)); [|exact U]. exact (once_means _ _ _ (once_value d a1 v1 K G) M). }
  destruct (readInfo T perm 1 false (asDict d)) as [info|e] eqn:E.
  - rewrite (validated T 1 perm d info (or_introl eq_refl) E). pose proof (C99_from_version_1 T perm false d info P E) as G. split.
    + intros H a1 a v1 I S1. destruct (read1_total T perm d info P E a1 a v1 I S1) as (v2 & w & M & U). exists v2, w. split; [exact M|]. split; [exact U|].
      apply (C104_version_3 T a w L); [exact (Once _ _ _ _ _ I S1 M U)|]. apply H. apply G. exists a1, v1, v2. split; [exact I|]. split; [exact S1|]. split; [exact M|exact U].
    + intros H a w Gw. pose proof Gw as Gw'. apply G in Gw' as (a1 & v1 & v2 & I & S1 & M & U). destruct (H a1 a v1 I S1) as (v2' & w' & M' & U' & X).
      assert (Gx : get a info = Some w') by (apply G; exists a1, v1, v2'; split; [exact I|]; split; [exact S1|]; split; [exact M'|exact U']).
      rewrite Gw in Gx. injection Gx as <-. apply (C104_version_3 T a w L); [exact (Once _ _ _ _ _ I S1 M U)|exact X].
  - split; [intros (i & H); rewrite readInfo_checked, E in H; discriminate H|]. intro H. exfalso.
    destruct (proj1 (C99_from_version_1_refused T perm d P) e E) as (a1 & a & v1 & I & S1 & R).
    destruct (H a1 a v1 I S1) as (v2 & w & M & U & _). destruct R as [R|(v2' & M' & N & X)]; [exact (means_refused _ _ _ _ M R)|].
    assert (Nv : is_none v1 = false) by (destruct S1 as (_ & Nv & _); destruct v1; congruence || reflexivity).
    assert (Q : convertValue1To2 a1 v1 = Ok (to2 a1, v2)) by (apply convert12_iff; [exact Nv|split; [reflexivity|exact M]]).
    assert (Q' : convertValue1To2 a1 v1 = Ok (to2 a1, v2')) by (apply convert12_iff; [exact Nv|split; [reflexivity|exact M']]).
    rewrite Q in Q'. apply Ok_inj in Q'. injection Q' as <-. exact (amount_of2 a v2 w e N U X).
Qed.
Print Assumptions C111_version_1.

(** ** The values of UFO 2 *)
Lemma typed_as T a sh w : shapeOf a = Some sh -> (forall n s, In (n, s) documented -> u n = a -> exactly3 T s w <-> exactly3 T sh w) /\ (typed3 T a w <-> exactly3 T sh w).
Proof.
  intro S1. assert (A : forall n s, In (n, s) documented -> u n = a -> s = sh) by (intros n s J E; apply shape_unique in J; rewrite E, S1 in J; injection J as <-; reflexivity).
  split; [intros n s J E; rewrite (A n s J E); reflexivity|]. split.
  - intros (n & s & E & J & X). rewrite (A n s J (eq_sym E)) in X. exact X.
  - intro X. unfold shapeOf in S1. destruct (find _ documented) as [[n s]|] eqn:F; [|discriminate]. apply find_some in F as (F & E). cbn [fst] in E. apply (proj1 (eqb_eq _ _)) in E.
    injection S1 as <-. exists n, s. split; [symmetry; exact E|]. split; [exact F|exact X].
Qed.
Lemma typed_integer T a w : In a integerIn3 -> (typed3 T a w <-> exists z, intOf w z).
Proof.
  intro I. assert (A : forallb (fun a => match shapeOf a with Some Integer => true | _ => false end) integerIn3 = true) by (vm_compute; reflexivity).
  rewrite forallb_forall in A. specialize (A a I). destruct (shapeOf a) as [sh|] eqn:E; [|discriminate]. destruct sh; try discriminate A. exact (proj2 (typed_as T a Integer w E)).
Qed.
Lemma typed_nonneg T a w : In a nonNegativeIn3 -> (typed3 T a w <-> isNum w /\ num_lt w (PInt 0) = false).
Proof.
  intro I. assert (A : forallb (fun a => match shapeOf a with Some NonNegativeNumber => true | _ => false end) nonNegativeIn3 = true) by (vm_compute; reflexivity).
  rewrite forallb_forall in A. specialize (A a I). destruct (shapeOf a) as [sh|] eqn:E; [|discriminate]. destruct sh; try discriminate A. exact (proj2 (typed_as T a NonNegativeNumber w E)).
Qed.
Lemma typed_minor T w : typed3 T (u "versionMinor") w <-> exists z, intOf w z /\ (0 <= z)%Z.
Proof. apply (proj2 (typed_as T (u "versionMinor") NonNegative w ltac:(vm_compute; reflexivity))). Qed.
Lemma number_rounds v : aNumber v -> exists q z, amount v = Some q /\ nearest q z.
Proof.
  intro F. pose proof (no_round v) as N. destruct (int_round v) as [z|e] eqn:E; [apply round_nearest in E as (q & A & B); exists q, z; auto|].
  exfalso. destruct (int_abs v) as [z|e'] eqn:E'; [exact N|]. destruct N as (_ & N & _). unfold notAmount in N. unfold aNumber in F.
  destruct v as [| | |f| | | | | | |]; try (destruct N as (N & _); exact (F N)). destruct f; try (destruct N as (N & _); exact (F N)). exact (F eq_refl).
Qed.
Lemma number_floors v : aNumber v -> exists q z, amount v = Some q /\ (inject_Z z <= Qabs q)%Q /\ (Qabs q < inject_Z (z + 1))%Q.
Proof.
  intro F. destruct (number_rounds v F) as (q & z & A & B). pose proof (no_round v) as N. rewrite (proj2 (round_nearest v z)) in N by eauto.
  destruct (int_abs v) as [z'|e] eqn:E; [|destruct N]. apply abs_floor in E as (q' & A' & B'). exists q', z'. auto.
Qed.
Lemma number_isNum v : aNumber v -> isNum v.
Proof. unfold aNumber. destruct v; intro F; try (exfalso; exact (F eq_refl)); unfold isNum; eauto. Qed.
Lemma number_int v : aNumber v -> (forall f, v <> PFloat f) -> exists z, intOf v z.
Proof. intros F N. destruct (number_isNum v F) as [(z & ->)|[(b & ->)|(f & ->)]]; [exists z; left; reflexivity|eexists; right; exists b; split; reflexivity|destruct (N f eq_refl)]. Qed.
Lemma intOf_whole v z : intOf v z -> isWhole v z.
Proof. intros [->|(b & -> & ->)]; eexists; (split; [reflexivity|reflexivity]). Qed.
Lemma keptOr_ex v z : exists w, keptOr v z w.
Proof. exists (if py_eq (PInt z) v then v else PInt z). apply kept_eq. reflexivity. Qed.
Lemma lists_apart a : (In a integerIn3 -> ~ In a nonNegativeIn3 /\ a <> u "versionMinor") /\ (In a nonNegativeIn3 -> a <> u "versionMinor").
Proof.
  assert (A : forallb (fun a => negb (mem a nonNegativeIn3) && negb (eqb a (u "versionMinor"))) integerIn3 = true) by (vm_compute; reflexivity).
  assert (B : mem (u "versionMinor") nonNegativeIn3 = false) by (vm_compute; reflexivity). rewrite forallb_forall in A. split.
  - intro I. apply A in I. apply andb_true_iff in I as (X & Y). split.
    + destruct (mem_spec a nonNegativeIn3); [discriminate|assumption].
    + destruct (eqb_spec a (u "versionMinor")); [discriminate|assumption].
  - intros I ->. destruct (mem_spec (u "versionMinor") nonNegativeIn3); [discriminate|contradiction].
Qed.
Lemma fits_iff T a v : (exists w, upgradedTo a v w /\ typed3 T a w) <-> fitsFrom2 T a v.
Proof.
  destruct (lists_apart a) as (L1 & L2). destruct (mem_spec a integerIn3) as [I|N1].
  - destruct (L1 I) as (N2 & N3). split.
    + intros (w & (A & _) & X). apply (typed_integer T a w I) in X as (x & X). destruct (A I) as (q & z & Q & R & K). unfold fitsFrom2. split; [|split; [intro C; contradiction|split; [intro C; contradiction|intro C; contradiction]]].
      intros _. split; [unfold aNumber; rewrite Q; discriminate|]. intros (f & z' & -> & (q' & Q' & E) & _). rewrite Q in Q'. injection Q' as <-.
      destruct K as [(_ & ->)|(NK & _)]; [destruct X as [X|(b & X & _)]; discriminate|]. apply NK. exists q. split; [exact Q|].
      destruct (whole_number (PFloat f) z' (ex_intro _ q (conj Q E))) as (_ & q2 & Q2 & R2). rewrite Q in Q2. injection Q2 as <-. rewrite (nearest_unique q z z' R R2). exact E.
    + intros (A & _). destruct (A I) as (F & NW). destruct (number_rounds v F) as (q & z & Q & R). destruct (keptOr_ex v z) as (w & K). exists w. split.
      * unfold upgradedTo. split; [intros _; exists q, z; auto|]. split; [intro C; contradiction|]. split; [intro C; contradiction|intro C; contradiction].
      * apply (typed_integer T a w I). destruct K as [(W & ->)|(_ & ->)]; [|exists z; left; reflexivity]. apply number_int; [exact F|]. intros f ->. apply NW. exists f, z. auto.
  - destruct (mem_spec a nonNegativeIn3) as [I|N2].
    + pose proof (L2 I) as N3. split.
      * intros (w & (_ & A & _) & _). destruct (A I) as (q & z & Q & _). unfold fitsFrom2. split; [intro C; contradiction|]. split; [intro C; contradiction|]. split; [|intros _ C; contradiction].
        intros _. unfold aNumber. rewrite Q. discriminate.
      * intros (_ & _ & A & _). destruct (number_rounds v (A I)) as (q & z & Q & R). destruct (keptOr_ex v (Z.abs z)) as (w & K). exists w. split.
        -- unfold upgradedTo. split; [intro C; contradiction|]. split; [intros _; exists q, z; auto|]. split; [intro C; contradiction|intros _ C; contradiction].
        -- apply (typed_nonneg T a w I). destruct K as [(W & ->)|(_ & ->)].
           ++ split; [exact (number_isNum v (A I))|]. apply eq_whole in W. exact (num_lt_whole (Z.abs z) v W (Z.abs_nonneg z)).
           ++ split; [left; eexists; reflexivity|]. rewrite num_lt_int. apply Z.ltb_ge. apply Z.abs_nonneg.
    + destruct (eqb_spec a (u "versionMinor")) as [->|N3].
      * split.
        -- intros (w & (_ & _ & A & _) & X). apply typed_minor in X as (x & X & Hx). destruct (A eq_refl) as (q & z & Q & R1 & R2 & K). unfold fitsFrom2. split; [intro C; contradiction|]. split; [|split; [intro C; contradiction|intros _ _ C; contradiction]].
           intros _. split; [unfold aNumber; rewrite Q; discriminate|]. intros (f & z' & -> & (q' & Q' & E) & Hz). rewrite Q in Q'. injection Q' as <-.
           destruct K as [(_ & ->)|(NK & _)]; [destruct X as [X|(b & X & _)]; discriminate|]. apply NK. exists q. split; [exact Q|].
           assert (Qabs q == inject_Z z')%Q as EA by (rewrite E; unfold Qabs, inject_Z; rewrite Z.abs_eq by exact Hz; reflexivity).
           rewrite (floor_unique (Qabs q) z z' R1 R2); [exact E|rewrite EA; apply Qle_refl|]. rewrite EA. rewrite <- Zlt_Qlt. lia.
        -- intros (_ & A & _). destruct (A eq_refl) as (F & NW). destruct (number_floors v F) as (q & z & Q & R1 & R2). destruct (keptOr_ex v z) as (w & K). exists w. split.
           ++ unfold upgradedTo. split; [intro C; contradiction|]. split; [intro C; contradiction|]. split; [intros _; exists q, z; auto|intros _ _ C; contradiction].
           ++ assert (0 <= z)%Z as Hz. { pose proof (Qabs_nonneg q) as P. pose proof (Qle_lt_trans _ _ _ P R2) as P'. change 0%Q with (inject_Z 0) in P'. rewrite <- Zlt_Qlt in P'. lia. }
              apply typed_minor. destruct K as [(W & ->)|(_ & ->)]; [|exists z; split; [left; reflexivity|exact Hz]].
              destruct (number_int v F) as (x & X); [intros f ->; apply NW; exists f, z; auto|]. exists x. split; [exact X|]. rewrite (isWhole_unique v x z (intOf_whole v x X) W). exact Hz.
      * split.
        -- intros (w & (_ & _ & _ & A) & X). rewrite (A N1 N2 N3) in X. unfold fitsFrom2. split; [intro C; contradiction|]. split; [intro C; contradiction|]. split; [intro C; contradiction|]. intros _ _ _. exact X.
        -- intros (_ & _ & _ & A). exists v. split; [|exact (A N1 N2 N3)]. unfold upgradedTo. split; [intro C; contradiction|]. split; [intro C; contradiction|]. split; [intro C; contradiction|]. intros _ _ _. reflexivity.
Qed.
Theorem C111_values : forall T perm d, pytext_laws T -> keysOnce (asDict d) ->
  ((exists info, readInfo T perm 2 true (asDict d) = Ok info) <->
   forall a v, In a namesIn2 -> get a d = Some v -> v <> PNone -> fitsFrom2 T a v).
Proof.
  intros T perm d L K. rewrite (C111_version_2 T perm d L K). unfold fitsInfo2. split; intros H a v I G N; specialize (H a v I G N).
  - apply fits_iff. exact H.
  - apply fits_iff. exact H.
Qed.
Print Assumptions C111_values.
Theorem C111_values_1 : forall T perm d, pytext_laws T -> keysOnce (asDict d) ->
  Permutation (perm fontInfoAttributesVersion1) fontInfoAttributesVersion1 ->
  ((exists info, readInfo T perm 1 true (asDict d) = Ok info) <->
   forall a1 a v1, In (a1, a) namesIn1 -> setIn1 d a1 v1 -> exists v2, means a1 v1 v2 /\ fitsFrom2 T a v2).
Proof.
  intros T perm d L K P. rewrite (C111_version_1 T perm d L K P). unfold fitsInfo1. split; intros H a1 a v1 I S1; specialize (H a1 a v1 I S1).
  - destruct H as (v2 & w & M & U & X). exists v2. split; [exact M|]. apply fits_iff. exists w. auto.
  - destruct H as (v2 & M & F). apply fits_iff in F as (w & U & X). exists v2, w. auto.
Qed.
Print Assumptions C111_values_1.
(** an ascender of 750.0 is refused in a UFO 2, one of 750.5 becomes 750 and one
    of 750 stays; in a UFO 1 whole floats are integers already *)
Definition half (m : positive) : pyval := PFloat (S754_finite false m (-1)).
Definition isOk {A} (r : res A) : bool := match r with Ok _ => true | Err _ => false end.
Definition hhea (v : pyval) : infoT := [(u "familyName", PStr (u "F")); (u "openTypeHheaAscender", v); (u "unknown", PInt 1)].
Example C111_case :
  isOk (readInfo asciiText (fun l => l) 2 true (asDict (hhea (half 1500)))) = false /\
  readInfo asciiText (fun l => l) 2 true (asDict (hhea (half 1501))) = Ok [(u "familyName", PStr (u "F")); (u "openTypeHheaAscender", PInt 750)] /\
  readInfo asciiText (fun l => l) 2 true (asDict (hhea (PInt 750))) = Ok [(u "familyName", PStr (u "F")); (u "openTypeHheaAscender", PInt 750)] /\
  isOk (readInfo asciiText (fun l => l) 2 true (asDict (hhea (PStr (u "750"))))) = false /\
  fitsFrom2 asciiText (u "openTypeHheaAscender") (half 1501) /\
  ~ fitsFrom2 asciiText (u "openTypeHheaAscender") (half 1500) /\
  readInfo asciiText (fun l => l) 1 true (asDict [(u "versionMinor", half 4); (u "widthName", PStr (u "Normal")); (u "weightValue", PInt (-1))]) =
    Ok [(u "versionMinor", PInt 2); (u "openTypeOS2WidthClass", PInt 5)] /\
  isOk (readInfo asciiText (fun l => l) 1 true (asDict [(u "widthName", PStr (u "Wide"))])) = false.
Proof.
  split; [vm_compute; reflexivity|]. split; [vm_compute; reflexivity|]. split; [vm_compute; reflexivity|]. split; [vm_compute; reflexivity|]. split; [|split; [|split; vm_compute; reflexivity]].
  - apply fits_iff. exists (PInt 750). assert (C : convertValue2To3 (u "openTypeHheaAscender") (half 1501) = Ok (u "openTypeHheaAscender", PInt 750)) by (vm_compute; reflexivity).
    assert (I : In (u "openTypeHheaAscender") namesIn2) by (assert (B : mem (u "openTypeHheaAscender") namesIn2 = true) by (vm_compute; reflexivity); destruct (mem_spec (u "openTypeHheaAscender") namesIn2) as [I|]; [exact I|discriminate B]).
    apply convert23_iff in C as (_ & U); [|exact I]. split; [exact U|]. apply typed_integer; [left; reflexivity|]. exists 750%Z. left. reflexivity.
  - intros (A & _). destruct (A (or_introl eq_refl)) as (_ & N). apply N. exists (S754_finite false 1500 (-1)), 750%Z. split; [reflexivity|]. split; [|exact Logic.I]. eexists. split; [reflexivity|reflexivity].
Qed.
