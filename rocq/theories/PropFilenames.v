(** Properties C01-C06: file name generation (filenames.py). *)
From Coq Require Import String NArith ZArith Bool Lia List.
From Verif Require Import Base LowerLaws Filenames FilenamesProofs.
Import ListNotations.
Local Open Scope string_scope.
Local Open Scope list_scope.

(** ** Specification vocabulary *)
(** the documented illegal characters *)
Definition spec_illegal (c : N) : Prop :=
  (c < 32)%N \/ c = 127%N \/ In c (u """*+/:<>?[\]|").
(** the documented reserved names, lower case *)
Definition spec_reserved : list str :=
  map u ["con"; "prn"; "aux"; "clock$"; "nul"; "a:-z:"; "com1"; "com2"; "com3"; "com4"; "lpt1"; "lpt2"; "lpt3"].
(** [name] converted; the file name is prefix ++ body ++ suffix *)
Definition dot : N := 46.

Lemma illegal_agrees c : In c illegalCharacters <-> spec_illegal c.
Proof.
  unfold illegalCharacters, spec_illegal. rewrite !in_app_iff, in_map_iff. split.
  - intros [H|[[<-|[]]|[(i & <- & Hi)|[<-|[]]]]]; [auto|left; reflexivity|left|auto].
    apply in_seq in Hi. lia.
  - intros [H|[->|H]]; [|right; right; right; left; reflexivity|auto].
    destruct (N.eq_dec c 0) as [->|Hz]; [right; left; left; reflexivity|].
    right; right; left. exists (N.to_nat c). split; [lia|]. apply in_seq. lia.
Qed.
Lemma reserved_agrees s : In s reservedFileNames <-> In s spec_reserved.
Proof. unfold reservedFileNames, spec_reserved. cbn [map In]. tauto. Qed.

(** ** C01 *)
Theorem C01_no_clash : forall lower userName existing prefix suffix f,
  userNameToFileName lower userName existing prefix suffix = Ok f -> ~ In (lower f) existing.
Proof. exact fresh. Qed.
Print Assumptions C01_no_clash.
Example C01_case :
  userNameToFileName ascii_lower (u "A") [u "a_.glif"; u "a_000000000000001.glif"] [] (u ".glif")
  = Ok (u "A_000000000000002.glif").
Proof. vm_compute. reflexivity. Qed.

(** ** C02 *)
Theorem C02_legal_characters : forall lower userName existing prefix suffix f,
  userNameToFileName lower userName existing prefix suffix = Ok f ->
  exists body, f = prefix ++ body ++ suffix /\ forall c, In c body -> ~ spec_illegal c.
Proof.
  intros lower n ex p s f H. apply legal_result in H as (b & E & L). exists b. split; [exact E|].
  intros c Hc I. rewrite Forall_forall in L. apply (L c Hc). apply illegal_agrees. exact I.
Qed.
Print Assumptions C02_legal_characters.
Example C02_case :
  userNameToFileName ascii_lower (u "a*b:C/d""e") [] (u "p.") [] = Ok (u "p.a_b_C__d_e").
Proof. vm_compute. reflexivity. Qed.

(** ** C03: false as stated (reserved parts are escaped after clipping) *)
Theorem C03_length_refuted : forall lower, lower_laws lower ->
  exists userName f, userNameToFileName lower userName [] [] (u ".glif") = Ok f /\ length f = 317.
Proof.
  intros lower laws.
  exists (concat (repeat (u "con.") 62) ++ u "co"). eexists. split.
  - rewrite userNameToFileName_ascii; [|exact laws|vm_compute; reflexivity..]. vm_compute. reflexivity.
  - vm_compute. reflexivity.
Qed.
Print Assumptions C03_length_refuted.
(** What holds: the excess is at most the number of escaped reserved parts.
    Missing for the full statement: the case of reserved parts in a long name. *)
Definition spec_escaped (lower : str -> str) (part : str) : bool :=
  match part with c :: r => N.eqb c 95 && mem (lower r) spec_reserved | [] => false end.
Theorem C03_length_partial : forall lower userName existing prefix suffix f,
  (length prefix + length suffix + 15 <= 255)%nat ->
  userNameToFileName lower userName existing prefix suffix = Ok f ->
  exists body, f = prefix ++ body ++ suffix /\
    length f <= 255 + length (filter (spec_escaped lower) (split1 dot body)).
Proof.
  intros lower n ex p s f HL H. apply length_result in H as (b & E & L); [|exact HL]. exists b. split; [exact E|].
  replace (filter (spec_escaped lower) (split1 dot b)) with (filter (escaped lower) (split1 period b)); [exact L|].
  apply filter_ext. intros [|c r]; [reflexivity|]. unfold escaped, spec_escaped. f_equal.
  apply eq_true_iff_eq. rewrite !mem_In. apply reserved_agrees.
Qed.
Print Assumptions C03_length_partial.
Example C03_case : exists f,
  userNameToFileName ascii_lower (repeat 97%N 300) [repeat 97%N 250 ++ u ".glif"] [] (u ".glif") = Ok f /\ length f = 255.
Proof. eexists. split; vm_compute; reflexivity. Qed.

(** ** C04 *)
Theorem C04_not_reserved : forall lower, lower_laws lower ->
  forall userName existing prefix suffix f,
  userNameToFileName lower userName existing prefix suffix = Ok f ->
  exists body, f = prefix ++ body ++ suffix /\
    forall part, In part (split1 dot body) -> ~ In (lower part) spec_reserved.
Proof.
  intros lower laws n ex p s f H. apply (not_reserved_result lower laws) in H as (b & E & R).
  exists b. split; [exact E|]. intros q Hq I. apply (R q Hq). apply reserved_agrees. exact I.
Qed.
Print Assumptions C04_not_reserved.
Theorem C04_not_hidden : forall lower userName existing suffix f,
  userName <> [] -> (length suffix < 255)%nat ->
  userNameToFileName lower userName existing [] suffix = Ok f ->
  exists c r, f = c :: r /\ c <> dot.
Proof. exact not_hidden. Qed.
Print Assumptions C04_not_hidden.
Example C04_case :
  userNameToFileName ascii_lower (u "alt.con.Prn") [] [] [] = Ok (u "alt._con.P_rn") /\
  userNameToFileName ascii_lower (u ".notdef") [u "_notdef.glif"] [] (u ".glif") = Ok (u "_notdef000000000000001.glif").
Proof. split; vm_compute; reflexivity. Qed.

(** ** C05 *)
Theorem C05_terminates : forall lower, lower_laws lower ->
  forall userName existing prefix suffix,
  userNameToFileName lower userName existing prefix suffix <> Err OutOfFuel.
Proof. exact no_out_of_fuel. Qed.
Print Assumptions C05_terminates.
Theorem C05_always_succeeds : forall lower, lower_laws lower ->
  forall userName existing prefix suffix,
  (userName <> [] \/ prefix <> []) -> (N.of_nat (length existing) < 10 ^ 15 - 2)%N ->
  exists f, userNameToFileName lower userName existing prefix suffix = Ok f.
Proof. exact always_found. Qed.
Print Assumptions C05_always_succeeds.
(** the excluded case: an empty user name without prefix raises IndexError *)
Theorem C05_empty_name_refuted : forall lower existing suffix,
  userNameToFileName lower [] existing [] suffix = Err IndexError.
Proof. reflexivity. Qed.
Print Assumptions C05_empty_name_refuted.
Example C05_case : lower_laws ascii_lower /\ exists f, userNameToFileName ascii_lower [233%N] [u "x"] [] [] = Ok f.
Proof. split; [exact ascii_lower_laws|]. eexists. vm_compute. reflexivity. Qed.

(** ** C06 *)
(** names converted one after the other, the results being added to [existing] *)
Inductive generated (lower : str -> str) (prefix suffix : str) : list str -> list str -> list str -> Prop :=
| gen_nil existing : generated lower prefix suffix existing [] []
| gen_cons existing name names f files :
    userNameToFileName lower name existing prefix suffix = Ok f ->
    generated lower prefix suffix (lower f :: existing) names files ->
    generated lower prefix suffix existing (name :: names) (f :: files).

Lemma generated_fresh lower p s ex names files : generated lower p s ex names files ->
  NoDup (map lower files) /\ forall x, In x (map lower files) -> ~ In x ex.
Proof.
  induction 1 as [ex|ex name names f files Hf G (IHn & IHf)]; cbn; [split; [constructor|tauto]|].
  apply fresh in Hf. split.
  - constructor; [|exact IHn]. intro I. apply (IHf _ I). left. reflexivity.
  - intros x [<-|Hx]; [exact Hf|]. intro I. apply (IHf x Hx). right. exact I.
Qed.
Theorem C06_batch_distinct : forall lower prefix suffix existing names files,
  generated lower prefix suffix existing names files ->
  NoDup (map lower files) /\ (forall f, In f files -> ~ In (lower f) existing) /\ length files = length names.
Proof.
  intros lower p s ex names files G. destruct (generated_fresh _ _ _ _ _ _ G) as (N & F).
  split; [exact N|]. split; [intros f Hf; apply F; apply in_map; exact Hf|].
  clear N F. induction G; cbn; congruence.
Qed.
Print Assumptions C06_batch_distinct.
Example C06_case : generated ascii_lower [] (u ".glif") []
  (map u ["A"; "a_"; "A*"; "A"]) (map u ["A_.glif"; "a_000000000000001.glif"; "A__.glif"; "A_000000000000002.glif"]).
Proof. repeat (econstructor; [vm_compute; reflexivity|]). constructor. Qed.

(** ** C73 *)
(** what a character becomes, lower-cased *)
Definition lf (c : N) : str := ascii_lower (filterCharacter ascii_lower c).
Definition lfilter (s : str) : str := List.concat (map lf s).
Lemma lf_cases c : (lf c = [95%N] /\ (In c illegalCharacters \/ c = 95%N)) \/
  (lf c = [c] /\ lower_char c = c /\ c <> 95%N) \/ (lf c = [lower_char c; 95%N] /\ (65 <= c <= 90)%N).
Proof.
  unfold lf, filterCharacter. destruct (mem_spec c illegalCharacters) as [I|I]; [left; split; [reflexivity|left; exact I]|].
  destruct (eqb_spec [c] (ascii_lower [c])) as [E|E]; cbn [negb].
  - assert (E' : c = lower_char c) by (cbn in E; congruence). destruct (N.eq_dec c 95) as [->|n]; [left; split; [reflexivity|right; reflexivity]|].
    right. left. split; [cbn; congruence|]. split; [congruence|exact n].
  - right. right. split; [reflexivity|]. cbn in E. unfold lower_char in E.
    destruct (N.leb_spec 65 c), (N.leb_spec c 90); cbn in E; try (exfalso; apply E; reflexivity). lia.
Qed.
Lemma lower_char_upper c : (65 <= c <= 90)%N -> lower_char c = (c + 32)%N.
Proof. intro H. unfold lower_char. destruct (N.leb_spec 65 c), (N.leb_spec c 90); try lia. reflexivity. Qed.
Lemma lower_char_range c : lower_char c = c \/ ((65 <= c <= 90)%N /\ lower_char c = (c + 32)%N).
Proof. unfold lower_char. destruct (N.leb_spec 65 c), (N.leb_spec c 90); cbn; auto. Qed.
(** a difference in case *)
Lemma case_diff a b : lower_char a = lower_char b -> a <> b ->
  ((65 <= a <= 90)%N /\ b = (a + 32)%N) \/ ((65 <= b <= 90)%N /\ a = (b + 32)%N).
Proof. destruct (lower_char_range a) as [->|(Ha & ->)], (lower_char_range b) as [->|(Hb & ->)]; intros E n; [congruence|right|left|]; auto; try lia. Qed.
Lemma illegal_not_letter c : In c illegalCharacters -> ~ (65 <= c <= 90)%N /\ ~ (97 <= c <= 122)%N.
Proof.
  assert (forallb (fun c => negb ((65 <=? c)%N && (c <=? 90)%N) && negb ((97 <=? c)%N && (c <=? 122)%N)) illegalCharacters = true) as F by (vm_compute; reflexivity).
  intro I. rewrite forallb_forall in F. apply F in I.
  destruct (N.leb_spec 65 c), (N.leb_spec c 90), (N.leb_spec 97 c), (N.leb_spec c 122); cbn in I; try discriminate; lia.
Qed.
Lemma lf_upper c : (65 <= c <= 90)%N -> lf c = [(c + 32)%N; 95%N].
Proof.
  intro H. destruct (lf_cases c) as [(_ & [I|I])|[(_ & E & _)|(E & _)]].
  - destruct (illegal_not_letter c I). contradiction.
  - lia.
  - rewrite lower_char_upper in E by exact H. lia.
  - rewrite E, lower_char_upper by exact H. reflexivity.
Qed.
Lemma lf_lower c : (97 <= c <= 122)%N -> lf c = [c].
Proof.
  intro H. destruct (lf_cases c) as [(_ & [I|I])|[(E & _)|(_ & R)]]; [|lia|exact E|lia].
  destruct (illegal_not_letter c I). contradiction.
Qed.
(** after the same text with other case, an additional "_" stays visible *)
Lemma shifted s1 s2 : ascii_lower s1 = ascii_lower s2 ->
  exists k x B1 B2, 95%N :: lfilter s1 = repeat 95%N k ++ 95%N :: B1 /\ lfilter s2 = repeat 95%N k ++ B2 /\
    (B2 = [] \/ B2 = x :: tl B2 /\ x <> 95%N).
Proof.
  revert s2; induction s1 as [|a s1 IH]; intros [|b s2] E; try discriminate.
  - exists 0, 0%N, [], []. repeat split; auto.
  - cbn in E. inversion E as [[E1 E2]]. unfold lfilter. cbn [map List.concat]. fold (lfilter s1). fold (lfilter s2).
    destruct (N.eq_dec a b) as [<-|n].
    + destruct (lf_cases a) as [(-> & _)|[(-> & _ & n)|(-> & R)]].
      * destruct (IH s2 E2) as (k & x & B1 & B2 & A1 & A2 & A3). exists (S k), x, B1, B2. cbn [app repeat].
        rewrite A1, A2. auto.
      * exists 0, a, ([a] ++ lfilter s1), ([a] ++ lfilter s2). cbn. repeat split; auto.
      * rewrite lower_char_upper by exact R. exists 0, (a + 32)%N, ([(a + 32)%N; 95%N] ++ lfilter s1), ([(a + 32)%N; 95%N] ++ lfilter s2). cbn.
        repeat split; auto. right. split; [reflexivity|lia].
    + destruct (case_diff a b E1 n) as [(R & ->)|(R & ->)].
      * rewrite (lf_upper a), (lf_lower (a + 32)) by lia. exists 0, (a + 32)%N, ([(a + 32)%N; 95%N] ++ lfilter s1), ([(a + 32)%N] ++ lfilter s2). cbn.
        repeat split; auto. right. split; [reflexivity|lia].
      * rewrite (lf_upper b), (lf_lower (b + 32)) by lia. exists 0, (b + 32)%N, ([(b + 32)%N] ++ lfilter s1), ([(b + 32)%N; 95%N] ++ lfilter s2). cbn.
        repeat split; auto. right. split; [reflexivity|lia].
Qed.
Lemma first_difference s1 s2 : ascii_lower s1 = ascii_lower s2 -> s1 <> s2 ->
  exists A x B1 B2, x <> 46%N /\ (B2 = [] \/ exists y r, B2 = y :: r /\ y <> 95%N) /\
    ((lfilter s1 = A ++ x :: 95%N :: B1 /\ lfilter s2 = A ++ x :: B2) \/ (lfilter s2 = A ++ x :: 95%N :: B1 /\ lfilter s1 = A ++ x :: B2)).
Proof.
  assert (D : forall a r1 r2, (65 <= a <= 90)%N -> ascii_lower r1 = ascii_lower r2 ->
     exists A x B1 B2, x <> 46%N /\ (B2 = [] \/ exists y r, B2 = y :: r /\ y <> 95%N) /\
     lfilter (a :: r1) = A ++ x :: 95%N :: B1 /\ lfilter ((a + 32)%N :: r2) = A ++ x :: B2).
  { intros a r1 r2 R E. destruct (shifted r1 r2 E) as (k & x & B1 & B2 & A1 & A2 & A3).
    unfold lfilter. cbn [map List.concat]. fold (lfilter r1). fold (lfilter r2). rewrite (lf_upper a), (lf_lower (a + 32)) by lia.
    assert (exists A y, (a + 32)%N :: repeat 95%N k = A ++ [y] /\ y <> 46%N) as (A & y & EA & Hy).
    { destruct k as [|k]; [exists [], (a + 32)%N; split; [reflexivity|lia]|].
      exists ((a + 32)%N :: repeat 95%N k), 95%N. split; [|lia]. cbn [app]. f_equal. exact (repeat_cons k 95%N). }
    exists A, y, B1, B2. split; [exact Hy|]. split; [destruct A3 as [->|(-> & n)]; [left; reflexivity|right; eexists _, _; split; [reflexivity|exact n]]|].
    split.
    - cbn [app]. rewrite A1. change ((a + 32)%N :: repeat 95%N k ++ 95%N :: B1) with (((a + 32)%N :: repeat 95%N k) ++ 95%N :: B1). rewrite EA, <- app_assoc. reflexivity.
    - cbn [app]. rewrite A2. change ((a + 32)%N :: repeat 95%N k ++ B2) with (((a + 32)%N :: repeat 95%N k) ++ B2). rewrite EA, <- app_assoc. reflexivity. }
  revert s2; induction s1 as [|a s1 IH]; intros [|b s2] E n; try discriminate; [congruence|].
  cbn in E. inversion E as [[E1 E2]]. destruct (N.eq_dec a b) as [<-|nab].
  - destruct (IH s2 E2) as (A & x & B1 & B2 & Hx & HB & C); [congruence|].
    exists (lf a ++ A), x, B1, B2. split; [exact Hx|]. split; [exact HB|]. unfold lfilter. cbn [map List.concat]. fold (lfilter s1). fold (lfilter s2).
    destruct C as [(C1 & C2)|(C1 & C2)]; [left|right]; rewrite C1, C2, <- !app_assoc; split; reflexivity.
  - destruct (case_diff a b E1 nab) as [(R & ->)|(R & ->)].
    + destruct (D a s1 s2 R E2) as (A & x & B1 & B2 & Hx & HB & C). exists A, x, B1, B2. auto.
    + destruct (D b s2 s1 R ltac:(symmetry; exact E2)) as (A & x & B1 & B2 & Hx & HB & C). exists A, x, B1, B2. split; [exact Hx|]. split; [exact HB|]. right. exact C.
Qed.
(** escaping of reserved parts keeps the difference *)
Definition esc (p : str) : str := if mem p reservedFileNames then 95%N :: p else p.
Lemma reserved_head p : In p reservedFileNames -> match p with c :: _ => c <> 95%N | [] => False end.
Proof. unfold reservedFileNames. cbn [map In]. intro H. repeat (destruct H as [<-|H]; [vm_compute; discriminate|]). contradiction. Qed.
Lemma esc_head p q : p <> [] -> hd 0%N p = hd 0%N q -> p <> q -> esc p <> esc q.
Proof.
  intros Hp Hh n E. unfold esc in E. destruct (mem_spec p reservedFileNames) as [I|I], (mem_spec q reservedFileNames) as [J|J].
  - inversion E. contradiction.
  - subst q. apply reserved_head in I. destruct p; [contradiction|]. cbn in Hh. congruence.
  - subst p. apply reserved_head in J. destruct q; [contradiction|]. cbn in Hh. congruence.
  - contradiction.
Qed.
Lemma split1_prefix a b : ~ In 46%N a -> exists h t, split1 46 b = h :: t /\ split1 46 (a ++ b) = (a ++ h) :: t.
Proof.
  induction a as [|c a IH]; intro H.
  - destruct (split1 46 b) as [|h t] eqn:E; [destruct (split1_nonempty _ _ E)|]. exists h, t. split; [reflexivity|exact E].
  - destruct IH as (h & t & E1 & E2); [intro I; apply H; right; exact I|]. exists h, t. split; [exact E1|]. cbn [app split1].
    destruct (N.eqb_spec c 46) as [->|n]; [exfalso; apply H; left; reflexivity|]. rewrite E2. reflexivity.
Qed.
Lemma last_part A : exists ps a, ~ In 46%N a /\ forall b, split1 46 (A ++ b) = ps ++ split1 46 (a ++ b).
Proof.
  induction A as [|c A IH].
  - exists [], []. split; [intros []|reflexivity].
  - destruct IH as (ps & a & Ha & H). destruct (N.eq_dec c 46) as [->|n].
    + exists ([] :: ps), a. split; [exact Ha|]. intro b. cbn [app split1]. rewrite N.eqb_refl. rewrite H. reflexivity.
    + destruct ps as [|q ps].
      * exists [], (c :: a). split; [intros [->|I]; [congruence|contradiction]|]. intro b. cbn [app split1].
        destruct (N.eqb_spec c 46) as [|_]; [contradiction|]. rewrite H. reflexivity.
      * exists ((c :: q) :: ps), a. split; [exact Ha|]. intro b. cbn [app split1]. destruct (N.eqb_spec c 46) as [|_]; [contradiction|]. rewrite H. reflexivity.
Qed.
Lemma esc_distinct A x B1 B2 : x <> 46%N -> (B2 = [] \/ exists y r, B2 = y :: r /\ y <> 95%N) ->
  map esc (split1 46 (A ++ x :: 95%N :: B1)) <> map esc (split1 46 (A ++ x :: B2)).
Proof.
  intros Hx HB E. destruct (last_part A) as (ps & a & Ha & H). rewrite !H, !map_app in E. apply app_inv_head in E.
  assert (~ In 46%N (a ++ [x])) as Hax by (rewrite in_app_iff; intros [I|[I|[]]]; congruence).
  replace (a ++ x :: 95%N :: B1) with ((a ++ [x]) ++ 95%N :: B1) in E by (rewrite <- app_assoc; reflexivity).
  replace (a ++ x :: B2) with ((a ++ [x]) ++ B2) in E by (rewrite <- app_assoc; reflexivity).
  destruct (split1_prefix (a ++ [x]) (95%N :: B1) Hax) as (h1 & t1 & S1 & Q1). rewrite Q1 in E.
  destruct (split1_prefix (a ++ [x]) B2 Hax) as (h2 & t2 & S2 & Q2). rewrite Q2 in E. cbn [map] in E. inversion E as [[E1 E2]].
  revert E1. apply esc_head.
  - intro Q. destruct a; discriminate.
  - destruct a; reflexivity.
  - intro Q. apply app_inv_head in Q. subst h2.
    assert (exists r, h1 = 95%N :: r) as (r & ->).
    { cbn in S1. destruct (split1 46 B1); inversion S1; eauto. }
    destruct HB as [->|(y & r' & -> & n)].
    + cbn in S2. discriminate.
    + cbn [split1] in S2. destruct (N.eqb_spec y 46); [discriminate|]. destruct (split1 46 r'); inversion S2; congruence.
Qed.

Lemma lower_escape p : ascii_lower (escapePart ascii_lower p) = esc (ascii_lower p).
Proof. unfold escapePart, esc. destruct (mem (ascii_lower p) reservedFileNames); reflexivity. Qed.
Lemma split1_ascii_lower s : split1 46 (ascii_lower s) = map ascii_lower (split1 46 s).
Proof.
  induction s as [|c s IH]; [reflexivity|]. cbn [ascii_lower map split1]. fold (ascii_lower s).
  assert (N.eqb (lower_char c) 46 = N.eqb c 46) as ->.
  { destruct (lower_char_range c) as [->|(R & ->)]; [reflexivity|]. destruct (N.eqb_spec (c + 32) 46), (N.eqb_spec c 46); try reflexivity; lia. }
  destruct (N.eqb c 46); [cbn; rewrite IH; reflexivity|]. rewrite IH. destruct (split1 46 s); reflexivity.
Qed.
Lemma ascii_lower_app a b : ascii_lower (a ++ b) = ascii_lower a ++ ascii_lower b.
Proof. apply map_app. Qed.
Lemma lower_filter s : ascii_lower (List.concat (map (filterCharacter ascii_lower) s)) = lfilter s.
Proof. induction s as [|c s IH]; [reflexivity|]. cbn [map List.concat]. rewrite ascii_lower_app, IH. reflexivity. Qed.
Lemma filter_length s : length (List.concat (map (filterCharacter ascii_lower) s)) <= 2 * length s.
Proof.
  induction s as [|c s IH]; cbn [map List.concat length]; [lia|]. rewrite app_length.
  unfold filterCharacter at 1. destruct (mem _ _); [|destruct (negb _)]; cbn [length]; lia.
Qed.
Lemma clean_lower prefix suffix n : (length prefix + length suffix + 2 * length n <= 255)%nat ->
  split1 46 (ascii_lower (cleanName ascii_lower prefix suffix n)) = map esc (split1 46 (lfilter n)).
Proof.
  intro L. unfold cleanName, maxFileNameLength. pose proof (filter_length n) as F.
  set (fl := List.concat (map (filterCharacter ascii_lower) n)) in *.
  assert (slice_to (255 - Z.of_nat (length prefix) - Z.of_nat (length suffix)) fl = fl) as ->.
  { unfold slice_to. destruct (Z.leb_spec 0 (255 - Z.of_nat (length prefix) - Z.of_nat (length suffix))); [|lia]. apply firstn_all2. lia. }
  rewrite split1_ascii_lower. unfold period. rewrite split1_join.
  - rewrite map_map, (map_ext _ (fun p => esc (ascii_lower p))) by (intro; apply lower_escape).
    rewrite <- (map_map ascii_lower esc), <- split1_ascii_lower. unfold fl. rewrite lower_filter. reflexivity.
  - intro Q. apply (split1_nonempty 46 fl). destruct (split1 46 fl); [reflexivity|discriminate].
  - intros q Hq. apply in_map_iff in Hq as (r & <- & Hr). apply split1_no_sep in Hr. unfold escapePart.
    destruct (mem _ _); [|exact Hr]. intros [Q|Q]; [discriminate|contradiction].
Qed.
(** names that differ only in case, without clipping *)
Theorem C73_case_kept_apart : forall lower, lower_laws lower ->
  forall name1 name2 prefix suffix f1 f2,
  forallb is_ascii (name1 ++ name2 ++ prefix ++ suffix) = true ->
  length prefix + length suffix + 2 * length name1 <= 255 ->
  ascii_lower name1 = ascii_lower name2 -> name1 <> name2 ->
  userNameToFileName lower name1 [] prefix suffix = Ok f1 ->
  userNameToFileName lower name2 [] prefix suffix = Ok f2 ->
  lower f1 <> lower f2.
Proof.
  intros lower laws n1 n2 p s f1 f2 A L E n H1 H2 F.
  rewrite !forallb_app in A. apply andb_true_iff in A as (A1 & A). apply andb_true_iff in A as (A2 & A). apply andb_true_iff in A as (Ap & As).
  assert (forall name f, forallb is_ascii name = true -> userNameToFileName lower name [] p s = Ok f ->
    exists m, replaceInitialPeriod p name = Ok m /\ f = p ++ cleanName ascii_lower p s m ++ s /\ lower f = ascii_lower f) as R.
  { intros name f An H. rewrite (userNameToFileName_ascii lower laws name [] p s An Ap As) in H.
    unfold userNameToFileName in H. destruct (replaceInitialPeriod p name) as [m|] eqn:Em; [|discriminate]. cbn [bind] in H. cbn in H.
    inversion H; subst. exists m. split; [reflexivity|]. split; [reflexivity|]. apply (lower_ascii lower laws).
    rewrite !forallb_app, Ap, As, andb_true_r. cbn [andb].
    assert (forallb is_ascii m = true) as Am.
    { unfold replaceInitialPeriod in Em. destruct p; [|inversion Em; subst; exact An]. destruct name as [|c r]; [discriminate|].
      cbn in An. apply andb_true_iff in An as (Ac & Ar). destruct (N.eqb c period); inversion Em; subst; cbn; [exact Ar|rewrite Ac; exact Ar]. }
    exact (proj2 (cleanName_ascii lower laws p s m Am)). }
  destruct (R n1 f1 A1 H1) as (m1 & E1 & -> & L1). destruct (R n2 f2 A2 H2) as (m2 & E2 & -> & L2). rewrite L1, L2 in F.
  rewrite !ascii_lower_app in F. apply app_inv_head in F. apply app_inv_tail in F.
  assert (length n1 = length n2) as Ln by (rewrite <- (map_length lower_char n1), <- (map_length lower_char n2); f_equal; exact E).
  assert (ascii_lower m1 = ascii_lower m2 /\ m1 <> m2 /\ length m1 = length n1 /\ length m2 = length n2) as (Em & nm & Lm1 & Lm2).
  { unfold replaceInitialPeriod in E1, E2. destruct p; [|inversion E1; inversion E2; subst; auto].
    destruct n1 as [|a r1], n2 as [|b r2]; try discriminate. inversion E as [[Ea Er]].
    assert (a = 46%N <-> b = 46%N) as D by (destruct (lower_char_range a) as [Qa|(Ra & Qa)], (lower_char_range b) as [Qb|(Rb & Qb)]; lia).
    destruct (N.eqb_spec a period) as [Pa|Pa], (N.eqb_spec b period) as [Pb|Pb]; unfold period in *; inversion E1; inversion E2; subst; try tauto.
    unfold ascii_lower in *. cbn [map length] in *. split; [congruence|]. split; [congruence|]. auto. }
  assert (map esc (split1 46 (lfilter m1)) = map esc (split1 46 (lfilter m2))) as G.
  { rewrite <- (clean_lower p s m1) by lia. rewrite <- (clean_lower p s m2) by lia. rewrite F. reflexivity. }
  destruct (first_difference m1 m2 Em nm) as (A & x & B1 & B2 & Hx & HB & [(C1 & C2)|(C1 & C2)]); rewrite C1, C2 in G.
  - exact (esc_distinct A x B1 B2 Hx HB G).
  - exact (esc_distinct A x B1 B2 Hx HB (eq_sym G)).
Qed.
Print Assumptions C73_case_kept_apart.
Example C73_case :
  map (fun n => userNameToFileName ascii_lower (u n) [] [] (u ".glif")) ["A_a"; "a_A"; "CON.x"; "con.x"] =
  map (fun n => Ok (u n)) ["A__a.glif"; "a_A_.glif"; "C_O_N_.x.glif"; "_con.x.glif"].
Proof. vm_compute. reflexivity. Qed.
