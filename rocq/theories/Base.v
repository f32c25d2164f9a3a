(** Python basics shared by all models: strings, results, slicing, dictionaries.

    Python text strings are lists of code points ([str]).  Everything in this
    file models python built-ins, not ufoLib code. *)
From Coq Require Import String Ascii NArith ZArith Bool Lia Decimal DecimalN DecimalPos DecimalFacts.
From Coq Require Import List Permutation.
Import ListNotations.

(** * Boolean equality *)
Class Eqb (A : Type) := { eqb : A -> A -> bool; eqb_spec : forall x y, reflect (x = y) (eqb x y) }.

Lemma eqb_refl {A} `{Eqb A} (x : A) : eqb x x = true.
Proof. destruct (eqb_spec x x); congruence. Qed.
Lemma eqb_eq {A} `{Eqb A} (x y : A) : eqb x y = true <-> x = y.
Proof. destruct (eqb_spec x y); split; congruence. Qed.
Lemma eqb_neq {A} `{Eqb A} (x y : A) : eqb x y = false <-> x <> y.
Proof. destruct (eqb_spec x y); split; congruence. Qed.
Lemma eq_decide {A} `{Eqb A} (x y : A) : {x = y} + {x <> y}.
Proof. destruct (eqb_spec x y); [left|right]; assumption. Qed.

#[global] Instance Eqb_N : Eqb N := {| eqb := N.eqb; eqb_spec := N.eqb_spec |}.
#[global] Instance Eqb_Z : Eqb Z := {| eqb := Z.eqb; eqb_spec := Z.eqb_spec |}.
#[global] Instance Eqb_nat : Eqb nat := {| eqb := Nat.eqb; eqb_spec := Nat.eqb_spec |}.
#[global] Instance Eqb_bool : Eqb bool := {| eqb := Bool.eqb; eqb_spec := Bool.eqb_spec |}.

Fixpoint list_eqb {A} `{Eqb A} (x y : list A) : bool :=
  match x, y with
  | [], [] => true
  | a :: x', b :: y' => eqb a b && list_eqb x' y'
  | _, _ => false
  end.
Lemma list_eqb_spec {A} `{Eqb A} (x y : list A) : reflect (x = y) (list_eqb x y).
Proof.
  revert y; induction x as [|a x IH]; intros [|b y]; cbn; try (constructor; congruence).
  destruct (eqb_spec a b) as [->|n]; cbn; [|constructor; congruence].
  destruct (IH y) as [->|n]; constructor; congruence.
Qed.
#[global] Instance Eqb_list {A} `{Eqb A} : Eqb (list A) := {| eqb := list_eqb; eqb_spec := list_eqb_spec |}.

Definition prod_eqb {A B} `{Eqb A} `{Eqb B} (x y : A * B) : bool := eqb (fst x) (fst y) && eqb (snd x) (snd y).
Lemma prod_eqb_spec {A B} `{Eqb A} `{Eqb B} (x y : A * B) : reflect (x = y) (prod_eqb x y).
Proof.
  destruct x as [a b], y as [c d]; unfold prod_eqb; cbn.
  destruct (eqb_spec a c) as [->|]; cbn; [|constructor; congruence].
  destruct (eqb_spec b d) as [->|]; constructor; congruence.
Qed.
#[global] Instance Eqb_prod {A B} `{Eqb A} `{Eqb B} : Eqb (A * B) := {| eqb := prod_eqb; eqb_spec := prod_eqb_spec |}.

Definition option_eqb {A} `{Eqb A} (x y : option A) : bool :=
  match x, y with Some a, Some b => eqb a b | None, None => true | _, _ => false end.
Lemma option_eqb_spec {A} `{Eqb A} (x y : option A) : reflect (x = y) (option_eqb x y).
Proof.
  destruct x as [a|], y as [b|]; cbn; try (constructor; congruence).
  destruct (eqb_spec a b) as [->|]; constructor; congruence.
Qed.
#[global] Instance Eqb_option {A} `{Eqb A} : Eqb (option A) := {| eqb := option_eqb; eqb_spec := option_eqb_spec |}.

(** python [x in l] *)
Definition mem {A} `{Eqb A} (x : A) (l : list A) : bool := existsb (eqb x) l.
Lemma mem_spec {A} `{Eqb A} (x : A) l : reflect (In x l) (mem x l).
Proof.
  unfold mem; destruct (existsb _ l) eqn:E; constructor.
  - apply existsb_exists in E as (y & Hy & E). apply eqb_eq in E as ->. exact Hy.
  - intro Hx. assert (existsb (eqb x) l = true); [|congruence].
    apply existsb_exists. exists x. split; [exact Hx | apply eqb_refl].
Qed.
Lemma mem_In {A} `{Eqb A} (x : A) l : mem x l = true <-> In x l.
Proof. destruct (mem_spec x l); split; (auto || congruence). Qed.
Lemma mem_nIn {A} `{Eqb A} (x : A) l : mem x l = false <-> ~ In x l.
Proof. destruct (mem_spec x l); split; (auto || congruence || tauto). Qed.

Arguments mem : simpl never.
Arguments eqb : simpl never.

(** duplicate test, [len(set(l)) != len(l)] *)
Fixpoint nodupb {A} `{Eqb A} (l : list A) : bool :=
  match l with [] => true | x :: r => negb (mem x r) && nodupb r end.
Lemma nodupb_spec {A} `{Eqb A} (l : list A) : reflect (NoDup l) (nodupb l).
Proof.
  induction l as [|x l IH]; cbn; [constructor; constructor|].
  destruct (mem_spec x l) as [Hi|Hn]; cbn.
  - constructor; intro N; inversion N; contradiction.
  - destruct IH as [N|N]; constructor; [constructor; assumption|].
    intro N'; inversion N'; contradiction.
Qed.

(** * Strings *)
Notation str := (list N).
Fixpoint u (x : string) : str :=
  match x with EmptyString => [] | String c r => N_of_ascii c :: u r end.

Arguments u : simpl never.

(** single code points *)
Definition ch (c : ascii) : N := N_of_ascii c.

(** * Exceptions and results *)
Inductive exn : Type :=
| UFOLibError | GlifLibError | NameTranslationError | PenError | PlistParseError | XMLError
| KeyError | IndexError | ValueError | TypeError | AttributeError | OverflowError | AssertionError
| NotImplementedError | FSError (* any fs.errors exception *)
| OutOfFuel (* not a python exception: the model's loop bound was reached *).

Inductive res (A : Type) : Type := Ok (a : A) | Err (e : exn).
Arguments Ok {A} a. Arguments Err {A} e.

Definition bind {A B} (r : res A) (f : A -> res B) : res B :=
  match r with Ok a => f a | Err e => Err e end.
Notation "'do' x <- r ; k" := (bind r (fun x => k)) (at level 200, x pattern, r at level 100, k at level 200, right associativity).
Notation "'check' b 'else' e ; k" := (if b then k else Err e) (at level 200, b at level 100, e at level 100, k at level 200, right associativity).

Lemma bind_Ok {A B} (r : res A) (f : A -> res B) b : bind r f = Ok b <-> exists a, r = Ok a /\ f a = Ok b.
Proof.
  destruct r as [a|e]; cbn; split; intro H.
  - exists a; auto.
  - destruct H as (a' & E & H); inversion E; subst; exact H.
  - discriminate.
  - destruct H as (a' & E & _); discriminate.
Qed.

Fixpoint mapM {A B} (f : A -> res B) (l : list A) : res (list B) :=
  match l with
  | [] => Ok []
  | x :: r => do y <- f x; do ys <- mapM f r; Ok (y :: ys)
  end.
Fixpoint foldM {A S} (f : S -> A -> res S) (s : S) (l : list A) : res S :=
  match l with
  | [] => Ok s
  | x :: r => do s' <- f s x; foldM f s' r
  end.

Lemma mapM_Forall2 {A B} (f : A -> res B) l ys :
  mapM f l = Ok ys <-> Forall2 (fun x y => f x = Ok y) l ys.
Proof.
  revert ys; induction l as [|x l IH]; intros ys; cbn.
  - split; intro H; [inversion H; constructor | inversion H; reflexivity].
  - split; intro H.
    + apply bind_Ok in H as (y & Hy & H). apply bind_Ok in H as (zs & Hzs & H).
      inversion H; subst. constructor; [exact Hy | apply IH; exact Hzs].
    + inversion H as [|? y ? zs Hy Hzs]; subst. rewrite Hy; cbn.
      apply IH in Hzs as ->. reflexivity.
Qed.

(** * Slicing *)
(** [l[:n]]: for negative [n] the last [-n] elements are dropped. *)
Definition slice_to {A} (n : Z) (l : list A) : list A :=
  if (0 <=? n)%Z then firstn (Z.to_nat n) l
  else firstn (Z.to_nat (Z.of_nat (length l) + n)) l.
(** [l[n:]] for [n >= 0] *)
Definition slice_from {A} (n : nat) (l : list A) : list A := skipn n l.

Lemma slice_to_prefix {A} n (l : list A) : exists r, l = slice_to n l ++ r.
Proof.
  unfold slice_to; destruct (0 <=? n)%Z; eexists; symmetry; apply firstn_skipn.
Qed.
Lemma slice_to_length_le {A} n (l : list A) : length (slice_to n l) <= length l.
Proof.
  destruct (slice_to_prefix n l) as (r & E). rewrite E at 2. rewrite app_length. lia.
Qed.
Lemma slice_to_length_nonneg {A} n (l : list A) : (0 <= n)%Z -> (Z.of_nat (length (slice_to n l)) <= n)%Z.
Proof.
  intro Hn. unfold slice_to. destruct (Z.leb_spec 0 n); [|lia].
  rewrite firstn_length. lia.
Qed.
Lemma slice_to_length_neg {A} n (l : list A) : (n < 0)%Z ->
  length (slice_to n l) = Z.to_nat (Z.of_nat (length l) + n).
Proof.
  intro Hn. unfold slice_to. destruct (Z.leb_spec 0 n); [lia|].
  rewrite firstn_length. lia.
Qed.
Lemma slice_to_In {A} n (l : list A) x : In x (slice_to n l) -> In x l.
Proof.
  destruct (slice_to_prefix n l) as (r & E). intro H. rewrite E. apply in_or_app. auto.
Qed.

(** * split and join on one character *)
Fixpoint split1 (c : N) (s : str) : list str :=
  match s with
  | [] => [[]]
  | x :: r =>
    if N.eqb x c then [] :: split1 c r
    else match split1 c r with
         | [] => [[x]] (* impossible *)
         | h :: t => (x :: h) :: t
         end
  end.
Fixpoint join (sep : str) (l : list str) : str :=
  match l with
  | [] => []
  | [x] => x
  | x :: r => x ++ sep ++ join sep r
  end.
Lemma split1_nonempty c s : split1 c s <> [].
Proof. destruct s as [|x r]; cbn; [discriminate|]. destruct (N.eqb x c); [discriminate|]. destruct (split1 c r); discriminate. Qed.
Lemma join_cons sep x l : l <> [] -> join sep (x :: l) = x ++ sep ++ join sep l.
Proof. destruct l; [contradiction|reflexivity]. Qed.
Lemma join_split1 c s : join [c] (split1 c s) = s.
Proof.
  induction s as [|x r IH]; [reflexivity|]. cbn [split1].
  destruct (N.eqb_spec x c) as [->|n].
  - rewrite join_cons by apply split1_nonempty. rewrite IH. reflexivity.
  - destruct (split1 c r) as [|h t] eqn:E; [destruct (split1_nonempty c r E)|].
    destruct t as [|h2 t].
    + cbn in *. congruence.
    + rewrite join_cons by discriminate. rewrite join_cons in IH by discriminate. cbn. cbn in IH. congruence.
Qed.
Lemma split1_no_sep c s p : In p (split1 c s) -> ~ In c p.
Proof.
  revert p; induction s as [|x r IH]; cbn; intros p H.
  - destruct H as [<-|[]]; auto.
  - destruct (N.eqb_spec x c) as [->|n].
    + destruct H as [<-|H]; [auto|apply IH; exact H].
    + destruct (split1 c r) as [|h t] eqn:E.
      * destruct H as [<-|[]]. cbn. intuition congruence.
      * destruct H as [<-|H].
        -- cbn. intros [Hx|Hh]; [congruence|]. exact (IH h (or_introl eq_refl) Hh).
        -- apply IH. right. exact H.
Qed.
Lemma split1_none c s : ~ In c s -> split1 c s = [s].
Proof.
  induction s as [|x r IH]; intro H; [reflexivity|]. cbn in *.
  destruct (N.eqb_spec x c) as [->|n]; [tauto|].
  rewrite IH by tauto. reflexivity.
Qed.
Lemma split1_app_sep c a b : split1 c (a ++ c :: b) = split1 c a ++ split1 c b.
Proof.
  induction a as [|x a IH]; cbn [app split1].
  - rewrite N.eqb_refl. reflexivity.
  - destruct (N.eqb_spec x c) as [->|n]; [rewrite IH; reflexivity|].
    rewrite IH. destruct (split1 c a) as [|h t] eqn:E; [destruct (split1_nonempty c a E)|]. reflexivity.
Qed.
Lemma split1_join c l : l <> [] -> (forall p, In p l -> ~ In c p) -> split1 c (join [c] l) = l.
Proof.
  induction l as [|x l IH]; intros Hl H; [contradiction|].
  destruct l as [|y l].
  - cbn. apply split1_none. apply H; cbn; auto.
  - rewrite join_cons by discriminate. cbn [app].
    rewrite split1_app_sep. rewrite IH; [|discriminate|intros p Hp; apply H; right; exact Hp].
    rewrite (@split1_none c x); [reflexivity|]. apply H; left; reflexivity.
Qed.

Lemma In_join x sep l : In x (join sep l) -> In x sep \/ exists p, In p l /\ In x p.
Proof.
  induction l as [|a l IH]; cbn; [tauto|]. destruct l as [|b l].
  - intro H. right. exists a. auto.
  - intro H. apply in_app_or in H as [H|H]; [right; exists a; auto|].
    apply in_app_or in H as [H|H]; [auto|]. destruct (IH H) as [?|(q & Hq & Hx)]; [auto|]. right. exists q. split; [right; exact Hq|exact Hx].
Qed.
Lemma In_split1 x c s q : In q (split1 c s) -> In x q -> In x s.
Proof.
  revert q; induction s as [|y r IH]; cbn; intros q Hq Hx.
  - destruct Hq as [<-|[]]. exact Hx.
  - destruct (N.eqb y c).
    + destruct Hq as [<-|Hq]; [destruct Hx|]. right. eapply IH; eauto.
    + destruct (split1 c r) as [|h t] eqn:E.
      * destruct Hq as [<-|[]]. cbn in Hx. destruct Hx as [<-|[]]; auto.
      * destruct Hq as [<-|Hq].
        -- destruct Hx as [<-|Hx]; [auto|]. right. exact (IH h (or_introl eq_refl) Hx).
        -- right. exact (IH q (or_intror Hq) Hx).
Qed.

(** appending separator-free text extends the last part *)
Lemma split1_app_nosep c s t : ~ In c t ->
  exists l last, split1 c s = l ++ [last] /\ split1 c (s ++ t) = l ++ [last ++ t].
Proof.
  intro Ht. induction s as [|x r IH].
  - exists [], []. cbn. split; [reflexivity|]. apply split1_none; exact Ht.
  - destruct IH as (l & last & E1 & E2). cbn [app split1].
    destruct (N.eqb x c).
    + exists ([] :: l), last. rewrite E1, E2. split; reflexivity.
    + rewrite E1, E2. destruct l as [|h l]; cbn.
      * exists [], (x :: last). split; reflexivity.
      * exists ((x :: h) :: l), last. split; reflexivity.
Qed.

(** * Decimal numbers: [str(n)] *)
Fixpoint digits_of_uint (d : Decimal.uint) : str :=
  match d with
  | Nil => [] | D0 d => 48 :: digits_of_uint d | D1 d => 49 :: digits_of_uint d
  | D2 d => 50 :: digits_of_uint d | D3 d => 51 :: digits_of_uint d | D4 d => 52 :: digits_of_uint d
  | D5 d => 53 :: digits_of_uint d | D6 d => 54 :: digits_of_uint d | D7 d => 55 :: digits_of_uint d
  | D8 d => 56 :: digits_of_uint d | D9 d => 57 :: digits_of_uint d
  end%N.
Definition str_of_N (n : N) : str := digits_of_uint (N.to_uint n).
Definition str_of_Z (z : Z) : str :=
  if (z <? 0)%Z then 45%N :: str_of_N (Z.to_N (- z)) else str_of_N (Z.to_N z).
(** [s.zfill(w)] for [s] without sign *)
Definition zfill (w : nat) (s : str) : str := repeat 48%N (w - length s) ++ s.

Definition is_digit (c : N) : bool := ((48 <=? c) && (c <=? 57))%N.

Lemma digits_of_uint_inj d e : digits_of_uint d = digits_of_uint e -> d = e.
Proof.
  revert e; induction d; intros e H; destruct e; cbn in H; try discriminate; try reflexivity;
    inversion H as [H']; f_equal; auto.
Qed.
Lemma digits_of_uint_digit d : forallb is_digit (digits_of_uint d) = true.
Proof. induction d; cbn; auto. Qed.
Lemma str_of_N_inj m n : str_of_N m = str_of_N n -> m = n.
Proof. intro H. apply digits_of_uint_inj in H. apply DecimalN.Unsigned.to_uint_inj. exact H. Qed.
Lemma str_of_N_digit n : forallb is_digit (str_of_N n) = true.
Proof. apply digits_of_uint_digit. Qed.
Lemma str_of_N_nonempty n : str_of_N n <> [].
Proof.
  unfold str_of_N. destruct n as [|p]; cbn; [discriminate|].
  pose proof (DecimalPos.Unsigned.to_uint_nonzero p) as Hz.
  pose proof (DecimalPos.Unsigned.to_uint_nonnil p) as Hn.
  destruct (Pos.to_uint p); cbn in *; try discriminate. congruence.
Qed.
(** no leading zero *)
Lemma str_of_N_head n r : str_of_N n = 48%N :: r -> n = 0%N.
Proof.
  intro H. unfold str_of_N in H.
  assert (Hn : unorm (N.to_uint n) = N.to_uint n).
  { rewrite <- DecimalN.Unsigned.to_of. rewrite DecimalN.Unsigned.of_to. reflexivity. }
  destruct (N.to_uint n) as [|d|d|d|d|d|d|d|d|d|d] eqn:E; cbn in H; try discriminate.
  assert (Hd : d = Nil).
  { cbn in Hn. unfold unorm in Hn. cbn in Hn.
    destruct (nzhead d) eqn:E2; cbn in Hn; try congruence; inversion Hn; subst; try reflexivity.
    pose proof (DecimalFacts.nzhead_nonzero d). cbn in *. congruence. }
  subst d. apply (f_equal N.of_uint) in E. rewrite DecimalN.Unsigned.of_to in E. cbn in E. exact E.
Qed.

Lemma zfill_digit w s : forallb is_digit s = true -> forallb is_digit (zfill w s) = true.
Proof.
  intro H. unfold zfill. rewrite forallb_app, H, andb_true_r.
  induction (w - length s) as [|k IH]; cbn; auto.
Qed.
Lemma zfill_length w s : length (zfill w s) = Nat.max w (length s).
Proof. unfold zfill. rewrite app_length, repeat_length. lia. Qed.

Lemma repeat_app_inj (a : N) i j s t :
  (forall r, s <> a :: r) -> (forall r, t <> a :: r) ->
  repeat a i ++ s = repeat a j ++ t -> s = t.
Proof.
  intros Hs Ht. revert j; induction i as [|i IH]; intros [|j]; cbn; intro H.
  - exact H.
  - exfalso. exact (Hs _ H).
  - exfalso. symmetry in H. exact (Ht _ H).
  - inversion H. eauto.
Qed.
Lemma zfill_str_of_N_inj w m n : (0 < m)%N -> (0 < n)%N ->
  zfill w (str_of_N m) = zfill w (str_of_N n) -> m = n.
Proof.
  intros Hm Hn H. apply str_of_N_inj. unfold zfill in H.
  eapply repeat_app_inj; [| |exact H]; intros r E; apply str_of_N_head in E; lia.
Qed.

(** value of a digit string *)
Definition dec_step (a c : N) : N := (10 * a + (c - 48))%N.
Definition dec_val (s : str) : N := fold_left dec_step s 0%N.
Lemma of_uint_acc_val d acc :
  Npos (Pos.of_uint_acc d acc) = fold_left dec_step (digits_of_uint d) (Npos acc).
Proof.
  revert acc; induction d; intro acc; cbn [Pos.of_uint_acc digits_of_uint fold_left]; try reflexivity;
    rewrite IHd; f_equal; unfold dec_step; lia.
Qed.
Lemma of_uint_val d : N.of_uint d = dec_val (digits_of_uint d).
Proof.
  unfold N.of_uint, dec_val. induction d; cbn [Pos.of_uint digits_of_uint fold_left]; try reflexivity;
    try (rewrite of_uint_acc_val; reflexivity).
  exact IHd.
Qed.
Lemma dec_val_str_of_N n : dec_val (str_of_N n) = n.
Proof. unfold str_of_N. rewrite <- of_uint_val. apply DecimalN.Unsigned.of_to. Qed.
Lemma dec_fold_ge s a : (a * 10 ^ N.of_nat (length s) <= fold_left dec_step s a)%N.
Proof.
  revert a; induction s as [|c s IH]; intro a; cbn [fold_left length].
  - cbn. lia.
  - etransitivity; [|apply IH]. rewrite Nat2N.inj_succ, N.pow_succ_r by lia.
    unfold dec_step. nia.
Qed.
Lemma str_of_N_length n m : (0 < m)%nat -> (n < 10 ^ N.of_nat m)%N -> (length (str_of_N n) <= m)%nat.
Proof.
  intros Hm Hn. destruct (N.eq_dec n 0) as [->|Hz]; [cbn; lia|].
  destruct (le_lt_dec (length (str_of_N n)) m) as [L|L]; [exact L|exfalso].
  pose proof (dec_val_str_of_N n) as E. pose proof (str_of_N_digit n) as D.
  destruct (str_of_N n) as [|c r] eqn:S; [cbn in L; lia|].
  assert (Hc : c <> 48%N) by (intros ->; apply Hz; eapply str_of_N_head; exact S).
  cbn in D. apply andb_prop in D as [D _]. unfold is_digit in D. apply andb_prop in D as [D _]. apply N.leb_le in D.
  unfold dec_val in E. cbn [fold_left] in E.
  pose proof (dec_fold_ge r (dec_step 0 c)) as G. rewrite E in G.
  assert (dec_step 0 c >= 1)%N by (unfold dec_step; lia).
  cbn in L. assert (10 ^ N.of_nat m <= 10 ^ N.of_nat (length r))%N by (apply N.pow_le_mono_r; lia).
  nia.
Qed.

(** * Dictionaries: association lists in insertion order *)
Section Dict.
  Context {K V : Type} `{Eqb K}.
  Fixpoint get (k : K) (d : list (K * V)) : option V :=
    match d with [] => None | (k', v) :: r => if eqb k k' then Some v else get k r end.
  Fixpoint set (k : K) (v : V) (d : list (K * V)) : list (K * V) :=
    match d with
    | [] => [(k, v)]
    | (k', v') :: r => if eqb k k' then (k', v) :: r else (k', v') :: set k v r
    end.
  Fixpoint del (k : K) (d : list (K * V)) : list (K * V) :=
    match d with [] => [] | (k', v') :: r => if eqb k k' then r else (k', v') :: del k r end.
  Definition has (k : K) (d : list (K * V)) : bool := match get k d with Some _ => true | None => false end.
  Definition keys (d : list (K * V)) : list K := map fst d.
  Definition values (d : list (K * V)) : list V := map snd d.
  (** a real dictionary: keys are unique *)
  Definition dict_ok (d : list (K * V)) : Prop := NoDup (keys d).
  (** equality of dictionaries as finite maps *)
  Definition dict_eq (d e : list (K * V)) : Prop := forall k, get k d = get k e.

  Lemma get_set_same k v d : get k (set k v d) = Some v.
  Proof. induction d as [|[k' v'] d IH]; cbn; [rewrite eqb_refl; reflexivity|]. destruct (eqb_spec k k') as [->|n]; cbn.
    - rewrite eqb_refl. reflexivity.
    - destruct (eqb_spec k k'); [contradiction|]. exact IH. Qed.
  Lemma get_set_other k k2 v d : k2 <> k -> get k2 (set k v d) = get k2 d.
  Proof. intro N. induction d as [|[k' v'] d IH]; cbn.
    - destruct (eqb_spec k2 k); [contradiction|reflexivity].
    - destruct (eqb_spec k k') as [->|n]; cbn.
      + destruct (eqb_spec k2 k'); [contradiction|reflexivity].
      + destruct (eqb_spec k2 k'); [reflexivity|exact IH]. Qed.
  Lemma get_set k k2 v d : get k2 (set k v d) = if eqb k2 k then Some v else get k2 d.
  Proof. destruct (eqb_spec k2 k) as [->|n]; [apply get_set_same|apply get_set_other; exact n]. Qed.
  Lemma get_del_other k k2 d : k2 <> k -> get k2 (del k d) = get k2 d.
  Proof. intro N. induction d as [|[k' v'] d IH]; cbn; [reflexivity|].
    destruct (eqb_spec k k') as [->|n].
    - destruct (eqb_spec k2 k'); [contradiction|reflexivity].
    - cbn. destruct (eqb_spec k2 k'); [reflexivity|exact IH]. Qed.
  Lemma get_None k d : get k d = None <-> ~ In k (keys d).
  Proof. induction d as [|[k' v'] d IH]; cbn; [tauto|].
    destruct (eqb_spec k k') as [->|n]; [split; [discriminate|tauto]|]. rewrite IH. intuition congruence. Qed.
  Lemma get_In k v d : get k d = Some v -> In (k, v) d.
  Proof. induction d as [|[k' v'] d IH]; cbn; [discriminate|].
    destruct (eqb_spec k k') as [->|n]; [intro E; inversion E; auto|auto]. Qed.
  Lemma In_get k v d : dict_ok d -> In (k, v) d -> get k d = Some v.
  Proof. induction d as [|[k' v'] d IH]; cbn; [tauto|]. intros N I. inversion N as [|? ? Hn N']; subst.
    destruct (eqb_spec k k') as [->|n].
    - destruct I as [I|I]; [congruence|]. exfalso. apply Hn. change k' with (fst (k', v)). apply in_map. exact I.
    - destruct I as [I|I]; [congruence|auto]. Qed.
  Lemma get_In_iff k v d : dict_ok d -> (get k d = Some v <-> In (k, v) d).
  Proof. split; [apply get_In | apply In_get; assumption]. Qed.
  Lemma get_del_same k d : dict_ok d -> get k (del k d) = None.
  Proof. intro N. induction d as [|[k' v'] d IH]; cbn; [reflexivity|]. inversion N as [|? ? Hn N']; subst.
    destruct (eqb_spec k k') as [->|n].
    - apply get_None. exact Hn.
    - cbn. destruct (eqb_spec k k'); [contradiction|auto]. Qed.
  Lemma keys_set_in k v d : In k (keys d) -> keys (set k v d) = keys d.
  Proof. induction d as [|[k' v'] d IH]; cbn; [tauto|]. intro I.
    destruct (eqb_spec k k') as [->|n]; cbn; [reflexivity|]. destruct I as [I|I]; [congruence|]. f_equal. apply IH. exact I. Qed.
  Lemma set_fresh k v d : ~ In k (keys d) -> set k v d = d ++ [(k, v)].
  Proof. induction d as [|[k' v'] d IH]; cbn; [reflexivity|]. intro I.
    destruct (eqb_spec k k') as [->|n]; [tauto|]. rewrite IH by tauto. reflexivity. Qed.
  Lemma In_keys_set k k2 v d : In k2 (keys (set k v d)) <-> k2 = k \/ In k2 (keys d).
  Proof. destruct (in_dec (fun a b => eq_decide a b) k (keys d)) as [I|I].
    - rewrite keys_set_in by exact I. intuition congruence.
    - rewrite set_fresh by exact I. unfold keys. rewrite map_app, in_app_iff. cbn. intuition congruence. Qed.
  Lemma dict_ok_set k v d : dict_ok d -> dict_ok (set k v d).
  Proof. unfold dict_ok. intro N. destruct (in_dec (fun a b => eq_decide a b) k (keys d)) as [I|I].
    - rewrite keys_set_in by exact I. exact N.
    - rewrite set_fresh by exact I. unfold keys. rewrite map_app. cbn.
      apply NoDup_Add with (a := k) (l := keys d).
      + rewrite <- (app_nil_r (keys d)) at 1. apply Add_app.
      + split; assumption. Qed.
  Lemma In_keys_del k k2 d : dict_ok d -> (In k2 (keys (del k d)) <-> k2 <> k /\ In k2 (keys d)).
  Proof. intro N. pose proof (get_None k2 (del k d)) as G. pose proof (get_None k2 d) as G2.
    destruct (eq_decide k2 k) as [->|n].
    - rewrite get_del_same in G by exact N. tauto.
    - rewrite get_del_other in G by exact n.
      destruct (in_dec (fun a b => eq_decide a b) k2 (keys d)), (in_dec (fun a b => eq_decide a b) k2 (keys (del k d))); tauto. Qed.
  Lemma In_del kv k d : In kv (del k d) -> In kv d.
  Proof. induction d as [|[k' v'] d IH]; cbn; [tauto|]. destruct (eqb_spec k k'); cbn; tauto. Qed.
  Lemma dict_ok_del k d : dict_ok d -> dict_ok (del k d).
  Proof. unfold dict_ok. induction d as [|[k' v'] d IH]; cbn; [auto|]. intro N. inversion N as [|? ? Hn N']; subst.
    destruct (eqb_spec k k') as [->|n]; [exact N'|]. cbn. constructor; [|auto].
    intro I. apply Hn. apply in_map_iff in I as ((a & b) & E & I). cbn in E; subst.
    change k' with (fst (k', b)). apply in_map. eapply In_del; exact I. Qed.
  Lemma has_In k d : has k d = true <-> In k (keys d).
  Proof. unfold has. pose proof (get_None k d) as G. destruct (get k d) as [v|] eqn:E.
    - split; [intros _|reflexivity]. apply get_In in E. change k with (fst (k, v)). apply in_map. exact E.
    - split; [discriminate|]. intro I. exfalso. apply G; [reflexivity|exact I]. Qed.
  Lemma has_nIn k d : has k d = false <-> ~ In k (keys d).
  Proof. pose proof (has_In k d) as G. destruct (has k d); intuition congruence. Qed.
End Dict.

(** ASCII lower case, used for the concrete instance of [str.lower]. *)
Definition lower_char (c : N) : N := if ((65 <=? c) && (c <=? 90))%N then (c + 32)%N else c.
Definition ascii_lower (s : str) : str := map lower_char s.
