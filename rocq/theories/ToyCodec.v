(** A small codec satisfying the laws assumed of plistlib: it shows that the laws
    are consistent and runs the examples.  It stores texts, integers, lists,
    tuples and dictionaries with text keys, and refuses everything else. *)
From Coq Require Import String NArith ZArith Bool Lia List Permutation.
From Verif Require Import Base PyVal FS Ufo UfoProofs.
Import ListNotations.
Local Open Scope list_scope.

Fixpoint enc (v : pyval) : option bytes :=
  match v with
  | PStr s => Some (0%N :: N.of_nat (length s) :: s)
  | PInt z => Some [1; match z with Zneg _ => 1 | _ => 0 end; Z.abs_N z]%N
  | PList l | PTuple l =>
    match (fix go l := match l with
                       | [] => Some []
                       | x :: r => match enc x, go r with Some a, Some b => Some (a ++ b) | _, _ => None end
                       end) l with
    | Some b => Some (2%N :: N.of_nat (length l) :: b)
    | None => None
    end
  | PDict d =>
    match (fix go d := match d with
                       | [] => Some []
                       | (PStr k, x) :: r =>
                         match enc x, go r with
                         | Some a, Some b => Some (N.of_nat (length k) :: k ++ a ++ b)
                         | _, _ => None
                         end
                       | _ => None
                       end) d with
    | Some b => Some (3%N :: N.of_nat (length d) :: b)
    | None => None
    end
  | _ => None
  end.
Definition encAll := fix go (l : list pyval) : option bytes := match l with
  | [] => Some []
  | x :: r => match enc x, go r with Some a, Some b => Some (a ++ b) | _, _ => None end end.
Definition encItems := fix go (d : list (pyval * pyval)) : option bytes := match d with
  | [] => Some []
  | (PStr k, x) :: r =>
    match enc x, go r with Some a, Some b => Some (N.of_nat (length k) :: k ++ a ++ b) | _, _ => None end
  | _ => None end.

Definition take (n : N) (b : bytes) : option (bytes * bytes) :=
  if (N.of_nat (length b) <? n)%N then None else Some (firstn (N.to_nat n) b, skipn (N.to_nat n) b).
Fixpoint dec (fuel : nat) (b : bytes) : option (pyval * bytes) :=
  match fuel with
  | O => None
  | S f =>
    match b with
    | 0%N :: n :: r => match take n r with Some (s, r) => Some (PStr s, r) | None => None end
    | 1%N :: sg :: a :: r => Some (PInt (if N.eqb sg 0 then Z.of_N a else - Z.of_N a)%Z, r)
    | 2%N :: n :: r =>
      match (fix go (k : nat) (b : bytes) := match k with
               | O => Some ([], b)
               | S k' => match dec f b with
                         | Some (x, r) => match go k' r with Some (l, r) => Some (x :: l, r) | None => None end
                         | None => None
                         end
               end) (N.to_nat n) r with
      | Some (l, r) => Some (PList l, r)
      | None => None
      end
    | 3%N :: n :: r =>
      match (fix go (k : nat) (b : bytes) := match k with
               | O => Some ([], b)
               | S k' => match b with
                         | m :: b =>
                           match take m b with
                           | Some (key, b) =>
                             match dec f b with
                             | Some (x, r) => match go k' r with Some (l, r) => Some ((PStr key, x) :: l, r) | None => None end
                             | None => None
                             end
                           | None => None
                           end
                         | [] => None
                         end
               end) (N.to_nat n) r with
      | Some (l, r) => Some (PDict l, r)
      | None => None
      end
    | _ => None
    end
  end.
Definition toy : codec := mkCodec
  (fun v => match enc v with Some b => Ok b | None => Err TypeError end)
  (fun b => match dec (length b) b with Some (v, []) => Ok v | _ => Err PlistParseError end).

Fixpoint depthOf (v : pyval) : nat :=
  match v with
  | PList l | PTuple l => S ((fix go l := match l with [] => O | x :: r => Nat.max (depthOf x) (go r) end) l)
  | PDict d => S ((fix go d := match d with [] => O | (_, x) :: r => Nat.max (depthOf x) (go r) end) d)
  | _ => 1
  end.
Lemma take_app s r : take (N.of_nat (length s)) (s ++ r) = Some (s, r).
Proof.
  unfold take. rewrite Nat2N.id, app_length.
  destruct (N.ltb_spec (N.of_nat (length s + length r)) (N.of_nat (length s))); [lia|].
  rewrite firstn_app, firstn_all, skipn_app, skipn_all, Nat.sub_diag. cbn. rewrite app_nil_r. reflexivity.
Qed.
Lemma dec_enc v : forall b, enc v = Some b -> (depthOf v <= length b)%nat /\
  forall fuel rest, (depthOf v <= fuel)%nat -> exists w, dec fuel (b ++ rest) = Some (w, rest) /\ psame v w.
Proof.
  induction v as [ | |z| |s| | |l IH|l IH|d IH| ] using pyval_ind'; intros bs H; cbn [enc] in H; try discriminate.
  - inversion H; subst. cbn [depthOf length]. split; [lia|]. intros [|f] rest L; [lia|]. cbn [app dec].
    exists (PInt z). split; [|constructor; reflexivity]. destruct z; reflexivity.
  - inversion H; subst. cbn [depthOf length]. split; [lia|]. intros [|f] rest L; [lia|]. cbn [app dec].
    rewrite take_app. exists (PStr s). split; [reflexivity|constructor; reflexivity].
  - change ((fix go l := match l with [] => Some [] | x :: r => match enc x, go r with Some a, Some b => Some (a ++ b) | _, _ => None end end) l)
      with (encAll l) in H.
    destruct (encAll l) as [c|] eqn:E; [|discriminate]. inversion H; subst. clear H. cbn [depthOf length app].
    set (dl := (fix go (l : list pyval) : nat := match l with [] => O | x :: r => Nat.max (depthOf x) (go r) end)).
    assert (G : (dl l <= length c)%nat /\ forall f rest, (dl l <= f)%nat -> exists m,
      (fix go (k : nat) (b : bytes) := match k with
               | O => Some ([], b)
               | S k' => match dec f b with
                         | Some (x, r) => match go k' r with Some (l, r) => Some (x :: l, r) | None => None end
                         | None => None
                         end
               end) (length l) (c ++ rest) = Some (m, rest) /\ Forall2 psame l m).
    { clear -E IH. revert c E. induction IH as [|x r Hx _ IHr]; intros c E; cbn [encAll] in E.
      - inversion E; subst. split; [cbn; lia|]. intros f rest _. exists []. split; [reflexivity|constructor].
      - destruct (enc x) as [a|] eqn:Ex; [|discriminate]. destruct (encAll r) as [bb|] eqn:Er; [|discriminate].
        inversion E; subst. destruct (Hx _ eq_refl) as [L1 D1]. destruct (IHr _ eq_refl) as [L2 D2].
        cbn [dl]. fold dl. split; [rewrite app_length; lia|]. intros f rest Lf.
        destruct (D1 f (bb ++ rest) ltac:(lia)) as (w & Dw & Sw). destruct (D2 f rest ltac:(lia)) as (m & Dm & Sm).
        exists (w :: m). split; [|constructor; assumption]. cbn [length]. rewrite <- app_assoc, Dw, Dm. reflexivity. }
    destruct G as [L G]. split; [lia|]. intros [|f] rest Lf; [lia|]. cbn [dec]. rewrite Nat2N.id.
    destruct (G f rest ltac:(lia)) as (m & -> & F). exists (PList m). split; [reflexivity|]. constructor. exact F.
  - change ((fix go l := match l with [] => Some [] | x :: r => match enc x, go r with Some a, Some b => Some (a ++ b) | _, _ => None end end) l)
      with (encAll l) in H.
    destruct (encAll l) as [c|] eqn:E; [|discriminate]. inversion H; subst. clear H. cbn [depthOf length app].
    set (dl := (fix go (l : list pyval) : nat := match l with [] => O | x :: r => Nat.max (depthOf x) (go r) end)).
    assert (G : (dl l <= length c)%nat /\ forall f rest, (dl l <= f)%nat -> exists m,
      (fix go (k : nat) (b : bytes) := match k with
               | O => Some ([], b)
               | S k' => match dec f b with
                         | Some (x, r) => match go k' r with Some (l, r) => Some (x :: l, r) | None => None end
                         | None => None
                         end
               end) (length l) (c ++ rest) = Some (m, rest) /\ Forall2 psame l m).
    { clear -E IH. revert c E. induction IH as [|x r Hx _ IHr]; intros c E; cbn [encAll] in E.
      - inversion E; subst. split; [cbn; lia|]. intros f rest _. exists []. split; [reflexivity|constructor].
      - destruct (enc x) as [a|] eqn:Ex; [|discriminate]. destruct (encAll r) as [bb|] eqn:Er; [|discriminate].
        inversion E; subst. destruct (Hx _ eq_refl) as [L1 D1]. destruct (IHr _ eq_refl) as [L2 D2].
        cbn [dl]. fold dl. split; [rewrite app_length; lia|]. intros f rest Lf.
        destruct (D1 f (bb ++ rest) ltac:(lia)) as (w & Dw & Sw). destruct (D2 f rest ltac:(lia)) as (m & Dm & Sm).
        exists (w :: m). split; [|constructor; assumption]. cbn [length]. rewrite <- app_assoc, Dw, Dm. reflexivity. }
    destruct G as [L G]. split; [lia|]. intros [|f] rest Lf; [lia|]. cbn [dec]. rewrite Nat2N.id.
    destruct (G f rest ltac:(lia)) as (m & -> & F). exists (PList m). split; [reflexivity|]. constructor. exact F.
  - match type of H with match ?G with _ => _ end = _ => change G with (encItems d) in H end.
    destruct (encItems d) as [c|] eqn:E; [|discriminate]. inversion H; subst. clear H. cbn [depthOf length app].
    set (dl := (fix go (d : list (pyval * pyval)) : nat := match d with [] => O | (_, x) :: r => Nat.max (depthOf x) (go r) end)).
    assert (G : (dl d <= length c)%nat /\ forall f rest, (dl d <= f)%nat -> exists m,
      (fix go (k : nat) (b : bytes) := match k with
               | O => Some ([], b)
               | S k' => match b with
                         | m :: b =>
                           match take m b with
                           | Some (key, b) =>
                             match dec f b with
                             | Some (x, r) => match go k' r with Some (l, r) => Some ((PStr key, x) :: l, r) | None => None end
                             | None => None
                             end
                           | None => None
                           end
                         | [] => None
                         end
               end) (length d) (c ++ rest) = Some (m, rest) /\ Forall2 (fun a b => fst a = fst b /\ psame (snd a) (snd b)) d m).
    { clear -E IH. revert c E. induction IH as [|[k x] r [_ Hx] _ IHr]; intros c E; cbn [encItems] in E.
      - inversion E; subst. split; [cbn; lia|]. intros f rest _. exists []. split; [reflexivity|constructor].
      - destruct k as [ | | | |k| | | | | | ]; try discriminate.
        destruct (enc x) as [a|] eqn:Ex; [|discriminate]. destruct (encItems r) as [bb|] eqn:Er; [|discriminate].
        inversion E; subst. destruct (Hx _ Ex) as [L1 D1]. cbn [snd] in L1, D1. destruct (IHr _ eq_refl) as [L2 D2].
        change (dl ((PStr k, x) :: r)) with (Nat.max (depthOf x) (dl r)) in *. split; [cbn [length]; rewrite !app_length; cbn [snd] in L1; lia|]. intros f rest Lf.
        destruct (D1 f (bb ++ rest) ltac:(lia)) as (w & Dw & Sw). destruct (D2 f rest ltac:(lia)) as (m & Dm & Sm).
        exists ((PStr k, w) :: m). split; [|constructor; [split; [reflexivity|exact Sw]|assumption]].
        cbn [length app]. rewrite <- !app_assoc, take_app, Dw, Dm. reflexivity. }
    destruct G as [L G]. split; [lia|]. intros [|f] rest Lf; [lia|]. cbn [dec]. rewrite Nat2N.id.
    destruct (G f rest ltac:(lia)) as (m & -> & F). exists (PDict m). split; [reflexivity|].
    econstructor; [apply Permutation_refl|exact F].
Qed.
Lemma toy_laws : codec_laws toy (fun _ => True).
Proof.
  constructor. intros v b _ H. cbn [dumps toy] in H. destruct (enc v) as [c|] eqn:E; [|discriminate]. inversion H; subst.
  destruct (dec_enc v b E) as [L D]. destruct (D (length b) [] L) as (w & Dw & S). rewrite app_nil_r in Dw.
  exists w. cbn [loads toy]. rewrite Dw. auto.
Qed.
