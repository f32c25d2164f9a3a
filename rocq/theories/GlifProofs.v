(** Facts about the GLIF model used by the property files PropGlif*.v *)
From Coq Require Import String NArith ZArith Bool Lia ZifyN List.
From Coq.Floats Require Import SpecFloat.
From Verif Require Import Base PyVal PyText FloatRepr Xml FS Ufo Plist Etree Validators PointPen Glif.
Import ListNotations.
Local Open Scope string_scope.
Local Open Scope list_scope.
Ltac Zify.zify_post_hook ::= Z.div_mod_to_equations.

(** * Hexadecimal numbers *)
Definition hexC (c : N) : Prop := (48 <= c <= 57 \/ 65 <= c <= 70)%N.
Definition hexV (a c : N) : N := (a * 16 + (if c <=? 57 then c - 48 else c - 55))%N.
Lemma size_bound n : (n < 2 ^ N.of_nat (N.size_nat n))%N.
Proof.
  destruct n as [|p]; [reflexivity|]. cbn [N.size_nat]. induction p as [p IH|p IH|]; cbn [Pos.size_nat]; [| |reflexivity].
  - rewrite Nat2N.inj_succ, N.pow_succ_r by lia. lia.
  - rewrite Nat2N.inj_succ, N.pow_succ_r by lia. lia.
Qed.
Lemma hexLoop_spec fuel : forall n acc, (n < 2 ^ N.of_nat fuel)%N ->
  fold_left hexV (hexLoop (S fuel) n acc) 0%N = fold_left hexV acc n /\ (Forall hexC acc -> Forall hexC (hexLoop (S fuel) n acc)) /\ hexLoop (S fuel) n acc <> [].
Proof.
  assert (D : forall n, hexC (hexChar (n mod 16)) /\ forall a, hexV a (hexChar (n mod 16)) = (a * 16 + n mod 16)%N).
  { intro n. unfold hexC, hexV, hexChar. destruct (N.ltb_spec (n mod 16) 10); (split; [lia|intro a]).
    - destruct (N.leb_spec (48 + n mod 16) 57); lia.
    - destruct (N.leb_spec (55 + n mod 16) 57); lia. }
  induction fuel as [|fuel IH]; intros n acc B.
  - cbn in B. cbn [hexLoop]. destruct (N.ltb_spec n 16); [|lia]. cbn [fold_left]. destruct (D n) as [A E]. split; [|split; [intro; constructor; assumption|discriminate]].
    rewrite E. f_equal. lia.
  - cbn [hexLoop]. destruct (N.ltb_spec n 16).
    + cbn [fold_left]. destruct (D n) as [A E]. split; [|split; [intro; constructor; assumption|discriminate]]. rewrite E. f_equal. lia.
    + rewrite Nat2N.inj_succ, N.pow_succ_r in B by lia.
      destruct (IH (n / 16)%N (hexChar (n mod 16) :: acc)) as (E1 & E2 & E3); [lia|]. split; [|split].
      * etransitivity; [exact E1|]. cbn [fold_left]. destruct (D n) as [_ E]. rewrite E. f_equal. lia.
      * intro F. apply E2. constructor; [apply D|exact F].
      * exact E3.
Qed.
Lemma hexStr_spec n : fold_left hexV (hexStr n) 0%N = n /\ Forall hexC (hexStr n) /\ hexStr n <> [].
Proof.
  unfold hexStr. destruct (hexLoop_spec (N.size_nat n) n []) as (A & B & C); [apply size_bound|]. split; [exact A|]. split; [apply B; constructor|exact C].
Qed.
Lemma zfill_hex w s : Forall hexC s -> s <> [] -> fold_left hexV (zfill w s) 0%N = fold_left hexV s 0%N /\ Forall hexC (zfill w s) /\ zfill w s <> [].
Proof.
  intros F N. unfold zfill. split; [|split].
  - induction (w - length s)%nat as [|k IH]; [reflexivity|]. cbn [repeat app fold_left]. exact IH.
  - apply Forall_app. split; [|exact F]. apply Forall_forall. intros c I. apply repeat_spec in I. subst. unfold hexC. lia.
  - intro E. apply app_eq_nil in E as [_ E]. contradiction.
Qed.
Section T.
Variable T : pytext.
Hypothesis LT : pytext_laws T.
Lemma hexDigit_char c : hexC c -> hexDigit T c = Some (if (c <=? 57)%N then c - 48 else c - 55)%N /\ isSpace T c = false /\ c <> 95%N /\ c <> 43%N /\ c <> 45%N /\ c <> 120%N /\ c <> 88%N.
Proof.
  intro H. unfold hexC in H. unfold hexDigit. rewrite (digit_ascii T LT), (space_ascii T LT) by lia. unfold asciiDigit.
  split; [|split; [unfold asciiSpace; apply mem_nIn; cbn; lia|repeat split; lia]].
  destruct (N.leb_spec 48 c), (N.leb_spec c 57); cbn [andb]; try lia; try reflexivity.
  destruct (N.leb_spec 65 c), (N.leb_spec c 70); cbn [andb]; try lia. reflexivity.
Qed.
Lemma hexDigits_spec s : Forall hexC s -> forall acc b, (s <> [] \/ b = true) -> hexDigits T s (Z.of_N acc) b = Some (Z.of_N (fold_left hexV s acc)).
Proof.
  induction 1 as [|c s Hc F IH]; intros acc b N; cbn [hexDigits fold_left].
  - destruct N as [N| ->]; [congruence|reflexivity].
  - destruct (hexDigit_char c Hc) as (E & _ & N1 & _). destruct (N.eqb_spec c 95); [contradiction|]. rewrite E.
    rewrite <- (IH _ true) by (right; reflexivity). f_equal. unfold hexV. lia.
Qed.
Lemma hexUnsigned_spec s : Forall hexC s -> s <> [] -> hexUnsigned T s = Some (Z.of_N (fold_left hexV s 0%N)).
Proof.
  intros F N. rewrite <- (hexDigits_spec s F 0%N false) by (left; exact N). unfold hexUnsigned. destruct s as [|c [|d r]]; try reflexivity.
  inversion F as [|? ? Hc F']; subst. inversion F' as [|? ? Hd F'']; subst. destruct (hexDigit_char d Hd) as (_ & _ & _ & _ & _ & N1 & N2).
  destruct (N.eqb_spec d 120); [contradiction|]. destruct (N.eqb_spec d 88); [contradiction|]. rewrite andb_false_r. reflexivity.
Qed.
Theorem parseHex_hex04 z : parseHex T (hex04 z) = Some z.
Proof.
  unfold parseHex. rewrite strip_none.
  2:{ intros c I. unfold hex04 in I. destruct (Z.ltb_spec z 0).
      - destruct I as [<-|I]; [rewrite (space_ascii T LT) by lia; reflexivity|].
        destruct (hexStr_spec (Z.to_N (- z))) as (_ & F & N). destruct (zfill_hex 3 _ F N) as (_ & F' & _). rewrite Forall_forall in F'. apply hexDigit_char. auto.
      - destruct (hexStr_spec (Z.to_N z)) as (_ & F & N). destruct (zfill_hex 4 _ F N) as (_ & F' & _). rewrite Forall_forall in F'. apply hexDigit_char. auto. }
  unfold hex04. destruct (Z.ltb_spec z 0).
  - destruct (hexStr_spec (Z.to_N (- z))) as (E & F & N). destruct (zfill_hex 3 _ F N) as (E' & F' & N').
    change (N.eqb 45 43) with false. change (N.eqb 45 45) with true. cbv iota. rewrite hexUnsigned_spec by assumption. rewrite E', E. cbn [option_map]. f_equal. lia.
  - destruct (hexStr_spec (Z.to_N z)) as (E & F & N). destruct (zfill_hex 4 _ F N) as (E' & F' & N').
    destruct (zfill 4 (hexStr (Z.to_N z))) as [|c r] eqn:Es; [congruence|]. inversion F' as [|? ? Hc _]; subst.
    destruct (hexDigit_char c Hc) as (_ & _ & _ & N1 & N2 & _). destruct (N.eqb_spec c 43); [contradiction|]. destruct (N.eqb_spec c 45); [contradiction|].
    rewrite hexUnsigned_spec by (assumption || discriminate). rewrite E', E. f_equal. lia.
Qed.

(** * Numbers *)
Variable R : spec_float -> str.
Hypothesis LR : repr_laws T R.
Variable ro : pyval -> str.
(** an int (no bool) or a float *)
Definition isNum (v : pyval) : Prop := (exists z, v = PInt z) \/ (exists f, v = PFloat f /\ isDouble f).
Lemma number_repr v : isNum v -> number T (Some (reprOf R ro v)) = Ok v.
Proof.
  intros [[z ->]|[f [-> D]]]; cbn [reprOf number].
  - rewrite (parseInt_str_of_Z T z LT). reflexivity.
  - rewrite (repr_noint T R LR f D), (repr_parse T R LR f D). reflexivity.
Qed.
Lemma number_num s v : number T s = Ok v -> isNum v.
Proof.
  unfold number. destruct s as [s|]; [|discriminate]. destruct (parseInt T s) as [z|]; [intro E; inversion E; left; eauto|].
  destruct (parseFloat T s) as [f|] eqn:P; [|discriminate]. intro E; inversion E; subst. right. exists f. split; [reflexivity|]. eapply parse_double; eassumption.
Qed.
Lemma numberOr_num d s v : numberOr T d s = Ok v -> isNum v.
Proof. unfold numberOr. destruct s; [apply number_num|]. intro E; inversion E. left. eauto. Qed.
Lemma isNum_number v : isNum v -> is_number v = true.
Proof. intros [[z ->]|[f [-> _]]]; reflexivity. Qed.
Lemma isNum_none v : isNum v -> is_none v = false.
Proof. intros [[z ->]|[f [-> _]]]; reflexivity. Qed.
End T.
