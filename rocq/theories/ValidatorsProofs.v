(** Lemmas about the validators. *)
From Coq Require Import String NArith ZArith Bool Lia List.
From Coq.Floats Require Import SpecFloat.
From Verif Require Import Base PyVal PyText Validators.
Import ListNotations.
Local Open Scope string_scope.
Local Open Scope list_scope.

(** ** parseInt *)
Lemma lstrip_id sp (s : str) : (forall c, In c s -> sp c = false) -> lstrip sp s = s.
Proof. destruct s as [|c r]; intro H; [reflexivity|]. cbn. rewrite H by (left; reflexivity). reflexivity. Qed.
Lemma strip_id sp (s : str) : (forall c, In c s -> sp c = false) -> strip sp s = s.
Proof.
  intro H. unfold strip. rewrite (lstrip_id sp s) by exact H. rewrite lstrip_id; [apply rev_involutive|].
  intros c Hc. apply H. apply in_rev. exact Hc.
Qed.
Definition digitC (c : N) : Prop := (48 <= c <= 57)%N.
Section Text.
Variable T : pytext.
Hypothesis laws : pytext_laws T.
Lemma digitVal_digit c : digitC c -> digitVal T c = Some (c - 48)%N.
Proof.
  intro D. unfold digitC in D. rewrite (digit_ascii T laws) by lia. unfold asciiDigit.
  destruct (N.leb_spec 48 c); [|lia]. destruct (N.leb_spec c 57); [reflexivity|lia].
Qed.
Lemma digitVal_nondigit c : (c < 128)%N -> ~ digitC c -> digitVal T c = None.
Proof.
  intros A D. unfold digitC in D. rewrite (digit_ascii T laws) by lia. unfold asciiDigit.
  destruct (N.leb_spec 48 c); [|reflexivity]. destruct (N.leb_spec c 57); [lia|reflexivity].
Qed.
Lemma isSpace_false c : (c < 128)%N -> (32 < c)%N -> isSpace T c = false.
Proof.
  intros A B. rewrite (space_ascii T laws) by exact A. unfold asciiSpace.
  destruct (mem_spec c [9; 10; 11; 12; 13; 28; 29; 30; 31; 32]%N) as [H|H]; [|reflexivity]. cbn in H.
  repeat (destruct H as [H|H]; [lia|]). contradiction.
Qed.
Definition zdec (s : str) (acc : Z) : Z := fold_left (fun a c => a * 10 + Z.of_N (c - 48))%Z s acc.
Lemma intDigits_digits s : forall acc b, Forall digitC s -> (s = [] -> b = true) -> intDigits T s acc b = Some (zdec s acc).
Proof.
  induction s as [|c r IH]; intros acc b F H.
  - cbn. rewrite H by reflexivity. reflexivity.
  - inversion F; subst. cbn [intDigits]. destruct (N.eqb_spec c 95) as [->|n]; [unfold digitC in *; lia|].
    rewrite digitVal_digit by assumption. rewrite IH; [reflexivity|assumption|reflexivity].
Qed.
(** on text of digits, slashes, colons: a number exactly when only digits *)
Definition plainC (c : N) : Prop := digitC c \/ c = 47%N \/ c = 58%N.
Lemma plainC_bound c : plainC c -> (46 < c < 59)%N.
Proof. unfold plainC, digitC. lia. Qed.
Lemma intDigits_plain s : forall acc b z, Forall plainC s -> intDigits T s acc b = Some z -> Forall digitC s /\ z = zdec s acc.
Proof.
  induction s as [|c r IH]; intros acc b z F E.
  - cbn in E. destruct b; inversion E; subst. split; [constructor|reflexivity].
  - inversion F; subst. cbn [intDigits] in E. pose proof (plainC_bound c H1). destruct (N.eqb_spec c 95); [lia|].
    destruct (digitVal T c) as [d|] eqn:D; [|discriminate].
    assert (digitC c) as Dc.
    { destruct H1 as [H1|H1]; [exact H1|]. rewrite digitVal_nondigit in D; [discriminate|lia|unfold digitC; lia]. }
    rewrite digitVal_digit in D by exact Dc. inversion D; subst. apply IH in E as (E1 & E2); [|assumption].
    split; [constructor; assumption|exact E2].
Qed.
Lemma parseInt_plain_eq s : Forall plainC s -> parseInt T s = intDigits T s 0 false.
Proof.
  intro F. unfold parseInt. rewrite strip_id.
  - destruct s as [|c r]; [reflexivity|]. inversion F; subst. apply plainC_bound in H1.
    destruct c as [|p]; [reflexivity|].
    do 6 (destruct p as [p|p|]; try reflexivity; try (exfalso; lia)).
  - intros c Hc. apply (proj1 (Forall_forall _ _) F) in Hc. apply plainC_bound in Hc. apply isSpace_false; lia.
Qed.
Lemma parseInt_digits s : Forall digitC s -> s <> [] -> parseInt T s = Some (zdec s 0).
Proof.
  intros F Hn. rewrite parseInt_plain_eq by (eapply Forall_impl; [|exact F]; intros c H; left; exact H).
  apply intDigits_digits; [exact F|congruence].
Qed.
Lemma parseInt_plain s z : Forall plainC s -> parseInt T s = Some z -> Forall digitC s /\ z = zdec s 0.
Proof. intros F E. rewrite parseInt_plain_eq in E by exact F. eapply intDigits_plain; eauto. Qed.

Lemma zdec_nonneg s acc : (0 <= acc)%Z -> (0 <= zdec s acc)%Z.
Proof. revert acc; induction s as [|c r IH]; intros acc H; [exact H|]. cbn. apply IH. lia. Qed.

(** ** headCreated *)
Lemma headCreated_sound s : Forall (fun c => plainC c \/ c = 32%N) s -> headCreated T s = true ->
  exists y m d h mi se,
    s = y ++ [47%N] ++ m ++ [47%N] ++ d ++ [32%N] ++ h ++ [58%N] ++ mi ++ [58%N] ++ se /\
    Forall (Forall digitC) [y; m; d; h; mi; se] /\ length y = 4 /\ Forall (fun x : str => length x = 2) [m; d; h; mi; se] /\
    (1 <= zdec m 0 <= 12)%Z /\ (1 <= zdec d 0 <= monthDays (zdec y 0) (zdec m 0))%Z /\
    (zdec h 0 <= 23)%Z /\ (zdec mi 0 <= 59)%Z /\ (zdec se 0 <= 59)%Z.
Proof.
  intros F E. unfold headCreated in E. destruct (Nat.eqb (length s) 19); [|discriminate]. cbn [negb] in E.
  pose proof (join_split1 32 s) as J. pose proof (fun p => split1_no_sep 32 s p) as NS. pose proof (fun x p => In_split1 x 32 s p) as IS.
  destruct (split1 32 s) as [|date [|time [|? ?]]]; try discriminate.
  pose proof (join_split1 47 date) as Jd. pose proof (join_split1 58 time) as Jt.
  pose proof (fun x p => In_split1 x 47 date p) as ISd. pose proof (fun x p => In_split1 x 58 time p) as ISt.
  destruct (split1 47 date) as [|y [|m [|d [|? ?]]]]; try discriminate.
  destruct (split1 58 time) as [|h [|mi [|se [|? ?]]]]; try discriminate.
  assert (P : forall q t, (t = date \/ t = time) -> (forall x, In x q -> In x t) -> Forall plainC q).
  { intros q t Ht Hq. apply Forall_forall. intros x Hx. apply Hq in Hx.
    assert (~ In 32%N t /\ In x s) as (N1 & N2).
    { destruct Ht as [->| ->]; (split; [apply NS; cbn; tauto|eapply IS; [|exact Hx]; cbn; tauto]). }
    apply (proj1 (Forall_forall _ _) F) in N2 as [N2|N2]; [exact N2|]. subst x. contradiction. }
  assert (Py : Forall plainC y) by (apply (P y date); [auto|intros x Hx; eapply ISd; [|exact Hx]; cbn; tauto]).
  assert (Pm : Forall plainC m) by (apply (P m date); [auto|intros x Hx; eapply ISd; [|exact Hx]; cbn; tauto]).
  assert (Pd : Forall plainC d) by (apply (P d date); [auto|intros x Hx; eapply ISd; [|exact Hx]; cbn; tauto]).
  assert (Ph : Forall plainC h) by (apply (P h time); [auto|intros x Hx; eapply ISt; [|exact Hx]; cbn; tauto]).
  assert (Pi : Forall plainC mi) by (apply (P mi time); [auto|intros x Hx; eapply ISt; [|exact Hx]; cbn; tauto]).
  assert (Ps : Forall plainC se) by (apply (P se time); [auto|intros x Hx; eapply ISt; [|exact Hx]; cbn; tauto]).
  clear P NS IS ISd ISt F.
  destruct (Nat.eqb_spec (length y) 4); [|discriminate]. destruct (Nat.eqb_spec (length m) 2); [|discriminate].
  destruct (Nat.eqb_spec (length d) 2); [|discriminate]. cbn [negb] in E.
  destruct (parseInt T y) as [yz|] eqn:Ey; [|discriminate]. destruct (parseInt T m) as [mz|] eqn:Em; [|discriminate].
  destruct (parseInt T d) as [dz|] eqn:Ed; [|discriminate].
  apply parseInt_plain in Ey as (Dy & ->); [|assumption]. apply parseInt_plain in Em as (Dm & ->); [|assumption].
  apply parseInt_plain in Ed as (Dd & ->); [|assumption].
  destruct (Z.ltb_spec (zdec m 0) 1), (Z.ltb_spec 12 (zdec m 0)); try discriminate. cbn [orb] in E.
  destruct (Z.ltb_spec (zdec d 0) 1), (Z.ltb_spec (monthDays (zdec y 0) (zdec m 0)) (zdec d 0)); try discriminate. cbn [orb] in E.
  destruct (Nat.eqb_spec (length h) 2); [|discriminate]. destruct (Nat.eqb_spec (length mi) 2); [|discriminate].
  destruct (Nat.eqb_spec (length se) 2); [|discriminate]. cbn [negb] in E.
  destruct (parseInt T h) as [hz|] eqn:Eh; [|discriminate]. destruct (parseInt T mi) as [iz|] eqn:Ei; [|discriminate].
  destruct (parseInt T se) as [sz|] eqn:Es; [|discriminate].
  apply parseInt_plain in Eh as (Dh & ->); [|assumption]. apply parseInt_plain in Ei as (Di & ->); [|assumption].
  apply parseInt_plain in Es as (Ds & ->); [|assumption].
  destruct (Z.ltb_spec (zdec h 0) 0), (Z.ltb_spec 23 (zdec h 0)); try discriminate. cbn [orb] in E.
  destruct (Z.ltb_spec (zdec mi 0) 0), (Z.ltb_spec 59 (zdec mi 0)); try discriminate. cbn [orb] in E.
  destruct (Z.ltb_spec (zdec se 0) 0), (Z.ltb_spec 59 (zdec se 0)); try discriminate.
  exists y, m, d, h, mi, se. cbn [join] in J, Jd, Jt.
  split; [rewrite <- J, <- Jd, <- Jt, <- !app_assoc; reflexivity|].
  split; [repeat constructor; assumption|]. split; [assumption|]. split; [repeat constructor; assumption|].
  repeat split; lia.
Qed.
Lemma digits_no c s : Forall digitC s -> ~ digitC c -> ~ In c s.
Proof. intros F D H. apply D. apply (proj1 (Forall_forall _ _) F). exact H. Qed.
Lemma headCreated_complete y m d h mi se :
  Forall (Forall digitC) [y; m; d; h; mi; se] -> length y = 4 -> Forall (fun x : str => length x = 2) [m; d; h; mi; se] ->
  (1 <= zdec m 0 <= 12)%Z -> (1 <= zdec d 0 <= monthDays (zdec y 0) (zdec m 0))%Z ->
  (zdec h 0 <= 23)%Z -> (zdec mi 0 <= 59)%Z -> (zdec se 0 <= 59)%Z ->
  headCreated T (y ++ [47%N] ++ m ++ [47%N] ++ d ++ [32%N] ++ h ++ [58%N] ++ mi ++ [58%N] ++ se) = true.
Proof.
  intros D Ly L2 Hm Hd Hh Hi Hs.
  inversion D as [|? ? Dy D1]; inversion D1 as [|? ? Dm D2]; inversion D2 as [|? ? Dd D3]; inversion D3 as [|? ? Dh D4];
  inversion D4 as [|? ? Di D5]; inversion D5 as [|? ? Ds _]; subst. clear D D1 D2 D3 D4 D5.
  inversion L2 as [|? ? Lm M1]; inversion M1 as [|? ? Ld M2]; inversion M2 as [|? ? Lh M3]; inversion M3 as [|? ? Li M4];
  inversion M4 as [|? ? Ls _]; subst. clear L2 M1 M2 M3 M4.
  assert (N32 : forall x, Forall digitC x -> ~ In 32%N x) by (intros x Hx; apply digits_no; [exact Hx|unfold digitC; lia]).
  assert (N47 : forall x, Forall digitC x -> ~ In 47%N x) by (intros x Hx; apply digits_no; [exact Hx|unfold digitC; lia]).
  assert (N58 : forall x, Forall digitC x -> ~ In 58%N x) by (intros x Hx; apply digits_no; [exact Hx|unfold digitC; lia]).
  unfold headCreated.
  replace (length (y ++ [47%N] ++ m ++ [47%N] ++ d ++ [32%N] ++ h ++ [58%N] ++ mi ++ [58%N] ++ se)) with 19
    by (rewrite !app_length; cbn [length]; lia).
  cbn [Nat.eqb negb].
  replace (y ++ [47%N] ++ m ++ [47%N] ++ d ++ [32%N] ++ h ++ [58%N] ++ mi ++ [58%N] ++ se)
    with (join [32%N] [join [47%N] [y; m; d]; join [58%N] [h; mi; se]])
    by (cbn [join]; rewrite <- !app_assoc; reflexivity).
  rewrite split1_join; [|discriminate|].
  2:{ intros p [<-|[<-|[]]] I; apply In_join in I as [I|(q & Hq & I)]; try (destruct I as [I|[]]; discriminate I);
      destruct Hq as [<-|[<-|[<-|[]]]]; revert I; apply N32; assumption. }
  rewrite split1_join; [|discriminate|intros p [<-|[<-|[<-|[]]]]; apply N47; assumption].
  rewrite split1_join; [|discriminate|intros p [<-|[<-|[<-|[]]]]; apply N58; assumption].
  rewrite Ly, Lm, Ld, Lh, Li, Ls. cbn [Nat.eqb negb].
  assert (Z : forall x, length x <> 0 -> Forall digitC x -> parseInt T x = Some (zdec x 0)).
  { intros x Hx Dx. apply parseInt_digits; [exact Dx|]. intros ->. apply Hx. reflexivity. }
  rewrite !Z by (assumption || (rewrite ?Ly, ?Lm, ?Ld, ?Lh, ?Li, ?Ls; discriminate)).
  pose proof (zdec_nonneg h 0 (Z.le_refl 0)). pose proof (zdec_nonneg mi 0 (Z.le_refl 0)). pose proof (zdec_nonneg se 0 (Z.le_refl 0)).
  repeat (match goal with |- context [(?a <? ?b)%Z] => destruct (Z.ltb_spec a b); try lia end; cbn [orb]).
Qed.
End Text.

(** ** genericDictValidator *)
Lemma genericDict_spec value p : genericDictValidator value p = true <->
  (exists d, value = PDict d /\
    (forall k t, In (k, (t, true)) p -> vhas k value = true) /\
    (forall k v, In (k, v) d -> exists s t r, k = PStr s /\ get s p = Some (t, r) /\ ((v = PNone /\ r = false) \/ isinstance v t = true))).
Proof.
  unfold genericDictValidator. split.
  - intro E. destruct (is_dict value) eqn:D; [|discriminate]. destruct value; try discriminate. exists d. split; [reflexivity|].
    cbn [negb] in E. destruct (forallb _ p) eqn:E1 in E; [|discriminate]. cbn [negb] in E.
    destruct (forallb _ (items (PDict d))) eqn:E2 in E; [|discriminate]. cbn [negb] in E.
    rewrite forallb_forall in E1, E2, E. split.
    + intros k t I. apply E1 in I. exact I.
    + intros k v I. specialize (E _ I). cbn [fst snd] in E. destruct k as [| | | |s| | | | | |]; try discriminate.
      destruct (get s p) as [[t r]|] eqn:G; [|discriminate]. exists s, t, r. split; [reflexivity|]. split; [exact G|].
      destruct (is_none v) eqn:Nv, r; cbn in E; auto. destruct v; try discriminate. auto.
  - intros (d & -> & R & U). cbn [is_dict negb].
    rewrite (proj2 (forallb_forall _ p)).
    2:{ intros [k [t r]] I. cbn [fst snd]. destruct r; [|reflexivity]. eapply R; exact I. }
    cbn [negb]. rewrite (proj2 (forallb_forall _ (items (PDict d)))).
    2:{ intros [k v] I. apply U in I as (s & t & r & -> & G & _). cbn [fst]. apply has_In. apply get_In in G. unfold keys.
        apply in_map_iff. exists (s, (t, r)). auto. }
    cbn [negb]. apply forallb_forall. intros [k v] I. apply U in I as (s & t & r & -> & G & [(-> & ->)|H]); cbn [fst snd]; rewrite G.
    + reflexivity.
    + destruct (is_none v && negb r); [reflexivity|exact H].
Qed.
Lemma dget_In k d v : dget k d = Some v -> In (PStr k, v) d.
Proof.
  induction d as [|[x w] r IH]; [discriminate|]. cbn. destruct x; try (intro H; right; apply IH; exact H).
  destruct (eqb_spec k s) as [->|n]; intro H; [inversion H; subst; left; reflexivity|right; apply IH; exact H].
Qed.
Lemma genericDict_get value p k t r : genericDictValidator value p = true -> get k p = Some (t, r) ->
  (vhas k value = false /\ vget k value = PNone /\ r = false) \/ (vhas k value = true /\ ((vget k value = PNone /\ r = false) \/ isinstance (vget k value) t = true)).
Proof.
  intros H G. apply genericDict_spec in H as (d & -> & R & U). unfold vhas, vget. cbn [items].
  destruct (dget k d) as [v|] eqn:E.
  - right. split; [reflexivity|]. apply dget_In in E. apply U in E as (s & t' & r' & Es & G' & H). inversion Es; subst.
    rewrite G in G'. inversion G'; subst. exact H.
  - left. split; [reflexivity|]. split; [reflexivity|]. destruct r; [|reflexivity]. exfalso.
    apply get_In in G. apply R in G. unfold vhas in G. cbn [items] in G. rewrite E in G. discriminate.
Qed.

(** ** unique identifiers *)
Lemma uniqueLoop_spec iv l ids ids' : uniqueLoop iv l ids = (true, ids') ->
  Forall (fun g => iv g = true) l /\
  exists new, ids' = rev new ++ ids /\
    new = List.concat (map (fun g => match vget (u "identifier") g with PStr s => [s] | _ => [] end) l) /\
    NoDup new /\ (forall s, In s new -> ~ In s ids).
Proof.
  revert ids; induction l as [|g r IH]; intros ids E; cbn [uniqueLoop] in E.
  - inversion E; subst. split; [constructor|]. exists []. cbn. split; [reflexivity|]. split; [reflexivity|]. split; [constructor|intros s []].
  - destruct (iv g) eqn:V; [|discriminate]. cbn [negb] in E. cbn [map List.concat].
    assert (J : uniqueLoop iv r ids = (true, ids') -> match vget (u "identifier") g with PStr s => False | _ => True end ->
      Forall (fun g => iv g = true) (g :: r) /\
      exists new, ids' = rev new ++ ids /\
        new = match vget (u "identifier") g with PStr s => [s] | _ => [] end ++ List.concat (map (fun g => match vget (u "identifier") g with PStr s => [s] | _ => [] end) r) /\
        NoDup new /\ (forall s, In s new -> ~ In s ids)).
    { intros E' H. apply IH in E' as (F & new & A & B & C). split; [constructor; assumption|]. exists new.
      split; [exact A|]. split; [|exact C]. destruct (vget (u "identifier") g); try exact B; contradiction. }
    destruct (vget (u "identifier") g) eqn:G; try (apply J; [exact E|exact I]).
    destruct (mem_spec s ids) as [M|M]; [discriminate|]. apply IH in E as (F & new & A & B & C & D).
    split; [constructor; assumption|]. exists (s :: new). cbn [rev app]. rewrite <- app_assoc. cbn [app].
    split; [exact A|]. split; [rewrite B; reflexivity|]. split.
    + constructor; [|exact C]. intro I. apply (D s I). left; reflexivity.
    + intros s' [<-|I]; [exact M|]. intro I'. apply (D s' I). right. exact I'.
Qed.
Lemma uniqueLoop_complete iv l ids :
  Forall (fun g => iv g = true) l ->
  NoDup (List.concat (map (fun g => match vget (u "identifier") g with PStr s => [s] | _ => [] end) l)) ->
  (forall s, In s (List.concat (map (fun g => match vget (u "identifier") g with PStr s => [s] | _ => [] end) l)) -> ~ In s ids) ->
  fst (uniqueLoop iv l ids) = true.
Proof.
  revert ids; induction l as [|g r IH]; intros ids F ND D; [reflexivity|]. cbn [uniqueLoop]. inversion F; subst. rewrite H1. cbn [negb].
  cbn [map List.concat] in ND, D.
  destruct (vget (u "identifier") g); cbn [app] in ND, D; try (apply IH; assumption).
  destruct (mem_spec s ids) as [M|M]; [exfalso; eapply D; [left; reflexivity|exact M]|]. inversion ND; subst.
  apply IH; [assumption..|]. intros s' Hs' [<-|I]; [contradiction|]. eapply D; [right; exact Hs'|exact I].
Qed.

(** ** layers *)
Definition layerPair (nd : str * str) : pyval := PList [PStr (fst nd); PStr (snd nd)].
Definition goodLayer (ex : str -> res bool) (nd : str * str) : Prop :=
  fst nd <> [] /\ (snd nd = u "glyphs" \/ exists r, snd nd = u "glyphs." ++ r) /\ ex (snd nd) = Ok true /\
  (fst nd = u "public.default" -> snd nd = u "glyphs").
Lemma layerLoop_spec ex l : forall un ud fd,
  layerLoop ex l un ud fd = Ok true <->
  exists nds, l = map layerPair nds /\ Forall (goodLayer ex) nds /\ NoDup (map fst nds) /\ NoDup (map snd nds) /\
    (forall n, In n (map fst nds) -> ~ In n un) /\ (forall d, In d (map snd nds) -> ~ In d ud) /\
    (fd = true \/ In (u "glyphs") (map snd nds)).
Proof.
  induction l as [|e r IH]; intros un ud fd.
  - cbn [layerLoop]. split.
    + intro E. inversion E; subst. exists []. cbn. repeat split; auto; try constructor; intros ? [].
    + intros (nds & E & _ & _ & _ & _ & _ & [->|H]); [reflexivity|]. destruct nds; [destruct H|discriminate].
  - split.
    + intro E. cbn [layerLoop] in E.
      destruct e as [| | | | | | |[|[| | | |n| | | | | |] [|[| | | |d| | | | | |] [|]]]| | |]; try discriminate E.
      destruct (eqb_spec d (u "glyphs")) as [Ed|Ed].
      2: destruct (startswith_spec (u "glyphs.") d) as [Sd|Sd]; [|discriminate E].
      all: cbn [negb andb] in E; destruct n as [|c n]; [discriminate E|]; apply bind_Ok in E as (x & Ex & E); destruct x; [|discriminate E];
        cbn [negb andb] in E.
      * rewrite andb_false_r in E.
        destruct (mem_spec (c :: n) un); [discriminate|]. destruct (mem_spec d ud); [discriminate|]. cbn [negb] in E. rewrite orb_true_r in E.
        apply IH in E as (nds & -> & F & N1 & N2 & D1 & D2 & _).
        exists ((c :: n, d) :: nds). cbn [map fst snd]. split; [reflexivity|].
        split; [constructor; [unfold goodLayer; cbn [fst snd]; repeat split; auto; discriminate|exact F]|].
        split; [constructor; [intro I; apply (D1 _ I); left; reflexivity|exact N1]|].
        split; [constructor; [intro I; apply (D2 _ I); left; reflexivity|exact N2]|].
        split; [intros m [<-|I] I2; [contradiction|apply (D1 _ I); right; exact I2]|].
        split; [intros m [<-|I] I2; [contradiction|apply (D2 _ I); right; exact I2]|]. right. left. exact Ed.
      * rewrite andb_true_r in E. destruct (eqb_spec (c :: n) (u "public.default")) as [P|P]; [discriminate|].
        destruct (mem_spec (c :: n) un); [discriminate|]. destruct (mem_spec d ud); [discriminate|]. rewrite orb_false_r in E.
        apply IH in E as (nds & -> & F & N1 & N2 & D1 & D2 & Fd).
        exists ((c :: n, d) :: nds). cbn [map fst snd]. split; [reflexivity|].
        split; [constructor; [unfold goodLayer; cbn [fst snd]; repeat split; auto; [discriminate|contradiction]|exact F]|].
        split; [constructor; [intro I; apply (D1 _ I); left; reflexivity|exact N1]|].
        split; [constructor; [intro I; apply (D2 _ I); left; reflexivity|exact N2]|].
        split; [intros m [<-|I] I2; [contradiction|apply (D1 _ I); right; exact I2]|].
        split; [intros m [<-|I] I2; [contradiction|apply (D2 _ I); right; exact I2]|].
        destruct Fd as [Fd|Fd]; [left; exact Fd|right; right; exact Fd].
    + intros (nds & E & F & N1 & N2 & D1 & D2 & Fd). destruct nds as [|[n d] nds]; [discriminate|]. cbn [map] in E. inversion E; subst. clear E.
      inversion F as [|? ? G F']; subst. destruct G as (G1 & G2 & G3 & G4). cbn [fst snd] in *. cbn [map fst snd] in *.
      inversion N1; subst. inversion N2; subst.
      unfold layerPair at 1. cbn [fst snd layerLoop].
      replace (negb (eqb d (u "glyphs")) && negb (startswith (u "glyphs.") d)) with false.
      2:{ symmetry. destruct G2 as [->|G2]; [rewrite eqb_refl; reflexivity|].
          destruct (startswith_spec (u "glyphs.") d); [rewrite andb_false_r; reflexivity|contradiction]. }
      destruct n as [|c n]; [contradiction|]. rewrite G3. cbn [bind negb].
      replace (eqb (c :: n) (u "public.default") && negb (eqb d (u "glyphs"))) with false.
      2:{ symmetry. destruct (eqb_spec (c :: n) (u "public.default")) as [P|P]; [|reflexivity]. rewrite (G4 P), eqb_refl. reflexivity. }
      rewrite (proj2 (mem_nIn (c :: n) un)) by (apply D1; left; reflexivity). rewrite (proj2 (mem_nIn d ud)) by (apply D2; left; reflexivity).
      apply IH. exists nds. split; [reflexivity|]. split; [assumption|]. split; [assumption|]. split; [assumption|].
      split; [intros m I [<-|J]; [contradiction|]; eapply D1; [right; exact I|exact J]|].
      split; [intros m I [<-|J]; [contradiction|]; eapply D2; [right; exact I|exact J]|].
      destruct Fd as [->|[->|Fd]]; [left; reflexivity|left; rewrite eqb_refl; apply orb_true_r|right; exact Fd].
Qed.
Lemma layerLoop_total ex l : (forall d, exists b, ex d = Ok b) -> forall un ud fd, exists b, layerLoop ex l un ud fd = Ok b.
Proof.
  intro H. induction l as [|e r IH]; intros un ud fd; cbn [layerLoop]; [eauto|].
  destruct e as [| | | | | | |[|[| | | |n| | | | | |] [|[| | | |d| | | | | |] [|]]]| | |]; eauto.
  destruct (_ && _); eauto. destruct n; eauto. destruct (H d) as (b & ->). cbn [bind]. destruct b; cbn [negb]; eauto.
  destruct (_ && _); eauto. destruct (mem _ _); eauto. destruct (mem d ud); eauto.
Qed.

(** ** groups *)
Lemma memberLoop_spec l : forall d d', memberLoop l d = Some d' <->
  exists ms, l = map PStr ms /\ NoDup ms /\ (forall g, In g ms -> ~ In g d) /\ d' = rev ms ++ d.
Proof.
  induction l as [|v r IH]; intros d d'; cbn [memberLoop].
  - split.
    + intro E. inversion E; subst. exists []. repeat split; [constructor|intros g []].
    + intros (ms & E & _ & _ & ->). destruct ms; [reflexivity|discriminate].
  - split.
    + intro E. destruct v; try discriminate. destruct (mem_spec s d); [discriminate|]. apply IH in E as (ms & -> & N & D & ->).
      exists (s :: ms). split; [reflexivity|]. split; [constructor; [intro I; apply (D s I); left; reflexivity|exact N]|].
      split; [intros g [<-|I] J; [contradiction|apply (D g I); right; exact J]|]. cbn. rewrite <- app_assoc. reflexivity.
    + intros (ms & E & N & D & ->). destruct ms as [|m ms]; [discriminate|]. inversion E; subst. inversion N; subst.
      rewrite (proj2 (mem_nIn m d)) by (apply D; left; reflexivity). apply IH. exists ms. split; [reflexivity|]. split; [assumption|].
      split; [intros g I [<-|J]; [contradiction|]; apply (D g); [right; exact I|exact J]|]. cbn. rewrite <- app_assoc. reflexivity.
Qed.
(** strings among values *)
Definition strOf (v : pyval) : list str := match v with PStr s => [s] | _ => [] end.
Definition strsOf (l : list pyval) : list str := List.concat (map strOf l).
Definition sideMembers (prefix : str) (d : list (pyval * pyval)) : list str :=
  List.concat (map (fun kv => match fst kv with PStr k => if startswith prefix k then strsOf (elems (snd kv)) else [] | _ => [] end) d).
Lemma strsOf_map ms : strsOf (map PStr ms) = ms.
Proof. induction ms as [|m ms IH]; [reflexivity|]. unfold strsOf in *. cbn. rewrite IH. reflexivity. Qed.

Definition goodGroup (kv : pyval * pyval) : Prop :=
  exists k, fst kv = PStr k /\ k <> [] /\ is_seq (snd kv) = true /\
    (startswith pkern1 k = true \/ startswith pkern2 k = true -> length k <> 13 /\ exists ms, elems (snd kv) = map PStr ms).
Lemma kern_not_both k : startswith pkern1 k = true -> startswith pkern2 k = true -> False.
Proof.
  intros A B. destruct (startswith_spec pkern1 k) as [(r & E1)|]; [|discriminate]. destruct (startswith_spec pkern2 k) as [(q & E)|]; [|discriminate].
  rewrite E1 in E.
  unfold pkern1, pkern2 in E. cbn in E. discriminate.
Qed.
Lemma kern_public p k : p = pkern1 \/ p = pkern2 -> startswith p k = true -> startswith public_ k = true.
Proof.
  intros Hp A. destruct (startswith_spec p k) as [(r & E)|]; [|discriminate].
  destruct (startswith_spec public_ k) as [|n]; [reflexivity|]. exfalso. apply n. rewrite E.
  destruct Hp as [->| ->]; unfold pkern1, pkern2, public_; eexists; cbn; reflexivity.
Qed.
Lemma groupsLoop_spec d : forall f s, groupsLoop d f s = true <->
  Forall goodGroup d /\ NoDup (sideMembers pkern1 d) /\ NoDup (sideMembers pkern2 d) /\
  (forall g, In g (sideMembers pkern1 d) -> ~ In g f) /\ (forall g, In g (sideMembers pkern2 d) -> ~ In g s).
Proof.
  assert (AP : forall ms l (x : list str), (forall g, In g ms -> ~ In g x) -> NoDup ms -> NoDup l -> (forall g, In g l -> ~ In g (rev ms ++ x)) ->
             NoDup (ms ++ l) /\ forall g, In g (ms ++ l) -> ~ In g x).
  { intros ms l x A N1 N2 B. split.
    - clear A. induction ms as [|m ms IH]; [exact N2|]. inversion N1; subst. cbn. constructor.
      + intro I. apply in_app_or in I as [I|I]; [contradiction|]. apply (B m I). apply in_or_app. left. apply -> in_rev. left; reflexivity.
      + apply IH; [assumption|]. intros g I J. apply (B g I). cbn. apply in_app_or in J as [J|J]; apply in_or_app; [left; apply in_or_app; left; exact J|right; exact J].
    - intros g I. apply in_app_or in I as [I|I]; [apply A; exact I|]. intro J. apply (B g I). apply in_or_app. right. exact J. }
  assert (AP2 : forall ms l (x : list str), NoDup (ms ++ l) -> (forall g, In g (ms ++ l) -> ~ In g x) ->
             NoDup ms /\ (forall g, In g ms -> ~ In g x) /\ NoDup l /\ forall g, In g l -> ~ In g (rev ms ++ x)).
  { intros ms l x N A. induction ms as [|m ms IH].
    - cbn in *. split; [constructor|]. split; [intros g []|]. split; [exact N|exact A].
    - cbn in N. inversion N; subst. destruct IH as (I1 & I2 & I3 & I4); [assumption|intros g I; apply A; right; exact I|].
      split; [constructor; [intro I; apply H1; apply in_or_app; left; exact I|exact I1]|].
      split; [intros g [<-|I]; [apply A; left; reflexivity|apply I2; exact I]|]. split; [exact I3|].
      intros g I J. cbn in J. apply in_app_or in J as [J|J].
      + apply in_app_or in J as [J|[<-|[]]]; [apply (I4 g I); apply in_or_app; left; exact J|]. apply H1. apply in_or_app. right. exact I.
      + apply (I4 g I). apply in_or_app. right. exact J. }
  induction d as [|[k v] r IH]; intros f s.
  - cbn. split; [|reflexivity]. intros _. repeat split; try constructor; intros ? [].
  - unfold sideMembers in *. cbn [map List.concat fst snd groupsLoop].
    destruct k as [| | | |k| | | | | |];
      try (split; [discriminate|]; intros (F & _); apply Forall_inv in F; destruct F as (k' & Ek & _); discriminate Ek).
    assert (Gd : forall X, (is_seq v = true -> k <> [] -> X <-> (goodGroup (PStr k, v) /\ X)) -> True) by trivial. clear Gd.
    destruct (is_seq v) eqn:S; cbn [negb].
    2:{ split; [discriminate|]. intros (F & _). apply Forall_inv in F; destruct F as (k' & _ & _ & S' & _). cbn in S'. congruence. }
    destruct k as [|c k].
    { split; [discriminate|]. intros (F & _). apply Forall_inv in F; destruct F as (k' & Ek & Nk & _). cbn in Ek. inversion Ek; subst. contradiction. }
    remember (c :: k) as kk eqn:Ekk. assert (Nk : kk <> []) by (subst; discriminate).
    assert (plain : startswith pkern1 kk = false -> startswith pkern2 kk = false -> goodGroup (PStr kk, v)).
    { intros A B. exists kk. cbn [fst snd]. split; [reflexivity|]. split; [exact Nk|]. split; [exact S|]. intros [X|X]; congruence. }
    destruct (startswith public_ kk) eqn:P.
    2:{ assert (startswith pkern1 kk = false) as A1.
        { destruct (startswith pkern1 kk) eqn:A; [|reflexivity]. apply kern_public in A; auto. congruence. }
        assert (startswith pkern2 kk = false) as A2.
        { destruct (startswith pkern2 kk) eqn:A; [|reflexivity]. apply kern_public in A; auto. congruence. }
        rewrite A1, A2. cbn [app]. rewrite IH. split; intros (F & R); (split; [|exact R]).
        - constructor; [apply plain; assumption|exact F].
        - inversion F; assumption. }
    destruct (startswith pkern1 kk) eqn:A1; cbn [negb andb].
    + assert (startswith pkern2 kk = false) as A2 by (destruct (startswith pkern2 kk) eqn:A; [exfalso; eapply kern_not_both; eauto|reflexivity]).
      rewrite A2. cbn [app].
      destruct (Nat.eqb_spec (length kk) 13) as [L|L].
      { split; [discriminate|]. intros (F & _). apply Forall_inv in F; destruct F as (k' & Ek & _ & _ & H). cbn in Ek. inversion Ek; subst.
        destruct H as (H & _); [left; exact A1|]. contradiction. }
      destruct (memberLoop (elems v) f) as [f'|] eqn:M.
      * apply memberLoop_spec in M as (ms & Em & N & D & ->). rewrite IH. rewrite Em, strsOf_map. split.
        -- intros (F & N1 & N2 & D1 & D2). destruct (AP ms _ f D N N1 D1) as (X & Y).
           split; [constructor; [|exact F]; exists kk; cbn [fst snd]; split; [reflexivity|]; split; [exact Nk|]; split; [exact S|]; intros _; split; [exact L|eauto]|]. auto.
        -- intros (F & N1 & N2 & D1 & D2). destruct (AP2 ms _ f N1 D1) as (X1 & X2 & X3 & X4). inversion F; subst. auto.
      * split; [discriminate|]. intros (F & N1 & N2 & D1 & D2). apply Forall_inv in F; destruct F as (k' & Ek & _ & _ & H). cbn in Ek. inversion Ek; subst k'.
        destruct H as (_ & ms & Em); [left; exact A1|]. cbn [snd] in Em. rewrite Em, strsOf_map in N1, D1.
        destruct (AP2 ms _ f N1 D1) as (X1 & X2 & X3 & X4).
        assert (memberLoop (elems v) f = Some (rev ms ++ f)) as Z by (apply memberLoop_spec; exists ms; auto). congruence.
    + destruct (startswith pkern2 kk) eqn:A2; cbn [negb].
      2:{ cbn [app]. rewrite IH. split; intros (F & R); (split; [|exact R]).
          - constructor; [apply plain; reflexivity|exact F].
          - inversion F; assumption. }
      cbn [app].
      destruct (Nat.eqb_spec (length kk) 13) as [L|L].
      { split; [discriminate|]. intros (F & _). apply Forall_inv in F; destruct F as (k' & Ek & _ & _ & H). cbn in Ek. inversion Ek; subst.
        destruct H as (H & _); [right; exact A2|]. contradiction. }
      destruct (memberLoop (elems v) s) as [s'|] eqn:M.
      * apply memberLoop_spec in M as (ms & Em & N & D & ->). rewrite IH. rewrite Em, strsOf_map. split.
        -- intros (F & N1 & N2 & D1 & D2). destruct (AP ms _ s D N N2 D2) as (X & Y).
           split; [constructor; [|exact F]; exists kk; cbn [fst snd]; split; [reflexivity|]; split; [exact Nk|]; split; [exact S|]; intros _; split; [exact L|eauto]|]. auto.
        -- intros (F & N1 & N2 & D1 & D2). destruct (AP2 ms _ s N2 D2) as (X1 & X2 & X3 & X4). inversion F; subst. auto.
      * split; [discriminate|]. intros (F & N1 & N2 & D1 & D2). apply Forall_inv in F; destruct F as (k' & Ek & _ & _ & H). cbn in Ek. inversion Ek; subst k'.
        destruct H as (_ & ms & Em); [right; exact A2|]. cbn [snd] in Em. rewrite Em, strsOf_map in N2, D2.
        destruct (AP2 ms _ s N2 D2) as (X1 & X2 & X3 & X4).
        assert (memberLoop (elems v) s = Some (rev ms ++ s)) as Z by (apply memberLoop_spec; exists ms; auto). congruence.
Qed.
