(** Properties C30, C40-C44 and C74-C76: what the validators accept.  [T] stands for
    Python's Unicode tables and float(); the laws used are in PyText.v. *)
From Coq Require Import String NArith ZArith Bool Lia List.
From Coq.Floats Require Import SpecFloat.
From Verif Require Import Base PyVal PyText Validators ValidatorsProofs.
Import ListNotations.
Local Open Scope string_scope.
Local Open Scope list_scope.

(** ** C30 *)
(** the documented rule for the (name, directory) pairs of layercontents.plist *)
Definition documentedLayers (there : str -> Prop) (layers : list (str * str)) : Prop :=
  NoDup (map fst layers) /\ NoDup (map snd layers) /\ In (u "glyphs") (map snd layers) /\
  forall name dir, In (name, dir) layers ->
    name <> [] /\ there dir /\ (dir = u "glyphs" \/ exists rest, dir = u "glyphs." ++ rest) /\
    (name = u "public.default" -> dir = u "glyphs").
Theorem C30_layer_contents_rule : forall (exists_ : str -> res bool) (v : pyval),
  layerContentsValidator exists_ v = Ok true <->
  exists layers, v = PList (map (fun nd => PList [PStr (fst nd); PStr (snd nd)]) layers) /\
                 documentedLayers (fun d => exists_ d = Ok true) layers.
Proof.
  intros ex v. split.
  - intro H. destruct v; try discriminate. cbn [layerContentsValidator] in H.
    apply layerLoop_spec in H as (nds & -> & G & N1 & N2 & _ & _ & D). exists nds. split; [reflexivity|].
    split; [exact N1|]. split; [exact N2|]. split; [destruct D as [D|D]; [discriminate|exact D]|].
    intros n d Hin. apply (proj1 (Forall_forall _ _) G) in Hin. unfold goodLayer in Hin. cbn in Hin. tauto.
  - intros (nds & -> & N1 & N2 & D & G). cbn [layerContentsValidator]. apply layerLoop_spec. exists nds.
    split; [reflexivity|]. split; [|split; [exact N1|split; [exact N2|split; [intros n _ []|split; [intros n _ []|right; exact D]]]]].
    apply Forall_forall. intros [n d] Hin. apply G in Hin. unfold goodLayer. cbn. tauto.
Qed.
Print Assumptions C30_layer_contents_rule.
(** it never raises when the existence check does not *)
Theorem C30_total : forall (exists_ : str -> res bool) (v : pyval),
  (forall d, exists b, exists_ d = Ok b) -> exists b, layerContentsValidator exists_ v = Ok b.
Proof. intros ex v H. destruct v; cbn; eauto. apply layerLoop_total. exact H. Qed.
Print Assumptions C30_total.
Example C30_case :
  let there := fun d => Ok (mem d [u "glyphs"; u "glyphs.background"]) in
  let lc := fun l => PList (map (fun nd => PList [PStr (u (fst nd)); PStr (u (snd nd))]) l) in
  layerContentsValidator there (lc [("fore", "glyphs"); ("back", "glyphs.background")]) = Ok true /\
  layerContentsValidator there (lc [("fore", "glyphs"); ("public.default", "glyphs.background")]) = Ok false /\
  layerContentsValidator there (lc [("fore", "glyphs"); ("back", "glyphs")]) = Ok false.
Proof. vm_compute. repeat split. Qed.

(** ** C40 *)
(** decimal value of a string of digits *)
Definition decimal (s : str) : Z := fold_left (fun a c => a * 10 + Z.of_N (c - 48))%Z s 0%Z.
Definition digits (n : nat) (s : str) : Prop := length s = n /\ Forall (fun c => (48 <= c <= 57)%N) s.
(** length of a month of the Gregorian calendar *)
Definition leapYear (y : Z) : Prop := (y mod 4 = 0 /\ y mod 100 <> 0)%Z \/ (y mod 400 = 0)%Z.
Definition daysIn (y m days : Z) : Prop :=
  (In m [1; 3; 5; 7; 8; 10; 12] /\ days = 31)%Z \/ (In m [4; 6; 9; 11] /\ days = 30)%Z \/
  (m = 2 /\ ((leapYear y /\ days = 29) \/ (~ leapYear y /\ days = 28)))%Z.
(** "YYYY/MM/DD HH:MM:SS" *)
Definition dateString (y m d h mi se : str) : str :=
  y ++ [47%N] ++ m ++ [47%N] ++ d ++ [32%N] ++ h ++ [58%N] ++ mi ++ [58%N] ++ se.
Definition realDate (s : str) : Prop :=
  exists y m d h mi se days, s = dateString y m d h mi se /\
    digits 4 y /\ digits 2 m /\ digits 2 d /\ digits 2 h /\ digits 2 mi /\ digits 2 se /\
    daysIn (decimal y) (decimal m) days /\ (1 <= decimal d <= days)%Z /\
    (decimal h <= 23)%Z /\ (decimal mi <= 59)%Z /\ (decimal se <= 59)%Z.
(** the claim "accepts exactly real dates of this form" is false: a sign or an
    underscore may stand for a digit *)
Theorem C40_real_dates_refuted :
  exists T, pytext_laws T /\ exists s, fontInfoOpenTypeHeadCreatedValidator T (PStr s) = true /\ ~ realDate s.
Proof.
  exists asciiText. split; [exact asciiText_laws|]. exists (u "2000/+1/01 00:00:00"). split; [vm_compute; reflexivity|].
  intros (y & m & d & h & mi & se & days & E & (Ly & Dy) & (Lm & Dm) & _).
  assert (In 43%N (u "2000/+1/01 00:00:00")) as I by (vm_compute; tauto).
  destruct y as [|y1 [|y2 [|y3 [|y4 [|]]]]]; try discriminate. destruct m as [|m1 [|m2 [|]]]; try discriminate.
  cbn in E. inversion E; subst. inversion Dm; subst. cbn in H1. lia.
Qed.
Print Assumptions C40_real_dates_refuted.
Lemma monthDays_daysIn y m : (1 <= m <= 12)%Z -> daysIn y m (monthDays y m).
Proof.
  intro H. unfold monthDays, daysIn.
  assert (m = 1 \/ m = 2 \/ m = 3 \/ m = 4 \/ m = 5 \/ m = 6 \/ m = 7 \/ m = 8 \/ m = 9 \/ m = 10 \/ m = 11 \/ m = 12)%Z as C by lia.
  assert (leapYear y <-> isleap y = true) as L.
  { unfold leapYear, isleap. destruct (Z.eqb_spec (y mod 4) 0), (Z.eqb_spec (y mod 100) 0), (Z.eqb_spec (y mod 400) 0); cbn; split; intro X; try reflexivity; try discriminate; try tauto; exfalso.
    - pose proof (Z.div_mod y 400 ltac:(lia)). pose proof (Z.div_mod y 4 ltac:(lia)). assert (y mod 4 = 0)%Z; [|lia]. replace y with (4 * (100 * (y / 400)))%Z by lia. rewrite Z.mul_comm. apply Z.mod_mul. lia.
    - pose proof (Z.div_mod y 400 ltac:(lia)). assert (y mod 4 = 0)%Z; [|lia]. replace y with (4 * (100 * (y / 400)))%Z by lia. rewrite Z.mul_comm. apply Z.mod_mul. lia. }
  decompose [or] C; subst m; cbn -[isleap]; try (left; split; [tauto|reflexivity]); try (right; left; split; [tauto|reflexivity]).
  right. right. split; [reflexivity|]. destruct (isleap y) eqn:E; [left; split; [apply L; reflexivity|reflexivity]|right; split; [|reflexivity]].
  intro X. apply L in X. discriminate.
Qed.
Lemma daysIn_fun y m a b : daysIn y m a -> daysIn y m b -> a = b.
Proof.
  unfold daysIn. cbn [In]. intros [(A & ->)|[(A & ->)|(A & [(B & ->)|(B & ->)])]] [(A' & ->)|[(A' & ->)|(A' & [(B' & ->)|(B' & ->)])]]; try reflexivity; try lia; contradiction.
Qed.
(** partial: it holds for every string of digits, slashes, colons and spaces.
    Missing: the strings in which Python's int() accepts something else than
    digits (signs, underscores, white space, non-ASCII digits). *)
Theorem C40_real_dates_partial : forall T s, pytext_laws T ->
  (forall c, In c s -> (48 <= c <= 57)%N \/ In c [47; 58; 32]%N) ->
  (fontInfoOpenTypeHeadCreatedValidator T (PStr s) = true <-> realDate s).
Proof.
  intros T s laws A. cbn [fontInfoOpenTypeHeadCreatedValidator]. split.
  - intro H. apply (headCreated_sound T laws) in H.
    2:{ apply Forall_forall. intros c Hc. apply A in Hc. unfold plainC, digitC. cbn [In] in Hc. destruct Hc as [|[|[|[|[]]]]]; subst; auto. }
    destruct H as (y & m & d & h & mi & se & E & D & Ly & L2 & Hm & Hd & Hh & Hmi & Hse).
    exists y, m, d, h, mi, se, (monthDays (zdec y 0) (zdec m 0)).
    repeat match goal with H : Forall _ (_ :: _) |- _ => inversion H; clear H; subst end.
    split; [reflexivity|]. unfold digits. repeat (split; [split; assumption|]).
    split; [apply monthDays_daysIn; exact Hm|]. auto.
  - intros (y & m & d & h & mi & se & days & -> & (Ly & Dy) & (Lm & Dm) & (Ld & Dd) & (Lh & Dh) & (Li & Di) & (Ls & Ds) & X & Hd & Hh & Hi & Hs).
    assert (1 <= decimal m <= 12)%Z as Hm.
    { unfold daysIn in X. cbn [In] in X. lia. }
    apply (headCreated_complete T laws); repeat constructor; auto.
    + apply Hm.
    + apply Hm.
    + apply Hd.
    + pose proof (daysIn_fun _ _ _ _ (monthDays_daysIn (decimal y) _ Hm) X) as Q. change (decimal d <= monthDays (decimal y) (decimal m))%Z. lia.
Qed.
Print Assumptions C40_real_dates_partial.
Example C40_case :
  fontInfoOpenTypeHeadCreatedValidator asciiText (PStr (u "2000/02/29 23:59:59")) = true /\
  fontInfoOpenTypeHeadCreatedValidator asciiText (PStr (u "1900/02/29 00:00:00")) = false /\
  fontInfoOpenTypeHeadCreatedValidator asciiText (PStr (u "2001/11/31 00:00:00")) = false /\
  fontInfoOpenTypeHeadCreatedValidator asciiText (PStr (u "2001/12/31 24:00:00")) = false.
Proof. vm_compute. repeat split. Qed.

(** ** C41 *)
Theorem C41_identifier_rule : forall v,
  identifierValidator v = true <->
  exists s, v = PStr s /\ 1 <= length s <= 100 /\ forall c, In c s -> (32 <= c <= 126)%N.
Proof.
  intro v. split.
  - intro H. destruct v; try discriminate. exists s. split; [reflexivity|]. cbn [identifierValidator] in H. unfold identifierOk in H.
    destruct s as [|c r]; [discriminate|]. destruct (Nat.ltb_spec 100 (length (c :: r))) as [L|L]; [discriminate|].
    split; [split; [cbn; lia|exact L]|]. rewrite forallb_forall in H. intros x Hx. apply H in Hx.
    destruct (N.ltb_spec x 32), (N.ltb_spec 126 x); cbn in Hx; try discriminate. lia.
  - intros (s & -> & (L1 & L2) & B). cbn [identifierValidator]. unfold identifierOk. destruct s as [|c r]; [cbn in L1; lia|].
    destruct (Nat.ltb_spec 100 (length (c :: r))) as [L|L]; [lia|]. apply forallb_forall. intros x Hx. apply B in Hx.
    destruct (N.ltb_spec x 32), (N.ltb_spec 126 x); cbn; try reflexivity; lia.
Qed.
Print Assumptions C41_identifier_rule.
Example C41_case : identifierValidator (PStr (u "a b~")) = true /\ identifierValidator (PStr []) = false /\
  identifierValidator (PStr (repeat 97%N 101)) = false /\ identifierValidator (PStr [10%N]) = false /\ identifierValidator (PInt 1) = false.
Proof. vm_compute. repeat split. Qed.

(** ** C42 *)
(** the real number m * 2^e is at most 1 *)
Definition atMostOne (m : positive) (e : Z) : Prop :=
  if (e <? 0)%Z then (Zpos m <= 2 ^ (- e))%Z else (Zpos m * 2 ^ e <= 1)%Z.
Definition floatInUnit (f : spec_float) : Prop :=
  match f with
  | S754_zero _ => True
  | S754_finite s m e => s = false /\ atMostOne m e
  | _ => False
  end.
(** the component [part] denotes a number between 0 and 1: an int or, if it is
    not one, a float *)
Definition unitComponent (T : pytext) (part : str) : Prop :=
  let p := strip (isSpace T) part in
  match parseInt T p, parseFloat T p with
  | Some z, _ => (0 <= z <= 1)%Z
  | None, Some f => floatInUnit f
  | None, None => False
  end.
Definition isColor (component : str -> Prop) (s : str) : Prop :=
  exists r g b a, s = r ++ [44%N] ++ g ++ [44%N] ++ b ++ [44%N] ++ a /\
    (forall p, In p [r; g; b; a] -> ~ In 44%N p /\ component p).
(** false: "nan" is accepted *)
Theorem C42_colors_refuted :
  ~ (forall T s, pytext_laws T -> colorValidator T (PStr s) = true -> isColor (unitComponent T) s).
Proof.
  intro H. specialize (H asciiText (u "nan,0,0,1") asciiText_laws ltac:(vm_compute; reflexivity)).
  destruct H as (r & g & b & a & E & P).
  assert (split1 44 (u "nan,0,0,1") = [r; g; b; a]) as S.
  { rewrite E. cbn [app]. rewrite !(split1_app_sep 44%N).
    rewrite !split1_none; [reflexivity|..]; apply P; cbn; tauto. }
  assert (r = u "nan") as -> by (vm_compute in S; inversion S; reflexivity).
  destruct (P (u "nan") ltac:(cbn; tauto)) as (_ & C). vm_compute in C. exact C.
Qed.
Print Assumptions C42_colors_refuted.
Lemma num_lt0 f : num_lt (PFloat f) (PInt 0) = true <-> match f with S754_infinity s => s = true | S754_finite s _ _ => s = true | _ => False end.
Proof.
  unfold num_lt, num_cmp. cbn [num]. destruct f as [s|s| |s m e]; cbn [ext_of_float ext_compare]; cbv zeta; try (split; [discriminate|intros []]).
  - destruct s; cbn; split; auto; discriminate.
  - rewrite Z.mul_0_l. assert (0 < 2 ^ (e - Z.min e 0))%Z by (apply Z.pow_pos_nonneg; lia).
    destruct s.
    + destruct (Z.compare_spec (Z.neg m * 2 ^ (e - Z.min e 0)) 0); try nia; split; auto.
    + destruct (Z.compare_spec (Z.pos m * 2 ^ (e - Z.min e 0)) 0); split; try discriminate; nia.
Qed.
Lemma num_gt1 f : num_gt (PFloat f) (PInt 1) = true <-> match f with S754_infinity s => s = false | S754_finite s m e => s = false /\ ~ atMostOne m e | _ => False end.
Proof.
  unfold num_gt, num_cmp. cbn [num]. destruct f as [s|s| |s m e]; cbn [ext_of_float ext_compare]; cbv zeta; try (split; [discriminate|intros []]).
  - destruct s; cbn; split; auto; discriminate.
  - unfold atMostOne. destruct (Z.ltb_spec e 0) as [L|L].
    + rewrite Z.min_l by lia. rewrite Z.sub_diag. change (2 ^ 0)%Z with 1%Z. rewrite Z.mul_1_r. replace (0 - e)%Z with (- e)%Z by lia.
      rewrite Z.mul_1_l.
      assert (0 < 2 ^ (- e))%Z by (apply Z.pow_pos_nonneg; lia).
      destruct s.
      * destruct (Z.compare_spec (Z.neg m) (2 ^ (- e))); split; try discriminate; try lia; intros (Q & _); discriminate.
      * destruct (Z.compare_spec (Z.pos m) (2 ^ (- e))); split; try discriminate; try lia; intros (_ & Q); lia.
    + rewrite Z.min_r by lia. rewrite Z.sub_0_r. change (1 * 2 ^ (0 - 0))%Z with 1%Z.
      destruct s.
      * assert (0 < 2 ^ e)%Z by (apply Z.pow_pos_nonneg; lia).
        destruct (Z.compare_spec (Z.neg m * 2 ^ e) 1); split; try discriminate; try nia; intros (Q & _); discriminate.
      * destruct (Z.compare_spec (Z.pos m * 2 ^ e) 1); split; try discriminate; try lia; intros (_ & Q); lia.
Qed.
Lemma colorPart_spec T p : colorPart T p = true <->
  unitComponent T p \/ (parseInt T (strip (isSpace T) p) = None /\ parseFloat T (strip (isSpace T) p) = Some S754_nan).
Proof.
  unfold colorPart, unitComponent. cbv zeta. destruct (parseInt T (strip (isSpace T) p)) as [z|].
  - unfold num_lt, num_gt, num_cmp. cbn [num ext_compare]. cbv zeta. change (2 ^ (0 - Z.min 0 0))%Z with 1%Z. rewrite !Z.mul_1_r.
    destruct (Z.compare_spec z 0), (Z.compare_spec z 1); split; intro Q; try discriminate; try reflexivity; try (left; lia); destruct Q as [Q|(Q & _)]; try lia; discriminate.
  - destruct (parseFloat T (strip (isSpace T) p)) as [f|]; [|split; [discriminate|intros [[]|(_ & Q)]; discriminate]].
    destruct (num_lt (PFloat f) (PInt 0)) eqn:A; [|destruct (num_gt (PFloat f) (PInt 1)) eqn:B].
    + split; [discriminate|]. apply num_lt0 in A. destruct f; cbn; intros [Q|(_ & Q)]; try discriminate; try contradiction. destruct Q. subst. discriminate.
    + split; [discriminate|]. apply num_gt1 in B. destruct f; cbn; intros [Q|(_ & Q)]; try discriminate; try contradiction. destruct Q, B. contradiction.
    + split; [intros _|reflexivity].
      assert (NA : ~ match f with S754_infinity s => s = true | S754_finite s _ _ => s = true | _ => False end) by (rewrite <- num_lt0; congruence).
      assert (NB : ~ match f with S754_infinity s => s = false | S754_finite s m e => s = false /\ ~ atMostOne m e | _ => False end) by (rewrite <- num_gt1; congruence).
      destruct f as [s|s| |s m e]; cbn.
      * left. exact I.
      * destruct s; exfalso; auto.
      * right. split; reflexivity.
      * left. destruct s; [exfalso; auto|]. split; [reflexivity|]. unfold atMostOne in *. destruct (e <? 0)%Z; lia.
Qed.
(** partial: NaN is the only exception; with it the characterisation is exact *)
Theorem C42_colors_partial : forall T v,
  colorValidator T v = true <->
  exists s, v = PStr s /\
    isColor (fun p => unitComponent T p \/
                      (let q := strip (isSpace T) p in parseInt T q = None /\ parseFloat T q = Some S754_nan)) s.
Proof.
  intros T v. split.
  - intro H. destruct v; try discriminate. exists s. split; [reflexivity|]. cbn [colorValidator] in H. unfold colorOk in H.
    destruct (split1 44 s) as [|r [|g [|b [|a [|]]]]] eqn:S; try discriminate. cbn [length Nat.eqb negb] in H.
    exists r, g, b, a. split.
    + rewrite <- (join_split1 44%N s), S. reflexivity.
    + intros p Hp. split.
      * apply (split1_no_sep 44%N s p). rewrite S. exact Hp.
      * rewrite forallb_forall in H. apply H in Hp. apply colorPart_spec in Hp. exact Hp.
  - intros (s & -> & r & g & b & a & E & P). cbn [colorValidator]. unfold colorOk.
    assert (split1 44 s = [r; g; b; a]) as S.
    { rewrite E. cbn [app]. rewrite !(split1_app_sep 44%N).
      rewrite !split1_none; [reflexivity|..]; apply P; cbn; tauto. }
    rewrite S. cbn [length Nat.eqb negb]. apply forallb_forall. intros p Hp. apply colorPart_spec. apply (P p Hp).
Qed.
Print Assumptions C42_colors_partial.
Example C42_case : colorValidator asciiText (PStr (u "1, .5,0,1")) = true /\ colorValidator asciiText (PStr (u "1,2,0,1")) = false /\
  colorValidator asciiText (PStr (u "1,0,0")) = false /\ colorValidator asciiText (PStr (u "1,-1,0,1")) = false.
Proof. vm_compute. repeat split. Qed.

(** ** C43 *)
Definition strings (l : list pyval) : list str := List.concat (map (fun v => match v with PStr s => [s] | _ => [] end) l).
(** the glyphs of all groups whose name starts with [prefix], in order *)
Definition membersOf (prefix : str) (d : list (pyval * pyval)) : list str :=
  List.concat (map (fun kv => match fst kv with PStr k => if startswith prefix k then strings (elems (snd kv)) else [] | _ => [] end) d).
Definition namedGlyphList (kv : pyval * pyval) : Prop :=
  exists k, fst kv = PStr k /\ k <> [] /\ is_seq (snd kv) = true.
(** a kerning group has a name after the prefix and contains strings only *)
Definition goodKerningGroup (kv : pyval * pyval) : Prop :=
  forall k rest side, fst kv = PStr k -> In side ["public.kern1."; "public.kern2."] -> k = u side ++ rest ->
    rest <> [] /\ forall x, In x (elems (snd kv)) -> exists s, x = PStr s.
Theorem C43_groups_rule : forall v,
  groupsValidator v = true <->
  exists d, v = PDict d /\ Forall namedGlyphList d /\ Forall goodKerningGroup d /\
    NoDup (membersOf (u "public.kern1.") d) /\ NoDup (membersOf (u "public.kern2.") d).
Proof.
  assert (AS : forall l : list pyval, (forall x, In x l -> exists s, x = PStr s) -> exists ms, l = map PStr ms).
  { induction l as [|x r IH]; intro H; [exists []; reflexivity|]. destruct (H x ltac:(left; reflexivity)) as (s & ->).
    destruct IH as (ms & ->); [intros y Hy; apply H; right; exact Hy|]. exists (s :: ms). reflexivity. }
  intro v. split.
  - intro H. destruct v; try discriminate. exists d. split; [reflexivity|]. cbn [groupsValidator] in H.
    apply groupsLoop_spec in H as (G & N1 & N2 & _). split; [|split; [|split; [exact N1|exact N2]]].
    + eapply Forall_impl; [|exact G]. intros kv (k & E & Hn & S & _). exists k. auto.
    + eapply Forall_impl; [|exact G]. intros kv (k & E & Hn & S & K) k' rest side E' Hside ->. rewrite E' in E. inversion E; subst k. clear E.
      assert (startswith pkern1 (u side ++ rest) = true \/ startswith pkern2 (u side ++ rest) = true) as SW.
      { cbn [In] in Hside. destruct Hside as [<-|[<-|[]]]; [left|right].
        - destruct (startswith_spec pkern1 (u "public.kern1." ++ rest)) as [|n]; [reflexivity|]. exfalso. apply n. exists rest. reflexivity.
        - destruct (startswith_spec pkern2 (u "public.kern2." ++ rest)) as [|n]; [reflexivity|]. exfalso. apply n. exists rest. reflexivity. }
      destruct (K SW) as (L & ms & Em). split.
      * intros ->. apply L. rewrite app_nil_r. cbn [In] in Hside. destruct Hside as [<-|[<-|[]]]; reflexivity.
      * rewrite Em. intros x Hx. apply in_map_iff in Hx as (s & <- & _). eauto.
  - intros (d & -> & NG & GK & N1 & N2). cbn [groupsValidator]. apply groupsLoop_spec.
    split; [|split; [exact N1|split; [exact N2|split; intros g _ []]]].
    apply Forall_forall. intros kv Hkv. destruct (proj1 (Forall_forall _ _) NG kv Hkv) as (k & E & Hn & S). exists k.
    split; [exact E|]. split; [exact Hn|]. split; [exact S|]. intro SW.
    pose proof (proj1 (Forall_forall _ _) GK kv Hkv) as K.
    destruct SW as [SW|SW].
    + destruct (startswith_spec pkern1 k) as [(r & Er)|]; [|discriminate].
      destruct (K k r "public.kern1." E ltac:(cbn; tauto) Er) as (Hr & A). split; [|apply AS; exact A].
      rewrite Er, app_length. destruct r; [contradiction|]. change (length pkern1) with 13. cbn. lia.
    + destruct (startswith_spec pkern2 k) as [(r & Er)|]; [|discriminate].
      destruct (K k r "public.kern2." E ltac:(cbn; tauto) Er) as (Hr & A). split; [|apply AS; exact A].
      rewrite Er, app_length. destruct r; [contradiction|]. change (length pkern2) with 13. cbn. lia.
Qed.
Print Assumptions C43_groups_rule.
Definition grp (k : string) (l : list string) : pyval * pyval := (PStr (u k), PList (map (fun g => PStr (u g)) l)).
Example C43_case :
  groupsValidator (PDict [grp "public.kern1.O" ["O"; "Q"]; grp "public.kern2.O" ["O"]; grp "all" ["O"; "O"]]) = true /\
  groupsValidator (PDict [grp "public.kern1.O" ["O"; "Q"]; grp "public.kern1.Q" ["Q"]]) = false /\
  groupsValidator (PDict [grp "public.kern1." ["O"]]) = false /\
  groupsValidator (PDict [grp "" ["O"]]) = false.
Proof. vm_compute. repeat split. Qed.

(** ** C44 *)
(** the identifiers given in a list of dictionaries *)
Definition identifiersOf (l : list pyval) : list str :=
  List.concat (map (fun g => match vget (u "identifier") g with PStr s => [s] | _ => [] end) l).
Lemma C44_common iv v used used' l : v = PList l -> uniqueLoop iv l used = (true, used') ->
  Forall (fun g => iv g = true) l /\ NoDup (identifiersOf l) /\
  (forall s, In s (identifiersOf l) -> ~ In s used) /\
  (forall s, In s used' <-> In s used \/ In s (identifiersOf l)).
Proof.
  intros _ E. apply uniqueLoop_spec in E as (F & new & -> & -> & ND & D). split; [exact F|]. split; [exact ND|]. split; [exact D|].
  intro s. rewrite in_app_iff, <- in_rev. unfold identifiersOf. tauto.
Qed.
Theorem C44_guidelines_unique : forall T v used used',
  guidelinesValidator T v used = (true, used') ->
  exists l, v = PList l /\ Forall (fun g => guidelineValidator T g = true) l /\ NoDup (identifiersOf l) /\
    (forall s, In s (identifiersOf l) -> ~ In s used) /\
    (forall s, In s used' <-> In s used \/ In s (identifiersOf l)).
Proof. intros T v used used' E. destruct v; try discriminate. exists l. split; [reflexivity|]. apply (C44_common _ (PList l)); [reflexivity|exact E]. Qed.
Print Assumptions C44_guidelines_unique.
Theorem C44_anchors_unique : forall T v used used',
  anchorsValidator T v used = (true, used') ->
  exists l, v = PList l /\ Forall (fun g => anchorValidator T g = true) l /\ NoDup (identifiersOf l) /\
    (forall s, In s (identifiersOf l) -> ~ In s used) /\
    (forall s, In s used' <-> In s used \/ In s (identifiersOf l)).
Proof. intros T v used used' E. destruct v; try discriminate. exists l. split; [reflexivity|]. apply (C44_common _ (PList l)); [reflexivity|exact E]. Qed.
Print Assumptions C44_anchors_unique.
(** and nothing more is required *)
Theorem C44_complete : forall T l used,
  NoDup (identifiersOf l) -> (forall s, In s (identifiersOf l) -> ~ In s used) ->
  (Forall (fun g => guidelineValidator T g = true) l -> fst (guidelinesValidator T (PList l) used) = true) /\
  (Forall (fun g => anchorValidator T g = true) l -> fst (anchorsValidator T (PList l) used) = true).
Proof. intros T l used ND D. split; intro F; apply uniqueLoop_complete; assumption. Qed.
Print Assumptions C44_complete.
Definition anchorOf (i : string) : pyval := PDict [(PStr (u "x"), PInt 1); (PStr (u "y"), PInt 2); (PStr (u "identifier"), PStr (u i))].
Example C44_case :
  fst (anchorsValidator asciiText (PList [anchorOf "a"; anchorOf "b"]) [u "c"]) = true /\
  fst (anchorsValidator asciiText (PList [anchorOf "a"; anchorOf "a"]) [u "c"]) = false /\
  fst (anchorsValidator asciiText (PList [anchorOf "a"; anchorOf "c"]) [u "c"]) = false.
Proof. vm_compute. repeat split. Qed.

(** ** C74: a guideline is a vertical, horizontal or angled line *)
(** the value of a key, None if it is missing *)
Definition at_ (k : string) (d : pyval) : pyval := vget (u k) d.
Definition isNum (v : pyval) : Prop := (exists z, v = PInt z) \/ (exists b, v = PBool b) \/ exists f, v = PFloat f.
Definition lineShape (g : pyval) : Prop :=
  (isNum (at_ "x" g) /\ at_ "y" g = PNone /\ at_ "angle" g = PNone) \/
  (at_ "x" g = PNone /\ isNum (at_ "y" g) /\ at_ "angle" g = PNone) \/
  (isNum (at_ "x" g) /\ isNum (at_ "y" g) /\ isNum (at_ "angle" g) /\
   num_lt (at_ "angle" g) (PInt 0) = false /\ num_gt (at_ "angle" g) (PInt 360) = false).
Lemma isNum_number v : is_number v = true -> isNum v.
Proof. destruct v; try discriminate; unfold isNum; eauto. Qed.
Lemma optGet value p k t : genericDictValidator value p = true -> get k p = Some (t, false) -> vget k value = PNone \/ isinstance (vget k value) t = true.
Proof. intros H G. destruct (genericDict_get value p k t false H G) as [(_ & E & _)|(_ & [(E & _)|E])]; auto. Qed.
Theorem C74_guideline_shape : forall T g, guidelineValidator T g = true ->
  lineShape g /\
  (at_ "name" g = PNone \/ exists s, at_ "name" g = PStr s) /\
  (at_ "identifier" g = PNone \/ identifierValidator (at_ "identifier" g) = true) /\
  (at_ "color" g = PNone \/ colorValidator T (at_ "color" g) = true) /\
  forall k w, In (k, w) (items g) -> In k (map (fun s => PStr (u s)) ["x"; "y"; "angle"; "name"; "color"; "identifier"]).
Proof.
  intros T g H. unfold guidelineValidator in H. destruct (genericDictValidator g guidelineProto) eqn:D; [|discriminate]. cbn [negb] in H.
  unfold lineShape, at_.
  pose proof (optGet g guidelineProto (u "x") TNumber D eq_refl) as X.
  pose proof (optGet g guidelineProto (u "y") TNumber D eq_refl) as Y.
  pose proof (optGet g guidelineProto (u "angle") TNumber D eq_refl) as A.
  pose proof (optGet g guidelineProto (u "name") TStr D eq_refl) as Nm.
  cbv zeta in H. destruct (is_none (vget (u "x") g) && is_none (vget (u "y") g)) eqn:E1; [discriminate|].
  destruct ((is_none (vget (u "x") g) || is_none (vget (u "y") g)) && negb (is_none (vget (u "angle") g))) eqn:E2; [discriminate|].
  destruct (negb (is_none (vget (u "x") g)) && negb (is_none (vget (u "y") g)) && is_none (vget (u "angle") g)) eqn:E3; [discriminate|].
  destruct (negb (is_none (vget (u "angle") g)) && (num_lt (vget (u "angle") g) (PInt 0) || num_gt (vget (u "angle") g) (PInt 360))) eqn:E4; [discriminate|].
  destruct (optionalIdentifierOk g) eqn:E5; [|discriminate]. cbn [negb] in H.
  split; [|split; [|split; [|split]]].
  - destruct X as [X|X], Y as [Y|Y], A as [A|A];
      try (rewrite X in * ); try (rewrite Y in * ); try (rewrite A in * ); cbn in *; try discriminate.
    + right. left. split; [reflexivity|]. split; [apply isNum_number; exact Y|reflexivity].
    + destruct (vget (u "y") g); try discriminate; destruct (vget (u "angle") g); discriminate.
    + left. split; [apply isNum_number; exact X|]. split; reflexivity.
    + destruct (vget (u "x") g); try discriminate; destruct (vget (u "angle") g); discriminate.
    + destruct (vget (u "x") g); try discriminate; destruct (vget (u "y") g); discriminate.
    + right. right. split; [apply isNum_number; exact X|]. split; [apply isNum_number; exact Y|]. split; [apply isNum_number; exact A|].
      destruct (vget (u "angle") g); try discriminate; cbn [is_none negb andb] in E4; apply orb_false_iff in E4; exact E4.
  - destruct Nm as [Nm|Nm]; [left; exact Nm|right]. destruct (vget (u "name") g); try discriminate. eauto.
  - unfold optionalIdentifierOk in E5. apply orb_true_iff in E5 as [E|E]; [left|right; exact E]. destruct (vget (u "identifier") g); try discriminate. reflexivity.
  - unfold optionalColorOk in H. apply orb_true_iff in H as [E|E]; [left|right; exact E]. destruct (vget (u "color") g); try discriminate. reflexivity.
  - intros k w Hin. apply genericDict_spec in D as (d & -> & _ & U). apply U in Hin as (s & t & r & -> & G & _).
    apply get_In in G. cbn in G. repeat (destruct G as [G|G]; [inversion G; subst; cbn; tauto|]). contradiction.
Qed.
Print Assumptions C74_guideline_shape.
Definition dictOf (l : list (string * pyval)) : pyval := PDict (map (fun kv => (PStr (u (fst kv)), snd kv)) l).
Example C74_case :
  guidelineValidator asciiText (dictOf [("x", PInt 1)]) = true /\
  guidelineValidator asciiText (dictOf [("x", PInt 1); ("y", PInt 2); ("angle", PInt 360)]) = true /\
  guidelineValidator asciiText (dictOf [("x", PInt 1); ("y", PInt 2)]) = false /\
  guidelineValidator asciiText (dictOf [("x", PInt 1); ("angle", PInt 2)]) = false /\
  guidelineValidator asciiText (dictOf [("x", PInt 1); ("y", PInt 2); ("angle", PInt 361)]) = false.
Proof. vm_compute. repeat split. Qed.

(** ** C75: kerning.plist has numeric values for pairs of strings *)
Theorem C75_kerning_rule : forall v,
  kerningValidator v = true <->
  exists d, v = PDict d /\ forall first seconds, In (first, seconds) d ->
    (exists s, first = PStr s) /\
    exists e, seconds = PDict e /\ forall second value, In (second, value) e -> (exists s, second = PStr s) /\ isNum value.
Proof.
  assert (NN : forall v, isNum v -> is_number v = true) by (intros v [(z & ->)|[(b & ->)|(f & ->)]]; reflexivity).
  intro v. unfold kerningValidator. split.
  - intro H. apply andb_true_iff in H as (D & H). destruct v; try discriminate. exists d. split; [reflexivity|].
    rewrite forallb_forall in H. intros f s Hin. apply H in Hin. apply andb_true_iff in Hin as (A & B). apply andb_true_iff in A as (A1 & A2).
    split; [destruct f; try discriminate; eauto|]. destruct s; try discriminate. exists d0. split; [reflexivity|].
    rewrite forallb_forall in B. intros k w Hk. apply B in Hk. apply andb_true_iff in Hk as (K1 & K2).
    split; [destruct k; try discriminate; eauto|apply isNum_number; exact K2].
  - intros (d & -> & H). cbn [is_dict items andb]. apply forallb_forall. intros [f s] Hin. apply H in Hin as ((s1 & ->) & e & -> & K).
    cbn [is_str is_dict andb items]. apply forallb_forall. intros [k w] Hk. apply K in Hk as ((s2 & ->) & Nw). cbn. apply NN. exact Nw.
Qed.
Print Assumptions C75_kerning_rule.
Example C75_case :
  kerningValidator (dictOf [("A", dictOf [("V", PInt (-20)); ("W", PFloat (S754_finite true 5 (-1)))])]) = true /\
  kerningValidator (dictOf [("A", dictOf [("V", PStr (u "20"))])]) = false /\
  kerningValidator (dictOf [("A", PInt 3)]) = false.
Proof. vm_compute. repeat split. Qed.

(** ** C76: an image file is accepted exactly when it starts with the PNG signature *)
Theorem C76_png_signature : forall data,
  pngValidator data = true <-> exists rest, data = [137; 80; 78; 71; 13; 10; 26; 10]%N ++ rest.
Proof.
  intro data. unfold pngValidator. split.
  - intro H. apply (proj1 (eqb_eq _ _)) in H. exists (skipn 8 data). rewrite <- (firstn_skipn 8 data) at 1. rewrite H. reflexivity.
  - intros (r & ->). apply (proj2 (eqb_eq _ _)). reflexivity.
Qed.
Print Assumptions C76_png_signature.
Example C76_case : pngValidator [137; 80; 78; 71; 13; 10; 26; 10; 0; 0]%N = true /\ pngValidator [137; 80; 78; 71]%N = false.
Proof. vm_compute. repeat split. Qed.
