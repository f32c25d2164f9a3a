(** Property C107: groups and kerning in UFO 1 and 2.  Those of a UFO 3 are written
    to an older version and read again as they were; those of an older UFO are given
    back their names when they are written with the maps of the reader. *)
From Coq Require Import String NArith ZArith Bool Lia List Permutation.
From Coq.Floats Require Import SpecFloat.
From Verif Require Import Base PyVal PyText FloatRepr Validators ValidatorsProofs PropValidators PropFontInfoAccepts.
From Verif Require Import Kerning KerningProofs PropKerning FS FSProofs Ufo UfoProofs ToyCodec PropUfo PropUfoFiles EtreeProofs PlistFiles PropSaveAs PropReader PropOldGroups.
From Verif Require FontProofs FontAccepts PropFont PropInfoFile.
Import ListNotations.
Local Open Scope string_scope.
Local Open Scope list_scope.

(** ** the statements *)
(** a file can be written there, and an empty dictionary leaves none *)
Definition ready (c : wcfg) (t : node) (name : string) : Prop :=
  isdir t [u name] = false /\ (hp c = true \/ existsAt t [u name] = false).
(** the names of groups mean in UFO 1 and 2 what they mean in UFO 3: none is one of
    MetricsMachine, and those in the kerning have the prefix of their side *)
Definition newNames (gs : list (str * list str)) (l : list (str * str * pyval)) : Prop :=
  (forall g, In g (keys gs) -> ~ (exists r, g = u "@MMK_L_" ++ r) /\ ~ (exists r, g = u "@MMK_R_" ++ r)) /\
  (forall a b x, In (a, b, x) l -> (In a (keys gs) -> exists r, a = u "public.kern1." ++ r) /\ (In b (keys gs) -> exists r, b = u "public.kern2." ++ r)).
Definition groupTexts (gs : list (str * list str)) : Prop := forall n m, In (n, m) gs -> textOk n /\ forall x, In x m -> textOk x.
Definition mapsVal (m1 m2 : list (str * str)) : pyval := PDict [(PStr (u "side1"), mapVal m1); (PStr (u "side2"), mapVal m2)].

(** ** proofs *)
Lemma keeps_remap prev C name v s s' : writePlist C prev name v s = (s', Ok tt) -> remap s' = remap s.
Proof.
  assert (F : forall p b w w' , fsSetbytes p b w = (w', Ok tt) -> remap w' = remap w).
  { intros p b w w' H. unfold fsSetbytes, mbind, getTree, change, raise in H. destruct (setbytes (tree w) p b); [|discriminate H]. apply (f_equal (fun x => remap (fst x))) in H. symmetry. exact H. }
  unfold writePlist. destruct prev.
  - unfold mbind, lift, dumpsU, getTree. destruct (dumps C v) as [b|]; [|discriminate]. destruct (existsAt (tree s) [name]).
    + destruct (getbytes (tree s) [name]) as [old|]; [|discriminate]. destruct (eqb b old); [intro H; apply (f_equal (fun x => remap (fst x))) in H; symmetry; exact H|apply F].
    + apply F.
  - unfold mbind at 1. destruct (fsSetbytes [name] [] s) as [w [[]|]] eqn:E; [|discriminate]. unfold mbind, lift, dumpsU. destruct (dumps C v) as [b|]; [|discriminate]. intro H. apply F in H. apply F in E. congruence.
Qed.
Lemma keeps_remap_removed x s s' : plainName x -> removePath x true false s = (s', Ok tt) -> remap s' = remap s.
Proof.
  intros P H. unfold removePath in H. unfold mbind at 1, lift at 1 in H. rewrite (components_plain _ P) in H. unfold mbind at 1, getTree in H. unfold mbind in H.
  destruct (remove (tree s) [x]) as [t|e]; [|destruct e; try (destruct (removetree (tree s) [x]))]; unfold change, ret, raise in H; try discriminate H; apply (f_equal (fun x => remap (fst x))) in H; symmetry; exact H.
Qed.
Section Store.
Variables (T : pytext) (R : spec_float -> str).
Hypotheses (LT : pytext_laws T) (LR : repr_laws T R).
Notation C := (plistCodec T R).
(** writing a dictionary, or removing the file if it is empty *)
Definition stores (c : wcfg) (name : string) (d : list (pyval * pyval)) : M unit :=
  match d with
  | [] => if hp c then removePath (u name) true false else ret tt
  | _ => writePlist C (hp c) (u name) (PDict d)
  end.
Lemma not_dir t es name : t = Dir es -> isdir t [u name] = false -> FontAccepts.fileAt (u name) es.
Proof. intros -> H ds G. unfold isdir in H. rewrite FontProofs.find_top, G in H. discriminate H. Qed.
Lemma stored c name d s es : plainName (u name) -> tree s = Dir es -> ready c (tree s) name -> plistFaithful (PDict d) ->
  exists s' w, stores c name d s = (s', Ok tt) /\ remap s' = remap s /\ FontProofs.touches (u name) s s' /\ getPlist C (tree s') (u name) empty = Ok w /\ psame (PDict d) w.
Proof.
  intros P E (N & Hp) F. pose proof (not_dir _ _ _ E N) as Nd. destruct d as [|x d]; cbn [stores].
  - assert (S : psame (PDict []) (PDict [])) by (apply (ps_dict [] [] []); constructor).
    destruct (hp c).
    + destruct (FontAccepts.remove_total s es (u name) E P Nd) as (w & H). exists w, (PDict []). split; [exact H|]. split; [eapply keeps_remap_removed; [exact P|exact H]|].
      split; [apply FontProofs.removePath_touches; [exact P|exact H]|]. split; [|exact S].
      pose proof (FontProofs.removePath_gone _ _ _ _ P E H) as G. unfold getPlist, getbytes. rewrite G. reflexivity.
    + destruct Hp as [Hp|Hp]; [discriminate Hp|]. exists s, (PDict []). split; [reflexivity|]. split; [reflexivity|]. split; [apply FontProofs.touches_refl|]. split; [|exact S].
      unfold getPlist, getbytes. unfold existsAt in Hp. destruct (FS.find (tree s) [u name]); [discriminate Hp|reflexivity].
  - destruct (FontAccepts.writePlist_total T R LT LR (hp c) s es (u name) _ E Nd F) as (w & H). destruct (read_stored _ _ _ _ _ _ _ empty (plist_codec_laws T R LT LR) H F) as (v & G & S).
    exists w, v. split; [exact H|]. split; [eapply keeps_remap; exact H|]. split; [eapply FontProofs.writePlist_touches; exact H|]. split; [exact G|exact S].
Qed.
End Store.
(** ** groups *)
Lemma groups_read gs w : psame (groupsFile gs) w -> exists gs', w = groupsFile gs' /\ Permutation gs' gs.
Proof.
  intro S. unfold groupsFile in S. destruct (psame_entries _ _ S) as (e & e' & -> & P & F).
  assert (E : e' = map (fun g : str * list str => (PStr (fst g), PList (map PStr (snd g)))) gs).
  { clear -F. revert e' F. induction gs as [|[n l] r IH]; intros e' F; inversion F as [|? [k v] ? ? [E S] F']; subst; [reflexivity|]. cbn [map fst snd] in *. subst k. rewrite (IH _ F'). f_equal. f_equal.
    inversion S as [? A|? m S'| |]; subst; [discriminate A|]. f_equal. symmetry. apply psame_strs; [exact S'|]. intros x I. apply in_map_iff in I as (y & <- & _). eauto. }
  subst e'. apply Permutation_sym, Permutation_map_inv in P as (gs' & -> & P). exists gs'. split; [reflexivity|]. apply Permutation_sym. exact P.
Qed.
Lemma groups_faithful gs : dict_ok gs -> groupTexts gs -> plistFaithful (groupsFile gs).
Proof.
  intros D H. replace (groupsFile gs) with (FontInfo.asDict (map (fun g : str * list str => (fst g, PList (map PStr (snd g)))) gs)) by (unfold FontInfo.asDict, groupsFile; rewrite map_map; reflexivity).
  apply PropInfoFile.asDict_faithful.
  - unfold dict_ok, keys in *. rewrite map_map. exact D.
  - intros a v G. apply get_In in G. apply in_map_iff in G as ([n l] & E & I). cbn [fst snd] in E. injection E as <- <-. destruct (H n l I) as (A & B). split; [exact A|].
    apply PropFont.list_faithful. apply Forall_forall. intros x J. apply in_map_iff in J as (y & <- & J). apply PropFont.str_faithful. apply B. exact J.
Qed.
Lemma set_map {A B} (f : A -> B) k v (m : list (str * A)) : set k (f v) (map (fun g => (fst g, f (snd g))) m) = map (fun g => (fst g, f (snd g))) (set k v m).
Proof. induction m as [|[a b] m IH]; [reflexivity|]. cbn [map set fst snd]. destruct (eqb k a); [reflexivity|]. cbn [map fst snd]. rewrite IH. reflexivity. Qed.
Lemma remapGroups_map {A B} (f : A -> B) r (gs : list (str * A)) : remapGroups r (map (fun g => (fst g, f (snd g))) gs) = map (fun g => (fst g, f (snd g))) (remapGroups r gs).
Proof.
  unfold remapGroups.
  assert (A1 : forall (l : list (str * A)) acc, fold_left (fun g '(name, contents) => if has name r then g else set name contents g) (map (fun g => (fst g, f (snd g))) l) (map (fun g => (fst g, f (snd g))) acc) =
     map (fun g => (fst g, f (snd g))) (fold_left (fun g '(name, contents) => if has name r then g else set name contents g) l acc)).
  { induction l as [|[n x] l IH]; intro acc; [reflexivity|]. cbn [map fold_left fst snd]. rewrite <- IH. f_equal. destruct (has n r); [reflexivity|]. apply set_map. }
  assert (A2 : forall (l : list (str * A)) acc, fold_left (fun g '(name, contents) => match get name r with None => g | Some old => set old contents g end) (map (fun g => (fst g, f (snd g))) l) (map (fun g => (fst g, f (snd g))) acc) =
     map (fun g => (fst g, f (snd g))) (fold_left (fun g '(name, contents) => match get name r with None => g | Some old => set old contents g end) l acc)).
  { induction l as [|[n x] l IH]; intro acc; [reflexivity|]. cbn [map fold_left fst snd]. rewrite <- IH. f_equal. destruct (get n r); [|reflexivity]. apply set_map. }
  pose proof (A1 gs []) as E1. cbn [map] in E1. rewrite E1. apply A2.
Qed.
Lemma dict_ok_remapGroups {A} r (gs : list (str * A)) : dict_ok (remapGroups r gs).
Proof.
  unfold remapGroups.
  assert (A1 : forall (l : list (str * A)) acc, dict_ok acc -> dict_ok (fold_left (fun g '(name, contents) => if has name r then g else set name contents g) l acc)).
  { induction l as [|[n x] l IH]; intros acc O; [exact O|]. cbn [fold_left]. apply IH. destruct (has n r); [exact O|apply dict_ok_set; exact O]. }
  assert (A2 : forall (l : list (str * A)) acc, dict_ok acc -> dict_ok (fold_left (fun g '(name, contents) => match get name r with None => g | Some old => set old contents g end) l acc)).
  { induction l as [|[n x] l IH]; intros acc O; [exact O|]. cbn [fold_left]. apply IH. destruct (get n r); [apply dict_ok_set; exact O|exact O]. }
  apply A2, A1. constructor.
Qed.
Definition writtenGroups (s : ust) (gs : list (str * list str)) : list (str * list str) := match remap s with Some r => remapGroups r gs | None => gs end.
Definition writtenKerning (s : ust) (l : list (str * str * pyval)) : list (str * str * pyval) := match remap s with Some r => remapKerning r l | None => l end.
Lemma writeGroups_stores T R c s gs : (ver c < 3)%Z -> groupsValidator (groupsFile gs) = true ->
  writeGroups (plistCodec T R) c (groupsFile gs) true s = stores T R c "groups.plist" (items (groupsFile (writtenGroups s gs))) s.
Proof.
  intros V Val. unfold writeGroups. rewrite Val. cbn [negb andb]. unfold groupsFile at 1 2. cbn [items].
  assert (E : asGroups (map (fun g : str * list str => (PStr (fst g), PList (map PStr (snd g)))) gs) = Some (map (fun g => (fst g, map PStr (snd g))) gs)).
  { rewrite <- asGroups_val. f_equal. rewrite map_map. apply map_ext. intros [n l]. reflexivity. }
  rewrite E. unfold mbind, getRemap, writtenGroups. apply Z.ltb_lt in V. rewrite V.
  assert (X : forall g : list (str * list str), match map (fun g => (fst g, map PStr (snd g))) g with [] => if hp c then removePath nGroups true false else ret tt | _ => writePlist (plistCodec T R) (hp c) nGroups (groupsVal (map (fun g => (fst g, map PStr (snd g))) g)) end s = stores T R c "groups.plist" (items (groupsFile g)) s).
  { intro g. destruct g as [|[n l] g]; [reflexivity|]. unfold groupsFile. cbn [map items stores fst snd]. unfold groupsVal. cbn [map]. rewrite map_map. reflexivity. }
  destruct (remap s) as [r|]; [rewrite remapGroups_map|]; apply X.
Qed.
(** ** kerning *)
Lemma writeKerning_stores T R c s l : (ver c < 3)%Z -> (forall a b x, In (a, b, x) l -> isNum x) ->
  writeKerning (plistCodec T R) c (pairsVal l) true s = stores T R c "kerning.plist" (items (nestedVal (nest (writtenKerning s l)))) s.
Proof.
  intros V Num. unfold writeKerning.
  assert (Val : kerningArgOk (pairsVal l) = true).
  { unfold kerningArgOk, pairsVal. cbn [is_dict items andb]. apply forallb_forall. intros [p x] I. apply in_map_iff in I as ([[a b] y] & E & I). injection E as <- <-. cbn [fst snd is_seq elems andb]. specialize (Num a b y I). unfold isNum in Num. destruct y; try reflexivity; destruct Num as [(? & Q)|[(? & Q)|(? & Q)]]; discriminate Q. }
  rewrite Val. cbn [negb andb]. pose proof (asKerning_val l) as A. unfold pairsVal in *. cbn [items] in *. rewrite A. unfold mbind, getRemap, writtenKerning. apply Z.ltb_lt in V. rewrite V.
  assert (X : forall k : list (str * list (str * pyval)), match k with [] => if hp c then removePath nKerning true false else ret tt | _ => writePlist (plistCodec T R) (hp c) nKerning (nestedVal k) end s = stores T R c "kerning.plist" (items (nestedVal k)) s).
  { intros [|[a i] k]; reflexivity. }
  assert (Y : forall k, match k with [] => if hp c then removePath nKerning true false else ret tt | p :: q => writePlist (plistCodec T R) (hp c) nKerning (nestedVal (p :: q)) end s = stores T R c "kerning.plist" (items (nestedVal k)) s) by (intros [|[a i] k]; reflexivity).
  clear X. destruct (remap s) as [r|]; apply Y.
Qed.
Lemma kerning_read (n : list (str * list (str * pyval))) w : nested_dict n -> numbers n -> psame (nestedVal n) w ->
  exists n', w = kerningFile n' /\ nested_dict n' /\ numbers n' /\ (forall f, In (f, []) n' -> In (f, []) n) /\ forall x y, value n' x y = value n x y.
Proof.
  intros D Num S. pose proof S as S0. destruct (nested_read n w D Num S) as (d & n' & -> & An & No & Lk & KV). exists n'. split; [|split; [exact No|split; [|split; [|exact Lk]]]].
  - unfold kerningFile. f_equal. rewrite (asNested_vals _ _ An). apply map_ext. intros [a i]. cbn [fst snd]. do 2 f_equal. apply map_ext. intros [b x]. reflexivity.
  - intros f s b x I J. assert (K : klook f b n' = Some x) by (unfold klook; rewrite (In_get f s n' (proj1 No) I); apply In_get; [exact (proj2 No _ _ I)|exact J]).
    rewrite Lk in K. unfold klook in K. destruct (get f n) as [s0|] eqn:G; [|discriminate K]. apply get_In in G. apply get_In in K. exact (Num _ _ _ _ G K).
  - intros f I. assert (J : In (PStr f, PDict []) d) by (rewrite (asNested_vals _ _ An); apply in_map_iff; exists (f, []); split; [reflexivity|exact I]).
    destruct (psame_entries _ _ S0) as (e & e' & Q & P & F). injection Q as <-. apply (Permutation_in _ (Permutation_sym P)) in J. clear -F J.
    revert e' F J. induction n as [|[a i] n IH]; intros e' F J; inversion F as [|? [k v] ? ? [E S] F']; subst; [destruct J|]. cbn [fst snd] in *. destruct J as [J|J]; [|right; exact (IH _ F' J)].
    injection J as -> ->. injection E as ->. left. f_equal. inversion S as [? A| | |? ? e2 P2 F2]; subst; [discriminate A|]. apply Permutation_sym, Permutation_nil in P2. subst e2. destruct i as [|[b x] i]; [reflexivity|inversion F2].
Qed.
Lemma plainGroups : plainName (u "groups.plist"). Proof. exact PropFont.plain_nGroups. Qed.
Lemma plainKerning : plainName (u "kerning.plist"). Proof. exact PropFont.plain_nKerning. Qed.
Lemma dict_same {A} (l m : list (str * A)) : dict_ok l -> dict_ok m -> (forall g, get g l = get g m) -> Permutation l m.
Proof.
  intros D1 D2 E. assert (ND : forall (x : list (str * A)), dict_ok x -> NoDup x) by (intros x Dx; unfold dict_ok, keys in Dx; eapply NoDup_map_inv; exact Dx).
  apply NoDup_Permutation; [apply ND; exact D1|apply ND; exact D2|]. intros [k v]. rewrite <- !get_In_iff by assumption. rewrite E. reflexivity.
Qed.
Lemma pairs_same (l m : list (str * str * pyval)) : dict_ok l -> dict_ok m -> (forall a b, get (a, b) l = get (a, b) m) -> Permutation l m.
Proof.
  intros D1 D2 E. assert (ND : forall (x : list (str * str * pyval)), dict_ok x -> NoDup x) by (intros x Dx; unfold dict_ok, keys in Dx; eapply NoDup_map_inv; exact Dx).
  apply NoDup_Permutation; [apply ND; exact D1|apply ND; exact D2|]. intros [[a b] v]. rewrite <- !get_In_iff by assumption. rewrite E. reflexivity.
Qed.

(** ** C107 *)
(** the file left by the two calls *)
Lemma written T R c s es gs l : pytext_laws T -> repr_laws T R -> (ver c < 3)%Z -> tree s = Dir es -> ready c (tree s) "groups.plist" -> ready c (tree s) "kerning.plist" ->
  groupsValidator (groupsFile gs) = true -> (forall a b x, In (a, b, x) l -> isNum x) ->
  dict_ok (writtenGroups s gs) -> groupTexts (writtenGroups s gs) ->
  dict_ok (writtenKerning s l) -> (forall a b x, In (a, b, x) (writtenKerning s l) -> textOk a /\ textOk b /\ plistFaithful x) -> (forall a b x, In (a, b, x) (writtenKerning s l) -> isNum x) ->
  exists s1 s2, writeGroups (plistCodec T R) c (groupsFile gs) true s = (s1, Ok tt) /\ writeKerning (plistCodec T R) c (pairsVal l) true s1 = (s2, Ok tt) /\
    exists gs' kn', holds (plistCodec T R) (tree s2) "groups.plist" empty (groupsFile gs') /\ Permutation gs' (writtenGroups s gs) /\
      holds (plistCodec T R) (tree s2) "kerning.plist" empty (kerningFile kn') /\ nested_dict kn' /\ numbers kn' /\ (forall f, ~ In (f, []) kn') /\ forall a b, value kn' a b = get (a, b) (writtenKerning s l).
Proof.
  intros LT LR V E Rg Rk Val Num Dg Tg Dk Tk Nk. pose proof (writeGroups_stores T R c s gs V Val) as Wg.
  destruct (stored T R LT LR c "groups.plist" (items (groupsFile (writtenGroups s gs))) s es plainGroups E Rg) as (s1 & w1 & H1 & M1 & T1 & G1 & S1); [apply groups_faithful; assumption|].
  rewrite <- Wg in H1. destruct (proj2 T1 es E) as (es1 & E1 & Same1).
  assert (Rk1 : ready c (tree s1) "kerning.plist").
  { unfold ready, isdir, existsAt in *. rewrite E, FontProofs.find_top in Rk. rewrite E1, FontProofs.find_top, Same1 by (vm_compute; discriminate). exact Rk. }
  destruct (nest_spec (writtenKerning s l) Dk) as (No & Nl).
  assert (Nn : numbers (nest (writtenKerning s l))).
  { intros f i b x I J. assert (K : klook f b (nest (writtenKerning s l)) = Some x) by (unfold klook; rewrite (In_get f i _ (proj1 No) I); apply In_get; [exact (proj2 No _ _ I)|exact J]). rewrite Nl in K. apply get_In in K. exact (Nk _ _ _ K). }
  destruct (stored T R LT LR c "kerning.plist" (items (nestedVal (nest (writtenKerning s l)))) s1 es1 plainKerning E1 Rk1) as (s2 & w2 & H2 & M2 & T2 & G2 & S2); [apply (nested_faithful _ Dk); exact Tk|].
  pose proof (writeKerning_stores T R c s1 l V Num) as Wk. unfold writtenKerning at 1 in Wk. rewrite M1 in Wk. fold (writtenKerning s l) in Wk. rewrite <- Wk in H2.
  exists s1, s2. split; [exact H1|]. split; [exact H2|].
  destruct (groups_read _ _ S1) as (gs' & -> & Pg). destruct (kerning_read _ _ No Nn S2) as (kn' & -> & Dn & Nn' & Ne & Lk).
  exists gs', kn'. split; [|split; [exact Pg|split; [|split; [exact Dn|split; [exact Nn'|split]]]]].
  - apply getPlist_holds. destruct (proj2 T2 es1 E1) as (es2 & E2 & Same2). rewrite <- G1. unfold getPlist, getbytes. rewrite E1, E2, !FontProofs.find_top, Same2 by (vm_compute; discriminate). reflexivity.
  - apply getPlist_holds. exact G2.
  - intros f I. apply Ne in I. exact (C22_no_empty_inner pyval (writtenKerning s l) Dk f [] I eq_refl).
  - intros a b. rewrite Lk. exact (Nl a b).
Qed.

(** what is read from the converted data *)
Lemma read_converted C perm t v gs kn k' g' m1 m2 : (v < 3)%Z -> holds C t "groups.plist" empty (groupsFile gs) -> holds C t "kerning.plist" empty (kerningFile kn) ->
  convertKerning perm kn gs = Ok (k', g', (m1, m2)) ->
  (groupsValidator (groupsFile g') = true -> snd (readGroups C (convPy perm) v t None true) = Ok (groupsFile g') /\ snd (readRenameMaps C (convPy perm) v t None true) = Ok (mapsVal m1 m2)) /\
  (numbers k' -> snd (readKerning C (convPy perm) v t None true) = Ok (pairsVal (flatten k'))).
Proof.
  intros V G K E. apply getPlist_holds in G. apply getPlist_holds in K.
  assert (U : upConvert C (convPy perm) t None true = (Some (mkUpc (nestedVal k') (kerningFile kn) (groupsFile g') (groupsFile gs) (Some (mapsVal m1 m2))), Ok tt)).
  { unfold upConvert, readGroupsRaw, readKerningRaw. change nGroups with (u "groups.plist"). change nKerning with (u "kerning.plist"). fold empty. rewrite G, K.
    unfold groupsFile at 1. rewrite (textGroups_ok _ gs (asGroups_file gs)). cbn [negb andb]. unfold convPy. unfold kerningFile at 1, groupsFile at 1. rewrite asNested_file, asGroups_file, E.
    repeat f_equal. unfold groupsVal, groupsFile. f_equal. rewrite map_map. apply map_ext. intros [n l]. reflexivity. }
  assert (V' : (3 <=? v)%Z = false) by (apply Z.leb_gt; exact V). apply Z.ltb_lt in V. split.
  - intro Val. assert (Rg : readGroups C (convPy perm) v t None true = (Some (mkUpc (nestedVal k') (kerningFile kn) (groupsFile g') (groupsFile gs) (Some (mapsVal m1 m2))), Ok (groupsFile g'))).
    { unfold readGroups. rewrite V, U. cbn [bind upGroups]. rewrite Val. reflexivity. }
    split; [rewrite Rg; reflexivity|]. unfold readRenameMaps. rewrite V', Rg. reflexivity.
  - intro N. unfold readKerning. rewrite V, U. cbn [bind snd upKerning]. rewrite (proj2 (nested_valid k') N). cbn [negb andb].
    assert (A : asNested (items (nestedVal k')) = Some k').
    { transitivity (asNested (map (fun f : str * list (str * pyval) => (PStr (fst f), PDict (map (fun s => (PStr (fst s), snd s)) (snd f)))) k')); [|apply asNested_file]. f_equal. unfold nestedVal. cbn [items]. apply map_ext. intros [a i]. cbn [fst snd]. do 2 f_equal. apply map_ext. intros [b x]. reflexivity. }
    unfold nestedVal in *. cbn [items] in A. cbn [items]. rewrite A. reflexivity.
Qed.
Lemma psame_group_lists gs gs' : Permutation gs gs' -> psame (groupsFile gs) (groupsFile gs').
Proof.
  intro P. unfold groupsFile. apply (ps_dict _ _ (map (fun g : str * list str => (PStr (fst g), PList (map PStr (snd g)))) gs)); [apply Permutation_map; exact P|].
  clear P. induction gs as [|[n l] r IH]; constructor; [|exact IH]. split; [reflexivity|]. cbn [fst snd]. apply ps_list. induction l; constructor; [apply ps_atom; reflexivity|assumption].
Qed.
Lemma empty_dict {A} (m : list (str * A)) : (forall x, ~ In x (keys m)) -> m = [].
Proof. destruct m as [|[a b] m]; [reflexivity|]. intro H. destruct (H a (or_introl eq_refl)). Qed.

(** partial: for names that mean the same, see C107_written_refuted.  [groupsFile]
    and [pairsVal] are the dictionaries given to the writer. *)
Theorem C107_written_partial : forall T R perm, pytext_laws T -> repr_laws T R -> set_order perm -> forall c s gs l,
  (ver c = 1 \/ ver c = 2)%Z -> isdir (tree s) [] = true -> ready c (tree s) "groups.plist" -> ready c (tree s) "kerning.plist" -> remap s = None ->
  dict_ok gs -> goodGroups (groupsFile gs) -> groupTexts gs ->
  dict_ok l -> (forall a b x, In (a, b, x) l -> isNum x /\ textOk a /\ textOk b /\ plistFaithful x) -> newNames gs l ->
  exists s1 s2, writeGroups (plistCodec T R) c (groupsFile gs) true s = (s1, Ok tt) /\ writeKerning (plistCodec T R) c (pairsVal l) true s1 = (s2, Ok tt) /\
    (exists gs', snd (readGroups (plistCodec T R) (convPy perm) (ver c) (tree s2) None true) = Ok (groupsFile gs') /\ Permutation gs' gs) /\
    (exists l', snd (readKerning (plistCodec T R) (convPy perm) (ver c) (tree s2) None true) = Ok (pairsVal l') /\ Permutation l' l) /\
    snd (readRenameMaps (plistCodec T R) (convPy perm) (ver c) (tree s2) None true) = Ok (mapsVal [] []).
Proof.
  intros T R perm LT LR O c s gs l Vc D Rg Rk Rm Dg Gg Tg Dl Hl (NN1 & NN2). assert (V : (ver c < 3)%Z) by (destruct Vc as [-> | ->]; reflexivity).
  destruct (tree s) as [|es] eqn:E; [discriminate D|].
  assert (Val : groupsValidator (groupsFile gs) = true) by (apply C43_groups_rule; exact Gg).
  assert (Wg : writtenGroups s gs = gs) by (unfold writtenGroups; rewrite Rm; reflexivity). assert (Wk : writtenKerning s l = l) by (unfold writtenKerning; rewrite Rm; reflexivity).
  destruct (written T R c s es gs l LT LR V E) as (s1 & s2 & H1 & H2 & gs' & kn & Hg & Pg & Hk & Dn & Nn & Ne & Lk);
    [rewrite E; exact Rg|rewrite E; exact Rk|exact Val|intros a b x I; apply (Hl a b x I)|rewrite Wg; exact Dg|rewrite Wg; exact Tg|rewrite Wk; exact Dl|rewrite Wk; intros a b x I; apply (Hl a b x I)|rewrite Wk; intros a b x I; apply (Hl a b x I)|].
  rewrite Wg in Pg. rewrite Wk in Lk. exists s1, s2. split; [exact H1|]. split; [exact H2|].
  assert (Kg : forall g, In g (keys gs') <-> In g (keys gs)) by (intro g; unfold keys; split; apply Permutation_in, Permutation_map; [exact Pg|apply Permutation_sym; exact Pg]).
  assert (Dg' : dict_ok gs') by (unfold dict_ok in *; eapply Permutation_NoDup; [|exact Dg]; unfold keys; apply Permutation_map, Permutation_sym; exact Pg).
  destruct (convert_spec perm kn gs' Dg' O) as (g' & m1 & m2 & Ec & D1 & D2 & K1 & K2 & _ & _ & Dg2 & Keep & Keys & _).
  assert (m1 = []) as ->.
  { apply empty_dict. intros x I. apply K1 in I as (I & [P|(J & P)]); apply Kg in I; [apply sw_iff in P; exact (proj1 (NN1 x I) P)|].
    apply in_map_iff in J as ([f i] & Q & J). cbn [fst] in Q. subst f. destruct i as [|[b y] i]; [exact (Ne _ J)|].
    assert (Vx : value kn x b = Some y) by (unfold value; rewrite (In_get _ _ _ (proj1 Dn) J); cbn [get]; rewrite eqb_refl; reflexivity). rewrite Lk in Vx. apply get_In in Vx.
    apply (proj1 (NN2 x b y Vx)) in I. apply sw_iff in I. change (u "public.kern1.") with kern1 in I. congruence. }
  assert (m2 = []) as ->.
  { apply empty_dict. intros x I. apply K2 in I as (I & [P|((f & i & J & Ji) & P)]); apply Kg in I; [apply sw_iff in P; exact (proj2 (NN1 x I) P)|].
    apply in_map_iff in Ji as ([b y] & Q & Ji). cbn [fst] in Q. subst b.
    assert (Vx : value kn f x = Some y) by (unfold value; rewrite (In_get _ _ _ (proj1 Dn) J); apply In_get; [exact (proj2 Dn _ _ J)|exact Ji]). rewrite Lk in Vx. apply get_In in Vx.
    apply (proj2 (NN2 f x y Vx)) in I. apply sw_iff in I. change (u "public.kern2.") with kern2 in I. congruence. }
  assert (Pg2 : Permutation g' gs).
  { eapply Permutation_trans; [|exact Pg]. apply dict_same; [exact Dg2|exact Dg'|]. intro g. destruct (get g gs') as [x|] eqn:G.
    - rewrite <- G. apply Keep. apply get_In in G. apply (in_map fst) in G. exact G.
    - destruct (get g g') as [x|] eqn:G'; [|reflexivity]. exfalso. apply get_In in G'. apply (in_map fst) in G'. apply Keys in G' as [G'|[[]|[]]]. apply get_None in G. exact (G G'). }
  pose proof (renamed_nested [] [] kn Dn) as Dk'.
  assert (Vk : forall a b, value (renameKerning [] [] kn) a b = get (a, b) l).
  { intros a b. rewrite <- Lk. destruct (value kn a b) as [x|] eqn:Vx.
    - exact (C18_values_preserved pyval perm kn gs' _ _ _ _ O Dg' Dn Ec (fun _ _ _ _ H => H) (fun _ _ _ _ _ _ _ H => H) a b x Vx).
    - destruct (value (renameKerning [] [] kn) a b) as [x|] eqn:Vy; [|reflexivity]. destruct (C18_nothing_else pyval perm kn gs' _ _ _ _ O Dg' Dn Ec a b x Vy) as (a0 & b0 & Qa & Qb & W). cbn in Qa, Qb. subst. congruence. }
  destruct (read_converted _ perm _ (ver c) _ _ _ _ _ _ V Hg Hk Ec) as (A & B).
  destruct A as (A1 & A2); [apply (psame_groups (groupsFile gs)); [apply psame_group_lists, Permutation_sym; exact Pg2|exact Val]|].
  split; [exists g'; split; [exact A1|exact Pg2]|]. split; [|exact A2].
  exists (flatten (renameKerning [] [] kn)). split.
  - apply B. intros f i b x I J. assert (W : value (renameKerning [] [] kn) f b = Some x) by (unfold value; rewrite (In_get _ _ _ (proj1 Dk') I); apply In_get; [exact (proj2 Dk' _ _ I)|exact J]).
    rewrite Vk in W. apply get_In in W. apply (Hl _ _ _ W).
  - apply pairs_same; [apply dict_ok_flatten|exact Dl|]. intros a b. rewrite get_flatten by exact Dk'. exact (Vk a b).
Qed.
Print Assumptions C107_written_partial.

(** partial: for names that say the same in UFO 3, see C107_given_back_refuted.  The
    maps of the reader are given to the writer first. *)
Theorem C107_given_back_partial : forall T R perm, pytext_laws T -> repr_laws T R -> set_order perm -> forall t v gs kn, (v < 3)%Z ->
  holds (plistCodec T R) t "groups.plist" empty (groupsFile gs) -> holds (plistCodec T R) t "kerning.plist" empty (kerningFile kn) ->
  dict_ok gs -> nested_dict kn -> plainNames gs kn -> oldGroups gs kn -> numbers kn ->
  groupTexts gs -> (forall a i b x, In (a, i) kn -> In (b, x) i -> textOk a /\ textOk b /\ plistFaithful x) ->
  exists g l m1 m2, snd (readGroups (plistCodec T R) (convPy perm) v t None true) = Ok g /\ snd (readKerning (plistCodec T R) (convPy perm) v t None true) = Ok (pairsVal l) /\
    snd (readRenameMaps (plistCodec T R) (convPy perm) v t None true) = Ok (mapsVal m1 m2) /\
    forall c s, (ver c = 1 \/ ver c = 2)%Z -> isdir (tree s) [] = true -> ready c (tree s) "groups.plist" -> ready c (tree s) "kerning.plist" ->
    exists s0 s1 s2, setRenameMaps c (m1, m2) s = (s0, Ok tt) /\ writeGroups (plistCodec T R) c g true s0 = (s1, Ok tt) /\ writeKerning (plistCodec T R) c (pairsVal l) true s1 = (s2, Ok tt) /\
      exists gs' kn', holds (plistCodec T R) (tree s2) "groups.plist" empty (groupsFile gs') /\ Permutation gs' gs /\
                      holds (plistCodec T R) (tree s2) "kerning.plist" empty (kerningFile kn') /\ forall a b, value kn' a b = value kn a b.
Proof.
  intros T R perm LT LR O t v gs kn V Hg Hk D Dk Pl Og Nk Tg Tk.
  destruct (converted perm gs kn O D Pl) as (g' & m1 & m2 & E & Dg & ND & Px & Iff).
  assert (MN : merges_nothing kn m1 m2).
  { destruct Pl as (P0 & P1 & P2). pose proof (C19_groups_kept pyval perm kn gs O D) as (k0 & g0 & a0 & b0 & E0 & _ & _ & _ & S1 & S2). rewrite E in E0. inversion E0; subst a0 b0.
    eapply C20_plain_data_merges_nothing; [exact O|exact D|exact E| | |].
    - intros g I. split; apply sw_not; apply P0; exact I.
    - intros g h I J. apply P1; (split; [apply S1; assumption|]); [apply S1 in I as (_ & [I|(I & _)])|apply S1 in J as (_ & [I0|(I0 & _)])]; auto.
    - intros g h I J. apply P2; (split; [apply S2; assumption|]); [apply S2 in I as (_ & [I|(I & _)])|apply S2 in J as (_ & [I0|(I0 & _)])]; auto. }
  destruct (C20_down_undoes_up pyval perm kn gs _ _ (m1, m2) O D Dk E MN) as (Bk & Bg).
  assert (Val : groupsValidator (groupsFile g') = true) by (apply Iff; exact Og).
  pose proof (renamed_nested m1 m2 kn Dk) as Dk'.
  assert (Nk' : numbers (renameKerning m1 m2 kn)).
  { intros f i b x I J. assert (W : value (renameKerning m1 m2 kn) f b = Some x) by (unfold value; rewrite (In_get _ _ _ (proj1 Dk') I); apply In_get; [exact (proj2 Dk' _ _ I)|exact J]).
    destruct (C18_nothing_else pyval perm kn gs _ _ _ _ O D Dk E f b x W) as (a0 & b0 & _ & _ & W0). unfold value in W0. destruct (get a0 kn) as [s0|] eqn:G0; [|discriminate]. apply get_In in G0. apply get_In in W0. exact (Nk _ _ _ _ G0 W0). }
  destruct (read_converted _ perm _ v _ _ _ _ _ _ V Hg Hk E) as (A & B). destruct (A Val) as (A1 & A2). specialize (B Nk').
  exists (groupsFile g'), (flatten (renameKerning m1 m2 kn)), m1, m2. split; [exact A1|]. split; [exact B|]. split; [exact A2|].
  intros c s Vc Ds Rg Rk. assert (Vl : (ver c < 3)%Z) by (destruct Vc as [-> | ->]; reflexivity).
  destruct (tree s) as [|es] eqn:Es; [discriminate Ds|].
  set (s0 := mkUst (tree s) (log s) (layers s) (Some (flipMaps (m1, m2)))).
  assert (S0 : setRenameMaps c (m1, m2) s = (s0, Ok tt)) by (unfold setRenameMaps; replace (3 <=? ver c)%Z with false by (symmetry; apply Z.leb_gt; exact Vl); reflexivity).
  set (l := flatten (renameKerning m1 m2 kn)).
  assert (Nl : forall a b x, In (a, b, x) l -> isNum x).
  { intros a b x I. apply In_get in I; [|apply dict_ok_flatten]. unfold l in I. rewrite get_flatten in I by exact Dk'. unfold klook in I. destruct (get a (renameKerning m1 m2 kn)) as [i|] eqn:G; [|discriminate I]. apply get_In in G. apply get_In in I. exact (Nk' _ _ _ _ G I). }
  assert (Wg : writtenGroups s0 g' = remapGroups (flipMaps (m1, m2)) g') by reflexivity.
  assert (Wk : writtenKerning s0 l = remapKerning (flipMaps (m1, m2)) l) by reflexivity.
  assert (Pg : Permutation (remapGroups (flipMaps (m1, m2)) g') gs) by (apply dict_same; [apply dict_ok_remapGroups|exact D|exact Bg]).
  assert (Gk : forall a b, get (a, b) (remapKerning (flipMaps (m1, m2)) l) = value kn a b).
  { intros a b. rewrite <- Bk. symmetry. exact (proj2 (nest_spec _ (dict_ok_remap (flipMaps (m1, m2)) l)) a b). }
  assert (Ik : forall a b x, In (a, b, x) (remapKerning (flipMaps (m1, m2)) l) -> exists i, In (a, i) kn /\ In (b, x) i).
  { intros a b x I. apply In_get in I; [|apply dict_ok_remap]. rewrite Gk in I. unfold value in I. destruct (get a kn) as [i|] eqn:G; [|discriminate I]. apply get_In in G. apply get_In in I. eauto. }
  destruct (written T R c s0 es g' l LT LR Vl Es) as (s1 & s2 & H1 & H2 & gs' & kn' & Hg' & Pg' & Hk' & _ & _ & _ & Lk).
  - unfold s0. cbn [tree]. rewrite Es. exact Rg.
  - unfold s0. cbn [tree]. rewrite Es. exact Rk.
  - exact Val.
  - exact Nl.
  - rewrite Wg. apply dict_ok_remapGroups.
  - rewrite Wg. intros n m I. apply Tg. eapply Permutation_in; [exact Pg|exact I].
  - rewrite Wk. apply dict_ok_remap.
  - rewrite Wk. intros a b x I. destruct (Ik a b x I) as (i & I1 & I2). exact (Tk _ _ _ _ I1 I2).
  - rewrite Wk. intros a b x I. destruct (Ik a b x I) as (i & I1 & I2). exact (Nk _ _ _ _ I1 I2).
  - exists s0, s1, s2. split; [exact S0|]. split; [exact H1|]. split; [exact H2|]. exists gs', kn'. split; [exact Hg'|]. split; [eapply Permutation_trans; [exact Pg'|rewrite Wg; exact Pg]|]. split; [exact Hk'|].
    intros a b. rewrite Lk, Wk. exact (Gk a b).
Qed.
Print Assumptions C107_given_back_partial.

(** a group of the first side that is not named like one: its name is not kept free *)
Theorem C107_written_refuted : let C := plistCodec toyText toyRepr in let c := mkCfg 2 false PNone in
  let gs := [(u "@MMK_L_A", [u "A"])] in
  exists s1 g', writeGroups C c (groupsFile gs) true (newState (Dir [])) = (s1, Ok tt) /\
    snd (readGroups C (convPy (fun l => l)) 2 (tree s1) None true) = Ok (groupsFile g') /\ g' = [(u "@MMK_L_A", [u "A"]); (u "public.kern1.A", [u "A"])].
Proof. eexists _, _. split; [vm_compute; reflexivity|]. split; [|reflexivity]. vm_compute. reflexivity. Qed.
Print Assumptions C107_written_refuted.
(** "A" and "@MMK_L_A" become one group; the kerning of the latter is lost *)
Theorem C107_given_back_refuted : let C := plistCodec toyText toyRepr in let c := mkCfg 2 false PNone in let s := newState (Dir []) in
  let gs := [(u "A", [u "Aacute"]); (u "@MMK_L_A", [u "A"])] in let kn := [(u "A", [(u "V", PInt 1)]); (u "@MMK_L_A", [(u "T", PInt 2)])] in
  let file v := match dumps C v with Ok b => File b | Err _ => File [] end in
  let t := Dir [(u "groups.plist", file (groupsFile gs)); (u "kerning.plist", file (kerningFile kn))] in
  exists g l m1 m2 s2, snd (readGroups C (convPy (fun l => l)) 2 t None true) = Ok g /\ snd (readKerning C (convPy (fun l => l)) 2 t None true) = Ok (pairsVal l) /\
    snd (readRenameMaps C (convPy (fun l => l)) 2 t None true) = Ok (mapsVal m1 m2) /\
    mbind (setRenameMaps c (m1, m2)) (fun _ => mbind (writeGroups C c g true) (fun _ => writeKerning C c (pairsVal l) true)) s = (s2, Ok tt) /\
    getPlist C (tree s2) (u "kerning.plist") None = Ok (kerningFile [(u "A", [(u "V", PInt 1)])]).
Proof.
  eexists _, [((u "public.kern1.A", u "V"), PInt 1)], [(u "@MMK_L_A", u "public.kern1.A"); (u "A", u "public.kern1.A")], [], _. split; [vm_compute; reflexivity|]. split; [vm_compute; reflexivity|]. split; [vm_compute; reflexivity|].
  split; [vm_compute; reflexivity|]. vm_compute. reflexivity.
Qed.
Print Assumptions C107_given_back_refuted.
Example C107_case : let C := plistCodec toyText toyRepr in let c := mkCfg 2 false PNone in
  let gs := [(u "public.kern1.A", [u "A"]); (u "other", [u "B"])] in let l := [((u "public.kern1.A", u "V"), PInt (-20)); ((u "A", u "V"), PInt 3)] in
  let s := fst (mbind (writeGroups C c (groupsFile gs) true) (fun _ => writeKerning C c (pairsVal l) true) (newState (Dir []))) in
  snd (readGroups C (convPy (fun l => l)) 2 (tree s) None true) = Ok (groupsFile [(u "other", [u "B"]); (u "public.kern1.A", [u "A"])]) /\
  snd (readKerning C (convPy (fun l => l)) 2 (tree s) None true) = Ok (pairsVal [((u "A", u "V"), PInt 3); ((u "public.kern1.A", u "V"), PInt (-20))]).
Proof. vm_compute. split; reflexivity. Qed.
Example C107_given_back_case : let C := plistCodec toyText toyRepr in let c := mkCfg 1 false PNone in
  let gs := [(u "@MMK_L_A", [u "A"]); (u "misc", [u "V"])] in let kn := [(u "@MMK_L_A", [(u "misc", PInt 1)])] in
  let file v := match dumps C v with Ok b => File b | Err _ => File [] end in
  let t := Dir [(u "groups.plist", file (groupsFile gs)); (u "kerning.plist", file (kerningFile kn))] in
  match snd (readGroups C (convPy (fun l => l)) 2 t None true), snd (readKerning C (convPy (fun l => l)) 2 t None true) with
  | Ok g, Ok k =>
    let s := fst (mbind (setRenameMaps c ([(u "@MMK_L_A", u "public.kern1.A")], [(u "misc", u "public.kern2.misc")])) (fun _ => mbind (writeGroups C c g true) (fun _ => writeKerning C c k true)) (newState (Dir []))) in
    k = pairsVal [((u "public.kern1.A", u "public.kern2.misc"), PInt 1)] /\ getPlist C (tree s) (u "groups.plist") None = Ok (groupsFile gs) /\ getPlist C (tree s) (u "kerning.plist") None = Ok (kerningFile kn)
  | _, _ => False
  end.
Proof. vm_compute. repeat split. Qed.
