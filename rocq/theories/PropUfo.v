(** Properties C23-C27 and C31: reading and writing the property lists of a UFO.
    [C] stands for plistlib with the law [codec_laws] (UfoProofs.v): loading what
    was dumped gives the same value up to the order of dictionaries and to tuples
    having become lists, for the values [faithful] to the format.  [T] stands for
    int(text). *)
From Coq Require Import String NArith ZArith Bool Lia List Permutation.
From Coq.Floats Require Import SpecFloat.
From Verif Require Import Base PyVal PyText Validators Kerning KerningProofs PropKerning FS FSProofs Ufo UfoProofs ToyCodec.
Import ListNotations.
Local Open Scope string_scope.
Local Open Scope list_scope.

(** example data *)
Definition plistFile (v : pyval) : node := File (match enc v with Some b => b | None => [] end).
Definition newState (t : node) : ust := mkUst t [] [] None.
Definition dict (l : list (string * pyval)) : pyval := PDict (map (fun '(k, v) => (PStr (u k), v)) l).
Definition meta (z : Z) : pyval := dict [("creator", PStr (u "x")); ("formatVersion", PInt z)].

(** ** C23 *)
Inductive call := CGroups | CKerning | CMaps.
Section C23.
Variable C : codec.
Variable conv : pyval -> pyval -> res (pyval * pyval * pyval).
(** one call to a reader of a UFO of version [v]; [cache] is the state of the reader *)
Definition doCall (v : Z) (t : node) (cache : option upc) (cl : call) (validate : bool) : option upc * res pyval :=
  match cl with
  | CGroups => readGroups C conv v t cache validate
  | CKerning => readKerning C conv v t cache validate
  | CMaps => readRenameMaps C conv v t cache validate
  end.
(** a sequence of calls to a new reader; before each call the files may change *)
Fixpoint calls (v : Z) (cache : option upc) (steps : list (node * call * bool)) : list (res pyval) :=
  match steps with
  | [] => []
  | (t, cl, validate) :: r => let '(cache', x) := doCall v t cache cl validate in x :: calls v cache' r
  end.
(** [x] is the part asked for of the conversion of kerning [k] and groups [g] *)
Definition answers (k g : pyval) (cl : call) (x : pyval) : Prop :=
  exists k' g' m, conv k g = Ok (k', g', m) /\
  match cl with
  | CGroups => x = g'
  | CKerning => exists n, k' = PDict (items k') /\ asNested (items k') = Some n /\ x = pairsVal (flatten n)
  | CMaps => x = m
  end.
Definition same (v w : pyval) : Prop := v = w \/ py_eq v w = true.
(** all answers come from one conversion of data equal to what is in the files
    at the time of the call *)
Definition oneConversion (steps : list (node * call * bool)) (results : list (res pyval)) : Prop :=
  exists k g, Forall2 (fun '(t, cl, _) r => forall x, r = Ok x ->
    (exists k2 g2, readKerningRaw C t = Ok k2 /\ same k2 k /\ readGroupsRaw C t = Ok g2 /\ same g2 g) /\ answers k g cl x) steps results.

Definition goodCache (d : upc) : Prop := exists m, conv (origKerning d) (origGroups d) = Ok (upKerning d, upGroups d, m) /\ upMaps d = Some m.
Definition convertible (t : node) : Prop :=
  forall k g, readKerningRaw C t = Ok k -> readGroupsRaw C t = Ok g -> exists x, conv k g = Ok x.
Lemma upConvert_good t cache validate cache' r : convertible t ->
  (forall d, cache = Some d -> goodCache d) -> upConvert C conv t cache validate = (cache', r) ->
  (forall d, cache = Some d -> cache' = Some d) /\
  (forall d, cache' = Some d -> goodCache d) /\
  (r = Ok tt -> exists d k2 g2, cache' = Some d /\ readKerningRaw C t = Ok k2 /\ same k2 (origKerning d) /\
                readGroupsRaw C t = Ok g2 /\ same g2 (origGroups d)).
Proof.
  intros Cv G H. unfold upConvert in H. destruct cache as [d|].
  - inversion H; subst. clear H. split; [auto|]. split; [exact G|]. intro E.
    destruct (readKerningRaw C t) as [k|]; cbn [bind] in E; [|discriminate E]. destruct (py_eq k (origKerning d)) eqn:Ek; cbn [bind] in E; [|discriminate E].
    destruct (readGroupsRaw C t) as [g|]; cbn [bind] in E; [|discriminate E]. destruct (py_eq g (origGroups d)) eqn:Eg; cbn [bind] in E; [|discriminate E].
    exists d, k, g. repeat split; try right; assumption.
  - split; [discriminate|]. destruct (readGroupsRaw C t) as [g|] eqn:Eg; [|inversion H; subst; split; [discriminate|intro X; discriminate X]].
    destruct (validate && negb (rawGroupsOk g)); [inversion H; subst; split; [discriminate|intro X; discriminate X]|].
    destruct (readKerningRaw C t) as [k|] eqn:Ek; [|inversion H; subst; split; [discriminate|intro X; discriminate X]].
    destruct (Cv _ _ Ek Eg) as ([[k' g'] m] & E). rewrite E in H. inversion H; subst. split.
    + intros d X. inversion X; subst. exists m. cbn. auto.
    + intros _. exists (mkUpc k' k g' g (Some m)), k, g. cbn. repeat split; try left; auto.
Qed.
Lemma doCall_good v t cache cl validate cache' r : (v < 3)%Z -> convertible t ->
  (forall d, cache = Some d -> goodCache d) -> doCall v t cache cl validate = (cache', r) ->
  (forall d, cache = Some d -> cache' = Some d) /\
  (forall d, cache' = Some d -> goodCache d) /\
  (forall x, r = Ok x -> exists d k2 g2, cache' = Some d /\ readKerningRaw C t = Ok k2 /\ same k2 (origKerning d) /\
                readGroupsRaw C t = Ok g2 /\ same g2 (origGroups d) /\ answers (origKerning d) (origGroups d) cl x).
Proof.
  intros V Cv G H. apply Z.ltb_lt in V.
  assert (RG : forall cache' r, readGroups C conv v t cache validate = (cache', r) ->
    (forall d, cache = Some d -> cache' = Some d) /\ (forall d, cache' = Some d -> goodCache d) /\
    (forall x, r = Ok x -> exists d k2 g2, cache' = Some d /\ readKerningRaw C t = Ok k2 /\ same k2 (origKerning d) /\
                readGroupsRaw C t = Ok g2 /\ same g2 (origGroups d) /\ x = upGroups d)).
  { clear H. intros c0 r0 H. unfold readGroups in H. rewrite V in H.
    destruct (upConvert C conv t cache validate) as [c1 r1] eqn:E. apply upConvert_good in E as (A & B & D); [|exact Cv|exact G].
    inversion H; subst. split; [exact A|]. split; [exact B|]. intros x Hx.
    destruct r1 as [[]|]; [|discriminate]. destruct (D eq_refl) as (d & k2 & g2 & -> & R). cbn [bind] in Hx.
    destruct (negb _); [|discriminate]. inversion Hx; subst. exists d, k2, g2. tauto. }
  destruct cl; cbn [doCall] in H.
  - apply RG in H as (A & B & D). split; [exact A|]. split; [exact B|]. intros x Hx.
    destruct (D x Hx) as (d & k2 & g2 & -> & R1 & R2 & R3 & R4 & ->). exists d, k2, g2. repeat split; try assumption.
    destruct (B d eq_refl) as (m & E & _). exists (upKerning d), (upGroups d), m. auto.
  - unfold readKerning in H. rewrite V in H.
    destruct (upConvert C conv t cache validate) as [c1 r1] eqn:E. apply upConvert_good in E as (A & B & D); [|exact Cv|exact G].
    inversion H; subst. split; [exact A|]. split; [exact B|]. intros x Hx.
    destruct r1 as [[]|]; [|discriminate]. destruct (D eq_refl) as (d & k2 & g2 & -> & R1 & R2 & R3 & R4). cbn [bind] in Hx.
    destruct (negb _); [|discriminate]. destruct (upKerning d) as [ | | | | | | | | |kd| ] eqn:U; try discriminate.
    destruct (asNested kd) as [n|] eqn:N; [|discriminate]. inversion Hx; subst.
    exists d, k2, g2. repeat split; try assumption. destruct (B d eq_refl) as (m & E & _).
    exists (upKerning d), (upGroups d), m. split; [exact E|]. rewrite U. exists n. auto.
  - unfold readRenameMaps in H. replace (3 <=? v)%Z with false in H by (symmetry; apply Z.leb_gt, Z.ltb_lt, V).
    destruct (readGroups C conv v t cache validate) as [c1 r1] eqn:E0. destruct (RG _ _ eq_refl) as (A & B & D).
    inversion H; subst. split; [exact A|]. split; [exact B|]. intros x Hx.
    destruct r1 as [y|]; [|discriminate]. destruct (D y eq_refl) as (d & k2 & g2 & -> & R1 & R2 & R3 & R4 & _).
    cbn [bind] in Hx. destruct (B d eq_refl) as (m & E & Em). rewrite Em in Hx. inversion Hx; subst.
    exists d, k2, g2. repeat split; try assumption. exists (upKerning d), (upGroups d), x. auto.
Qed.
Lemma calls_good v d steps : (v < 3)%Z -> (forall t cl b, In (t, cl, b) steps -> convertible t) -> goodCache d ->
  Forall2 (fun '(t, cl, _) r => forall x, r = Ok x ->
    (exists k2 g2, readKerningRaw C t = Ok k2 /\ same k2 (origKerning d) /\ readGroupsRaw C t = Ok g2 /\ same g2 (origGroups d)) /\
    answers (origKerning d) (origGroups d) cl x) steps (calls v (Some d) steps).
Proof.
  intros V. induction steps as [|[[t cl] b] steps IH]; intros Cv G; cbn [calls]; [constructor|].
  destruct (doCall v t (Some d) cl b) as [c r] eqn:E.
  apply doCall_good in E as (A & B & D); [|exact V|eapply Cv; left; reflexivity|intros d' X; inversion X; subst; exact G].
  specialize (A d eq_refl). subst c. constructor.
  - intros x Hx. destruct (D x Hx) as (d' & k2 & g2 & X & R1 & R2 & R3 & R4 & R5). inversion X; subst. split; [exists k2, g2; auto|exact R5].
  - apply IH; [|exact G]. intros t' cl' b' I. eapply Cv. right. exact I.
Qed.
Lemma calls_ok v steps : (v < 3)%Z -> (forall t cl b, In (t, cl, b) steps -> convertible t) -> oneConversion steps (calls v None steps).
Proof.
  intros V. induction steps as [|[[t cl] b] steps IH]; intros Cv; cbn [calls]; [exists PNone, PNone; constructor|].
  destruct (doCall v t None cl b) as [c r] eqn:E.
  apply doCall_good in E as (A & B & D); [|exact V|eapply Cv; left; reflexivity|discriminate].
  destruct c as [d|].
  - exists (origKerning d), (origGroups d). constructor.
    + intros x Hx. destruct (D x Hx) as (d' & k2 & g2 & X & R1 & R2 & R3 & R4 & R5). inversion X; subst. split; [exists k2, g2; auto|exact R5].
    + apply calls_good; [exact V| |apply B; reflexivity]. intros t' cl' b' I. eapply Cv. right. exact I.
  - destruct IH as (k & g & F); [intros t' cl' b' I; eapply Cv; right; exact I|]. exists k, g. constructor; [|exact F].
    intros x Hx. destruct (D x Hx) as (d' & k2 & g2 & X & _). discriminate X.
Qed.
End C23.
(** The reader stores its cache before the conversion.  If the conversion raises
    (kerning.plist holds a number where a dictionary is expected), the next call
    silently answers with empty groups, although kerning.plist and groups.plist are as before. *)
Definition C23_tree : node := Dir [(u "groups.plist", plistFile (dict [("g", PList [PStr (u "a")])])); (u "kerning.plist", plistFile (dict [("A", PInt 5)]))].
Theorem C23_one_conversion_refuted : forall perm, exists C faithful t,
  codec_laws C faithful /\
  calls C (convPy perm) 2 None [(t, CGroups, true); (t, CGroups, true)] = [Err AttributeError; Ok (PDict [])] /\
  ~ oneConversion C (convPy perm) [(t, CGroups, true); (t, CGroups, true)] (calls C (convPy perm) 2 None [(t, CGroups, true); (t, CGroups, true)]).
Proof.
  intro perm. exists toy, (fun _ => True), C23_tree. split; [exact toy_laws|].
  assert (E : calls toy (convPy perm) 2 None [(C23_tree, CGroups, true); (C23_tree, CGroups, true)] = [Err AttributeError; Ok (PDict [])]) by (vm_compute; reflexivity).
  split; [exact E|]. rewrite E. intros (k & g & F). inversion F as [|? ? ? ? _ F']; subst. inversion F' as [|? ? ? ? H _]; subst.
  destruct (H _ eq_refl) as ((k2 & g2 & R1 & R2 & R3 & R4) & k' & g' & m & A & _).
  vm_compute in R1. inversion R1; subst k2. clear R1 R3 R4 H F F' E.
  unfold convPy in A. destruct R2 as [<-|R2].
  - destruct g; vm_compute in A; discriminate A.
  - cbn [py_eq] in R2. destruct k as [ | | | | | | | | |kd| ]; try discriminate R2. apply andb_prop in R2 as [L R2].
    destruct kd as [|[k0 v0] [|]]; try discriminate L. cbn [existsb] in R2.
    rewrite !andb_true_r, orb_false_r in R2. cbn [fst snd] in R2. apply andb_prop in R2 as [_ R2].
    destruct g; try discriminate A. cbn [asNested] in A. destruct k0; try discriminate A.
    destruct v0; try discriminate A. unfold num_eq, num_cmp in R2. discriminate R2.
Qed.
Print Assumptions C23_one_conversion_refuted.
(** What holds: when the stored data is well-formed (kerning a dictionary of
    dictionaries, groups a dictionary of lists of texts) at every call, all
    answers come from one conversion of data equal to the files. *)
Definition wellFormed (C : codec) (t : node) : Prop :=
  (forall k, readKerningRaw C t = Ok k -> exists d n, k = PDict d /\ asNested d = Some n) /\
  (forall g, readGroupsRaw C t = Ok g -> exists d gs, g = PDict d /\ asTextGroups d = Some gs /\ dict_ok gs).
Theorem C23_one_conversion_partial : forall C perm v steps, set_order perm -> (v < 3)%Z ->
  (forall t cl b, In (t, cl, b) steps -> wellFormed C t) ->
  oneConversion C (convPy perm) steps (calls C (convPy perm) v None steps).
Proof.
  intros C perm v steps P V W. apply calls_ok; [exact V|]. intros t cl b I k g Hk Hg.
  destruct (W t cl b I) as [Wk Wg]. destruct (Wk k Hk) as (d & n & -> & En). destruct (Wg g Hg) as (d' & gs & -> & Eg & D).
  unfold convPy. rewrite En, Eg. destruct (C17_no_reuse _ perm n gs P D) as (k' & g' & m1 & m2 & -> & _). eauto.
Qed.
Print Assumptions C23_one_conversion_partial.
(** reading, changing groups.plist, reading: the second answer is an error *)
Definition C23_files (g : pyval) : node :=
  Dir [(u "groups.plist", plistFile g); (u "kerning.plist", plistFile (dict [("@MMK_L_A", dict [("B", PInt 5)])]))].
Definition C23_g1 := dict [("@MMK_L_A", PList [PStr (u "A")])].
Example C23_case :
  wellFormed toy (C23_files C23_g1) /\
  calls toy (convPy (fun l => l)) 1 None
    [(C23_files C23_g1, CKerning, true); (C23_files C23_g1, CGroups, false); (C23_files (dict []), CMaps, true); (C23_files C23_g1, CMaps, true)] =
  [Ok (PDict [(PTuple [PStr (u "public.kern1.A"); PStr (u "B")], PInt 5)]);
   Ok (dict [("@MMK_L_A", PList [PStr (u "A")]); ("public.kern1.A", PList [PStr (u "A")])]);
   Err UFOLibError;
   Ok (dict [("side1", dict [("@MMK_L_A", PStr (u "public.kern1.A"))]); ("side2", dict [])])].
Proof.
  split; [|vm_compute; reflexivity]. split; intros x H; vm_compute in H; inversion H; subst.
  - eexists. eexists. split; [reflexivity|]. vm_compute. reflexivity.
  - eexists. eexists. split; [reflexivity|]. split; [vm_compute; reflexivity|]. constructor; [intros []|constructor].
Qed.

(** ** C24 *)
(** the format version stated by metainfo.plist *)
Definition storedVersion (C : codec) (t : node) (z : Z) : Prop :=
  exists b d, fileAt t [u "metainfo.plist"] = Some b /\ loads C b = Ok (PDict d) /\ dget (u "formatVersion") d = Some (PInt z).
(** opening a writer on something that exists; for a path this is when it exists,
    for an FS object when it has a metainfo.plist *)
Theorem C24_refused : forall C T c validate s s' r z,
  hp c = true -> initWriter C T c validate s = (s', r) -> storedVersion C (tree s) z ->
  (z > ver c \/ ~ In z [1; 2; 3] \/ ~ In (ver c) [1; 2; 3])%Z ->
  r = Err UFOLibError /\ tree s' = tree s /\ log s' = log s.
Proof.
  intros C T c validate s s' r z Hp H (b & d & F & L & G) Bad.
  assert (A : r = Err UFOLibError).
  { unfold initWriter, mbind, ret, raise, getTree, lift in H. rewrite Hp in H.
    destruct (mem (ver c) supported) eqn:Mv; [|inversion H; reflexivity].
    assert (E : getPlist C (tree s) nMetainfo None = Ok (PDict d)).
    { unfold getPlist. rewrite getbytes_kind. rewrite kind_fileAt in F. unfold nMetainfo.
      destruct (kind (tree s) [u "metainfo.plist"]) as [[x|]|]; [|discriminate F|discriminate F]. inversion F; subst. rewrite L. reflexivity. }
    rewrite E in H. unfold vget in H. cbn [items] in H. rewrite G in H. cbn [pyInt] in H.
    destruct (mem z supported) eqn:Mz; [|inversion H; reflexivity].
    destruct (Z.ltb_spec (ver c) z) as [Lt|Lt]; [inversion H; reflexivity|]. exfalso.
    apply mem_In in Mv, Mz. unfold supported in *. destruct Bad as [B|[B|B]]; [lia|exact (B Mz)|exact (B Mv)]. }
  subst r. split; [reflexivity|]. apply initWriter_err in H; assumption.
Qed.
Print Assumptions C24_refused.
(** whatever the reason, a raising constructor changes no file of an existing UFO *)
Theorem C24_no_damage : forall C T c validate s s' e,
  hp c = true -> initWriter C T c validate s = (s', Err e) -> tree s' = tree s /\ log s' = log s.
Proof. intros C T c validate s s' e Hp H. apply initWriter_err in H; assumption. Qed.
Print Assumptions C24_no_damage.
Theorem C24_upgraded : forall C faithful T c validate s s',
  codec_laws C faithful -> faithful (PDict [(PStr (u "creator"), creator c); (PStr (u "formatVersion"), PInt (ver c))]) ->
  (hp c = true \/ hp c = existsAt (tree s) [u "metainfo.plist"]) ->
  initWriter C T c validate s = (s', Ok tt) ->
  storedVersion C (tree s') (ver c) /\ In (ver c) [1; 2; 3]%Z /\
  (forall z, storedVersion C (tree s) z -> (z <= ver c)%Z) /\
  (forall q, q <> [u "metainfo.plist"] -> fileAt (tree s') q = fileAt (tree s) q /\ isdir (tree s') q = isdir (tree s) q).
Proof.
  intros C faithful T c validate s s' Laws Fa Hp H. apply initWriter_ok in H as (V & Prev & s1 & E1 & _ & W).
  unfold writeMetaInfo in W. apply writePlist_ok in W as (b & D & K & _).
  split; [|split; [exact V|split]].
  - destruct (loads_dumps _ _ Laws _ _ Fa D) as (w & L & S).
    apply psame_dict in S as (e & -> & _ & G & _); [|constructor; [intros [X|[]]; discriminate X|constructor; [intros []|constructor]]].
    destruct (G (u "formatVersion") (PInt (ver c))) as (v' & G' & S); [reflexivity|]. apply psame_int in S as ->.
    exists b, e. split; [|split; [exact L|exact G']]. rewrite kind_fileAt, K. reflexivity.
  - intros z (b0 & d0 & F & L & G). assert (Hpt : hp c = true).
    { destruct Hp as [Hp|Hp]; [exact Hp|]. rewrite Hp, kind_exists. rewrite kind_fileAt in F.
      destruct (kind (tree s) [u "metainfo.plist"]); [reflexivity|discriminate F]. }
    destruct (Prev Hpt) as (d & z' & P & I & _ & Le).
    assert (Ed : d = d0).
    { unfold getPlist in P. rewrite getbytes_kind in P. rewrite kind_fileAt in F. unfold nMetainfo in P.
      destruct (kind (tree s) [u "metainfo.plist"]) as [[x|]|]; [|discriminate F|discriminate F]. inversion F; subst.
      rewrite L in P. inversion P. reflexivity. }
    subst d0. unfold vget in I. cbn [items] in I. rewrite G in I. cbn [pyInt] in I. inversion I; subst. exact Le.
  - intros q Hq. rewrite !kind_fileAt, !kind_isdir, K, E1. destruct (eqb_spec q [nMetainfo]) as [->|_]; [contradiction|auto].
Qed.
Print Assumptions C24_upgraded.
Definition C24_state (z : Z) : ust := newState (Dir [(u "lib.plist", File [7%N]); (u "metainfo.plist", plistFile (meta z))]).
Example C24_case :
  storedVersion toy (tree (C24_state 3)) 3 /\
  initWriter toy asciiText (mkCfg 2 true (PStr (u "me"))) true (C24_state 3) = (C24_state 3, Err UFOLibError) /\
  storedVersion toy (tree (fst (initWriter toy asciiText (mkCfg 2 true (PStr (u "me"))) true (C24_state 1)))) 2.
Proof.
  split; [|split].
  - eexists. eexists. split; [vm_compute; reflexivity|]. split; [vm_compute; reflexivity|reflexivity].
  - vm_compute. reflexivity.
  - eexists. eexists. split; [vm_compute; reflexivity|]. split; [vm_compute; reflexivity|reflexivity].
Qed.

(** ** C25 *)
(** the calls of a writer that end in writing a property list *)
Inductive plistWrite := WLib (v : pyval) | WGroups (v : pyval) | WKerning (v : pyval) | WInfo (v : pyval)
  | WLayers (order : option (list (option str))).
Definition doWrite (C : codec) (c : wcfg) (w : plistWrite) (validate : bool) : M unit :=
  match w with
  | WLib v => writeLib C c v validate
  | WGroups v => writeGroups C c v validate
  | WKerning v => writeKerning C c v validate
  | WInfo v => writeInfoFile C c v
  | WLayers o => writeLayerContents C c o validate
  end.
(** In a UFO that is new (not opened on existing data) the file is opened for
    writing, hence emptied, before the data is serialised: stored data is lost. *)
Theorem C25_no_loss_refuted : exists C faithful c s s' e b,
  codec_laws C faithful /\ hp c = false /\
  fst (writeLib C c (dict [("a", PInt 1)]) true (newState (Dir []))) = s /\
  doWrite C c (WLib (dict [("a", POther 0)])) true s = (s', Err e) /\
  fileAt (tree s) [u "lib.plist"] = Some b /\ b <> [] /\ fileAt (tree s') [u "lib.plist"] = Some [].
Proof.
  exists toy, (fun _ => True), (mkCfg 3 false (PStr [])). do 4 eexists.
  split; [exact toy_laws|]. split; [reflexivity|]. split; [vm_compute; reflexivity|]. split; [vm_compute; reflexivity|].
  split; [vm_compute; reflexivity|]. split; [discriminate|vm_compute; reflexivity].
Qed.
Print Assumptions C25_no_loss_refuted.
Lemma plain_names : plainName nLib /\ plainName nGroups /\ plainName nKerning /\ plainName nFeatures.
Proof.
  repeat split; try (intro H; discriminate H);
    (intro H; vm_compute in H; repeat (destruct H as [H|H]; [discriminate H|]); exact H).
Qed.
Lemma removePath_top_err name s s' e : plainName name -> roots s -> removePath name true false s = (s', Err e) -> False.
Proof.
  intros P R H. apply removePath_top in H as (_ & _ & H); [|exact P|exact R].
  destruct (kind (tree s) [name]); [destruct H as [H _]; discriminate H|destruct H as [_ H]; discriminate H].
Qed.
(** What holds: writing to an existing UFO, a failing call changes nothing. *)
Theorem C25_no_loss_partial : forall C c w validate s s' e,
  hp c = true -> roots s -> doWrite C c w validate s = (s', Err e) -> s' = s.
Proof.
  intros C c w validate s s' e Hp R H. destruct plain_names as (PL & PG & PK & _).
  destruct w; cbn [doWrite] in H.
  - unfold writeLib in H. rewrite Hp in H. destruct (validate && _); [inversion H; reflexivity|].
    destruct (truthy v); [apply writePlist_prev_err in H; exact H|]. exfalso. eapply removePath_top_err; [| |exact H]; assumption.
  - unfold writeGroups in H. rewrite Hp in H. destruct (validate && _); [inversion H; reflexivity|].
    destruct v; try (inversion H; reflexivity). destruct (asGroups (items (PDict d))) as [g|]; [|inversion H; reflexivity].
    unfold mbind, getRemap in H.
    match type of H with match ?G with _ => _ end _ = _ => destruct G end; [|apply writePlist_prev_err in H; exact H].
    exfalso. eapply removePath_top_err; [| |exact H]; assumption.
  - unfold writeKerning in H. rewrite Hp in H. destruct (validate && _); [inversion H; reflexivity|].
    destruct v; try (inversion H; reflexivity). destruct (asKerning (items (PDict d))) as [g|]; [|inversion H; reflexivity].
    unfold mbind, getRemap in H.
    match type of H with match ?G with _ => _ end _ = _ => destruct G end; [|apply writePlist_prev_err in H; exact H].
    exfalso. eapply removePath_top_err; [| |exact H]; assumption.
  - unfold writeInfoFile in H. rewrite Hp in H. apply writePlist_prev_err in H; exact H.
  - unfold writeLayerContents, mbind, getLayers, lift in H. rewrite Hp in H.
    destruct (ver c <? 3)%Z; [inversion H|]. destruct (validate && _); [inversion H; reflexivity|].
    destruct (mapM _ _); [|inversion H; reflexivity]. apply writePlist_prev_err in H; exact H.
Qed.
Print Assumptions C25_no_loss_partial.
Example C25_case : let c := mkCfg 3 true (PStr []) in
  let s := newState (Dir [(u "lib.plist", plistFile (dict [("a", PInt 1)]))]) in
  roots s /\ writeLib toy c (dict [("a", POther 0)]) true s = (s, Err UFOLibError).
Proof. split; [eexists; reflexivity|vm_compute; reflexivity]. Qed.

(** ** C26 *)
(** In a new UFO nothing is removed: what an earlier call of the same writer
    stored stays. *)
Theorem C26_emptied_refuted : exists C faithful c s s',
  codec_laws C faithful /\ hp c = false /\
  writeLib C c (dict [("a", PInt 1)]) true (newState (Dir [])) = (s, Ok tt) /\
  writeLib C c (dict []) true s = (s', Ok tt) /\
  readLib C (tree s') true = Ok (dict [("a", PInt 1)]).
Proof.
  exists toy, (fun _ => True), (mkCfg 3 false (PStr [])). do 2 eexists.
  split; [exact toy_laws|]. split; [reflexivity|]. split; [vm_compute; reflexivity|]. split; [vm_compute; reflexivity|].
  vm_compute. reflexivity.
Qed.
Print Assumptions C26_emptied_refuted.
Lemma removed name s : plainName name -> roots s -> exists s', removePath name true false s = (s', Ok tt) /\
  forall q, kind (tree s') q = match strip [name] q with Some _ => None | None => kind (tree s) q end.
Proof.
  intros P R. destruct (removePath name true false s) as [s' r] eqn:H. exists s'.
  apply removePath_top in H as (_ & _ & H); [|exact P|exact R].
  destruct (kind (tree s) [name]) eqn:K.
  - destruct H as (-> & -> & _). split; [reflexivity|]. intro q. apply kind_cut. discriminate.
  - destruct H as (-> & ->). split; [reflexivity|]. intro q. destruct (strip [name] q) as [r|] eqn:S; [|reflexivity].
    apply strip_Some in S as ->. unfold kind in *. rewrite find_app. destruct (find (tree s) [name]); [discriminate K|reflexivity].
Qed.
Lemma asTexts_all l ss : asTexts l = Some ss -> forallb is_str l = true.
Proof.
  revert ss; induction l as [|x l IH]; intros ss H; [reflexivity|]. destruct x; try discriminate H. cbn [asTexts] in H.
  destruct (asTexts l) as [r|]; [|discriminate]. cbn. exact (IH _ eq_refl).
Qed.
Lemma textGroups_ok d gs : asTextGroups d = Some gs -> rawGroupsOk (PDict d) = true.
Proof.
  unfold rawGroupsOk. cbn [is_dict items andb]. revert gs; induction d as [|[k v] d IH]; intros gs H; [reflexivity|].
  cbn [asTextGroups] in H. destruct k; try discriminate H. destruct v; try discriminate H.
  destruct (asTexts l) as [ss|] eqn:A; [|discriminate H]. destruct (asTextGroups d) as [g|]; [|discriminate H].
  cbn [forallb is_str is_list elems andb]. rewrite (asTexts_all _ _ A). cbn [andb]. exact (IH _ eq_refl).
Qed.
Lemma readGroupsRaw_gone C t : kind t [nGroups] = None -> readGroupsRaw C t = Ok (PDict []).
Proof. intro H. unfold readGroupsRaw, getPlist. rewrite getbytes_kind, H. reflexivity. Qed.
Lemma readKerningRaw_gone C t : kind t [nKerning] = None -> readKerningRaw C t = Ok (PDict []).
Proof. intro H. unfold readKerningRaw, getPlist. rewrite getbytes_kind, H. reflexivity. Qed.
Lemma raw_kind C t t' : kind t' [nKerning] = kind t [nKerning] -> readKerningRaw C t' = readKerningRaw C t.
Proof. intro H. unfold readKerningRaw, getPlist. rewrite !getbytes_kind, H. reflexivity. Qed.
Lemma raw_kind_g C t t' : kind t' [nGroups] = kind t [nGroups] -> readGroupsRaw C t' = readGroupsRaw C t.
Proof. intro H. unfold readGroupsRaw, getPlist. rewrite !getbytes_kind, H. reflexivity. Qed.
(** no groups: nothing is renamed *)
Lemma convert_no_groups V perm (k : list (str * list (str * V))) : set_order perm ->
  exists k', convertKerning perm k [] = Ok (k', [], ([], [])).
Proof.
  intros P. unfold convertKerning. cbn [findKnownKerningGroups keys map fold_left].
  assert (R : referencedGroups k [] ([], []) = ([], [])).
  { unfold referencedGroups. induction k as [|[a ss] k IH]; [reflexivity|]. cbn [fold_left].
    replace (has a (@nil (str * list str))) with false by reflexivity. cbv iota.
    assert (I : fold_left (fun (s : list str) (second : str) => if has second (@nil (str * list str)) then if negb (startswith kern2 second) then sadd second s else s else s) (keys ss) [] = []).
    { induction (keys ss) as [|x xs IHx]; [reflexivity|]. cbn [fold_left]. exact IHx. }
    rewrite I. exact IH. }
  rewrite R. assert (N : perm [] = []) by (apply Permutation_nil, Permutation_sym, P). rewrite N. cbn. eauto.
Qed.
(** What holds: on an existing UFO every empty write succeeds, changes only the
    target and a new reader then reads empty data.  For UFO 1 and 2, where groups
    and kerning are converted together, the other file has to be well-formed. *)
Definition onlyRemoves (name : str) (s s' : ust) : Prop :=
  forall q, ~ below [name] q -> fileAt (tree s') q = fileAt (tree s) q /\ isdir (tree s') q = isdir (tree s) q.
Theorem C26_emptied_partial : forall C perm c s validate, set_order perm -> hp c = true -> roots s ->
  (exists s', writeGroups C c (PDict []) validate s = (s', Ok tt) /\ onlyRemoves (u "groups.plist") s s' /\
     forall v vr, (v < 3 -> wellFormed C (tree s))%Z ->
       snd (readGroups C (convPy perm) v (tree s') None vr) = Ok (PDict []) \/ (exists e, readKerningRaw C (tree s) = Err e /\ (v < 3)%Z)) /\
  (exists s', writeKerning C c (PDict []) validate s = (s', Ok tt) /\ onlyRemoves (u "kerning.plist") s s' /\
     forall v vr, (v < 3 -> wellFormed C (tree s))%Z ->
       snd (readKerning C (convPy perm) v (tree s') None vr) = Ok (PDict []) \/ (exists e, readGroupsRaw C (tree s) = Err e /\ (v < 3)%Z)) /\
  (exists s', writeLib C c (PDict []) validate s = (s', Ok tt) /\ onlyRemoves (u "lib.plist") s s' /\
     forall vr, readLib C (tree s') vr = Ok (PDict [])) /\
  (ver c <> 1%Z -> exists s', writeFeatures c (PStr []) validate s = (s', Ok tt) /\ onlyRemoves (u "features.fea") s s' /\
     readFeatures (tree s') = Ok []).
Proof.
  intros C perm c s validate P Hp R. destruct plain_names as (PL & PG & PK & PF).
  assert (Only : forall name s', (forall q, kind (tree s') q = match strip [name] q with Some _ => None | None => kind (tree s) q end) -> onlyRemoves name s s').
  { intros name s' K q B. rewrite !kind_fileAt, !kind_isdir, K. apply strip_None in B. rewrite B. auto. }
  repeat match goal with |- _ /\ _ => split end.
  - destruct (removed nGroups s PG R) as (s' & H & K). exists s'. split; [|split; [apply Only; exact K|]].
    { unfold writeGroups, mbind, getRemap. replace (negb (groupsValidator (PDict []))) with false by reflexivity.
      rewrite andb_false_r. cbn [items asGroups]. rewrite Hp. destruct (remap s); [destruct (ver c <? 3)%Z|]; exact H. }
    intros v vr W. unfold readGroups.
    assert (G : readGroupsRaw C (tree s') = Ok (PDict [])) by (apply readGroupsRaw_gone; rewrite K; reflexivity).
    destruct (Z.ltb_spec v 3) as [L|L].
    + destruct (W L) as [Wk _]. unfold upConvert. rewrite G.
      replace (negb (rawGroupsOk (PDict []))) with false by reflexivity. rewrite andb_false_r.
      rewrite (raw_kind C (tree s) (tree s')) by (rewrite K; reflexivity).
      destruct (readKerningRaw C (tree s)) as [k|e] eqn:Ek; [|right; eauto]. left.
      destruct (Wk k eq_refl) as (d & n & -> & En). unfold convPy. rewrite En. cbn [asTextGroups].
      destruct (convert_no_groups _ perm n P) as (k' & ->). cbn. rewrite andb_false_r. reflexivity.
    + left. rewrite G. cbn. rewrite andb_false_r. reflexivity.
  - destruct (removed nKerning s PK R) as (s' & H & K). exists s'. split; [|split; [apply Only; exact K|]].
    { unfold writeKerning, mbind, getRemap. replace (negb (kerningArgOk (PDict []))) with false by reflexivity.
      rewrite andb_false_r. cbn [items asKerning]. rewrite Hp. destruct (remap s); [destruct (ver c <? 3)%Z|]; exact H. }
    intros v vr W. unfold readKerning.
    assert (G : readKerningRaw C (tree s') = Ok (PDict [])) by (apply readKerningRaw_gone; rewrite K; reflexivity).
    destruct (Z.ltb_spec v 3) as [L|L].
    + destruct (W L) as [_ Wg]. unfold upConvert.
      rewrite (raw_kind_g C (tree s) (tree s')) by (rewrite K; reflexivity).
      destruct (readGroupsRaw C (tree s)) as [g|e] eqn:Eg; [|right; eauto]. left.
      destruct (Wg g eq_refl) as (d & gs & -> & Es & D). rewrite (textGroups_ok _ _ Es). cbn [negb]. rewrite andb_false_r, G.
      unfold convPy. cbn [asNested]. rewrite Es.
      destruct (convert_spec perm (@nil (str * list (str * pyval))) gs D P) as (g' & m1 & m2 & -> & _).
      cbn. rewrite andb_false_r. reflexivity.
    + left. rewrite G. cbn. rewrite andb_false_r. reflexivity.
  - destruct (removed nLib s PL R) as (s' & H & K). exists s'. split; [|split; [apply Only; exact K|]].
    { unfold writeLib. replace (negb (fontLibValidator (PDict []))) with false by reflexivity.
      rewrite andb_false_r, Hp. exact H. }
    intros [|]; unfold readLib, getPlist; rewrite getbytes_kind, K; reflexivity.
  - intro V. destruct (removed nFeatures s PF R) as (s' & H & K). exists s'. split; [|split; [apply Only; exact K|]].
    { unfold writeFeatures. destruct (Z.eqb_spec (ver c) 1); [contradiction|]. cbn [is_str negb]. rewrite andb_false_r, Hp. exact H. }
    unfold readFeatures. rewrite getbytes_kind, K. reflexivity.
Qed.
Print Assumptions C26_emptied_partial.
Example C26_case : let c := mkCfg 2 true (PStr []) in
  let s := newState (Dir [(u "groups.plist", plistFile C23_g1); (u "kerning.plist", plistFile (dict [("A", dict [("B", PInt 5)])]))]) in
  wellFormed toy (tree s) /\
  snd (readGroups toy (convPy (fun l => l)) 2 (tree (fst (writeGroups toy c (PDict []) true s))) None true) = Ok (PDict []) /\
  snd (readKerning toy (convPy (fun l => l)) 2 (tree (fst (writeGroups toy c (PDict []) true s))) None true) =
    Ok (PDict [(PTuple [PStr (u "A"); PStr (u "B")], PInt 5)]).
Proof.
  split; [|split; vm_compute; reflexivity]. split; intros x H; vm_compute in H; inversion H; subst.
  - eexists. eexists. split; [reflexivity|]. vm_compute. reflexivity.
  - eexists. eexists. split; [reflexivity|]. split; [vm_compute; reflexivity|]. constructor; [intros []|constructor].
Qed.

(** ** C27 *)
Lemma writePlist_unchanged C name v s b : dumps C v = Ok b -> fileAt (tree s) [name] = Some b -> writePlist C true name v s = (s, Ok tt).
Proof.
  intros D F. unfold writePlist, mbind, lift, dumpsU, getTree. rewrite D, kind_exists, getbytes_kind.
  rewrite kind_fileAt in F. destruct (kind (tree s) [name]) as [[x|]|]; [|discriminate F|discriminate F].
  inversion F; subst. rewrite eqb_refl. reflexivity.
Qed.
(** [w] passes its validation and is to be stored in the file [name] as the value [v] *)
Definition storesAs (c : wcfg) (s : ust) (w : plistWrite) (validate : bool) (name : str) (v : pyval) : Prop :=
  match w with
  | WLib x => (validate = true -> fontLibValidator x = true) /\ truthy x = true /\ name = u "lib.plist" /\ v = x
  | WGroups x => (validate = true -> groupsValidator x = true) /\ name = u "groups.plist" /\
      (ver c = 3%Z \/ remap s = None) /\
      exists l, x = PDict (map (fun '(n, m) => (PStr n, PList m)) l) /\ l <> [] /\ v = x
  | WKerning x => (validate = true -> kerningArgOk x = true) /\ name = u "kerning.plist" /\
      (ver c = 3%Z \/ remap s = None) /\
      exists l, x = pairsVal l /\ nest l <> [] /\ v = nestedVal (nest l)
  | WInfo x => name = u "fontinfo.plist" /\ v = x
  | WLayers o => ver c = 3%Z /\ name = u "layercontents.plist" /\ o = None /\
      v = PList (map (fun '(n, d) => PTuple [PStr n; PStr d]) (layers s)) /\ dict_ok (layers s)
  end.
Lemma asGroups_val l : asGroups (map (fun '(n, m) => (PStr n, PList m)) l) = Some l.
Proof. induction l as [|[n m] l IH]; [reflexivity|]. cbn [map asGroups is_seq elems]. rewrite IH. reflexivity. Qed.
Lemma asKerning_val l : asKerning (items (pairsVal l)) = Some l.
Proof. unfold pairsVal. cbn [items]. induction l as [|[[a b] x] l IH]; [reflexivity|]. cbn [map asKerning fst snd]. rewrite IH. reflexivity. Qed.
Lemma mapM_layers l l0 : dict_ok l -> (forall n d, In (n, d) l0 -> In (n, d) l) ->
  mapM (fun n => match get n l with Some d => Ok (PTuple [PStr n; PStr d]) | None => Err KeyError end) (keys l0) =
  Ok (map (fun '(n, d) => PTuple [PStr n; PStr d]) l0).
Proof.
  intros D. induction l0 as [|[n d] l0 IH]; intro I; [reflexivity|]. cbn [keys map fst mapM].
  rewrite (In_get n d l D (I n d (or_introl eq_refl))). cbn [bind]. unfold keys in IH. rewrite IH by (intros; apply I; right; assumption). reflexivity.
Qed.
Lemma doWrite_stores C c s w validate name v : storesAs c s w validate name v ->
  doWrite C c w validate s = writePlist C (hp c) name v s.
Proof.
  intro H. destruct w; cbn [doWrite storesAs] in *.
  - destruct H as (V & Tr & -> & ->). unfold writeLib. rewrite Tr.
    destruct validate; [rewrite (V eq_refl)|]; reflexivity.
  - destruct H as (V & -> & A & l & -> & NE & ->). unfold writeGroups, mbind, getRemap.
    replace (validate && negb (groupsValidator (PDict (map (fun '(n, m) => (PStr n, PList m)) l)))) with false
      by (destruct validate; [rewrite (V eq_refl)|]; reflexivity).
    cbn [items]. rewrite asGroups_val.
    replace (match remap s with Some r => if (ver c <? 3)%Z then remapGroups r l else l | None => l end) with l
      by (destruct A as [-> | ->]; [destruct (remap s)|]; reflexivity).
    destruct l; [congruence|]. reflexivity.
  - destruct H as (V & -> & A & l & -> & NE & ->). unfold writeKerning, mbind, getRemap.
    replace (validate && negb (kerningArgOk (pairsVal l))) with false by (destruct validate; [rewrite (V eq_refl)|]; reflexivity).
    unfold pairsVal at 1. pose proof (asKerning_val l) as AK. unfold pairsVal in AK. rewrite AK. clear AK.
    replace (match remap s with Some r => if (ver c <? 3)%Z then remapKerning r l else l | None => l end) with l
      by (destruct A as [-> | ->]; [destruct (remap s)|]; reflexivity).
    destruct (nest l); [congruence|]. reflexivity.
  - destruct H as (-> & ->). reflexivity.
  - destruct H as (V & -> & -> & -> & D). unfold writeLayerContents, mbind, getLayers, lift. rewrite V. cbn [Z.ltb Z.compare].
    assert (M : forallb (fun n => mem n (keys (layers s))) (keys (layers s)) = true).
    { apply forallb_forall. intros n I. apply mem_In. exact I. }
    cbn -[mem keys]. rewrite M. rewrite andb_false_r. rewrite mapM_layers; [reflexivity|exact D|auto].
Qed.
Theorem C27_unchanged_not_rewritten : forall C c s, hp c = true ->
  (forall w validate name v b, storesAs c s w validate name v -> dumps C v = Ok b -> fileAt (tree s) [name] = Some b ->
     doWrite C c w validate s = (s, Ok tt)) /\
  (forall p cs data, components p = Ok cs -> fileAt (tree s) cs = Some data -> writeBytesToPath true p data s = (s, Ok tt)) /\
  (forall text validate data, ver c <> 1%Z -> utf8Encode text = Ok data -> text <> [] ->
     fileAt (tree s) [u "features.fea"] = Some data -> writeFeatures c (PStr text) validate s = (s, Ok tt)).
Proof.
  intros C c s Hp.
  assert (W : forall p cs data, components p = Ok cs -> fileAt (tree s) cs = Some data -> writeBytesToPath true p data s = (s, Ok tt)).
  { intros p cs data Hc F. unfold writeBytesToPath, mbind, lift, getTree. rewrite Hc, getbytes_kind.
    rewrite kind_fileAt in F. destruct (kind (tree s) cs) as [[x|]|]; [|discriminate F|discriminate F]. inversion F; subst.
    rewrite eqb_refl. reflexivity. }
  split; [|split; [exact W|]].
  - intros w validate name v b St D F. rewrite (doWrite_stores C _ _ _ _ _ _ St), Hp. eapply writePlist_unchanged; eassumption.
  - intros text validate data V E NE F. unfold writeFeatures. destruct (Z.eqb_spec (ver c) 1); [contradiction|].
    cbn [is_str negb]. rewrite andb_false_r. unfold truthy. destruct (eqb_spec text []); [contradiction|]. cbn [negb].
    unfold mbind at 1, lift. rewrite E, Hp. apply W with (cs := [nFeatures]); [|exact F]. apply components_plain, plain_names.
Qed.
Print Assumptions C27_unchanged_not_rewritten.
(** otherwise exactly the target file changes, in one write *)
Theorem C27_only_target : forall C c s s' w validate name v b, hp c = true ->
  storesAs c s w validate name v -> dumps C v = Ok b -> fileAt (tree s) [name] <> Some b ->
  doWrite C c w validate s = (s', Ok tt) ->
  fileAt (tree s') [name] = Some b /\ log s' = log s ++ [OWrite [name]] /\
  forall q, q <> [name] -> fileAt (tree s') q = fileAt (tree s) q /\ isdir (tree s') q = isdir (tree s) q.
Proof.
  intros C c s s' w validate name v b Hp St D F H. rewrite (doWrite_stores C _ _ _ _ _ _ St), Hp in H.
  apply writePlist_ok in H as (b' & D' & K & _ & L). rewrite D in D'. inversion D'; subst b'. specialize (L eq_refl).
  split; [rewrite kind_fileAt, K, eqb_refl; reflexivity|]. split.
  - rewrite L. destruct (fileAt (tree s) [name]) as [old|]; [|reflexivity]. destruct (eqb_spec b old); [subst; congruence|reflexivity].
  - intros q Hq. rewrite !kind_fileAt, !kind_isdir, K. destruct (eqb_spec q [name]); [contradiction|auto].
Qed.
Print Assumptions C27_only_target.
Example C27_case : let c := mkCfg 3 true (PStr []) in
  let s := mkUst (Dir [(u "kerning.plist", plistFile (dict [("A", dict [("B", PInt 5)])]))]) [] [] None in
  let k := [(u "A", u "B", PInt 5)] in
  storesAs c s (WKerning (pairsVal k)) true (u "kerning.plist") (dict [("A", dict [("B", PInt 5)])]) /\
  writeKerning toy c (pairsVal k) true s = (s, Ok tt) /\
  log (fst (writeKerning toy c (pairsVal (k ++ [(u "A", u "C", PInt 1)])) true s)) = [OWrite [u "kerning.plist"]].
Proof.
  split; [|split; vm_compute; reflexivity]. cbn [storesAs]. split; [intros _; reflexivity|]. split; [reflexivity|]. split; [left; reflexivity|].
  exists [(u "A", u "B", PInt 5)]. split; [reflexivity|]. split; [discriminate|vm_compute; reflexivity].
Qed.

(** ** C31 *)
(** what is not allowed is refused with no effect *)
Theorem C31_refused : forall C lower c s, In (ver c) [1; 2; 3]%Z ->
  (ver c <> 3%Z -> forall name deflt vr, (name <> None \/ deflt = false) -> getGlyphSet C lower c name deflt vr s = (s, Err UFOLibError)) /\
  (ver c <> 3%Z -> forall f data v, writeImage c f data v s = (s, Err UFOLibError)) /\
  (ver c <> 3%Z -> forall f, removeImage c f s = (s, Err UFOLibError)) /\
  (ver c <> 3%Z -> forall src f g, copyImageFromReader c src f g s = (s, Err UFOLibError)) /\
  (ver c = 1%Z -> forall text v, writeFeatures c text v s = (s, Err UFOLibError)).
Proof.
  intros C lower c s V.
  assert (L : ver c <> 3%Z -> (ver c <? 3)%Z = true) by (intro N; apply Z.ltb_lt; cbn in V; lia).
  split; [|split; [|split; [|split]]].
  - intros N name deflt vr B. unfold getGlyphSet. rewrite (L N). destruct B as [B| ->].
    + destruct name; [|congruence]. rewrite orb_true_r. reflexivity.
    + reflexivity.
  - intros N f data v. unfold writeImage. rewrite (L N). reflexivity.
  - intros N f. unfold removeImage. rewrite (L N). reflexivity.
  - intros N src f g. unfold copyImageFromReader. rewrite (L N). reflexivity.
  - intros V1 text v. unfold writeFeatures. rewrite V1. reflexivity.
Qed.
Print Assumptions C31_refused.
Lemma makeGlyphs s : roots s -> isfile (tree s) [u "glyphs"] = false ->
  exists s1, fsMakedir [nGlyphs] s = (s1, Ok tt) /\ layers s1 = layers s /\
    exists ds, find (tree s1) [nGlyphs] = Some (Dir ds) /\ (find (tree s) [nGlyphs] = Some (Dir ds) \/ find (tree s) [nGlyphs] = None /\ ds = []).
Proof.
  intros (es & R) F. unfold fsMakedir, mbind, getTree, makedir, existsAt. rewrite R in *.
  unfold isfile in F. fold nGlyphs in F. destruct (find (Dir es) [nGlyphs]) as [[b|ds]|] eqn:E; [discriminate F| |].
  - eexists. split; [reflexivity|]. split; [reflexivity|]. exists ds. rewrite R. split; [exact E|left; reflexivity].
  - cbn [put]. eexists. split; [reflexivity|]. split; [reflexivity|]. exists []. split; [|right; auto].
    cbn [tree find]. rewrite get_set_same. reflexivity.
Qed.
(** The default glyph set of a UFO 1 can never be obtained: line 1411 makes a
    tuple of the glyphs directory.  The directory is created all the same. *)
Theorem C31_default_set_refuted : forall C lower c s vr, ver c = 1%Z -> roots s -> isfile (tree s) [u "glyphs"] = false ->
  exists s', getGlyphSet C lower c None true vr s = (s', Err TypeError) /\ isdir (tree s') [u "glyphs"] = true.
Proof.
  intros C lower c s vr V R F. destruct (makeGlyphs s R F) as (s1 & E1 & _ & ds & E2 & _).
  exists s1. split; [|unfold isdir; fold nGlyphs; rewrite E2; reflexivity].
  unfold getGlyphSet. rewrite V. cbn -[mbind fsMakedir nGlyphs]. unfold mbind, getLayers, ret. rewrite E1. reflexivity.
Qed.
Print Assumptions C31_default_set_refuted.
Lemma lastDefault_spec l : match lastDefault l with Some n => In (n, nGlyphs) l | None => ~ In nGlyphs (values l) end.
Proof.
  unfold lastDefault.
  assert (G : forall l (acc : option str),
    match fold_left (fun acc '(n, d) => if eqb d nGlyphs then Some n else acc) l acc with
    | Some n => In (n, nGlyphs) l \/ acc = Some n
    | None => ~ In nGlyphs (values l) /\ acc = None
    end).
  { clear l. induction l as [|[n d] l IH]; intros acc; cbn [fold_left].
    - destruct acc; [right; reflexivity|]. split; [intros []|reflexivity].
    - specialize (IH (if eqb d nGlyphs then Some n else acc)). destruct (fold_left _ l _) as [m|].
      + destruct IH as [IH|IH]; [left; right; exact IH|]. destruct (eqb_spec d nGlyphs) as [->|N]; [inversion IH; subst; left; left; reflexivity|right; exact IH].
      + destruct IH as [IH1 IH2]. destruct (eqb_spec d nGlyphs) as [->|N]; [discriminate|]. split; [|exact IH2].
        intros [E|I]; [cbn in E; congruence|exact (IH1 I)]. }
  specialize (G l None). destruct (fold_left _ l None) as [m|].
  - destruct G as [G|G]; [exact G|discriminate].
  - apply G.
Qed.
(** In UFO 2 and 3 it can, unless the glyphs directory holds an unreadable
    contents.plist or the default layer is mapped to no directory name *)
Theorem C31_default_set_partial : forall C lower c s vr, (ver c = 2 \/ ver c = 3)%Z -> roots s ->
  isfile (tree s) [u "glyphs"] = false -> fileAt (tree s) [u "glyphs"; u "contents.plist"] = None ->
  isdir (tree s) [u "glyphs"; u "contents.plist"] = false -> dict_ok (layers s) ->
  (forall n, In (n, u "glyphs") (layers s) -> forall n', In (n', u "glyphs") (layers s) -> n' = n) ->
  (~ In (u "glyphs") (values (layers s)) -> ~ In (u "public.default") (keys (layers s))) ->
  exists s', getGlyphSet C lower c None true vr s = (s', Ok (u "glyphs", PDict [])) /\ isdir (tree s') [u "glyphs"] = true.
Proof.
  intros C lower c s vr V (es & R) F NC ND Dk One Def.
  pose proof (makeGlyphs s (ex_intro _ es R) F) as (s1 & E1 & EL & ds & E2 & E3).
  assert (E4 : getbytes (Dir ds) [nContents] = FErr ResourceNotFound).
  { change [u "glyphs"; u "contents.plist"] with ([nGlyphs] ++ [nContents]) in NC, ND.
    unfold fileAt in NC. unfold isdir in ND. rewrite find_app in NC, ND. unfold getbytes. destruct E3 as [E3|[E3 ->]]; [|reflexivity].
    rewrite E3 in NC, ND. destruct (find (Dir ds) [nContents]) as [[x|x]|]; [discriminate NC|discriminate ND|reflexivity]. }
  assert (Op : forall s2 ds, find (tree s2) [nGlyphs] = Some (Dir ds) -> getbytes (Dir ds) [nContents] = FErr ResourceNotFound ->
    openDir C [nGlyphs] vr s2 = (s2, Ok (PDict []))).
  { clear - C. intros s2 ds E G. unfold openDir, mbind, getTree, lift. rewrite E. unfold openGlyphSet, getPlist. rewrite G. cbn. destruct vr; reflexivity. }
  unfold getGlyphSet. replace ((ver c <? 3)%Z && (negb true || false)) with false by (rewrite andb_false_r; reflexivity).
  unfold mbind at 1, getLayers. unfold mbind at 1, ret at 1. destruct V as [V|V]; rewrite V.
  - cbn [Z.eqb]. cbn -[mbind fsMakedir nGlyphs openDir]. 
    unfold mbind. rewrite E1, (Op _ _ E2 E4). eexists. split; [reflexivity|]. unfold isdir. fold nGlyphs. rewrite E2. reflexivity.
  - cbn -[mbind fsMakedir nGlyphs openDir getGlyphSet3 lastDefault]. 
    set (name := match lastDefault (layers s) with Some n => n | None => nDefault end).
    assert (LD : (In (name, nGlyphs) (layers s)) \/ (name = nDefault /\ ~ In nGlyphs (values (layers s)))).
    { subst name. pose proof (lastDefault_spec (layers s)) as L. destruct (lastDefault (layers s)); auto. }
    unfold getGlyphSet3. unfold mbind at 1, getLayers.
    assert (Ex : existsb (fun '(n, d) => if eqb d nGlyphs then negb (eqb n name) else eqb n name) (layers s) = false).
    { apply not_true_is_false. intro Ex. apply existsb_exists in Ex as ([n d] & I & B).
      destruct (eqb_spec d nGlyphs) as [->|N].
      - destruct LD as [LD|[_ LD]].
        + rewrite (One _ LD _ I), eqb_refl in B. discriminate.
        + apply LD. change nGlyphs with (snd (n, nGlyphs)). apply in_map. exact I.
      - apply (proj1 (eqb_eq _ _)) in B. subst n. destruct LD as [LD|[E LD]].
        + apply N. apply (In_get _ _ _ Dk) in I. apply (In_get _ _ _ Dk) in LD. congruence.
        + apply (Def LD). fold nDefault. rewrite <- E. change name with (fst (name, d)). apply in_map. exact I. }
    rewrite Ex. cbn [andb].
    assert (Gt : get name (layers s) = Some nGlyphs \/ get name (layers s) = None).
    { destruct LD as [LD|[E LD]]; [left; apply In_get; assumption|right]. apply get_None. rewrite E. apply Def. exact LD. }
    unfold mbind at 1. replace ((match get name (layers s) with Some d => ret d | None => ret nGlyphs end) s) with (s, Ok nGlyphs)
      by (destruct Gt as [-> | ->]; reflexivity).
    unfold mbind at 1, lift. replace (components nGlyphs) with (Ok [nGlyphs] : res path) by (vm_compute; reflexivity).
    unfold mbind. rewrite E1. unfold setLayers.
    rewrite (Op (mkUst (tree s1) (log s1) (set name nGlyphs (layers s)) (remap s1)) ds E2 E4).
    eexists. split; [reflexivity|]. cbn [tree]. unfold isdir. fold nGlyphs. rewrite E2. reflexivity.
Qed.
Print Assumptions C31_default_set_partial.
Example C31_case : let s := newState (Dir []) in
  snd (getGlyphSet toy (fun x => x) (mkCfg 3 false PNone) None true true s) = Ok (u "glyphs", PDict []) /\
  layers (fst (getGlyphSet toy (fun x => x) (mkCfg 3 false PNone) None true true s)) = [(u "public.default", u "glyphs")] /\
  getGlyphSet toy (fun x => x) (mkCfg 2 false PNone) (Some (u "bg")) true true s = (s, Err UFOLibError).
Proof. vm_compute. auto. Qed.
