(** Glyph sets over whole sessions: what is written with writeGlyph is what is
    read after saving and opening the directory again - with plistlib for
    contents.plist and the GLIF writer and reader for the glyphs. *)
From Coq Require Import String NArith ZArith Bool Lia List Permutation.
From Coq.Floats Require Import SpecFloat.
From Verif Require Import Base PyVal PyText FloatRepr LowerLaws Filenames FilenamesProofs GlyphSet GlyphSetProofs NamesApart PropGlyphSet.
From Verif Require Import Xml FS Ufo UfoProofs PropUfoFiles Plist PlistProofs PropPlist Etree EtreeProofs PropEtree PlistFiles PointPen PropPointPen Glif GlifProofs GlifOutline GlifAccepted PropGlif.
Import ListNotations.
Local Open Scope string_scope.
Local Open Scope list_scope.

Local Notation world := GlyphSet.world.
Local Notation codec_laws := GlyphSetProofs.codec_laws.
Local Notation exec := GlyphSet.exec.
Local Notation fetch := PropGlyphSet.fetch.
Local Notation dict_ok := Base.dict_ok.

(** * contents.plist through plistlib *)
(** __init__.py 163-198: plistlib.dumps on the contents dictionary *)
Definition contentsDumps (T : pytext) (R : spec_float -> str) (c : list (str * str)) : res bytes :=
  plistDumps T R true (PDict (map (fun '(n, f) => (PStr n, PStr f)) c)).
(** __init__.py 134-160, glifLib 181-200: plistlib.load and the check of the types *)
Definition contentsLoads (T : pytext) (b : bytes) : res (list (str * str)) :=
  do v <- plistLoads T b;
  match v with
  | PDict d => foldM (fun c '(n, f) => match n, f with PStr n, PStr f => Ok (set n f c) | _, _ => Err GlifLibError end) [] d
  | _ => Err GlifLibError
  end.

Lemma strict_loads d : forall c c', foldM (fun c '(n, f) => match n, f with PStr n, PStr f => Ok (set n f c) | _, _ => Err GlifLibError end) c d = Ok c' -> dict_ok c -> dict_ok c'.
Proof.
  induction d as [|[k v] d IH]; intros c c' H D; cbn [foldM] in H; [inversion H; subst; exact D|].
  apply bind_Ok in H as (c1 & H1 & H). eapply IH; [exact H|]. destruct k; try discriminate H1. destruct v; try discriminate H1. inversion H1; subst. apply dict_ok_set. exact D.
Qed.
Lemma load_entries (e : list (str * str)) : forall c, (forall n, In n (keys e) -> get n c = None) -> dict_ok e -> exists c',
  foldM (fun c '(n, f) => match n, f with PStr n, PStr f => Ok (set n f c) | _, _ => Err GlifLibError end) c (map (fun '(n, f) => (PStr n, PStr f)) e) = Ok c' /\
  forall n, get n c' = match get n e with Some f => Some f | None => get n c end.
Proof.
  induction e as [|[n f] e IH]; intros c Hc D; cbn [map foldM bind]; [exists c; split; [reflexivity|intro; reflexivity]|]. inversion D as [|? ? Ni D']; subst.
  destruct (IH (set n f c)) as (c' & Ec & G); [|exact D'|].
  - intros m I. rewrite get_set_other by (intros ->; contradiction). apply Hc. right. exact I.
  - exists c'. split; [exact Ec|]. intro m. rewrite G. cbn [get]. rewrite get_set. destruct (eqb_spec m n) as [->|N].
    + rewrite (proj2 (get_None n e)); [reflexivity|exact Ni].
    + reflexivity.
Qed.
Lemma contents_plistable (c : list (str * str)) : dict_ok c -> plistable (PDict (map (fun '(n, f) => (PStr n, PStr f)) c)).
Proof.
  intro D. replace (map (fun '(n, f) => (PStr n, PStr f)) c) with (map (fun '(k, x) => (PStr k, x)) (map (fun '(n, f) => (n, PStr f)) c)) by (rewrite map_map; apply map_ext; intros []; reflexivity).
  constructor; [replace (map fst (map (fun '(n, f) => (n, PStr f)) c)) with (keys c) by (unfold keys; rewrite map_map; apply map_ext; intros []; reflexivity); exact D|].
  apply Forall_forall. intros [k v] I. apply in_map_iff in I as ([n f] & E & _). inversion E; subst. constructor.
Qed.
Lemma contents_texts (c : list (str * str)) : dict_ok c -> goodMap textOk c -> textsOk (PDict (map (fun '(n, f) => (PStr n, PStr f)) c)).
Proof.
  intros D G. split.
  - intros s I. inversion I as [|? ? ? J I'|? ? ? J I'|? k v J I']; subst. apply in_map_iff in J as ([n f] & E & J). inversion E; subst. inversion I'; subst. apply (G n f). apply In_get; assumption.
  - intros d k x I J. inversion I as [|? ? ? J' I'|? ? ? J' I'|? k' v J' I']; subst.
    + apply in_map_iff in J as ([n f] & E & J). inversion E; subst. apply (G k f). apply In_get; assumption.
    + apply in_map_iff in J' as ([n f] & E & _). inversion E; subst. inversion I'.
Qed.
(** plistlib keeps the contents dictionary if names and file names are texts XML can carry *)
Theorem contents_codec_laws : forall T R, pytext_laws T -> repr_laws T R -> codec_laws (contentsDumps T R) (contentsLoads T) textOk.
Proof.
  intros T R LT LR. constructor.
  - intros b c H. unfold contentsLoads in H. apply bind_Ok in H as (v & _ & H). destruct v; try discriminate H. eapply strict_loads; [exact H|constructor].
  - intros c b D G H. destruct (contents_texts c D G) as [T1 T2]. destruct (C60_file_partial T R true _ LT LR (contents_plistable c D) T1 T2) as (b' & w & E & L & S).
    unfold contentsDumps in H. rewrite E in H. inversion H; subst b'. unfold contentsLoads. rewrite L. cbn [bind].
    destruct (psame_entries _ _ S) as (e & e' & -> & P & F).
    assert (Ee : e' = map (fun '(n, f) => (PStr n, PStr f)) c).
    { clear - F. remember (map (fun '(n, f) => (PStr n, PStr f)) c) as d eqn:Ed. assert (Q : forall x, In x d -> exists n f, x = (PStr n, PStr f)) by (intros x I; rewrite Ed in I; apply in_map_iff in I as ([n f] & <- & _); eauto).
      clear Ed. induction F as [|[k v] [k' v'] d e [A B] F IH]; [reflexivity|]. cbn [fst snd] in *. destruct (Q (k, v) (or_introl eq_refl)) as (n & f & X). inversion X; subst. apply psame_str in B. subst. f_equal. apply IH. intros x I. apply Q. right. exact I. }
    subst e'. apply Permutation_sym in P. apply Permutation_map_inv in P as (e0 & -> & P).
    assert (D0 : dict_ok e0) by (unfold dict_ok, keys; eapply Permutation_NoDup; [apply Permutation_map; exact P|exact D]).
    destruct (load_entries e0 []) as (c' & Ec & Gc); [intros; reflexivity|exact D0|]. exists c'. split; [exact Ec|]. intro n. rewrite Gc. cbn [get].
    assert (Q : get n e0 = get n c).
    { destruct (get n c) as [f|] eqn:Ef; [apply In_get; [exact D0|]; eapply Permutation_in; [|apply get_In; exact Ef]; exact P || (apply Permutation_sym; exact P)|].
      destruct (get n e0) as [f|] eqn:Ef0; [|reflexivity]. apply get_In in Ef0. assert (I : In (n, f) c) by (eapply Permutation_in; [|exact Ef0]; exact P || (apply Permutation_sym; exact P)). apply In_get in I; [congruence|exact D]. }
    rewrite Q. destruct (get n c); reflexivity.
  - eexists. unfold contentsLoads. replace (plistLoads T []) with (@Err pyval XMLError) by (vm_compute; reflexivity). reflexivity.
Qed.
Print Assumptions contents_codec_laws.

(** file names are made of the characters of the name, "_", digits, the prefix
    and the suffix *)
Lemma userName_chars (Q : N -> Prop) lower name ex prefix suffix f : Q underscore -> Q period -> (forall c, is_digit c = true -> Q c) -> Forall Q prefix -> Forall Q suffix ->
  userNameToFileName lower name ex prefix suffix = Ok f -> Forall Q name -> Forall Q f.
Proof.
  intros Qu Qp Qd Qf Qs H Hn. apply userNameToFileName_shape in H as (n & Rn & Sh & _).
  assert (Pn : Forall Q n).
  { unfold replaceInitialPeriod in Rn. destruct prefix; [|inversion Rn; subst; exact Hn]. destruct name as [|c r]; [discriminate|]. destruct (N.eqb c period); inversion Rn; subst; [|exact Hn]. inversion Hn; subst. constructor; assumption. }
  assert (Pc : Forall Q (cleanName lower prefix suffix n)).
  { apply Forall_forall. rewrite Forall_forall in Pn. intros x Hx. unfold cleanName in Hx.
    apply In_join in Hx as [[<-|[]]|(q & Hq & Hx)]; [exact Qp|].
    apply in_map_iff in Hq as (r & <- & Hr). unfold escapePart in Hx.
    assert (Hx' : x = underscore \/ In x r) by (destruct (mem _ _); cbn in Hx; [intuition congruence|auto]).
    destruct Hx' as [->|Hx']; [exact Qu|].
    eapply In_split1 in Hr; [|exact Hx'].
    destruct (slice_to_prefix (maxFileNameLength - Z.of_nat (length prefix) - Z.of_nat (length suffix)) (concat (map (filterCharacter lower) n))) as (t & Et).
    assert (Hr' : In x (concat (map (filterCharacter lower) n))) by (rewrite Et; apply in_or_app; left; exact Hr).
    apply in_concat in Hr' as (y & Hy & Hxy). apply in_map_iff in Hy as (c & <- & Hc).
    unfold filterCharacter in Hxy. destruct (mem c _); [destruct Hxy as [<-|[]]; exact Qu|].
    destruct (negb _); [destruct Hxy as [<-|[<-|[]]]|destruct Hxy as [<-|[]]]; auto. }
  assert (Dg : forall d, forallb is_digit d = true -> Forall Q d) by (intros d Hd; apply Forall_forall; intros x Hx; rewrite forallb_forall in Hd; apply Qd, Hd; exact Hx).
  inversion Sh as [E|k Hk Hi E|k m Hk Hm Hp E]; cbn [app]; rewrite ?Forall_app; repeat split; try assumption.
  - destruct (clash1Name_prefix (cleanName lower prefix suffix n) prefix suffix) as (r & Er). rewrite Er, Forall_app in Pc. apply Pc.
  - apply Dg, zfill_digit, str_of_N_digit.
  - apply Dg, str_of_N_digit.
Qed.
(** what plists can carry *)
Definition textChar (c : N) : Prop := xmlCompat c /\ c <> 13%N.
Lemma textOk_chars s : textOk s <-> Forall textChar s.
Proof.
  split.
  - intros [A B]. apply Forall_forall. intros c I. rewrite Forall_forall in A. split; [apply A; exact I|intros ->; contradiction].
  - intro H. rewrite Forall_forall in H. split; [apply Forall_forall; intros c I; apply (H c I)|intro I; apply (H _ I); reflexivity].
Qed.
Lemma text_check s : forallb (fun c => (c =? 10) || ((32 <=? c) && (c <? 128)))%N s = true -> textOk s.
Proof. intro H. apply ascii_ok. apply lit_ascii. exact H. Qed.
Lemma userName_text lower name ex prefix suffix f : userNameToFileName lower name ex prefix suffix = Ok f -> textOk prefix -> textOk suffix -> textOk name -> textOk f.
Proof.
  intros H P S N. apply textOk_chars. apply textOk_chars in P, S, N. eapply userName_chars; [| | |exact P|exact S|exact H|exact N].
  - split; [unfold xmlCompat, underscore; lia|discriminate].
  - split; [unfold xmlCompat, period; lia|discriminate].
  - intros c D. unfold is_digit in D. apply andb_prop in D as [D1 D2]. apply N.leb_le in D1, D2. unfold textChar, xmlCompat. split; lia.
Qed.
Lemma file_text lower name ex f : glyphNameToFileName lower name ex = Ok f -> textOk name -> textOk f.
Proof. intros H N. unfold glyphNameToFileName in H. eapply userName_text; [exact H|apply text_check; reflexivity|apply text_check; reflexivity|exact N]. Qed.
Lemma default_names_text lower : good_names textOk (defaultFileName lower).
Proof. intros n e f G T. eapply file_text; [exact T|exact G]. Qed.
Lemma careful_names_text lower : good_names textOk (carefulFileName lower).
Proof. intros n e f G T. eapply file_text; [exact T|exact G]. Qed.

(** * C84: sessions *)
(** what a client does: a call of the glyph set, or writing contents.plist and
    opening the directory with a new glyph set *)
Inductive action := Do (c : call) | Reopen.
Definition done {A} (r : world * res A) : res world := match r with (w, Ok _) => Ok w | (_, Err e) => Err e end.
Definition actOn (canon lower : str -> str) toFileName dumps loads (w : world) (a : action) : res world :=
  match a with
  | Do c => done (exec canon lower toFileName dumps loads c w)
  | Reopen => do w1 <- done (writeContents canon dumps w); done (openSet canon loads (dir w1))
  end.
(** actions, all of which succeed, on a new glyph set *)
Definition session (canon lower : str -> str) toFileName dumps loads (l : list action) : res world :=
  foldM (actOn canon lower toFileName dumps loads) emptyWorld l.
(** what has to be found: the data last written of each glyph not deleted *)
Definition remember (m : list (str * bytes)) (a : action) : list (str * bytes) :=
  match a with Do (CWrite n _ (Ok data)) => set n data m | Do (CDelete n) => del n m | _ => m end.
Definition remembered (l : list action) : list (str * bytes) := fold_left remember l [].
Definition noRebuild (a : action) : Prop := a <> Do CRebuild.
Definition actCall (P : call -> Prop) (a : action) : Prop := match a with Do c => P c | Reopen => True end.

Section Sessions.
Variable canon lower : str -> str.
Variable toFileName : str -> list (str * str) -> res str.
Variable dumps : list (str * str) -> res bytes.
Variable loads : bytes -> res (list (str * str)).
Variable good : str -> Prop.
Hypothesis codec : codec_laws dumps loads good.
Hypothesis total : forall c, dict_ok c -> goodMap good c -> exists b, dumps c = Ok b.
Hypothesis canon_lower : case_only canon lower.
Variable ok : str -> Prop.
Variable P : str -> str -> Prop.
Hypothesis fresh_names : forall n e f, ok n -> (forall g, In g (keys e) -> exists m, m <> n /\ P m g) -> toFileName n e = Ok f ->
  P n f /\ ~ In (lower f) (map lower (keys e)) /\ canon f <> canon contentsName.
Hypothesis ok_good : forall n, ok n -> good n.
Hypothesis P_good : forall n f, P n f -> good f.
Notation exec := (GlyphSet.exec canon lower toFileName dumps loads).
Notation act := (actOn canon lower toFileName dumps loads).
Notation distinctInv := (distinctInv canon lower loads good P).

Definition bytesInv (m : list (str * bytes)) (w : world) : Prop :=
  forall n, match get n (contents (gs w)) with Some f => exists b, get n m = Some b /\ get (canon f) (dir w) = Some b | None => get n m = None end.
Lemma bytes_files m w : bytesInv m w -> filesInv canon w.
Proof. intros B n f G. specialize (B n). rewrite G in B. destruct B as (b & _ & D). unfold has. rewrite D. reflexivity. Qed.

Lemma exec_bytes c w w' m : distinctInv w -> distinctInv w' -> bytesInv m w -> dict_ok m -> dict_ok (dir w) -> exec c w = (w', Ok tt) -> c <> CRebuild -> bytesInv (remember m (Do c)) w'.
Proof.
  intros DI DI' B Dm Dd E NR. destruct DI as (C & (I & H) & _). destruct DI' as (C' & (I' & H') & _). destruct c as [n bv d|n| | | |n]; cbn [GlyphSet.exec remember] in *.
  - apply writeGlyph_spec in E as [(_ & _ & E)|(_ & w1 & rf & F & E)]; [discriminate|].
    destruct rf as [f|e]; [|destruct E; discriminate]. destruct d as [data|e]; [|destruct E; discriminate].
    destruct E as (_ & Eg & E). destruct (fileNameFor_spec _ _ _ _ _ _ F) as (D1 & L1 & F1).
    assert (Gn : get n (contents (gs w')) = Some f) by (rewrite Eg; destruct F1 as [(G & ->)|(_ & _ & ->)]; [exact G|cbn [contents]; apply get_set_same]).
    assert (Go : forall k, k <> n -> get k (contents (gs w')) = get k (contents (gs w))).
    { intros k Nk. rewrite Eg. destruct F1 as [(G & ->)|(_ & _ & ->)]; [reflexivity|]. cbn [contents]. apply get_set_other. exact Nk. }
    assert (Ed : get (canon f) (dir w') = Some data /\ forall x, x <> canon f -> get x (dir w') = get x (dir w)).
    { destruct E as [(_ & X & -> & _)|(_ & -> & _)]; [split; [exact X|reflexivity]|]. split; [apply get_set_same|intros; apply get_set_other; assumption]. }
    intro k. destruct (eq_decide k n) as [->|Nk].
    + rewrite Gn. exists data. rewrite get_set_same. split; [reflexivity|apply Ed].
    + specialize (B k). rewrite (Go k Nk). rewrite get_set_other by exact Nk. destruct (get k (contents (gs w))) as [g|] eqn:Gk; [|exact B]. destruct B as (b & Eb & Db). exists b. split; [exact Eb|].
      rewrite (proj2 Ed); [exact Db|]. intro X. apply Nk. eapply I'; [rewrite (Go k Nk); exact Gk|exact Gn|apply canon_lower; exact X].
  - apply deleteGlyph_spec in E. destruct (get n (contents (gs w))) as [f|] eqn:G; [|destruct E; discriminate].
    destruct (has (canon f) (dir w)); [|destruct E; discriminate].
    destruct E as (D & L & E & _). intro k. rewrite E, D. cbn [contents]. destruct (eq_decide k n) as [->|Nk].
    + rewrite get_del_same by exact (proj1 C). apply get_del_same. exact Dm.
    + specialize (B k). rewrite !get_del_other by exact Nk. destruct (get k (contents (gs w))) as [g|] eqn:Gk; [|exact B]. destruct B as (b & Eb & Db). exists b. split; [exact Eb|].
      rewrite get_del_other; [exact Db|]. intro X. apply Nk. eapply I; [exact Gk|exact G|apply canon_lower; exact X].
  - apply writeContents_spec in E as (Eg & b & Db & E). intro k. specialize (B k). rewrite Eg. destruct (get k (contents (gs w))) as [g|] eqn:Gk; [|exact B]. destruct B as (b' & Eb & Db'). exists b'. split; [exact Eb|].
    destruct (H k g Gk) as (_ & N & _). destruct E as [(_ & _ & ->)|[(_ & -> & _)|(_ & -> & _)]]; rewrite ?get_set_other by exact N; exact Db'.
  - contradiction.
  - unfold GlyphSet.mbind in E. destruct (getReverseContents lower w) as [w1 rr] eqn:R.
    apply reverse_spec in R as (D & _ & Ec & _ & _ & d & -> & _). assert (w1 = w') by (unfold GlyphSet.ret in E; congruence). subst w'. intro k. specialize (B k). rewrite Ec, D. exact B.
  - unfold GlyphSet.mbind in E. destruct (getGLIF canon n w) as [w1 rr] eqn:R. apply getGLIF_spec in R as (-> & _).
    destruct rr; inversion E; subst; exact B.
Qed.
(** saving and opening again always works *)
Lemma reopen_bytes w m : distinctInv w -> bytesInv m w -> dict_ok (dir w) -> exists w', act w Reopen = Ok w' /\ distinctInv w' /\ bytesInv m w' /\ dict_ok (dir w').
Proof.
  intros DI B Dd. pose proof DI as (C & (I & H) & He & Hd).
  assert (Gm : goodMap good (contents (gs w))) by (intros n f G; destruct (H n f G) as (Pf & _ & Gn); eauto).
  destruct (total _ (proj1 C) Gm) as (b & Db). destruct (GlyphSetProofs.loads_dumps _ _ _ codec _ _ (proj1 C) Gm Db) as (c' & Lc & Eq).
  unfold actOn. destruct (writeContents canon dumps w) as [w1 r] eqn:E. apply writeContents_spec in E as (Eg & E).
  destruct r as [[]|e]; [|destruct E as (_ & (x & X) & _); congruence]. destruct E as (b' & Db' & E). assert (b' = b) by congruence. subst b'. cbn [done bind].
  assert (D1 : get (canon contentsName) (dir w1) = Some b /\ dict_ok (dir w1) /\ forall x, x <> canon contentsName -> get x (dir w1) = get x (dir w)).
  { destruct E as [(_ & X & ->)|[(_ & -> & _)|(_ & -> & _)]]; [split; [exact X|split; [exact Dd|reflexivity]]|..]; (split; [apply get_set_same|split; [repeat apply dict_ok_set; exact Dd|intros; rewrite !get_set_other by assumption; reflexivity]]). }
  destruct D1 as (D1 & Dd1 & D2).
  assert (Dk : diskContents canon loads (dir w1) = Ok c') by (unfold diskContents; rewrite D1; exact Lc).
  pose proof (GlyphSetProofs.loads_dict _ _ _ codec _ _ Lc) as Dc'.
  assert (Oc' : okMap canon lower good P c') by (eapply okMap_eq; [exact Eq|split; assumption]).
  rewrite (openSet_ok canon loads (dir w1) c' Dk).
  - cbn [done]. eexists. split; [reflexivity|]. split; [|split].
    + split; [split; [exact Dc'|split; discriminate]|]. split; [exact Oc'|]. split; [discriminate|]. cbn [dir]. intros c X. rewrite Dk in X. inversion X; subst. exact Oc'.
    + intro n. cbn [gs contents dir]. rewrite Eq. specialize (B n). destruct (get n (contents (gs w))) as [f|] eqn:G; [|exact B]. destruct B as (b' & Eb & Db''). exists b'. split; [exact Eb|]. rewrite D2; [exact Db''|apply (H n f G)].
    + exact Dd1.
  - intros n f J. assert (G : get n (contents (gs w)) = Some f) by (rewrite <- Eq; apply In_get; assumption). specialize (B n). rewrite G in B. destruct B as (b' & _ & Db'').
    unfold has. rewrite D2; [rewrite Db''; reflexivity|apply (H n f G)].
Qed.
Lemma dir_ok c w : dict_ok (dir w) -> dict_ok (dir (fst (exec c w))).
Proof. intro D. destruct (log_exec canon lower toFileName dumps loads c w) as (ops & _ & ->). apply dict_ok_replay. exact D. Qed.
Lemma session_bytes l : Forall noRebuild l -> Forall (actCall (okCall ok)) l -> forall w m w', foldM act w l = Ok w' -> distinctInv w -> bytesInv m w -> dict_ok m -> dict_ok (dir w) ->
  distinctInv w' /\ bytesInv (fold_left remember l m) w' /\ dict_ok (dir w').
Proof.
  induction l as [|a l IH]; intros NR Oc w m w' F DI B Dm Dd; cbn [foldM fold_left] in *; [inversion F; subst; auto|]. inversion NR as [|? ? NR1 NR2]; subst. inversion Oc as [|? ? Oc1 Oc2]; subst.
  apply bind_Ok in F as (w1 & Ea & F). destruct a as [c|].
  - cbn [actOn] in Ea. destruct (exec c w) as [w2 r] eqn:E. destruct r as [[]|e]; [|discriminate Ea]. cbn [done] in Ea. inversion Ea; subst w2.
    assert (DI1 : distinctInv w1).
    { assert (X : distinctInv (fst (exec c w))) by (eapply exec_distinct; eauto). rewrite E in X. exact X. }
    apply (IH NR2 Oc2 w1 _ w' F DI1).
    + apply (exec_bytes c w w1 m DI DI1 B Dm Dd E). intro X. apply NR1. rewrite X. reflexivity.
    + cbn [remember]. destruct c as [n bv [d|e]|n| | | |n]; try exact Dm; [apply dict_ok_set; exact Dm|apply dict_ok_del; exact Dm].
    + assert (X := dir_ok c w Dd). rewrite E in X. exact X.
  - destruct (reopen_bytes w m DI B Dd) as (w2 & E & DI2 & B2 & Dd2). rewrite E in Ea. inversion Ea; subst w2. eapply IH; eassumption.
Qed.
Lemma session_fetch l w : Forall noRebuild l -> Forall (actCall (okCall ok)) l -> session canon lower toFileName dumps loads l = Ok w ->
  (forall n, fetch canon n w = match get n (remembered l) with Some b => Ok b | None => Err KeyError end) /\ (exists w', act w Reopen = Ok w').
Proof.
  intros NR Oc S. destruct (session_bytes l NR Oc emptyWorld [] w S) as (DI & B & Dd); [apply empty_distinct|intro n; reflexivity|constructor|constructor|].
  split; [|destruct (reopen_bytes w _ DI B Dd) as (w' & E & _); eauto].
  intro n. rewrite fetch_eq. unfold fileOf. specialize (B n). unfold remembered. destruct (get n (contents (gs w))) as [f|]; [destruct B as (b & -> & ->)|rewrite B]; reflexivity.
Qed.
End Sessions.

Lemma fresh_good canon lower toFileName good : case_fresh canon lower toFileName -> good_names good toFileName ->
  forall n e f, good n -> (forall g, In g (keys e) -> exists m, m <> n /\ good g) -> toFileName n e = Ok f -> good f /\ ~ In (lower f) (map lower (keys e)) /\ canon f <> canon contentsName.
Proof. intros CF GN n e f G _ T. split; [exact (GN n e f G T)|apply (CF n e f T)]. Qed.
Lemma fresh_lower canon lower good : lower_laws lower -> case_only canon lower -> good_names good (defaultFileName lower) ->
  forall n e f, plainLower n /\ good n -> (forall g, In g (keys e) -> exists m, m <> n /\ plainLower g /\ good g) -> defaultFileName lower n e = Ok f ->
  (plainLower f /\ good f) /\ ~ In (lower f) (map lower (keys e)) /\ canon f <> canon contentsName.
Proof.
  intros L CO GN n e f [On Gn] Pe T. destruct (default_fresh_plain canon lower L CO n e f On) as (A & B & D); [intros g Ig; destruct (Pe g Ig) as (m & _ & Pm); apply Pm|exact T|].
  split; [split; [exact A|exact (GN n e f Gn T)]|auto].
Qed.
Lemma good_okCall good l : Forall (actCall (good_write good)) l -> Forall (actCall (okCall good)) l.
Proof. intro H. eapply Forall_impl; [|exact H]. intros [c|] X; [|exact I]. destruct c; exact X. Qed.
Lemma lower_okCall good l : Forall (actCall (good_write good)) l -> Forall (actCall lower_case_write) l -> Forall (actCall (okCall (fun n => plainLower n /\ good n))) l.
Proof. rewrite !Forall_forall. intros H H' a J. specialize (H a J). specialize (H' a J). destruct a as [c|]; [|exact I]. destruct c; try exact I. split; assumption. Qed.

(** Proved: in every session without rebuildContents, in which all actions
    succeed, each glyph is found with the data last written, whether or not the
    directory was opened again since then; and saving and opening again works.
    The file name function has to give file names that are new, ignoring case.
    Missing: the default file name function (refuted below; it is enough that
    glyph names have no upper-case letters) and rebuildContents (refuted below). *)
Theorem C84_sessions_partial : forall canon lower toFileName dumps loads good,
  codec_laws dumps loads good -> (forall c, dict_ok c -> goodMap good c -> exists b, dumps c = Ok b) ->
  case_only canon lower -> case_fresh canon lower toFileName -> good_names good toFileName ->
  forall l w, Forall noRebuild l -> Forall (actCall (good_write good)) l -> session canon lower toFileName dumps loads l = Ok w ->
  (forall n, fetch canon n w = match get n (remembered l) with Some b => Ok b | None => Err KeyError end) /\
  (exists w', session canon lower toFileName dumps loads (l ++ [Reopen]) = Ok w').
Proof.
  intros canon lower tf dumps loads good C Tot CO CF GN l w NR GW S.
  destruct (session_fetch canon lower tf dumps loads good C Tot CO good (fun _ => good) (fresh_good _ _ _ _ CF GN) ltac:(auto) ltac:(auto) l w NR (good_okCall _ _ GW) S) as (A & w' & E).
  split; [exact A|]. exists w'. unfold session in *. rewrite foldM_app, S. cbn [bind foldM]. rewrite E. reflexivity.
Qed.
Print Assumptions C84_sessions_partial.
Theorem C84_lower_case_names_partial : forall canon lower dumps loads good,
  lower_laws lower -> codec_laws dumps loads good -> (forall c, dict_ok c -> goodMap good c -> exists b, dumps c = Ok b) ->
  case_only canon lower -> good_names good (defaultFileName lower) ->
  forall l w, Forall noRebuild l -> Forall (actCall (good_write good)) l -> Forall (actCall lower_case_write) l -> session canon lower (defaultFileName lower) dumps loads l = Ok w ->
  (forall n, fetch canon n w = match get n (remembered l) with Some b => Ok b | None => Err KeyError end) /\
  (exists w', session canon lower (defaultFileName lower) dumps loads (l ++ [Reopen]) = Ok w').
Proof.
  intros canon lower dumps loads good L C Tot CO GN l w NR GW LW S.
  destruct (session_fetch canon lower (defaultFileName lower) dumps loads good C Tot CO _ (fun _ f => plainLower f /\ good f) (fresh_lower canon lower good L CO GN) (fun n H => proj2 H) (fun n f H => proj2 H) l w NR (lower_okCall _ _ GW LW) S) as (A & w' & E).
  split; [exact A|]. exists w'. unfold session in *. rewrite foldM_app, S. cbn [bind foldM]. rewrite E. reflexivity.
Qed.
Print Assumptions C84_lower_case_names_partial.
Lemma names_okCall S l : Forall (actCall (names_write S)) l -> Forall (actCall (okCall S)) l.
Proof. intro H. eapply Forall_impl; [|exact H]. intros [c|] X; [|exact I]. destruct c; exact X. Qed.
(** and for names that are apart (C08) *)
Theorem C84_apart_names_partial : forall canon lower dumps loads good S,
  lower_stable lower -> codec_laws dumps loads good -> (forall c, dict_ok c -> goodMap good c -> exists b, dumps c = Ok b) ->
  case_only canon lower -> good_names good (defaultFileName lower) -> apart_names lower S -> (forall n, S n -> good n) ->
  forall l w, Forall noRebuild l -> Forall (actCall (names_write S)) l -> session canon lower (defaultFileName lower) dumps loads l = Ok w ->
  (forall n, fetch canon n w = match get n (remembered l) with Some b => Ok b | None => Err KeyError end) /\
  (exists w', session canon lower (defaultFileName lower) dumps loads (l ++ [Reopen]) = Ok w').
Proof.
  intros canon lower dumps loads good S L C Tot CO GN A SG l w NR NW E.
  destruct (session_fetch canon lower (defaultFileName lower) dumps loads good C Tot CO S (fun n f => (S n /\ ownFile lower n f) /\ good f) (fresh_apart canon lower good S L CO GN A SG) SG (fun n f H => proj2 H) l w NR (names_okCall _ _ NW) E) as (H & w' & E').
  split; [exact H|]. exists w'. unfold session in *. rewrite foldM_app, E. cbn [bind foldM]. rewrite E'. reflexivity.
Qed.
Print Assumptions C84_apart_names_partial.

(** plistlib without lxml is such a codec *)
Theorem contents_total : forall T R, pytext_laws T -> repr_laws T R -> forall c, dict_ok c -> goodMap textOk c -> exists b, contentsDumps T R c = Ok b.
Proof. intros T R LT LR c D G. destruct (contents_texts c D G) as [T1 T2]. destruct (C60_file_partial T R true _ LT LR (contents_plistable c D) T1 T2) as (b & w & E & _). eauto. Qed.
Print Assumptions contents_total.

(** ** Cases *)
Definition idName (f : str) : str := f.
Definition caseDumps := contentsDumps toyText toyRepr.
Definition caseLoads := contentsLoads toyText.
Definition wr (n : string) (b : N) : action := Do (CWrite (u n) false (Ok [b])).
(** glyphs a, b and A; b is written twice and a deleted after opening again *)
Example C84_case :
  let l := [wr "a" 1; wr "b" 2; wr "A" 3; Reopen; wr "b" 4; Do (CDelete (u "a")); Do CReverse; Do CWriteContents; wr "a*" 5; Reopen] in
  remembered l = [(u "b", [4%N]); (u "A", [3%N]); (u "a*", [5%N])] /\
  match session idName ascii_lower (carefulFileName ascii_lower) caseDumps caseLoads l with
  | Ok w => contents (gs w) = [(u "A", u "A_.glif"); (u "a*", u "a_000000000000001.glif"); (u "b", u "b.glif")] /\ fetch idName (u "b") w = Ok [4%N] /\ fetch idName (u "a*") w = Ok [5%N] /\ fetch idName (u "a") w = Err KeyError
  | Err _ => False
  end.
Proof. vm_compute. auto. Qed.
(** the default file name function gives "A*" and "A_" the same file *)
Theorem C84_refuted : exists l w, Forall noRebuild l /\ session idName ascii_lower (defaultFileName ascii_lower) caseDumps caseLoads l = Ok w /\
  get (u "A*") (remembered l) = Some [1%N] /\ fetch idName (u "A*") w = Ok [2%N].
Proof. exists [wr "A*" 1; wr "A_" 2; Reopen]. eexists. split; [repeat constructor; discriminate|]. split; [vm_compute; reflexivity|]. split; vm_compute; reflexivity. Qed.
Print Assumptions C84_refuted.
(** a deleted glyph comes back with the data of another glyph: the file name is
    used again while contents.plist still lists the deleted glyph *)
Theorem C84_rebuild_refuted : exists l w, session idName ascii_lower (carefulFileName ascii_lower) caseDumps caseLoads l = Ok w /\
  get (u "a*") (remembered l) = None /\ get (u "a:") (remembered l) = Some [2%N] /\ fetch idName (u "a*") w = Ok [2%N] /\ fetch idName (u "a:") w = Err KeyError.
Proof. exists [wr "a*" 1; Do CWriteContents; Do (CDelete (u "a*")); wr "a:" 2; Do CRebuild]. eexists. split; [vm_compute; reflexivity|]. repeat split; vm_compute; reflexivity. Qed.
Print Assumptions C84_rebuild_refuted.
(** C11 with plistlib: a carriage return in a glyph name is lost *)
Theorem C11_contents_round_trip_refuted : exists n l w, session idName ascii_lower (carefulFileName ascii_lower) caseDumps caseLoads l = Ok w /\ Forall noRebuild l /\
  get n (remembered l) = Some [1%N] /\ fetch idName n w = Err KeyError.
Proof. exists [97; 13; 98]%N, [Do (CWrite [97; 13; 98]%N false (Ok [1%N])); Reopen]. eexists. split; [vm_compute; reflexivity|]. split; [repeat constructor; discriminate|]. split; vm_compute; reflexivity. Qed.
Print Assumptions C11_contents_round_trip_refuted.

(** * C85: glyphs *)
(** writeGlyph with a glyph object, a drawing and the argument formatVersion *)
Inductive gaction := Write (name : str) (g : list (str * pyval)) (items : option (list gitem)) (fv : option Z) | Other (a : action).
(** writeGlyph on a glyph set of a UFO of the version given *)
Definition compile (T : pytext) (R : spec_float -> str) (ro : pyval -> str) (ufo : Z) (a : gaction) : action :=
  match a with
  | Write n g items fv => Do (CWrite n (negb (isOk (writeVersion ufo fv))) (gsWriteBytes T R ro ufo (PStr n) g (option_map gdrawing items) fv true))
  | Other a => a
  end.
Definition stored : Type := list (str * pyval) * option (list gitem) * option Z.
Definition rememberGlyph (m : list (str * stored)) (a : gaction) :=
  match a with Write n g items fv => set n (g, items, fv) m | Other (Do (CDelete n)) => del n m | Other _ => m end.
Definition rememberedGlyphs (l : list gaction) := fold_left rememberGlyph l [].
Definition isWrite (a : action) : bool := match a with Do (CWrite _ _ _) => true | _ => false end.
(** the GLIF version written: the one asked for, or the newest one the UFO can have *)
Definition versionOf (ufo : Z) (fv : option Z) : Z := match fv with Some v => v | None => if (3 <=? ufo)%Z then 2%Z else 1%Z end.
(** glyphs that GLIF can store, in the version given *)
Definition storedAs (v : Z) (n : str) (g : list (str * pyval)) (items : option (list gitem)) : Prop :=
  (v = 2%Z /\ storable n g items) \/ (v = 1%Z /\ exists l, items = Some l /\ storable1 n g items).
(** what is read of such a glyph; version 0 stands for a glyph that was not written but found: it is read exactly so *)
Definition readsAs (sp : N -> bool) (v : Z) (n : str) (g : list (str * pyval)) (items : option (list gitem)) (r : greading) : Prop :=
  (v = 2%Z -> sameGlyph sp n g items r) /\ (v = 1%Z -> forall l, items = Some l -> sameGlyph1 sp n g l r) /\
  (v = 0%Z -> rattrs r = g /\ exists l, items = Some l /\ map asPassed (rcalls r) = gdrawing l).
Definition allowed (ufo : Z) (a : gaction) : Prop :=
  match a with Write n g items fv => storedAs (versionOf ufo fv) n g items | Other a => isWrite a = false /\ noRebuild a end.
Definition readGlyphOf (T : pytext) (ufo : Z) (canon : str -> str) (n : str) (w : world) : res greading := do b <- fetch canon n w; gsReadBytes T ufo true true true b.

Lemma valOk_text s : valOk s -> textOk s.
Proof. intros [H _]. exact H. Qed.
Lemma stored_name v n g items : storedAs v n g items -> textOk n.
Proof. intros [[_ S]|(_ & l & _ & S)]; apply valOk_text; [eapply st_name|eapply s1_name]; exact S. Qed.
Lemma allowed_good T R ro ufo l : Forall (allowed ufo) l -> Forall (actCall (good_write textOk)) (map (compile T R ro ufo) l) /\ Forall noRebuild (map (compile T R ro ufo) l).
Proof.
  intro A. split; apply Forall_forall; intros a I; apply in_map_iff in I as (x & <- & I); rewrite Forall_forall in A; specialize (A x I); destruct x as [n g items fv|a]; cbn [compile allowed] in *.
  - cbn. eapply stored_name. exact A.
  - destruct A as [W _]. destruct a as [c|]; [|exact Logic.I]. destruct c; try discriminate W; exact Logic.I.
  - discriminate.
  - apply A.
Qed.
(** what was written, and the bytes *)
Definition writtenAs T R ro ufo (m : list (str * bytes)) (n : str) (x : option stored) : Prop :=
  match x with
  | Some (g, items, fv) => storedAs (versionOf ufo fv) n g items /\ exists b, get n m = Some b /\ gsWriteBytes T R ro ufo (PStr n) g (option_map gdrawing items) fv true = Ok b
  | None => get n m = None
  end.
Lemma rememberedGlyphs_bytes T R ro ufo canon lower tf dumps loads : forall l, Forall (allowed ufo) l -> forall w w' m m', foldM (actOn canon lower tf dumps loads) w (map (compile T R ro ufo) l) = Ok w' ->
  dict_ok m -> dict_ok m' -> (forall n, writtenAs T R ro ufo m n (get n m')) ->
  dict_ok (fold_left rememberGlyph l m') /\ forall n, writtenAs T R ro ufo (fold_left remember (map (compile T R ro ufo) l) m) n (get n (fold_left rememberGlyph l m')).
Proof.
  induction l as [|a l IH]; intros A w w' m m' F Dm Dm' H; cbn [map fold_left foldM] in *; [split; assumption|]. inversion A as [|? ? A1 A2]; subst. apply bind_Ok in F as (w1 & Ea & F).
  destruct a as [n g items fv|a]; cbn [compile allowed rememberGlyph] in *.
  - destruct (gsWriteBytes T R ro ufo (PStr n) g (option_map gdrawing items) fv true) as [b|e] eqn:W.
    + cbn [remember]. apply (IH A2 w1 w'); [exact F|apply dict_ok_set; exact Dm|apply dict_ok_set; exact Dm'|]. intro k. unfold writtenAs. rewrite !get_set. destruct (eqb_spec k n) as [->|N]; [|apply H]. split; [exact A1|eauto].
    + exfalso. cbn [actOn GlyphSet.exec] in Ea. destruct (writeGlyph canon lower tf n _ (Err e) w) as [w2 r] eqn:E. apply writeGlyph_spec in E as [(_ & _ & ->)|(_ & w3 & rf & _ & E)]; [discriminate Ea|]. destruct rf; destruct E as (_ & ->); discriminate Ea.
  - destruct A1 as [W _]. destruct a as [c|].
    + destruct c as [n bv d|n| | | |n]; try discriminate W; cbn [remember]; try (apply (IH A2 w1 w'); assumption).
      apply (IH A2 w1 w'); [exact F|apply dict_ok_del; exact Dm|apply dict_ok_del; exact Dm'|]. intro k. unfold writtenAs. destruct (eq_decide k n) as [->|N]; [rewrite !get_del_same by assumption; reflexivity|rewrite !get_del_other by assumption; apply H].
    + cbn [remember]. apply (IH A2 w1 w'); assumption.
Qed.
Lemma remembered_written T R ro ufo canon lower tf dumps loads l w : Forall (allowed ufo) l -> session canon lower tf dumps loads (map (compile T R ro ufo) l) = Ok w ->
  dict_ok (rememberedGlyphs l) /\ forall n, writtenAs T R ro ufo (remembered (map (compile T R ro ufo) l)) n (get n (rememberedGlyphs l)).
Proof. intros A S. exact (rememberedGlyphs_bytes T R ro ufo canon lower tf dumps loads l A emptyWorld w [] [] S ltac:(constructor) ltac:(constructor) ltac:(intro; reflexivity)). Qed.
Lemma version_written T R ro ufo n g d fv b : gsWriteBytes T R ro ufo (PStr n) g d fv true = Ok b ->
  writeGlyphBytes T R ro (PStr n) g d (versionOf ufo fv) true = Ok b /\ In (versionOf ufo fv) (readVersions ufo).
Proof.
  unfold gsWriteBytes. intro W. apply bind_Ok in W as (v & Wv & W). unfold writeVersion in Wv. fold (versionOf ufo fv) in Wv. destruct (mem (versionOf ufo fv) [1%Z; 2%Z]) eqn:M; [|discriminate Wv]. destruct (negb ((versionOf ufo fv =? 2)%Z && (ufo <? 3)%Z)) eqn:N; [|discriminate Wv]. apply Ok_inj in Wv. subst v.
  split; [exact W|]. apply mem_In in M. unfold readVersions. destruct (ufo <? 3)%Z; [|exact M]. destruct M as [M|[M|[]]]; [left; exact M|]. rewrite <- M in N. discriminate N.
Qed.
Lemma written_read T R ro ufo n g items fv b : pytext_laws T -> repr_laws T R -> storedAs (versionOf ufo fv) n g items -> gsWriteBytes T R ro ufo (PStr n) g (option_map gdrawing items) fv true = Ok b ->
  exists r, gsReadBytes T ufo true true true b = Ok r /\ readsAs (isSpace T) (versionOf ufo fv) n g items r.
Proof.
  intros LT LR St W. apply version_written in W as [W Iv]. unfold gsReadBytes, readsAs. destruct St as [[V St]|(V & l & -> & St)]; rewrite V in *.
  - destruct (glyph_round T LT R LR ro n g items b W St) as (r & Er & Sg). exists r. split; [|split; [intros _; exact Sg|split; discriminate]]. unfold readVersions in *. destruct (ufo <? 3)%Z; [destruct Iv as [X|[]]; discriminate X|exact Er].
  - destruct (C56_format1_partial T R ro n g l b (readVersions ufo) LT LR W St Iv) as (r & Er & Sg). exists r. split; [exact Er|]. split; [discriminate|]. split; [|discriminate]. intros _ l' E. injection E as <-. exact Sg.
Qed.
Lemma glyphs_read T R ro ufo canon lower tf dumps loads l w : pytext_laws T -> repr_laws T R -> Forall (allowed ufo) l ->
  session canon lower tf dumps loads (map (compile T R ro ufo) l) = Ok w ->
  (forall n, fetch canon n w = match get n (remembered (map (compile T R ro ufo) l)) with Some b => Ok b | None => Err KeyError end) ->
  forall n, match get n (rememberedGlyphs l) with
            | Some (g, items, fv) => exists r, readGlyphOf T ufo canon n w = Ok r /\ readsAs (isSpace T) (versionOf ufo fv) n g items r
            | None => readGlyphOf T ufo canon n w = Err KeyError
            end.
Proof.
  intros LT LR A S Fe n. assert (H := proj2 (remembered_written T R ro ufo canon lower tf dumps loads l w A S) n).
  unfold readGlyphOf. rewrite Fe. destruct (get n (rememberedGlyphs l)) as [[[g items] fv]|]; cbn [writtenAs] in H.
  - destruct H as (St & b & -> & W). cbn [bind]. exact (written_read T R ro ufo n g items fv b LT LR St W).
  - rewrite H. reflexivity.
Qed.
(** Proved: in every session on a new glyph set, with plistlib and the GLIF writer
    and reader, each glyph written and not deleted is read as the glyph it was,
    and no other glyph is found - before and after saving; in UFO 1, 2 and 3, and
    with both GLIF versions.  Restrictions: as in C84, C56 and C58. *)
Theorem C85_glyphs_partial : forall T R ro ufo canon lower toFileName, pytext_laws T -> repr_laws T R ->
  case_only canon lower -> case_fresh canon lower toFileName -> good_names textOk toFileName ->
  forall l w, Forall (allowed ufo) l -> session canon lower toFileName (contentsDumps T R) (contentsLoads T) (map (compile T R ro ufo) l) = Ok w ->
  (forall n, match get n (rememberedGlyphs l) with
             | Some (g, items, fv) => exists r, readGlyphOf T ufo canon n w = Ok r /\ readsAs (isSpace T) (versionOf ufo fv) n g items r
             | None => readGlyphOf T ufo canon n w = Err KeyError
             end) /\
  (exists w', session canon lower toFileName (contentsDumps T R) (contentsLoads T) (map (compile T R ro ufo) (l ++ [Other Reopen])) = Ok w').
Proof.
  intros T R ro ufo canon lower tf LT LR CO CF GN l w A S. destruct (allowed_good T R ro ufo l A) as [GW NR].
  destruct (C84_sessions_partial canon lower tf _ _ _ (contents_codec_laws T R LT LR) (contents_total T R LT LR) CO CF GN _ w NR GW S) as [Fe Re].
  split; [eapply glyphs_read; eassumption|]. rewrite map_app. exact Re.
Qed.
Print Assumptions C85_glyphs_partial.
Theorem C85_careful : forall T R ro ufo canon lower, pytext_laws T -> repr_laws T R -> case_only canon lower ->
  forall l w, Forall (allowed ufo) l -> session canon lower (carefulFileName lower) (contentsDumps T R) (contentsLoads T) (map (compile T R ro ufo) l) = Ok w ->
  forall n, match get n (rememberedGlyphs l) with
            | Some (g, items, fv) => exists r, readGlyphOf T ufo canon n w = Ok r /\ readsAs (isSpace T) (versionOf ufo fv) n g items r
            | None => readGlyphOf T ufo canon n w = Err KeyError
            end.
Proof.
  intros T R ro ufo canon lower LT LR CO l w A S.
  apply (C85_glyphs_partial T R ro ufo canon lower _ LT LR CO (C08_careful_function canon lower CO) (careful_names_text lower) l w A S).
Qed.
Print Assumptions C85_careful.
(** with the default file name function, for glyph names without upper-case letters *)
Definition lowerNamed (a : gaction) : Prop := match a with Write n _ _ _ => plainLower n | Other _ => True end.
Lemma lower_writes T R ro ufo l : Forall (allowed ufo) l -> Forall lowerNamed l -> Forall (actCall lower_case_write) (map (compile T R ro ufo) l).
Proof.
  intros A Ln. apply Forall_forall. intros a I. apply in_map_iff in I as (x & <- & I). rewrite Forall_forall in A, Ln. specialize (A x I). specialize (Ln x I). destruct x as [n g items fv|a]; cbn [compile]; [exact Ln|]. destruct A as [W _]. destruct a as [c|]; [|exact Logic.I]. destruct c; try discriminate W; exact Logic.I.
Qed.
Theorem C85_lower_case_names_partial : forall T R ro ufo canon lower, pytext_laws T -> repr_laws T R -> lower_laws lower -> case_only canon lower ->
  forall l w, Forall (allowed ufo) l -> Forall lowerNamed l -> session canon lower (defaultFileName lower) (contentsDumps T R) (contentsLoads T) (map (compile T R ro ufo) l) = Ok w ->
  (forall n, match get n (rememberedGlyphs l) with
             | Some (g, items, fv) => exists r, readGlyphOf T ufo canon n w = Ok r /\ readsAs (isSpace T) (versionOf ufo fv) n g items r
             | None => readGlyphOf T ufo canon n w = Err KeyError
             end) /\
  (exists w', session canon lower (defaultFileName lower) (contentsDumps T R) (contentsLoads T) (map (compile T R ro ufo) (l ++ [Other Reopen])) = Ok w').
Proof.
  intros T R ro ufo canon lower LT LR L CO l w A Ln S. destruct (allowed_good T R ro ufo l A) as [GW NR].
  destruct (C84_lower_case_names_partial canon lower _ _ _ L (contents_codec_laws T R LT LR) (contents_total T R LT LR) CO (default_names_text lower) _ w NR GW (lower_writes T R ro ufo l A Ln) S) as [Fe Re].
  split; [eapply glyphs_read; eassumption|]. rewrite map_app. exact Re.
Qed.
Print Assumptions C85_lower_case_names_partial.
(** or for names that are apart (C08) *)
Definition named (S : str -> Prop) (a : gaction) : Prop := match a with Write n _ _ _ => S n | Other _ => True end.
Lemma named_writes S T R ro ufo l : Forall (allowed ufo) l -> Forall (named S) l -> Forall (actCall (names_write (fun n => S n /\ textOk n))) (map (compile T R ro ufo) l).
Proof.
  intros A Ln. apply Forall_forall. intros a I. apply in_map_iff in I as (x & <- & I). rewrite Forall_forall in A, Ln. specialize (A x I). specialize (Ln x I).
  destruct x as [n g items fv|a]; cbn [compile]; [split; [exact Ln|eapply stored_name; exact A]|]. destruct A as [W _]. destruct a as [c|]; [|exact Logic.I]. destruct c; try discriminate W; exact Logic.I.
Qed.
Lemma apart_sub lower (S S' : str -> Prop) : (forall n, S' n -> S n) -> apart_names lower S -> apart_names lower S'.
Proof. intros H A n m f g Sn Sm. apply A; auto. Qed.
Theorem C85_apart_names_partial : forall T R ro ufo canon lower S, pytext_laws T -> repr_laws T R -> lower_stable lower -> case_only canon lower -> apart_names lower S ->
  forall l w, Forall (allowed ufo) l -> Forall (named S) l -> session canon lower (defaultFileName lower) (contentsDumps T R) (contentsLoads T) (map (compile T R ro ufo) l) = Ok w ->
  (forall n, match get n (rememberedGlyphs l) with
             | Some (g, items, fv) => exists r, readGlyphOf T ufo canon n w = Ok r /\ readsAs (isSpace T) (versionOf ufo fv) n g items r
             | None => readGlyphOf T ufo canon n w = Err KeyError
             end) /\
  (exists w', session canon lower (defaultFileName lower) (contentsDumps T R) (contentsLoads T) (map (compile T R ro ufo) (l ++ [Other Reopen])) = Ok w').
Proof.
  intros T R ro ufo canon lower S LT LR L CO A l w Al Ln E. destruct (allowed_good T R ro ufo l Al) as [_ NR].
  destruct (C84_apart_names_partial canon lower _ _ _ _ L (contents_codec_laws T R LT LR) (contents_total T R LT LR) CO (default_names_text lower) (apart_sub lower S _ (fun n H => proj1 H) A) (fun n H => proj2 H) _ w NR (named_writes S T R ro ufo l Al Ln) E) as [Fe Re].
  split; [eapply glyphs_read; eassumption|]. rewrite map_app. exact Re.
Qed.
Print Assumptions C85_apart_names_partial.

(** ** Cases *)
(** a glyph with everything in it satisfies what C58 and C85 ask for *)
Lemma dget_string k d s : match dget k d with Some x => x | None => PNone end = PStr s -> In (PStr s) (map snd d).
Proof. induction d as [|[k' v] d IH]; cbn [dget map snd]; [discriminate|]. intro H. destruct k'; try (right; apply IH; exact H). destruct (eqb k s0); [left; exact H|right; apply IH; exact H]. Qed.
Lemma storable_case : storable (u "a<") glyphCase (Some itemsCase).
Proof.
  assert (V : forall s, forallb (fun c => (32 <=? c) && (c <? 128))%N s = true -> valOk s).
  { intros s H. rewrite forallb_forall in H. assert (K : forall c, In c s -> (32 <= c < 128)%N) by (intros c I; apply H in I; apply andb_prop in I as [A B]; apply N.leb_le in A; apply N.ltb_lt in B; lia).
    split; [split|]; [apply Forall_forall; intros c I; apply K in I; unfold xmlCompat; lia|intro I; apply K in I; lia|intro I; apply K in I; lia]. }
  assert (D : forall d, forallb (fun v => match v with PStr s => forallb (fun c => (32 <=? c) && (c <? 128))%N s | _ => true end) (map snd d) = true -> forall k s, vget k (PDict d) = PStr s -> valOk s).
  { intros d H k s E. apply V. apply dget_string in E. rewrite forallb_forall in H. apply (H _ E). }
  assert (Z : forall z, GlifProofs.isNum (PInt z)) by (intro z; left; eauto).
  constructor.
  - apply V. reflexivity.
  - right. right. eexists. split; reflexivity.
  - right. apply Z.
  - intros s E. injection E as <-. apply text_check. reflexivity.
  - intros k d J. unfold transformationDefaults in J. cbn [In] in J. repeat (destruct J as [J|J]; [injection J as <- <-; first [discriminate|intros _; apply (Z 2%Z)]|]); contradiction.
  - apply D. reflexivity.
  - intros v [<-|[]]. split; [|apply D; reflexivity]. intros k [<-|[<-|[<-|[]]]]; [right; apply (Z 5%Z)|left; reflexivity|left; reflexivity].
  - intros v [<-|[]]. split; [|apply D; reflexivity]. intros k [<-|[<-|[]]]; right; [apply (Z 1%Z)|apply (Z 2%Z)].
  - intros l i E J. injection E as <-. destruct J as [<-|[<-|[]]]; cbn [goodItem numberItem textItem].
    + assert (N : forall p, In p [ptc 0 0 "line"; ptc 1 0 ""; ptc 2 1 "offcurve"; ptc 2 2 "curve"] -> numeric p).
      { intros p J. repeat (destruct J as [<-|J]; [eexists _, _; split; [reflexivity|split; apply Z]|]). contradiction. }
      split; [|split; [exact N|]].
      * apply goodContour_iff; [exact N|]. split; [|split].
        -- apply Forall_forall. intros p J. split; [apply N; exact J|]. destruct J as [<-|[<-|[<-|[<-|[]]]]]; (split; [cbn; unfold known; cbn; tauto|intro X; discriminate X]).
        -- cbn. split; [discriminate|]. repeat constructor; discriminate.
        -- cbn. repeat split; try lia; intros; discriminate || lia || (destruct H; discriminate).
      * intros p n J E. repeat (destruct J as [<-|J]; [discriminate E|]). contradiction.
    + split; [exact Logic.I|]. split; [split; [reflexivity|repeat (apply Forall_cons; [apply Z|]); apply Forall_nil]|apply V; reflexivity].
  - intros _. apply (PL_dict [(u "k", PList [PInt 1; PStr (u "<&>")])]); [repeat constructor; intros []|]. repeat constructor; cbn; lia.
  - split.
    + intros s J. inversion J as [|? ? ? A B|? ? ? A B|? ? ? A B]; subst. destruct A as [A|[]]. injection A as <- <-. inversion B as [|? ? A C| |]; subst. destruct A as [<-|[<-|[]]]; inversion C; subst. apply V. reflexivity.
    + intros d k x J A. inversion J as [|? ? ? A' B|? ? ? A' B|? ? ? A' B]; subst; [destruct A as [A|[]]; injection A as <- <-; apply V; reflexivity|].
      destruct A' as [A'|[]]. injection A' as <- <-. inversion B as [|? ? A' C| |]; subst. destruct A' as [<-|[<-|[]]]; inversion C.
Qed.
Lemma text_val s : forallb (fun c => (32 <=? c) && (c <? 128))%N s = true -> valOk s.
Proof.
  intro H. rewrite forallb_forall in H. assert (K : forall c, In c s -> (32 <= c < 128)%N) by (intros c I; apply H in I; apply andb_prop in I as [A B]; apply N.leb_le in A; apply N.ltb_lt in B; lia).
  split; [split|]; [apply Forall_forall; intros c I; apply K in I; unfold xmlCompat; lia|intro I; apply K in I; lia|intro I; apply K in I; lia].
Qed.
(** a GLIF 1 with an anchor and a component *)
Definition glyph1Case : list (str * pyval) := [(u "width", PInt 500); (u "unicodes", PList [PInt 66]); (u "anchors", PList [anchorCase 1 2 (Some "top")])].
Definition items1Case : list gitem := [GComponent (u "b") [PInt 1; PInt 0; PInt 0; PInt 1; PInt 7; PInt 0] None].
Lemma storable1_case : storable1 (u "c") glyph1Case (Some items1Case).
Proof.
  assert (Z : forall z, GlifProofs.isNum (PInt z)) by (intro z; left; eauto). constructor.
  - apply text_val. reflexivity.
  - right. apply Z.
  - left. reflexivity.
  - intros s E. discriminate E.
  - intros v [<-|[]]. split; [intros k [<-|[<-|[]]]; right; [apply (Z 1%Z)|apply (Z 2%Z)]|]. intros k s E. apply dget_string in E. destruct E as [E|[E|[E|[]]]]; try discriminate E. injection E as <-. apply text_val. reflexivity.
  - intros l i E J. injection E as <-. destruct J as [<-|[]]. cbn [goodItem numberItem textItem]. split; [exact Logic.I|]. split; [split; [reflexivity|repeat (apply Forall_cons; [apply Z|]); apply Forall_nil]|apply text_val; reflexivity].
  - intros l i E J. injection E as <-. destruct J as [<-|[]]. reflexivity.
  - discriminate.
  - split; [intros s J; inversion J|intros d k x J; inversion J].
Qed.
(** three glyphs, opened again, one replaced and one deleted, and the set opened again *)
Definition sessionCase : list gaction :=
  [Write (u "a<") [] None None; Write (u "b") glyphCase (Some itemsCase) (Some 2%Z); Write (u "c") glyph1Case (Some items1Case) (Some 1%Z); Other Reopen; Write (u "a<") glyphCase (Some itemsCase) None; Other (Do (CDelete (u "b"))); Other Reopen].
Lemma storable_empty n : valOk n -> storable n [] None.
Proof.
  intro V. constructor; try exact V; try (left; reflexivity); try (intros; discriminate); try (intros ? []).
  split; [intros s J; inversion J|intros d k x J; inversion J].
Qed.
Lemma sessionCase_allowed : Forall (allowed 3) (firstn 1 sessionCase ++ skipn 2 sessionCase).
Proof.
  repeat (apply Forall_cons; [|]); try apply Forall_nil; cbn [allowed]; try (split; [reflexivity|discriminate]).
  - left. split; [reflexivity|]. apply storable_empty. apply text_val. reflexivity.
  - right. split; [reflexivity|]. eexists. split; [reflexivity|]. apply storable1_case.
  - left. split; [reflexivity|]. apply storable_case.
Qed.
Example C85_case :
  match session idName ascii_lower (carefulFileName ascii_lower) caseDumps caseLoads (map (compile toyText toyRepr roCase 3) sessionCase) with
  | Ok w => rememberedGlyphs sessionCase = [(u "a<", (glyphCase, Some itemsCase, None)); (u "c", (glyph1Case, Some items1Case, Some 1%Z))] /\ contents (gs w) = [(u "a<", u "a_.glif"); (u "c", u "c.glif")] /\
      match readGlyphOf toyText 3 idName (u "a<") w with Ok r => rcalls r = gdrawing (map passedItem itemsCase) /\ get (u "lib") (rattrs r) = get (u "lib") glyphCase | Err _ => False end /\
      match readGlyphOf toyText 3 idName (u "c") w with Ok r => get (u "anchors") (rattrs r) = get (u "anchors") glyph1Case /\ get (u "unicodes") (rattrs r) = Some (PList [PInt 66]) | Err _ => False end
  | Err _ => False
  end.
Proof. vm_compute. repeat split; reflexivity. Qed.
