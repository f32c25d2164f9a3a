(** Property C90, in text mode: texts written through file objects. *)
From Coq Require Import String NArith ZArith Bool Lia List.
From Verif Require Import Base PyVal FS FSProofs Ufo UfoProofs PropUfo PropUfoFiles FileObj PropFileObj PropReader.
Import ListNotations.
Local Open Scope string_scope.
Local Open Scope list_scope.
Local Notation mbind := Ufo.mbind.
Local Notation lift := Ufo.lift.
Local Notation ret := Ufo.ret.
Local Notation find := FS.find.
Local Notation fileAt := FS.fileAt.

(** several texts, one after the other *)
Fixpoint writeTexts (h : handle) (texts : list str) : M unit :=
  match texts with [] => ret tt | t :: r => let! _ := hwriteText h t in writeTexts h r end.
(** the bytes that are kept when the file is opened *)
Definition keptBytes (m : omode) (t : node) (cs : path) : bytes := match m, fileAt t cs with MAppend, Some old => old | _, _ => [] end.

Lemma opened p m s s1 h cs : components p = Ok cs -> m <> MRead -> getFileObjectForPath p m s = (s1, Ok h) -> h <> HError ->
  h = HFile cs /\ fileAt (tree s1) cs = Some (keptBytes m (tree s) cs) /\ forall q, q <> cs -> fileAt (tree s1) q = fileAt (tree s) q.
Proof.
  intros Hc N H He.
  assert (D : (m = MAppend /\ exists old, fileAt (tree s) cs = Some old) \/ (m = MAppend -> fileAt (tree s) cs = None)).
  { destruct (fileAt (tree s) cs) as [old|]; [|auto]. destruct m; [contradiction|right; discriminate|left; eauto|right; discriminate]. }
  destruct D as [(-> & old & F)|A].
  - assert (X : h = HFile cs /\ tree s1 = tree s).
    { unfold getFileObjectForPath, mbind at 1, lift in H. rewrite Hc in H. unfold mbind at 1, getTree in H. unfold fsOpen in H. rewrite getbytes_kind in H.
      rewrite kind_fileAt in F. destruct (kind (tree s) cs) as [[b|]|]; try discriminate F. inversion H; subst. split; reflexivity. }
    destruct X as (-> & Et). split; [reflexivity|]. rewrite Et. unfold keptBytes. rewrite F. split; [reflexivity|reflexivity].
  - destruct (object_bytes p m s s1 h cs Hc N A H He) as (-> & W). destruct (C71_read_back false p [] s s1 cs Hc W) as (R & Fo & _). split; [reflexivity|]. split; [|exact Fo].
    assert (F1 : fileAt (tree s1) cs = Some []).
    { unfold readBytesFromPath in R. rewrite Hc in R. cbn [bind] in R. rewrite getbytes_kind in R. rewrite kind_fileAt. destruct (kind (tree s1) cs) as [[b|]|]; inversion R; reflexivity. }
    rewrite F1. unfold keptBytes. destruct m; try reflexivity. rewrite (A eq_refl). reflexivity.
Qed.
Lemma encode_app a : forall x b y, utf8Encode a = Ok x -> utf8Encode b = Ok y -> utf8Encode (a ++ b) = Ok (x ++ y).
Proof.
  induction a as [|c a IH]; intros x b y A B; cbn [utf8Encode app] in *; [assert (x = []) as -> by congruence; exact B|].
  destruct (utf8Char c) as [z|]; [|discriminate A]. destruct (utf8Encode a) as [w|] eqn:W; [|discriminate A]. cbn [bind] in A. rewrite (IH w b y eq_refl B). cbn [bind]. assert (x = z ++ w) as -> by congruence. rewrite app_assoc. reflexivity.
Qed.
(** Texts written through a file object in text mode are read back after the text that
    was there in mode "a", alone in the other modes. *)
Theorem C90_text : forall p m s s1 h cs old texts, components p = Ok cs -> m <> MRead ->
  getFileObjectForPath p m s = (s1, Ok h) -> h <> HError -> utf8Decode (keptBytes m (tree s) cs) = Ok old -> Forall (Forall scalar) texts ->
  exists s2 h', writeTexts h texts s1 = (s2, Ok tt) /\ getReadFileForPath (tree s2) p = Ok h' /\ hreadText (tree s2) h' = Ok (old ++ concat texts) /\
  forall q, q <> cs -> fileAt (tree s2) q = fileAt (tree s) q.
Proof.
  intros p m s s1 h cs old texts Hc N H He De Sc. destruct (opened p m s s1 h cs Hc N H He) as (-> & F & Fr). clear H He.
  revert s1 F Fr. generalize (keptBytes m (tree s) cs), old, De. clear De old. induction Sc as [|t r St Sr IH]; intros b old De s1 F Fr.
  - exists s1, (HFile cs). split; [reflexivity|]. split.
    + unfold getReadFileForPath. rewrite Hc. cbn [bind]. unfold fsOpen. rewrite getbytes_kind. rewrite kind_fileAt in F. destruct (kind (tree s1) cs) as [[x|]|]; try discriminate F. reflexivity.
    + split; [|exact Fr]. unfold hreadText. cbn [hread]. rewrite F. cbn [concat]. rewrite app_nil_r. exact De.
  - destruct (proj1 (utf8_total t) St) as (e & Ee). destruct (hwrite_file cs e s1 b F) as (s2 & W & K). pose proof (encode_app _ _ _ _ (utf8_back b old De) Ee) as Eo. apply utf8_round in Eo.
    destruct (IH (b ++ e) (old ++ t) Eo s2) as (s3 & h' & W3 & R3 & T3 & F3).
    + rewrite kind_fileAt, K, eqb_refl. reflexivity.
    + intros q Nq. rewrite <- (Fr q Nq), !kind_fileAt, K. destruct (eqb_spec q cs); [contradiction|reflexivity].
    + exists s3, h'. split; [|split; [exact R3|split; [cbn [concat]; rewrite app_assoc; exact T3|exact F3]]]. cbn [writeTexts]. unfold mbind at 1, hwriteText. unfold mbind at 1, lift. rewrite Ee, W. exact W3.
Qed.
Print Assumptions C90_text.
(** A text that has no UTF-8 form is refused and nothing is written. *)
Theorem C90_text_refused : forall cs text s, ~ Forall scalar text -> hwriteText (HFile cs) text s = (s, Err ValueError).
Proof.
  intros cs text s N. unfold hwriteText, mbind, lift. assert (X : utf8Encode text = Err ValueError); [|rewrite X; reflexivity].
  destruct (utf8Encode text) as [b|e] eqn:E; [exfalso; apply N, utf8_total; eauto|]. clear N. revert e E. induction text as [|c r IH]; intros e E; cbn [utf8Encode] in E; [discriminate E|]. destruct (utf8Char c); [|symmetry; exact E].
  destruct (utf8Encode r) as [y|e'] eqn:R; [discriminate E|]. cbn [bind] in E. pose proof (IH e' eq_refl) as X. congruence.
Qed.
Print Assumptions C90_text_refused.
Example C90_text_case :
  let s0 := newState (Dir [(u "data", Dir [(u "a", File [195; 169]%N)])]) in
  let h := HFile [u "data"; u "a"] in
  let s1 := fst (getFileObjectForPath (u "data/a") MAppend s0) in let s2 := fst (writeTexts h [[8364; 13; 10]%N; [128512]%N] s1) in
  snd (getFileObjectForPath (u "data/a") MAppend s0) = Ok h /\ snd (writeTexts h [[8364; 13; 10]%N; [128512]%N] s1) = Ok tt /\
  readBytesFromPath (tree s2) (u "data/a") = Ok (Some [195; 169; 226; 130; 172; 13; 10; 240; 159; 152; 128]%N) /\
  hreadText (tree s2) h = Ok [233; 8364; 13; 10; 128512]%N /\
  hwriteText h [0xD800]%N s2 = (s2, Err ValueError).
Proof. vm_compute. repeat split. Qed.
