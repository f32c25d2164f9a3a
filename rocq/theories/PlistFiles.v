(** Property lists as files: what plistlib.dumps writes is read back by loads
    (C60), so that plistlib without lxml satisfies the law assumed of the codec
    elsewhere (UfoProofs.v, [codec_laws]). *)
From Coq Require Import String NArith ZArith Bool Lia List Permutation.
From Coq.Floats Require Import SpecFloat.
From Verif Require Import Base PyVal PyText FloatRepr Xml FS Ufo UfoProofs PropUfoFiles Plist PlistProofs PropPlist Etree EtreeProofs PropEtree.
Import ListNotations.
Local Open Scope string_scope.
Local Open Scope list_scope.

(** ** Elements of property lists can be written *)
Definition ascii (s : str) : Prop := Forall (fun c => (c = 10 \/ 32 <= c < 128)%N) s.
Lemma ascii_ok s : ascii s -> textOk s /\ Forall (fun c => (c < 128)%N) s.
Proof.
  intro H. split; [split|]; [eapply Forall_impl; [|exact H]; intros c Hc; cbv beta in Hc; unfold xmlCompat; lia| |eapply Forall_impl; [|exact H]; intros c Hc; cbv beta in Hc; lia].
  intro I. unfold ascii in H. rewrite Forall_forall in H. specialize (H _ I). lia.
Qed.
Lemma good_leaf tag t : isName tag = true -> (match t with Some (XS s) => textOk s | Some (XB s) => textOk s /\ Forall (fun c => (c < 128)%N) s | None => True end) -> goodTree (leaf tag t).
Proof. intros N H. unfold leaf. constructor; try assumption; try constructor. Qed.
Lemma good_node tag ch : isName tag = true -> Forall goodTree ch -> goodTree (node0 tag ch).
Proof. intros N H. unfold node0. constructor; try assumption; try constructor. Qed.
(** texts of an object: string values and dictionary keys *)
Definition textsOk (v : pyval) : Prop :=
  (forall s, inside (PStr s) v -> textOk s) /\ (forall d k x, inside (PDict d) v -> In (PStr k, x) d -> textOk k).
Lemma pad_In w n c : In c (pad w n) -> (48 <= c <= 57)%N.
Proof. unfold pad. unfold zfill. intro I. apply in_app_or in I as [I|I]; [apply repeat_spec in I; lia|]. eapply str_of_N_In. exact I. Qed.
Lemma pad_ascii w n : ascii (pad w n).
Proof. apply Forall_forall. intros c I. apply pad_In in I. lia. Qed.
Lemma lit_ascii s : forallb (fun c => ((c =? 10) || ((32 <=? c) && (c <? 128))))%N s = true -> ascii s.
Proof.
  intro H. apply Forall_forall. intros c I. rewrite forallb_forall in H. specialize (H c I). destruct (N.eqb_spec c 10); [lia|]. cbn in H. apply andb_true_iff in H as [A B]. apply N.leb_le in A. apply N.ltb_lt in B. lia.
Qed.
Lemma date_ascii y mo d h mi s : ascii (dateToString y mo d h mi s).
Proof. unfold dateToString, ascii. rewrite !Forall_app. repeat split; try apply pad_ascii; apply lit_ascii; reflexivity. Qed.
Section Good.
Variable T : pytext.
Variable R : spec_float -> str.
Hypothesis LT : pytext_laws T.
Hypothesis LR : repr_laws T R.
Lemma textsOk_list l x : textsOk (PList l) -> In x l -> textsOk x.
Proof. intros [A B] I. split; intros; [apply A; eapply in_list; eassumption|eapply B; [eapply in_list; eassumption|eassumption]]. Qed.
Lemma textsOk_tuple l x : textsOk (PTuple l) -> In x l -> textsOk x.
Proof. intros [A B] I. split; intros; [apply A; eapply in_tuple; eassumption|eapply B; [eapply in_tuple; eassumption|eassumption]]. Qed.
Lemma textsOk_dict d k x : textsOk (PDict d) -> In (k, x) d -> textsOk x.
Proof. intros [A B] I. split; intros; [apply A; eapply in_dict; eassumption|eapply B; [eapply in_dict; eassumption|eassumption]]. Qed.
Lemma mk_good v : plistable v -> textsOk v -> forall sk pr lv e, makeElement R sk pr lv v = Ok e -> goodTree e.
Proof.
  induction v using pyval_ind'; intros P Tx sk pr lv e E; inversion P; subst.
  - cbn in E. inversion E; subst. destruct b; apply good_leaf; (reflexivity || exact I).
  - cbn in E. destruct (_ && _); inversion E; subst. apply good_leaf; [reflexivity|]. apply ascii_ok. apply Forall_forall. intros c J. apply str_of_Z_In in J. lia.
  - cbn in E. inversion E; subst. apply good_leaf; [reflexivity|]. apply ascii_ok. apply Forall_forall. intros c J. apply (repr_chars T R LR) in J; [|assumption].
    assert (A : ascii (u "0123456789+-.einfa")) by (apply lit_ascii; reflexivity). unfold ascii in A. rewrite Forall_forall in A. apply A. exact J.
  - cbn in E. inversion E; subst. apply good_leaf; [reflexivity|]. apply (proj1 Tx). constructor.
  - cbn in E. inversion E; subst. apply good_leaf; [reflexivity|]. apply ascii_ok. apply Forall_forall. intros c J. apply encodeBase64_In in J; [|assumption]. destruct J as [L [B|[->| ->]]]; try lia.
    right. split; [|exact L]. unfold b64chars in B. destruct (N.ltb_spec c 32) as [Hc|Hc]; [|exact Hc]. exfalso.
    assert (Z : forall c, (c < 32)%N -> b64chars c = false); [|unfold b64chars in Z; rewrite (Z c Hc) in B; discriminate].
    clear. intros c H. assert (K : forallb (fun n => negb (b64chars (N.of_nat n))) (seq 0 32) = true) by (vm_compute; reflexivity). rewrite forallb_forall in K.
    specialize (K (N.to_nat c)). rewrite N2Nat.id in K. destruct (b64chars c); [|reflexivity]. discriminate K. apply in_seq. lia.
  - cbn in E. inversion E; subst. apply good_leaf; [reflexivity|]. apply ascii_ok. apply date_ascii.
  - rewrite mk_list in E. apply bind_Ok in E as (ch & M & E). inversion E; subst. apply good_node; [reflexivity|]. apply mapM_Forall2 in M.
    assert (Tl : forall x, In x l -> textsOk x) by (intros; eapply textsOk_list; eassumption). clear E Tx P. induction M as [|x y l ch Ey M IH]; [constructor|].
    inversion H as [|? ? Hx Hl]; subst. inversion H1 as [|? ? Px Pl]; subst. constructor; [eapply Hx; [exact Px|apply Tl; left; reflexivity|exact Ey]|]. apply IH; try assumption. intros; apply Tl; right; assumption.
  - rewrite mk_tuple in E. apply bind_Ok in E as (ch & M & E). inversion E; subst. apply good_node; [reflexivity|]. apply mapM_Forall2 in M.
    assert (Tl : forall x, In x l -> textsOk x) by (intros; eapply textsOk_tuple; eassumption). clear E Tx P. induction M as [|x y l ch Ey M IH]; [constructor|].
    inversion H as [|? ? Hx Hl]; subst. inversion H1 as [|? ? Px Pl]; subst. constructor; [eapply Hx; [exact Px|apply Tl; left; reflexivity|exact Ey]|]. apply IH; try assumption. intros; apply Tl; right; assumption.
  - rewrite mk_dict_str in E. apply bind_Ok in E as (ch & M & E). inversion E; subst. apply good_node; [reflexivity|].
    assert (K : forall it : list (str * pyval), (forall k x, In (k, x) it -> textOk k /\ forall e, makeElement R sk pr (S lv) x = Ok e -> goodTree e) ->
      forall ch, dictChildren (map (fun '(k, x) => (PStr k, makeElement R sk pr (S lv) x)) it) = Ok ch -> Forall goodTree ch).
    { clear. induction it as [|[k x] it IH]; intros Hi ch M; cbn in M; [inversion M; constructor|]. apply bind_Ok in M as (e & Ee & M). apply bind_Ok in M as (t & Et & M). inversion M; subst.
      destruct (Hi k x (or_introl eq_refl)) as [A B]. constructor; [apply good_leaf; [reflexivity|exact A]|]. constructor; [apply B; exact Ee|]. apply IH; [intros; apply Hi; right; assumption|exact Et]. }
    apply (K (itemsOf sk m)); [|exact M]. intros k x J. apply (Permutation_in _ (itemsOf_perm sk m)) in J.
    assert (J' : In (PStr k, x) (map (fun '(k, x) => (PStr k, x)) m)) by (apply in_map_iff; exists (k, x); auto). split.
    + eapply (proj2 Tx); [constructor|exact J'].
    + rewrite Forall_forall in H. destruct (H _ J') as [_ Hv]. intros e0 Ee. eapply Hv; [|eapply textsOk_dict; [exact Tx|exact J']|exact Ee].
      rewrite Forall_forall in H2. apply (H2 (k, x) J).
Qed.
(** ** The calls of the XML parser *)
Lemma sax_tail e t : saxEvents (setTail t e) = saxEvents e.
Proof. destruct e; reflexivity. Qed.
Fixpoint saxKids (l : list elem) : list event := match l with [] => [] | x :: r => saxEvents x ++ dataEvents (option_map XS (etail x)) ++ saxKids r end.
Lemma sax_eq tag at' text ch tail : saxEvents (Elem tag at' text ch tail) = EvStart tag :: dataEvents text ++ saxKids ch ++ [EvEnd tag].
Proof. cbn [saxEvents]. do 3 f_equal. Qed.
Lemma data_junk x : junk (dataEvents x).
Proof. destruct x; repeat constructor. eexists; reflexivity. Qed.
Lemma respaced_trace e : forall f, respaced T e f -> trace e (saxEvents (norm f)).
Proof.
  induction e as [tag at' text ch tail IH] using elem_ind'. intros f H. inversion H as [? ? ? ? tail' Tl|? ? ? text' ? ch' ? tail' NE Tx Tl K]; subst; cbn [norm]; rewrite sax_eq.
  - cbn [map saxKids app]. replace (dataEvents (normText text)) with (map EvData (match normText text with Some x => [x] | None => [] end)) by (destruct (normText text); reflexivity).
    apply tr_leaf. destruct text as [[[|]|[|]]|]; cbn; rewrite ?app_nil_r; reflexivity.
  - apply tr_node; [exact NE|apply data_junk|]. clear - IH K. induction K as [|e f l l' H K IHK]; [constructor|]. inversion IH; subst. cbn [map saxKids]. apply kt_cons; [auto|apply data_junk|auto].
Qed.
Lemma load_root e v sk pr lv f : plistable v -> makeElement R sk pr lv v = Ok e -> respaced T (Elem (u "plist") [(u "version", u "1.0")] None [e] None) f ->
  exists w, loadTree T (setTail None (norm f)) = Ok w /\ psame v w.
Proof.
  intros P M H. inversion H as [|? ? ? text' ? ch' ? tail' NE Tx Tl K]; subst. inversion K as [|? f0 ? ? H0 K0]; subst. inversion K0; subst.
  unfold loadTree. rewrite sax_tail. cbn [norm map]. rewrite sax_eq. cbn [saxKids app].
  pose proof (respaced_trace e f0 H0) as Tr. unfold runTarget. cbn [foldM step]. change (startTag (u "plist") newTarget) with (Ok newTarget). cbn [bind].
  destruct (junk_run T (dataEvents (normText text')) newTarget (data_junk _)) as (d1 & E1).
  rewrite foldM_app, E1. cbn [bind]. rewrite app_nil_r, foldM_app, foldM_app.
  destruct (mk_reads T R LT LR v P sk pr lv e M _ Tr (setData newTarget d1) SRoot eq_refl) as (w & d2 & F & S). rewrite F. cbn [bind].
  match goal with |- context [foldM (step T) ?t (dataEvents _)] => destruct (junk_run T (dataEvents (option_map XS (etail (norm f0)))) t (data_junk _)) as (d3 & E3) end.
  rewrite E3. cbn [bind foldM step]. unfold endTag.
  change (eqb (u "plist") (u "dict")) with false. change (eqb (u "plist") (u "array")) with false. change (eqb (u "plist") (u "key")) with false.
  change (eqb (u "plist") (u "true")) with false. change (eqb (u "plist") (u "false")) with false. change (eqb (u "plist") (u "integer")) with false.
  change (eqb (u "plist") (u "real")) with false. change (eqb (u "plist") (u "string")) with false. change (eqb (u "plist") (u "data")) with false. change (eqb (u "plist") (u "date")) with false.
  cbn [bind]. exists w. split; [reflexivity|exact S].
Qed.
End Good.
Lemma utf8_asciiH h s b : Forall (fun c => (c < 128)%N) h -> utf8Encode s = Ok b -> utf8Encode (h ++ s) = Ok (h ++ b).
Proof.
  intros F E. induction F as [|c h Hc F IH]; [exact E|]. cbn [app utf8Encode]. unfold utf8Char. destruct (N.ltb_spec c 0x80); [|lia]. rewrite IH. reflexivity.
Qed.
Definition plistHeader (pretty : bool) : str := if pretty then xmlDeclaration ++ [10%N] ++ plistDoctype ++ [10%N] else xmlDeclaration ++ plistDoctype.
Lemma header_ascii p : ascii (plistHeader p).
Proof. destruct p; apply lit_ascii; vm_compute; reflexivity. Qed.
Lemma prolog_plist p : prologOk (plistHeader p).
Proof.
  apply prolog_start; [destruct p; vm_compute; reflexivity|]. intros c r N. destruct p.
  - change (skipProlog (plistHeader true ++ 60%N :: c :: r)) with (Some (skipSpace (10%N :: 60%N :: c :: r))). reflexivity.
  - change (skipProlog (plistHeader false ++ 60%N :: c :: r)) with (Some (skipSpace (60%N :: c :: r))). reflexivity.
Qed.
(** C60 for files: every object made of XML texts without carriage returns *)
Theorem C60_file_partial : forall T R pretty v, pytext_laws T -> repr_laws T R -> plistable v ->
  (forall s, inside (PStr s) v -> textOk s) -> (forall d k x, inside (PDict d) v -> In (PStr k, x) d -> textOk k) ->
  exists b w, plistDumps T R pretty v = Ok b /\ plistLoads T b = Ok w /\ psame v w.
Proof.
  intros T R pretty v LT LR P T1 T2. destruct (mk_total R v P true pretty 1) as (e & E).
  set (root := Elem (u "plist") [(u "version", u "1.0")] None [e] None).
  assert (G : goodTree root).
  { constructor; try reflexivity; try exact I.
    - repeat constructor. intros [].
    - constructor; [|constructor]. split; [split; [reflexivity|discriminate]|]. split; [split|]; [repeat constructor; unfold xmlCompat; cbn; lia| |]; apply mem_nIn; reflexivity.
    - constructor; [|constructor]. eapply mk_good; [exact LR|exact P|split; [exact T1|exact T2]|exact E]. }
  set (f := if pretty then indent T 0 root else root).
  assert (Gf : goodTree f) by (subst f; destruct pretty; [apply indent_good|]; exact G).
  destruct (serialize_total f Gf) as (s & Es).
  destruct (goodTree_encode f s [] Gf Es ltac:(constructor)) as (b & Eb). cbn [app] in Eb.
  assert (Rs : respaced T root f).
  { subst f. destruct pretty; [apply indent_respaced|]. subst root. apply respaced_node; [discriminate|left; reflexivity|left; reflexivity|]. constructor; [|constructor].
    clear. induction e as [tag at' text ch tail IH] using elem_ind'. destruct ch as [|k ch]; [apply respaced_leaf; left; reflexivity|]. apply respaced_node; [discriminate|left; reflexivity|left; reflexivity|].
    induction IH; constructor; assumption. }
  destruct (load_root T R LT LR e v true pretty 1 f P E Rs) as (w & Lw & Sw).
  exists (plistHeader pretty ++ b), w. split; [|split; [|exact Sw]].
  - unfold plistDumps, dumpTree, totree. rewrite E. cbn [bind]. unfold tostring. fold root. fold f. rewrite Es. cbn [bind app]. rewrite Eb. cbn [bind]. reflexivity.
  - unfold plistLoads. rewrite (parse_serialize (plistHeader pretty) f s (plistHeader pretty ++ b)); [exact Lw|apply prolog_plist|apply goodTree_plain; exact Gf|exact Es| |].
    + subst f. destruct pretty; reflexivity.
    + apply utf8_asciiH; [|exact Eb]. eapply Forall_impl; [|apply header_ascii]. intros c H. cbv beta in H. lia.
Qed.
Print Assumptions C60_file_partial.
(** a carriage return comes back as a line feed *)
Theorem C60_file_refuted : forall R, exists b, plistDumps asciiText R true (PStr [13%N]) = Ok b /\ plistLoads asciiText b = Ok (PStr [10%N]).
Proof. intro R. exists (match plistDumps asciiText R true (PStr [13%N]) with Ok b => b | Err _ => [] end). split; vm_compute; reflexivity. Qed.
Print Assumptions C60_file_refuted.
Example C60_file_case :
  let v := PDict [(PStr (u "b<"), PList [PInt (-5); PBytes [0; 255; 7; 7]%N; PFloat (S754_finite false 6755399441055744 (-52))]); (PStr (u "a"), PTuple [PStr (u " é&"); PStr []; PDict []])] in
  (do b <- plistDumps toyText toyRepr true v; plistLoads toyText b) = Ok (PDict [(PStr (u "a"), PList [PStr (u " é&"); PStr []; PDict []]); (PStr (u "b<"), PList [PInt (-5); PBytes [0; 255; 7; 7]%N; PFloat (S754_finite false 6755399441055744 (-52))])]).
Proof. vm_compute. reflexivity. Qed.

(** ** plistlib without lxml is a codec *)
Definition plistCodec (T : pytext) (R : spec_float -> str) : codec := mkCodec (plistDumps T R true) (plistLoads T).
Definition plistFaithful (v : pyval) : Prop := plistable v /\ textsOk v.
Theorem plist_codec_laws : forall T R, pytext_laws T -> repr_laws T R -> codec_laws (plistCodec T R) plistFaithful.
Proof.
  intros T R LT LR. constructor. intros v b [P [T1 T2]] D. cbn [plistCodec dumps loads] in *. destruct (C60_file_partial T R true v LT LR P T1 T2) as (b' & w & E & L & S).
  rewrite E in D. inversion D; subst. eauto.
Qed.
Print Assumptions plist_codec_laws.
