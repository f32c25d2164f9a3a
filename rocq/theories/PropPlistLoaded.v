(** C93: what plistlib reads it can write again, and read back.
    [plistData P v]: an object made of the types of property lists only, whose
    texts and keys satisfy [P] and whose dictionaries have distinct keys. *)
From Coq Require Import String NArith ZArith Bool ZifyN Lia List Permutation.
From Coq.Floats Require Import SpecFloat.
From Verif Require Import Base PyVal PyText FloatRepr Xml FS Ufo UfoProofs PropUfoFiles Plist PlistProofs PropPlist Etree EtreeProofs PropEtree PlistFiles XmlClean.
Import ListNotations.
Local Open Scope string_scope.
Local Open Scope list_scope.
Ltac Zify.zify_post_hook ::= Z.div_mod_to_equations.

Inductive plistData (P : str -> Prop) : pyval -> Prop :=
| pd_str s : P s -> plistData P (PStr s)
| pd_bool b : plistData P (PBool b)
| pd_int z : plistData P (PInt z)
| pd_float f : isDouble f -> plistData P (PFloat f)
| pd_bytes b : Forall (fun x => (x < 256)%N) b -> plistData P (PBytes b)
| pd_date y mo d h mi s : datetimeOk y mo d h mi s 0 = true -> plistData P (PDate y mo d h mi s 0)
| pd_list l : Forall (plistData P) l -> plistData P (PList l)
| pd_dict (m : list (str * pyval)) : NoDup (map fst m) -> Forall (fun kv => P (fst kv) /\ plistData P (snd kv)) m ->
    plistData P (PDict (map (fun '(k, x) => (PStr k, x)) m)).

Lemma a2b_bytes s : forall pos left pads l, a2b s pos left pads = Ok l ->
  (pos = 0%nat \/ (pos = 1%nat /\ left < 64) \/ (pos = 2%nat /\ left < 16) \/ (3 <= pos)%nat /\ left < 4)%N -> Forall (fun x => (x < 256)%N) l.
Proof.
  assert (V : forall c v, b64val c = Some v -> (v < 64)%N).
  { intros c v. unfold b64val. destruct (N.leb_spec 65 c), (N.leb_spec c 90), (N.leb_spec 97 c), (N.leb_spec c 122), (N.leb_spec 48 c), (N.leb_spec c 57), (N.eqb_spec c 43), (N.eqb_spec c 47); cbn [andb]; intro E; try discriminate; injection E as <-; lia. }
  induction s as [|c s IH]; intros pos left pads l E H; cbn [a2b] in E.
  - destruct (Nat.eqb pos 0); [injection E as <-; constructor|discriminate].
  - destruct (N.eqb c 61).
    + destruct (Nat.leb 2 pos); [destruct (Nat.leb 4 (pos + S pads)); [injection E as <-; constructor|]|]; eapply IH; eassumption.
    + destruct (b64val c) as [v|] eqn:Ev; [|eapply IH; eassumption]. apply V in Ev.
      destruct pos as [|[|[|pos]]]; [eapply IH; [exact E|]; lia|..]; apply bind_Ok in E as (t & E & X); injection X as <-; (constructor; [lia|eapply IH; [exact E|lia]]).
Qed.
Lemma decode_bytes s l : b64decode s = Ok l -> Forall (fun x => (x < 256)%N) l.
Proof. unfold b64decode. destruct (forallb _ s); [|discriminate]. intro E. eapply a2b_bytes; [exact E|auto]. Qed.
Lemma date_data P s v : dateFromString s = Ok v -> plistData P v.
Proof.
  unfold dateFromString. destruct (takeDigits 4 s 0) as [[y r]|]; [|discriminate]. destruct (dateFields _ r) as [l|]; [|discriminate]. unfold datetime.
  destruct l as [|mo [|d r']]; try discriminate. cbv zeta. match goal with |- (if ?q then _ else _) = _ -> _ => destruct q eqn:E; [|discriminate] end. intro X. injection X as <-. constructor. exact E.
Qed.

Section Target.
Variable T : pytext.
Variable R : spec_float -> str.
Hypothesis LR : repr_laws T R.
Variable P : str -> Prop.
Hypothesis P_nil : P [].
Hypothesis P_app : forall s t, P s -> P t -> P (s ++ t).
Notation data := (plistData P).
Definition goodFrame (f : frame) : Prop :=
  match f with
  | FDict sl d => (match sl with SKey k => P k | _ => True end) /\ data (PDict d)
  | FList sl l => (match sl with SKey k => P k | _ => True end) /\ Forall data l
  end.
Definition goodText (x : etext) : Prop := match x with XS s => P s | XB _ => True end.
Record goodTarget (t : target) : Prop := {
  gt_stack : Forall goodFrame (tstack t);
  gt_key : forall k, tkey t = Some k -> P k;
  gt_root : troot t = PNone \/ data (troot t);
  gt_data : Forall goodText (tdata t) }.
Lemma dset_data k v d : P k -> data v -> data (PDict d) -> data (PDict (dset k v d)).
Proof.
  intros Pk Dv Dd. inversion Dd as [| | | | | | |m N F]; subst.
  assert (E : dset k v (map (fun '(k, x) => (PStr k, x)) m) = map (fun '(k, x) => (PStr k, x)) (set k v m)).
  { clear. induction m as [|[a b] m IH]; [reflexivity|]. cbn [map dset set]. destruct (eqb k a); [reflexivity|]. cbn [map]. rewrite IH. reflexivity. }
  rewrite E. constructor; [apply (dict_ok_set k v); exact N|]. clear -Pk Dv F. induction m as [|[a b] m IH]; cbn [set]; [constructor; [split; assumption|constructor]|].
  inversion F as [|? ? Fa F']; subst. destruct (eqb_spec k a) as [->|Ne]; constructor; auto.
Qed.
Lemma place_good sl v t : (match sl with SKey k => P k | _ => True end) -> data v -> goodTarget t -> goodTarget (place sl v t).
Proof.
  intros Ps Dv [S K Ro D]. unfold place. destruct sl as [|k|].
  - constructor; cbn; auto. discriminate.
  - destruct (tstack t) as [|[sl d|sl l] r] eqn:E; [constructor; rewrite ?E; auto| |constructor; rewrite ?E; auto]. inversion S as [|? ? Sf S']; subst; destruct Sf as [Sl Sd]. constructor; cbn [tstack tkey troot tdata]; auto; [|discriminate].
    constructor; [|exact S']. split; [exact Sl|]. apply dset_data; assumption.
  - destruct (tstack t) as [|[sl d|sl l] r] eqn:E; [constructor; rewrite ?E; auto|constructor; rewrite ?E; auto|]. inversion S as [|? ? Sf S']; subst; destruct Sf as [Sl Sd]. constructor; cbn [tstack tkey troot tdata]; auto; [|discriminate].
    constructor; [|exact S']. split; [exact Sl|]. apply Forall_app. split; [exact Sd|constructor; [exact Dv|constructor]].
Qed.
Lemma slot_good t sl : goodTarget t -> slotFor t = Ok sl -> match sl with SKey k => P k | _ => True end.
Proof.
  intros [S K Ro D]. unfold slotFor. destruct (tkey t) as [k|]; destruct (tstack t) as [|[|] r]; intro E; try discriminate; injection E as <-; auto.
Qed.
Lemma add_good v t t' : data v -> goodTarget t -> addObject v t = Ok t' -> goodTarget t'.
Proof. intros Dv G E. apply bind_Ok in E as (sl & Es & E). injection E as <-. apply place_good; [eapply slot_good; eassumption|exact Dv|exact G]. Qed.
Lemma join_good l s : Forall goodText l -> joinTexts l = Ok s -> P s.
Proof.
  intro F. revert s. induction F as [|x l Fx F IH]; intros s E; cbn [joinTexts] in E; [injection E as <-; exact P_nil|]. destruct x as [a|]; [|discriminate].
  apply bind_Ok in E as (t & E & X). injection X as <-. apply P_app; [exact Fx|apply IH; exact E].
Qed.
Lemma getData_good t s t' : goodTarget t -> getData t = Ok (s, t') -> P s /\ goodTarget t'.
Proof.
  intros [S K Ro D] E. apply bind_Ok in E as (x & Ex & E). injection E as <- <-. split; [eapply join_good; eassumption|]. constructor; auto. constructor.
Qed.
Lemma withData_good k t t' : (forall s v, P s -> k s = Ok v -> data v) -> goodTarget t -> withData t k = Ok t' -> goodTarget t'.
Proof.
  intros Hk G E. apply bind_Ok in E as ([s t1] & E1 & E). apply bind_Ok in E as (v & Ev & E). apply getData_good in E1 as [Ps G1]; [|exact G].
  eapply add_good; [eapply Hk; eassumption|exact G1|exact E].
Qed.
Lemma step_good t e t' : (match e with EvData x => goodText x | _ => True end) -> goodTarget t -> step T t e = Ok t' -> goodTarget t'.
Proof.
  intros He G E. destruct e as [tag|x|tag]; cbn [step] in E.
  - unfold startTag in E. set (t1 := mkTarget (tstack t) (tkey t) (troot t) []) in *. assert (G1 : goodTarget t1) by (destruct G; constructor; auto; constructor).
    destruct (eqb tag (u "dict")); [|destruct (eqb tag (u "array")); [|injection E as <-; exact G1]].
    + apply bind_Ok in E as (sl & Es & E). injection E as <-. apply slot_good in Es; [|exact G1]. destruct G1. constructor; auto; [|discriminate]. cbn [tstack]. constructor; [|assumption]. split; [exact Es|]. apply (pd_dict P []); constructor.
    + apply bind_Ok in E as (sl & Es & E). injection E as <-. apply slot_good in Es; [|exact G1]. destruct G1. constructor; auto; [|discriminate]. cbn [tstack]. constructor; [|assumption]. split; [exact Es|constructor].
  - injection E as <-. destruct G. constructor; auto. cbn [tdata]. apply Forall_app. split; [assumption|constructor; [exact He|constructor]].
  - assert (Pop : forall t', popFrame t = Ok t' -> goodTarget t').
    { intros t1 E1. unfold popFrame in E1. destruct G as [S K Ro D]. destruct (tstack t) as [|[sl d|sl l] r] eqn:St; [discriminate|..]; inversion S as [|? ? Sf S']; subst; destruct Sf as [Sl Sd]; cbv zeta in E1.
      - assert (G1 : goodTarget (place sl (PDict d) (mkTarget r (tkey t) (troot t) (tdata t)))) by (apply place_good; [exact Sl|exact Sd|constructor; auto]). injection E1 as <-. destruct G1. constructor; auto.
      - assert (G1 : goodTarget (place sl (PList l) (mkTarget r (tkey t) (troot t) (tdata t)))) by (apply place_good; [exact Sl|constructor; exact Sd|constructor; auto]). injection E1 as <-. destruct G1. constructor; auto. }
    unfold endTag in E. destruct (eqb tag (u "dict")); [destruct (truthyKey (tkey t)); [discriminate|apply Pop; exact E]|]. destruct (eqb tag (u "array")); [apply Pop; exact E|].
    destruct (eqb tag (u "key")).
    { destruct (truthyKey (tkey t)); [discriminate|]. destruct (tstack t) as [|[|] r]; try discriminate. apply bind_Ok in E as ([s t1] & E1 & E). apply getData_good in E1 as [Ps G1]; [|exact G]. injection E as <-. destruct G1. constructor; auto. intros k X. injection X as <-. exact Ps. }
    destruct (eqb tag (u "true")); [eapply add_good; [|exact G|exact E]; constructor|]. destruct (eqb tag (u "false")); [eapply add_good; [|exact G|exact E]; constructor|].
    destruct (eqb tag (u "integer")); [eapply withData_good; [|exact G|exact E]; intros s v _ Es; cbv beta in Es; destruct (parseInt T s); [injection Es as <-; constructor|discriminate]|].
    destruct (eqb tag (u "real")); [eapply withData_good; [|exact G|exact E]; intros s v _ Es; cbv beta in Es; destruct (parseFloat T s) eqn:Pf; [injection Es as <-; constructor; eapply parse_double; eassumption|discriminate]|].
    destruct (eqb tag (u "string")); [eapply withData_good; [|exact G|exact E]; intros s v Ps Es; cbv beta in Es; injection Es as <-; constructor; exact Ps|].
    destruct (eqb tag (u "data")); [eapply withData_good; [|exact G|exact E]; intros s v _ Es; cbv beta in Es; apply bind_Ok in Es as (b & Eb & Es); injection Es as <-; constructor; eapply decode_bytes; exact Eb|].
    destruct (eqb tag (u "date")); [eapply withData_good; [|exact G|exact E]; intros s v _ Es; cbv beta in Es; eapply date_data; exact Es|].
    injection E as <-. exact G.
Qed.
Definition goodEvent (e : event) : Prop := match e with EvData x => goodText x | _ => True end.
Lemma run_good evs v : Forall goodEvent evs -> runTarget T evs = Ok v -> v = PNone \/ data v.
Proof.
  intros F E. apply bind_Ok in E as (t & E & X). injection X as <-. assert (G : goodTarget newTarget) by (constructor; cbn; auto; discriminate).
  revert F G E. generalize newTarget. induction evs as [|e evs IH]; intros t0 F G E; cbn [foldM] in E; [injection E as <-; apply G|].
  inversion F; subst. apply bind_Ok in E as (t1 & E1 & E). eapply (IH t1); [assumption|eapply step_good; eassumption|exact E].
Qed.
(** the events of trees with such texts *)
Inductive goodTexts : elem -> Prop :=
| goodTexts_intro tag at' text ch tail : (match text with Some x => goodText x | None => True end) -> (match tail with Some s => P s | None => True end) ->
    Forall goodTexts ch -> goodTexts (Elem tag at' text ch tail).
Lemma sax_good e : goodTexts e -> Forall goodEvent (saxEvents e).
Proof.
  induction e as [tag at' text ch tail IH] using elem_ind'. intro G. inversion G as [? ? ? ? ? Gt Gl Gc]; subst. cbn [saxEvents]. constructor; [exact Logic.I|].
  apply Forall_app. split; [destruct text; constructor; [exact Gt|constructor]|]. apply Forall_app. split; [|repeat constructor].
  clear Gt Gl G. induction ch as [|x r IHr]; [constructor|]. inversion IH as [|? ? Hx Hr]; inversion Gc as [|? ? Gx Gr]; subst. apply Forall_app. split; [apply Hx; exact Gx|].
  apply Forall_app. split; [destruct Gx as [? ? ? ? tl ? Gtl ?]; cbn [etail]; destruct tl; constructor; [exact Gtl|constructor]|apply IHr; assumption].
Qed.
Lemma walk_good e : goodTexts e -> Forall goodEvent (walk e).
Proof.
  induction e as [tag at' text ch tail IH] using elem_ind'. intro G. inversion G as [? ? ? ? ? Gt Gl Gc]; subst. cbn [walk]. constructor; [exact Logic.I|].
  apply Forall_app. split.
  - clear Gt Gl G. induction ch as [|x r IHr]; [constructor|]. inversion IH as [|? ? Hx Hr]; inversion Gc as [|? ? Gx Gr]; subst. apply Forall_app. split; [apply Hx; exact Gx|apply IHr; assumption].
  - apply Forall_app. split; [|repeat constructor]. destruct ch; [|constructor]. constructor; [|constructor]. cbn [goodEvent]. destruct (textTruthy text); [destruct text; [exact Gt|exact P_nil]|exact P_nil].
Qed.
End Target.

(** ** From data to what can be written *)
Section Data.
Variable P : str -> Prop.
Lemma data_ind' (Q : pyval -> Prop) :
  (forall v, container v = false -> plistData P v -> Q v) ->
  (forall l, Forall (plistData P) l -> Forall Q l -> Q (PList l)) ->
  (forall m : list (str * pyval), NoDup (map fst m) -> Forall (fun kv => P (fst kv) /\ plistData P (snd kv)) m -> Forall (fun kv => Q (snd kv)) m ->
     Q (PDict (map (fun '(k, x) => (PStr k, x)) m))) ->
  forall v, plistData P v -> Q v.
Proof.
  intros Ha Hl Hd. fix go 2. intros v D. destruct D as [s H|b|z|f H|b H|y mo d h mi s H|l F|m N F]; try (apply Ha; [reflexivity|constructor; assumption]).
  - apply Hl; [exact F|]. induction F; constructor; auto.
  - apply Hd; [exact N|exact F|]. clear N. induction F as [|x l H F IH]; constructor; [apply go; apply H|exact IH].
Qed.
Lemma inside_dict x (m : list (str * pyval)) k v : In (k, v) m -> inside x v -> inside x (PDict (map (fun '(k, x) => (PStr k, x)) m)).
Proof. intros I H. eapply (in_dict x _ (PStr k) v); [|exact H]. apply in_map_iff. exists (k, v). auto. Qed.
(** integers that property lists can hold: 64 bits *)
Definition wholeRange (v : pyval) : Prop := forall z, inside (PInt z) v -> (- 2 ^ 63 <= z < 2 ^ 64)%Z.
Lemma data_plistable v : plistData P v -> wholeRange v -> plistable v.
Proof.
  revert v. apply (data_ind' (fun v => wholeRange v -> plistable v)).
  - intros v C D W. inversion D; subst; try discriminate C; constructor; try assumption. apply W. constructor.
  - intros l F IH W. constructor. clear F. rewrite Forall_forall in *. intros x I. apply IH; [exact I|]. intros z Z. apply W. eapply in_list; eassumption.
  - intros m N F IH W. constructor; [exact N|]. clear F. rewrite Forall_forall in *. intros [k x] I. apply (IH _ I). intros z Z. apply W. eapply inside_dict; eassumption.
Qed.
Lemma data_inside x v : inside x v -> plistData P v -> plistData P x.
Proof.
  induction 1 as [|l v J _ IH|l v J _ IH|d k v J _ IH]; intro D.
  - exact D.
  - apply IH. inversion D as [| | | | | |? F|]; subst. rewrite Forall_forall in F. apply F. exact J.
  - inversion D.
  - apply IH. inversion D as [| | | | | | |m N F]; subst. apply in_map_iff in J as ([a b] & E & J). injection E as _ ->. rewrite Forall_forall in F. apply (F _ J).
Qed.
Lemma data_dicts v : plistData P v -> dictsOk v.
Proof.
  intros D d I. apply data_inside in I; [|exact D]. inversion I as [| | | | | | |m N F]; subst. rewrite map_map.
  replace (map (fun x : str * pyval => fst (let '(k, x0) := x in (PStr k, x0))) m) with (map PStr (map fst m)) by (rewrite map_map; apply map_ext; intros []; reflexivity).
  clear -N. induction N as [|a l Na N IH]; [constructor|]. cbn [map]. constructor; [|exact IH]. intro I. apply in_map_iff in I as (x & E & I). injection E as ->. contradiction.
Qed.
Lemma data_same v w : plistData P v -> psame v w -> reordered v w.
Proof.
  intro D. revert w. revert v D. apply (data_ind' (fun v => forall w, psame v w -> reordered v w)).
  - intros v C _ w S. inversion S; subst; try discriminate C. constructor. assumption.
  - intros l _ IH w S. inversion S as [|? m F| |]; subst; [discriminate|]. constructor. clear S. revert IH. induction F; intro IH; constructor; inversion IH; subst; auto.
  - intros m _ _ IH w S. inversion S as [| | |? e e' Pe F]; subst; [discriminate|]. econstructor; [|exact Pe]. clear S Pe. revert e' F. induction m as [|[k x] m IHm]; intros e' F; inversion F as [|? ? ? ? [E H] F']; subst; constructor; inversion IH; subst; auto.
Qed.
End Data.
Lemma data_texts v : plistData textOk v -> textsOk v.
Proof.
  intro D. split.
  - intros s I. apply (data_inside _ _ _ I) in D. inversion D; assumption.
  - intros d k x I J. apply (data_inside _ _ _ I) in D. inversion D as [| | | | | | |m N F]; subst. apply in_map_iff in J as ([a b] & E & J). injection E as -> _. rewrite Forall_forall in F. apply (F _ J).
Qed.
Lemma textOk_app s t : textOk s -> textOk t -> textOk (s ++ t).
Proof. intros [A B] [C D]. split; [apply Forall_app; auto|]. rewrite in_app_iff. tauto. Qed.
Lemma textOk_nil : textOk [].
Proof. split; [constructor|intros []]. Qed.
Lemma goodTree_texts e : goodTree e -> goodTexts textOk e.
Proof.
  induction e as [tag at' text ch tail IH] using elem_ind'. intro G. inversion G as [? ? ? ? ? N ND A X Tl K]; subst. constructor; [destruct text as [[|]|]; cbn; [exact X|exact Logic.I|exact Logic.I]|exact Tl|].
  clear - IH K. induction ch; [constructor|]. inversion IH; inversion K; subst. constructor; auto.
Qed.
Lemma any_texts e : goodTexts (fun _ => True) e.
Proof.
  induction e as [tag at' text ch tail IH] using elem_ind'. constructor; [destruct text as [[|]|]; exact Logic.I|destruct tail; exact Logic.I|exact IH].
Qed.

(** ** C93 *)
(** Whatever the document, what is read is a property list object; None is what
    a document without a value gives. *)
Definition plistShape : pyval -> Prop := plistData (fun _ => True).
Theorem C93_shape : forall T R b v, repr_laws T R -> plistLoads T b = Ok v -> v = PNone \/ plistShape v.
Proof.
  intros T R b v LR E. apply bind_Ok in E as (e & _ & E). eapply (run_good T R LR (fun _ => True) Logic.I ltac:(auto)); [|exact E]. apply sax_good. apply any_texts.
Qed.
Print Assumptions C93_shape.
(** the same for the lib of a GLIF file *)
Theorem C93_tree : forall T R e v, repr_laws T R -> fromtree T e = Ok v -> v = PNone \/ plistShape v.
Proof. intros T R e v LR E. eapply (run_good T R LR (fun _ => True) Logic.I ltac:(auto)); [|exact E]. apply walk_good; [exact Logic.I|]. apply any_texts. Qed.
Print Assumptions C93_tree.
(** Writing what has been read: a file that holds the same value, up to the order
    of dictionaries; writing what is read from it gives the same bytes again.
    Partial: for documents that give no tab or carriage return by number, and
    integers of 64 bits. *)
Theorem C93_again_partial : forall T R b v, pytext_laws T -> repr_laws T R -> noWhiteRefs b ->
  plistLoads T b = Ok v -> v <> PNone -> wholeRange v ->
  exists b' w, plistDumps T R true v = Ok b' /\ plistLoads T b' = Ok w /\ reordered v w /\ plistDumps T R true w = Ok b'.
Proof.
  intros T R b v LT LR Nr E Nn W. apply bind_Ok in E as (e & Ee & E).
  assert (D : plistData textOk v).
  { apply (run_good T R LR textOk textOk_nil textOk_app) in E as [->|D]; [congruence|exact D|]. apply sax_good. apply goodTree_texts. eapply parseBytes_good; eassumption. }
  destruct (C60_file_partial T R true v LT LR (data_plistable _ _ D W) (proj1 (data_texts _ D)) (proj2 (data_texts _ D))) as (b' & w & E1 & E2 & S).
  exists b', w. apply (data_same _ _ _ D) in S. split; [exact E1|]. split; [exact E2|]. split; [exact S|].
  unfold plistDumps, dumpTree in *. rewrite <- (C63_order R true v w (data_dicts _ _ D) S 1). exact E1.
Qed.
Print Assumptions C93_again_partial.
(** None and integers with more than 64 bits can be read but not written, and a
    carriage return given by number does not come back *)
Theorem C93_again_refuted : forall R, exists b1 b2 b3 z s,
  plistLoads asciiText b1 = Ok PNone /\ plistDumps asciiText R true PNone = Err TypeError /\
  plistLoads asciiText b2 = Ok (PInt z) /\ plistDumps asciiText R true (PInt z) = Err OverflowError /\
  plistLoads asciiText b3 = Ok (PStr s) /\ exists b, plistDumps asciiText R true (PStr s) = Ok b /\ plistLoads asciiText b <> Ok (PStr s).
Proof.
  intro R. exists (u "<plist version=""1.0""></plist>"), (u "<plist><integer>18446744073709551616</integer></plist>"), (u "<plist><string>&#13;</string></plist>"), 18446744073709551616%Z, [13%N].
  split; [vm_compute; reflexivity|]. split; [vm_compute; reflexivity|]. split; [vm_compute; reflexivity|]. split; [vm_compute; reflexivity|]. split; [vm_compute; reflexivity|].
  exists (match plistDumps asciiText R true (PStr [13%N]) with Ok b => b | Err _ => [] end). split; [vm_compute; reflexivity|vm_compute; discriminate].
Qed.
Print Assumptions C93_again_refuted.
Example C93_case :
  let b := u "<?xml version='1.0'?><plist><dict> <key>b</key><integer>7</integer><key>a&lt;</key><array><true/><string> &#x0041; </string><data>AP8=</data></array></dict></plist>" in
  let v := PDict [(PStr (u "b"), PInt 7); (PStr (u "a<"), PList [PBool true; PStr (u " A "); PBytes [0; 255]%N])] in
  noWhiteRefs b /\ plistLoads toyText b = Ok v /\ wholeRange v /\
  (do b' <- plistDumps toyText toyRepr true v; plistLoads toyText b') =
    Ok (PDict [(PStr (u "a<"), PList [PBool true; PStr (u " A "); PBytes [0; 255]%N]); (PStr (u "b"), PInt 7)]).
Proof.
  cbv zeta. split; [|split; [vm_compute; reflexivity|split; [|vm_compute; reflexivity]]].
  - apply whiteless_ok. vm_compute. reflexivity.
  - intros z I. inversion I as [|? ? ? ?|? ? ? ?|? k v J H]; subst. destruct J as [J|[J|[]]]; injection J as <- <-; inversion H as [|? v' J' H'|?|? k' v' J' H']; subst; [lia|].
    destruct J' as [<-|[<-|[<-|[]]]]; inversion H'.
Qed.
