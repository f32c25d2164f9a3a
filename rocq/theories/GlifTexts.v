(** Which element trees can be serialized: those whose texts, attribute values,
    attribute names and tags consist of characters XML 1.0 allows. *)
From Coq Require Import String NArith ZArith Bool Lia List Permutation.
From Coq.Floats Require Import SpecFloat.
From Verif Require Import Base PyVal PyText FloatRepr Xml FS Ufo UfoProofs PropUfoFiles Plist PlistProofs PropPlist Etree EtreeProofs PropEtree PlistFiles.
Import ListNotations.
Local Open Scope string_scope.
Local Open Scope list_scope.

Notation xml s := (Forall xmlCompat s).
Definition serialText (x : option etext) : Prop :=
  match x with Some (XS s) => xml s | Some (XB s) => xml s /\ Forall (fun c => (c < 128)%N) s | None => True end.
Inductive serial : elem -> Prop :=
| serial_intro tag at' text ch tail : xml tag -> Forall (fun kv => xml (fst kv) /\ xml (snd kv)) at' -> serialText text -> serialText (option_map XS tail) ->
    Forall serial ch -> serial (Elem tag at' text ch tail).
Lemma serial_chars e : serial e -> allChars xmlCompat e.
Proof.
  induction e as [tag at' text ch tail IH] using elem_ind'. intro G. inversion G as [? ? ? ? ? A B C D E]; subst. constructor; try assumption.
  - destruct text as [[|]|]; [exact C|apply C|exact I].
  - destruct tail; [exact D|exact I].
  - clear - IH E. induction ch; [constructor|]. inversion IH; inversion E; subst. constructor; auto.
Qed.
Lemma serialText_total x : serialText x -> exists s, serializeText x = Ok s.
Proof.
  unfold serializeText. destruct x as [[s|s]|]; cbn [textTruthy serialText]; intro H.
  - destruct s; [eauto|]. erewrite escapeCdata_eq; [eauto|]. apply toUnicode_ok. exact H.
  - destruct s; [eauto|]. erewrite escapeCdata_eq; [eauto|]. apply toUnicode_okB; apply H.
  - eauto.
Qed.
Lemma serial_total e : serial e -> exists s, serialize e = Ok s /\ xml s.
Proof.
  intro G. assert (H : exists s, serialize e = Ok s).
  - revert G. induction e as [tag at' text ch tail IH] using elem_ind'. intro G. inversion G as [? ? ? ? ? A B C D E]; subst. rewrite serialize_eq, (toUnicode_ok tag A). cbn [bind].
    assert (EA : exists a, serializeAttribs at' = Ok a).
    { clear - B. induction B as [|[k v] l [K V] B (a & IH)]; [exists []; reflexivity|]. cbn [serializeAttribs fst snd] in *.
      rewrite (toUnicode_ok k K). cbn [bind]. rewrite (escapeAttrib_eq (XS v) v) by (apply toUnicode_ok; exact V). cbn [bind]. rewrite IH. cbn [bind]. eauto. }
    destruct EA as (a & ->). cbn [bind]. destruct (serialText_total _ C) as (x & Ex). destruct (serialText_total _ D) as (y & Ey).
    assert (EK : exists k, serKids ch = Ok k).
    { clear - IH E. induction ch as [|k ch IHc]; [exists []; reflexivity|]. inversion IH as [|? ? Hk Hc]; inversion E as [|? ? Gk Gc]; subst. cbn [serKids]. destruct (Hk Gk) as (s & ->). destruct (IHc Hc Gc) as (t & ->). cbn [bind]. eauto. }
    destruct EK as (k & Ek). unfold serBody. rewrite Ex, Ek, Ey. cbn [bind]. destruct (_ || _); cbn [bind]; eauto.
  - destruct H as (s & E). exists s. split; [exact E|]. eapply serialize_Q; [|apply serial_chars; exact G|exact E].
    apply ascii_ok. apply lit_ascii. reflexivity.
Qed.
Lemma flat_back (Q : N -> Prop) (f : N -> str) s : (forall c, Forall Q (f c) -> Q c) -> Forall Q (flat_map f s) -> Forall Q s.
Proof. intro H. induction s as [|c s IH]; cbn [flat_map]; intro F; [constructor|]. apply Forall_app in F as [A B]. constructor; auto. Qed.
Lemma scalar_small c : (c < 128)%N -> scalar c.
Proof. unfold scalar. lia. Qed.
Lemma escC_back c : Forall scalar (escC c) -> scalar c.
Proof.
  unfold escC. destruct (N.eqb_spec c 38) as [->|]; [intros _; apply scalar_small; reflexivity|]. destruct (N.eqb_spec c 60) as [->|]; [intros _; apply scalar_small; reflexivity|].
  destruct (N.eqb_spec c 62) as [->|]; [intros _; apply scalar_small; reflexivity|]. intro F. inversion F. assumption.
Qed.
Lemma escA_back c : Forall scalar (escA c) -> scalar c.
Proof.
  unfold escA. destruct (N.eqb_spec c 38) as [->|]; [intros _; apply scalar_small; reflexivity|]. destruct (N.eqb_spec c 60) as [->|]; [intros _; apply scalar_small; reflexivity|].
  destruct (N.eqb_spec c 62) as [->|]; [intros _; apply scalar_small; reflexivity|]. destruct (N.eqb_spec c 34) as [->|]; [intros _; apply scalar_small; reflexivity|].
  destruct (N.eqb_spec c 10) as [->|]; [intros _; apply scalar_small; reflexivity|]. intro F. inversion F. assumption.
Qed.
Lemma valid_xml s : Forall (fun c => invalidXml c = false) s -> Forall scalar s -> xml s.
Proof. intros A B. rewrite Forall_forall in *. intros c J. apply valid_compat; [apply A; exact J|]. specialize (B c J). unfold scalar in B. lia. Qed.
Lemma serialText_back x s : serializeText x = Ok s -> Forall scalar s -> serialText x.
Proof.
  intros E F. destruct (serializeText_eq x s E) as (y & -> & Ht & Hu). apply (flat_back _ _ _ escC_back) in F.
  assert (G : forall x0, textTruthy x = true -> x = Some x0 -> toUnicode x0 = Ok y).
  { intros x0 Tx Ex. destruct (Hu Tx) as (x1 & Ex1 & U). congruence. }
  destruct x as [[[|c x]|[|c x]]|]; cbn [serialText]; [apply Forall_nil| |split; apply Forall_nil| |exact I].
  - specialize (G _ eq_refl eq_refl). pose proof (toUnicode_valid _ _ G) as V. apply toUnicode_S in G. subst y. apply valid_xml; assumption.
  - specialize (G _ eq_refl eq_refl). pose proof (toUnicode_valid _ _ G) as V. unfold toUnicode in G. apply bind_Ok in G as (w & Ew & G). destruct (forallb _ _) eqn:A; [|discriminate Ew]. apply Ok_inj in Ew. subst w.
    destruct (existsb _ _); [discriminate G|]. apply Ok_inj in G. subst y. split; [apply valid_xml; assumption|]. rewrite forallb_forall in A. apply Forall_forall. intros z J. apply N.ltb_lt. apply A. exact J.
Qed.
Lemma serial_back e : forall s, serialize e = Ok s -> Forall scalar s -> serial e.
Proof.
  induction e as [tag at' text ch tail IH] using elem_ind'. intros s E F. rewrite serialize_eq in E.
  apply bind_Ok in E as (t & Et & E). pose proof (toUnicode_valid _ _ Et) as V. apply toUnicode_S in Et. subst t. apply bind_Ok in E as (a & Ea & E). apply bind_Ok in E as (body & Eb & E). apply bind_Ok in E as (tl & Etl & E). apply Ok_inj in E; subst s.
  apply Forall_app in F as [_ F]. apply Forall_app in F as [Ft F]. apply Forall_app in F as [Fa F]. apply Forall_app in F as [Fb Fl].
  assert (B : serialText text /\ exists k, serKids ch = Ok k /\ Forall scalar k).
  { unfold serBody in Eb. destruct (match text with Some _ => true | None => false end || negb (Nat.eqb (length ch) 0)) eqn:Q.
    - apply bind_Ok in Eb as (x & Ex & Eb). apply bind_Ok in Eb as (k & Ek & Eb). apply Ok_inj in Eb. subst body. apply Forall_app in Fb as [_ Fb]. apply Forall_app in Fb as [Fx Fb]. apply Forall_app in Fb as [Fk _].
      split; [eapply serialText_back; eassumption|eauto].
    - apply orb_false_iff in Q as [Q1 Q2]. destruct text; [discriminate Q1|]. destruct ch; [|discriminate Q2]. split; [exact I|exists []; split; [reflexivity|constructor]]. }
  destruct B as (B1 & k & Ek & Fk). constructor; [apply valid_xml; assumption| |exact B1|eapply serialText_back; eassumption|].
  - clear - Ea Fa. revert a Ea Fa. induction at' as [|[k v] l IH]; intros a Ea Fa; cbn [serializeAttribs] in Ea; [constructor|].
    apply bind_Ok in Ea as (k' & Ek & Ea). apply bind_Ok in Ea as (v' & Ev & Ea). apply bind_Ok in Ea as (t & Et & Ea). apply Ok_inj in Ea. subst a.
    apply Forall_app in Fa as [_ Fa]. apply Forall_app in Fa as [Fk Fa]. apply Forall_app in Fa as [_ Fa]. apply Forall_app in Fa as [Fv Fa]. apply Forall_app in Fa as [_ Fa].
    constructor; [|eapply IH; eassumption]. cbn [fst snd]. split.
    + pose proof (toUnicode_valid _ _ Ek). apply toUnicode_S in Ek. subst. apply valid_xml; assumption.
    + unfold escapeAttrib in Ev. apply bind_Ok in Ev as (w & Ew & Ev). pose proof (escapeAttrib_eq _ _ Ew) as X. unfold escapeAttrib in X. rewrite Ew in X. cbn [bind] in X. rewrite Ev in X. apply Ok_inj in X. subst v'.
      pose proof (toUnicode_valid _ _ Ew) as V. apply toUnicode_S in Ew. subst w. apply valid_xml; [exact V|]. exact (flat_back _ _ _ escA_back Fv).
  - clear - IH Ek Fk. revert k Ek Fk. induction ch as [|c ch IHc]; intros k Ek Fk; [constructor|]. cbn [serKids] in Ek. apply bind_Ok in Ek as (x & Ex & Ek). apply bind_Ok in Ek as (y & Ey & Ek). apply Ok_inj in Ek. subst k.
    apply Forall_app in Fk as [F1 F2]. inversion IH as [|? ? H1 H2]; subst. constructor; [eapply H1; eassumption|eapply IHc; eassumption].
Qed.
Lemma compat_scalar c : xmlCompat c -> scalar c.
Proof. unfold xmlCompat, scalar. lia. Qed.

(** ** the white space of pretty printing does not matter *)
(** no tails, and no text beside children *)
Inductive tidy : elem -> Prop :=
| tidy_intro tag at' text ch : (ch = [] \/ text = None) -> Forall tidy ch -> tidy (Elem tag at' text ch None).
Section Tidy.
Variable T : pytext.
Lemma white_xml s : Forall (fun c => c = 10%N \/ c = 32%N) s -> xml s.
Proof. intro F. eapply Forall_impl; [|exact F]. intros c [-> | ->]; unfold xmlCompat; lia. Qed.
Lemma tail_xml t : sameTail T None t -> serialText (option_map XS t).
Proof. intros [->|(_ & s & -> & F)]; [exact I|]. apply white_xml. exact F. Qed.
Lemma respaced_serial e : tidy e -> forall f, respaced T e f -> (serial e <-> serial f).
Proof.
  induction e as [tag at' text ch tail IH] using elem_ind'. intros G f Rs. inversion G as [? ? ? ? O K]; subst.
  inversion Rs as [? ? ? ? tail' Tl|? ? ? text' ? ch' ? tail' Ne Tx Tl F2]; subst.
  - pose proof (tail_xml _ Tl). split; intro S; inversion S; subst; constructor; auto; exact I.
  - destruct O as [O|O]; [contradiction|]. subst text. pose proof (tail_xml _ Tl) as H.
    assert (H' : serialText text') by (destruct Tx as [->|(_ & s & -> & F)]; [exact I|apply white_xml; exact F]).
    assert (L : Forall serial ch <-> Forall serial ch').
    { clear - IH K F2. induction F2 as [|a b l m Hab F2 IHl]; [tauto|]. inversion IH; inversion K; subst. rewrite !Forall_cons_iff. rewrite IHl by assumption. rewrite (H1 H5 b Hab). tauto. }
    split; intro S; inversion S; subst; constructor; auto; try (apply L; assumption); exact I.
Qed.
Theorem tostring_iff e : tidy e -> ((exists b, tostring T false true e = Ok b) <-> serial e).
Proof.
  intro G. rewrite (respaced_serial e G _ (indent_respaced T e 0)). unfold tostring. cbn [app]. split.
  - intros (b & E). apply bind_Ok in E as (s & Es & Eb). eapply serial_back; [exact Es|]. eapply utf8_scalar. exact Eb.
  - intro S. destruct (serial_total _ S) as (s & -> & X). cbn [bind]. apply utf8_total. eapply Forall_impl; [|exact X]. apply compat_scalar.
Qed.
End Tidy.
