(** Property C113: which order of the layers a UFOWriter of version 3 writes. *)
From Coq Require Import String NArith ZArith Bool Lia List Permutation.
From Coq.Floats Require Import SpecFloat.
From Verif Require Import Base PyVal PyText FloatRepr LowerLaws Xml Plist PlistProofs PlistFiles FS FSProofs Validators ValidatorsProofs PropValidators Ufo UfoProofs PropUfo PropUfoFiles PropLayers.
From Verif Require Import Etree EtreeProofs GlifTexts PropGlifWriter PropWriterAccepts.
Import ListNotations.
Local Open Scope string_scope.
Local Open Scope list_scope.
Local Notation mbind := Ufo.mbind.
Local Notation lift := Ufo.lift.
Local Notation raise := Ufo.raise.

(** ** The order of the layers *)
Definition orderNames (order : option (list (option str))) (s : ust) : list str :=
  match order with Some o => map (fun n => match n with Some n => n | None => u "public.default" end) o | None => keys (layers s) end.
Theorem C113_order : forall (T : pytext) (R : spec_float -> str) c s order, (forall f, xml (R f)) -> ver c = 3%Z -> room s "layercontents.plist" ->
  (accepts (writeLayerContents (plistCodec T R) c order true) s <->
   (forall n, In n (orderNames order s) <-> get n (layers s) <> None) /\ (forall n d, get n (layers s) = Some d -> xml n /\ xml d)).
Proof.
  intros T R c s order RX V Rm. unfold writeLayerContents. rewrite V. change (3 <? 3)%Z with false. cbv iota. change nDefault with (u "public.default").
  set (names := orderNames order s). set (l := layers s).
  transitivity (accepts (if true && negb (forallb (fun n => mem n (keys l)) names && forallb (fun n => mem n names) (keys l)) then raise UFOLibError else
    let! pairs := lift (mapM (fun n => match get n l with Some d => Ok (PTuple [PStr n; PStr d]) | None => Err KeyError end) names) in writePlist (plistCodec T R) (hp c) nLayercontents (PList pairs)) s).
  { unfold accepts, mbind at 1, getLayers, names, orderNames. destruct order; reflexivity. }
  assert (K : forall n, In n (keys l) <-> get n l <> None).
  { intro n. split; [intros I X; apply get_None in X; contradiction|]. intro N. destruct (get n l) as [d|] eqn:G; [|congruence]. apply get_In in G. apply in_map_iff. exists (n, d). auto. }
  assert (Same : forallb (fun n => mem n (keys l)) names && forallb (fun n => mem n names) (keys l) = true <-> forall n, In n names <-> get n l <> None).
  { rewrite andb_true_iff, !forallb_forall. split.
    - intros (A & B) n. split; intro I; [apply K; apply mem_In; apply A; exact I|apply mem_In; apply B; apply K; exact I].
    - intro H. split; intros n I; apply mem_In; [apply K; apply H; exact I|apply H; apply K; exact I]. }
  cbn [andb]. destruct (forallb _ names && forallb _ (keys l)) eqn:S1; cbn [negb].
  - assert (H : forall n, In n names <-> get n l <> None) by (apply Same; reflexivity).
    assert (P : exists pairs, mapM (fun n => match get n l with Some d => Ok (PTuple [PStr n; PStr d]) | None => Err KeyError end) names = Ok pairs /\
      (goodPlist (PList pairs) <-> forall n d, In n names -> get n l = Some d -> xml n /\ xml d)).
    { assert (H0 : forall n, In n names -> get n l <> None) by (intros n I; apply H; exact I). clear -H0. induction names as [|n ns IH]; [exists []; split; [reflexivity|]; split; [intros _ n d []|intros _; constructor; apply Forall_nil]|].
      destruct IH as (ps & E & Q); [intros k I; apply H0; right; exact I|]. cbn [mapM]. destruct (get n l) as [d|] eqn:G; [|exfalso; exact (H0 n (or_introl eq_refl) G)]. cbn [bind]. rewrite E. cbn [bind]. eexists. split; [reflexivity|].
      assert (Q1 : goodPlist (PTuple [PStr n; PStr d]) <-> xml n /\ xml d).
      { split; [intro X; inversion X as [| | | | | | |? F|]; subst; inversion F as [|? ? F1 F2]; subst; inversion F2 as [|? ? F3 F4]; subst; inversion F1; inversion F3; auto|]. intros (A & B). constructor. constructor; [constructor; exact A|constructor; [constructor; exact B|apply Forall_nil]]. }
      assert (Q2 : goodPlist (PList (PTuple [PStr n; PStr d] :: ps)) <-> goodPlist (PTuple [PStr n; PStr d]) /\ goodPlist (PList ps)).
      { split; [intro X; inversion X as [| | | | | |? F| |]; subst; inversion F; subst; split; [assumption|constructor; assumption]|]. intros (A & B). inversion B; subst. constructor. constructor; assumption. }
      rewrite Q2, Q1, Q. split.
      - intros ((A & B) & D) k e [<-|I] Ge; [rewrite G in Ge; apply (f_equal (fun o => match o with Some z => z | None => [] end)) in Ge; cbn in Ge; subst e; auto|exact (D k e I Ge)].
      - intro A. split; [apply A; [left; reflexivity|exact G]|]. intros k e I. apply A. right. exact I. }
    destruct P as (pairs & Ep & P). unfold accepts, mbind, lift. rewrite Ep. change nLayercontents with (u "layercontents.plist"). fold (accepts (writePlist (plistCodec T R) (hp c) (u "layercontents.plist") (PList pairs)) s).
    rewrite (plist_accepts T R RX c "layercontents.plist" _ s Rm), P. split; [intro A; split; [exact H|]|intros (_ & A) n d _; apply A]. intros n d G. apply A; [apply H; congruence|exact G].
  - split; [intros (s' & X); discriminate X|]. intros (X & _). apply Same in X. discriminate X.
Qed.
Print Assumptions C113_order.
Example C113_order_case :
  let c := mkCfg 3 false PNone in let s := runCalls caseC ascii_lower c [CGet None true true; CGet (Some (u "Back")) false true] (newState (Dir [])) in
  let w o := wrote (writeLayerContents caseC c o true s) in
  room s "layercontents.plist" /\ [w None; w (Some [Some (u "Back"); None]); w (Some [None]); w (Some [None; Some (u "Back"); Some (u "x")])] = [true; true; false; false].
Proof. split; [split; [eexists; vm_compute; reflexivity|vm_compute; reflexivity]|vm_compute; reflexivity]. Qed.
