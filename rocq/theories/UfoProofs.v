(** Lemmas about the model of UFOReader and UFOWriter. *)
From Coq Require Import String NArith ZArith Bool Lia List Permutation.
From Coq.Floats Require Import SpecFloat.
From Verif Require Import Base LowerLaws Filenames FilenamesProofs PyVal PyText Validators ValidatorsProofs Kerning FS FSProofs Ufo.
Import ListNotations.
Local Open Scope string_scope.
Local Open Scope list_scope.

(** ** What a plist stores: equality up to the order of dictionaries and to
    tuples becoming lists *)
Definition container (v : pyval) : bool := match v with PList _ | PTuple _ | PDict _ => true | _ => false end.
Inductive psame : pyval -> pyval -> Prop :=
| ps_atom v : container v = false -> psame v v
| ps_list l m : Forall2 psame l m -> psame (PList l) (PList m)
| ps_tuple l m : Forall2 psame l m -> psame (PTuple l) (PList m)
| ps_dict d e e' : Permutation e' e -> Forall2 (fun a b => fst a = fst b /\ psame (snd a) (snd b)) d e' -> psame (PDict d) (PDict e).
(** [faithful]: the values that a plist file stores without loss *)
Record codec_laws (C : codec) (faithful : pyval -> Prop) : Prop := {
  loads_dumps : forall v b, faithful v -> dumps C v = Ok b -> exists w, loads C b = Ok w /\ psame v w;
}.

Definition roots (s : ust) : Prop := exists es, tree s = Dir es.

Section Proofs.
Variable C : codec.
Variable T : pytext.
Variable lower : str -> str.

(** ** writePlist *)
Lemma fsSetbytes_spec p b s s' r : fsSetbytes p b s = (s', r) ->
  (exists t', setbytes (tree s) p b = FOk t' /\ s' = mkUst t' (log s ++ [OWrite p]) (layers s) (remap s) /\ r = Ok tt) \/
  (exists e, setbytes (tree s) p b = FErr e /\ s' = s /\ r = Err FSError).
Proof.
  unfold fsSetbytes, mbind, getTree. destruct (setbytes (tree s) p b) as [t'|e] eqn:E; cbn; intro H; inversion H; subst.
  - left. exists t'. auto.
  - right. exists e. auto.
Qed.
Lemma writePlist_prev_err name v s s' e : writePlist C true name v s = (s', Err e) -> s' = s.
Proof.
  unfold writePlist, mbind, lift, dumpsU. destruct (dumps C v) as [b|x]; [|intro H; inversion H; reflexivity].
  unfold getTree. destruct (existsAt (tree s) [name]).
  - destruct (getbytes (tree s) [name]) as [old|]; [|intro H; inversion H; reflexivity].
    destruct (eqb b old); [intro H; inversion H|]. intro H. apply fsSetbytes_spec in H as [(t' & _ & _ & H)|(x & _ & H & _)]; [discriminate|exact H].
  - intro H. apply fsSetbytes_spec in H as [(t' & _ & _ & H)|(x & _ & H & _)]; [discriminate|exact H].
Qed.
Lemma writePlist_same prev name v s s' r : writePlist C prev name v s = (s', r) -> layers s' = layers s /\ remap s' = remap s.
Proof.
  unfold writePlist. destruct prev.
  - unfold mbind, lift, dumpsU, getTree. destruct (dumps C v) as [b|x]; [|intro H; inversion H; auto].
    destruct (existsAt (tree s) [name]).
    + destruct (getbytes (tree s) [name]) as [old|]; [|intro H; inversion H; auto].
      destruct (eqb b old); [intro H; inversion H; auto|].
      intro H. apply fsSetbytes_spec in H as [(t' & _ & -> & _)|(x & _ & -> & _)]; auto.
    + intro H. apply fsSetbytes_spec in H as [(t' & _ & -> & _)|(x & _ & -> & _)]; auto.
  - unfold mbind at 1. destruct (fsSetbytes [name] [] s) as [s1 r1] eqn:E1.
    apply fsSetbytes_spec in E1 as [(t1 & _ & -> & ->)|(x & _ & -> & ->)]; [|intro H; inversion H; auto].
    unfold mbind, lift, dumpsU. destruct (dumps C v) as [b|x]; [|intro H; inversion H; auto].
    intro H. apply fsSetbytes_spec in H as [(t' & _ & -> & _)|(x & _ & -> & _)]; auto.
Qed.
Lemma writePlist_ok prev name v s s' : writePlist C prev name v s = (s', Ok tt) ->
  exists b, dumps C v = Ok b /\ (forall q, kind (tree s') q = if eqb q [name] then Some (Some b) else kind (tree s) q) /\
  (log s' = log s \/ log s' = log s ++ [OWrite [name]] \/ log s' = log s ++ [OWrite [name]; OWrite [name]]) /\
  (prev = true -> log s' = if match fileAt (tree s) [name] with Some old => eqb b old | None => false end then log s else log s ++ [OWrite [name]]).
Proof.
  unfold writePlist. destruct prev.
  - unfold mbind, lift, dumpsU, getTree. destruct (dumps C v) as [b|x]; [|intro H; inversion H].
    intro H. exists b. split; [reflexivity|].
    assert (W : fsSetbytes [name] b s = (s', Ok tt) ->
      (forall q, kind (tree s') q = if eqb q [name] then Some (Some b) else kind (tree s) q) /\ log s' = log s ++ [OWrite [name]]).
    { clear H. intro H. apply fsSetbytes_spec in H as [(t' & E & -> & _)|(x & _ & _ & H)]; [|discriminate].
      split; [|reflexivity]. intro q. cbn. apply kind_setbytes. exact E. }
    rewrite kind_exists, getbytes_kind in H. rewrite kind_fileAt.
    destruct (kind (tree s) [name]) as [[old|]|] eqn:K; try discriminate H.
    + destruct (eqb_spec b old) as [->|N].
      * inversion H; subst. split; [|split; [left; reflexivity|intros _; reflexivity]].
        intro q. destruct (eqb_spec q [name]) as [->|_]; [exact K|reflexivity].
      * apply W in H as [A B]. split; [exact A|]. split; [auto|]. intros _. exact B.
    + apply W in H as [A B]. split; [exact A|]. split; [auto|]. intros _. exact B.
  - unfold mbind at 1. destruct (fsSetbytes [name] [] s) as [s1 r1] eqn:E1.
    apply fsSetbytes_spec in E1 as [(t1 & E1 & -> & ->)|(x & _ & -> & ->)]; [|intro H; inversion H].
    unfold mbind, lift, dumpsU. destruct (dumps C v) as [b|x]; [|intro H; inversion H].
    intro H. exists b. split; [reflexivity|].
    apply fsSetbytes_spec in H as [(t' & E & -> & _)|(x & _ & _ & H)]; [|discriminate]. cbn in *.
    split; [|split; [|discriminate]].
    + intro q. rewrite (kind_setbytes _ _ _ _ q E), (kind_setbytes _ _ _ _ q E1). destruct (eqb q [name]); reflexivity.
    + right. right. rewrite <- app_assoc. reflexivity.
Qed.
(** a raising write of a new file may leave it empty; nothing else changes *)
Lemma writePlist_err prev name v s s' e : writePlist C prev name v s = (s', Err e) ->
  forall q, q <> [name] -> kind (tree s') q = kind (tree s) q.
Proof.
  intros H q Hq. destruct prev; [apply writePlist_prev_err in H; subst; reflexivity|].
  unfold writePlist, mbind at 1 in H. destruct (fsSetbytes [name] [] s) as [s1 r1] eqn:E1.
  apply fsSetbytes_spec in E1 as [(t1 & E1 & -> & ->)|(x & _ & -> & ->)]; [|inversion H; reflexivity].
  unfold mbind, lift, dumpsU in H. destruct (dumps C v) as [b|x].
  - apply fsSetbytes_spec in H as [(t' & _ & _ & H)|(x & _ & -> & _)]; [discriminate|]. cbn.
    rewrite (kind_setbytes _ _ _ _ q E1). destruct (eqb_spec q [name]); [contradiction|reflexivity].
  - inversion H; subst. cbn. rewrite (kind_setbytes _ _ _ _ q E1). destruct (eqb_spec q [name]); [contradiction|reflexivity].
Qed.
Lemma writePlist_total prev name v s b : roots s -> kind (tree s) [name] <> Some None -> dumps C v = Ok b ->
  exists s', writePlist C prev name v s = (s', Ok tt).
Proof.
  intros (es & R) K D.
  assert (ND : isdir (Dir es) [name] = false).
  { rewrite <- R, kind_isdir. destruct (kind (tree s) [name]) as [[x|]|]; congruence. }
  assert (W : forall x s0 ds, tree s0 = Dir ds -> isdir (Dir ds) [name] = false ->
    exists s', fsSetbytes [name] x s0 = (s', Ok tt) /\ tree s' = Dir (set name (File x) ds)).
  { intros x s0 ds E N. unfold fsSetbytes, mbind, getTree. rewrite E. rewrite setbytes_top by exact N. cbn. eexists. split; reflexivity. }
  destruct prev; unfold writePlist.
  - unfold mbind, lift, dumpsU, getTree. rewrite D, R. rewrite kind_exists, getbytes_kind. rewrite R in K.
    destruct (kind (Dir es) [name]) as [[old|]|] eqn:Kd; [|congruence|].
    + destruct (eqb b old); [eexists; reflexivity|]. destruct (W b s es R ND) as (s' & H & _). eauto.
    + destruct (W b s es R ND) as (s' & H & _). eauto.
  - destruct (W [] s es R ND) as (s1 & H1 & R1). unfold mbind at 1. rewrite H1.
    unfold mbind, lift, dumpsU. rewrite D.
    destruct (W b s1 _ R1) as (s2 & H2 & _); [unfold isdir; cbn [find]; rewrite get_set_same; reflexivity|]. eauto.
Qed.

(** ** removePath of a top-level name *)
Lemma removePath_top name force s s' r : plainName name -> roots s ->
  removePath name force false s = (s', r) ->
  layers s' = layers s /\ remap s' = remap s /\
  match kind (tree s) [name] with
  | None => s' = s /\ r = if force then Ok tt else Err UFOLibError
  | Some _ => r = Ok tt /\ tree s' = cut [name] (tree s) /\ log s' = log s ++ [ORemove [name]]
  end.
Proof.
  intros P (es & R) H. unfold removePath, mbind, lift in H. rewrite (components_plain _ P) in H.
  unfold getTree in H. unfold remove, removetree in H. unfold kind.
  destruct (find (tree s) [name]) as [[b|ds]|] eqn:F; cbn [option_map kindOf].
  - inversion H; subst. cbn. auto.
  - inversion H; subst. cbn. auto.
  - destruct force; inversion H; subst; auto.
Qed.
End Proofs.

(** ** dictionaries read back from a plist *)
Lemma dget_In k d v : dget k d = Some v -> In (PStr k, v) d.
Proof.
  induction d as [|[k' v'] d IH]; cbn [dget]; [discriminate|].
  destruct k'; try (intro H; right; auto; fail).
  destruct (eqb_spec k s) as [->|N]; [intro H; inversion H; left; reflexivity|intro H; right; auto].
Qed.
Lemma In_dget k d v : NoDup (map fst d) -> In (PStr k, v) d -> dget k d = Some v.
Proof.
  induction d as [|[k' v'] d IH]; cbn [map fst In]; intros N I; [contradiction|]. inversion N as [|? ? Hn N']; subst.
  destruct I as [I|I].
  - inversion I; subst. cbn [dget]. rewrite eqb_refl. reflexivity.
  - cbn [dget]. rewrite (IH N' I). destruct k'; try reflexivity. destruct (eqb_spec k s) as [->|_]; [|reflexivity].
    exfalso. apply Hn. change (PStr s) with (fst (PStr s, v)). apply in_map. exact I.
Qed.
Lemma psame_dict d w : psame (PDict d) w -> NoDup (map fst d) ->
  exists e, w = PDict e /\ Permutation (map fst e) (map fst d) /\
  (forall k v, dget k d = Some v -> exists v', dget k e = Some v' /\ psame v v') /\
  (forall k v', dget k e = Some v' -> exists v, dget k d = Some v /\ psame v v').
Proof.
  intros H N. inversion H as [? X|?| |? e e' P F]; subst.
  - discriminate X.
  - exists e. split; [reflexivity|].
    assert (K : map fst d = map fst e') by (clear -F; induction F as [|a b d e' [E _] _ IH]; [reflexivity|cbn; congruence]).
    assert (Pk : Permutation (map fst e) (map fst d)).
    { rewrite K. apply Permutation_map. apply Permutation_sym. exact P. }
    split; [exact Pk|].
    assert (N' : NoDup (map fst e)) by (eapply Permutation_NoDup; [apply Permutation_sym; exact Pk|exact N]).
    split.
    + intros k v G. apply dget_In in G.
      assert (X : exists v', In (PStr k, v') e' /\ psame v v').
      { clear -F G. induction F as [|a b d e' [E S] _ IH]; [contradiction|]. destruct G as [->|G].
        - cbn in *. exists (snd b). split; [left; destruct b; cbn in *; congruence|exact S].
        - destruct (IH G) as (v' & I & S'). exists v'. split; [right; exact I|exact S']. }
      destruct X as (v' & I & S). exists v'. split; [|exact S]. apply In_dget; [exact N'|].
      eapply Permutation_in; [exact P|exact I].
    + intros k v' G. apply dget_In in G. apply (Permutation_in _ (Permutation_sym P)) in G.
      assert (X : exists v, In (PStr k, v) d /\ psame v v').
      { clear -F G. induction F as [|a b d e' [E S] _ IH]; [contradiction|]. destruct G as [->|G].
        - cbn in *. exists (snd a). split; [left; destruct a; cbn in *; congruence|exact S].
        - destruct (IH G) as (v & I & S'). exists v. split; [right; exact I|exact S']. }
      destruct X as (v & I & S). exists v. split; [|exact S]. apply In_dget; assumption.
Qed.
Lemma psame_int z w : psame (PInt z) w -> w = PInt z.
Proof. intro H. inversion H. reflexivity. Qed.
Lemma psame_str s w : psame (PStr s) w -> w = PStr s.
Proof. intro H. inversion H. reflexivity. Qed.

(** ** constructor *)
Lemma initWriter_err C T c validate s s' e : initWriter C T c validate s = (s', Err e) -> hp c = true ->
  tree s' = tree s /\ log s' = log s.
Proof.
  intros H Hp. unfold initWriter, mbind, ret, raise, getTree, lift in H. rewrite Hp in H.
  destruct (mem (ver c) supported); [|inversion H; auto].
  destruct (getPlist C (tree s) nMetainfo None) as [mi|x]; [|inversion H; auto].
  destruct mi; try (inversion H; auto; fail).
  destruct (pyInt T _) as [z|x]; [|destruct x; inversion H; auto].
  destruct (mem z supported); [|inversion H; auto].
  destruct (ver c <? z)%Z; [inversion H; auto|].
  destruct (3 <=? z)%Z.
  - destruct (readLayersW C (tree s) validate) as [l|x]; [|inversion H; auto].
    unfold setLayers, writeMetaInfo in H. rewrite Hp in H. apply writePlist_prev_err in H. subst. auto.
  - unfold setLayers, writeMetaInfo in H. rewrite Hp in H. apply writePlist_prev_err in H. subst. auto.
Qed.
Lemma initWriter_ok C T c validate s s' : initWriter C T c validate s = (s', Ok tt) ->
  In (ver c) supported /\
  (hp c = true -> exists d z, getPlist C (tree s) nMetainfo None = Ok (PDict d) /\ pyInt T (vget (u "formatVersion") (PDict d)) = Ok z /\
                  In z supported /\ (z <= ver c)%Z) /\
  exists s1, tree s1 = tree s /\ log s1 = log s /\ writeMetaInfo C c s1 = (s', Ok tt).
Proof.
  intros H. unfold initWriter, mbind, ret, raise, getTree, lift in H.
  destruct (mem (ver c) supported) eqn:Mv; [|discriminate]. split; [apply mem_In; exact Mv|].
  destruct (hp c) eqn:Hp.
  - destruct (getPlist C (tree s) nMetainfo None) as [mi|x] eqn:G; [|discriminate].
    destruct mi as [ | | | | | | | | |d| ]; try discriminate.
    destruct (pyInt T _) as [z|x] eqn:Z; [|destruct x; discriminate].
    destruct (mem z supported) eqn:Mz; [|discriminate].
    destruct (Z.ltb_spec (ver c) z) as [L|L]; [discriminate|]. split.
    { intros _. exists d, z. split; [reflexivity|]. split; [exact Z|]. split; [apply mem_In; exact Mz|exact L]. }
    destruct (3 <=? z)%Z.
    + destruct (readLayersW C (tree s) validate) as [l|x]; [|discriminate].
      unfold setLayers in H. eexists. split; [|split; [|exact H]]; reflexivity.
    + unfold setLayers in H. eexists. split; [|split; [|exact H]]; reflexivity.
  - split; [discriminate|]. unfold setLayers in H. eexists. split; [|split; [|exact H]]; reflexivity.
Qed.
