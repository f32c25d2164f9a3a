(** Properties C114 and C115 together: the images and the data files of a UFO are
    independent of each other. *)
From Coq Require Import String NArith ZArith Bool Lia List Permutation.
From Verif Require Import Base PyVal PyText FS FSProofs Ufo UfoProofs PropUfo PropUfoFiles PropImages PropDataFiles.
Import ListNotations.
Local Open Scope string_scope.
Local Open Scope list_scope.
Local Notation find := FS.find.

(** a history of calls of both kinds; what a call raises is caught *)
Definition storeCall : Type := imageCall + dataCall.
Definition doStore (c : wcfg) (k : storeCall) : M unit := match k with inl i => doImage c i | inr d => doData (hp c) d end.
Fixpoint runStores (c : wcfg) (ks : list storeCall) (s : ust) : ust := match ks with [] => s | k :: r => runStores c r (fst (doStore c k s)) end.
(** the calls of each kind *)
Definition imageCalls (ks : list storeCall) : list imageCall := flat_map (fun k => match k with inl i => [i] | inr _ => [] end) ks.
Definition dataCalls (ks : list storeCall) : list dataCall := flat_map (fun k => match k with inl _ => [] | inr d => [d] end) ks.
Definition plainStore (k : storeCall) : Prop := match k with inl i => plainCall i | inr d => plainData d end.

Lemma top_same x es es' : find (Dir es') [x] = find (Dir es) [x] -> get x es' = get x es.
Proof. cbn [FS.find]. destruct (get x es'), (get x es); cbn; congruence. Qed.
Lemma data_kept s s' m : elsewhere s s' -> (exists es', tree s' = Dir es') -> keepsData s m -> keepsData s' m.
Proof.
  intros (_ & F) (es' & E') (es & E & D). exists es'. split; [exact E'|]. assert (X : get (u "data") es' = get (u "data") es); [|rewrite X; exact D].
  apply top_same. rewrite <- E, <- E'. apply F. vm_compute. discriminate.
Qed.
Lemma images_kept s s' m : apart s s' -> (exists es', tree s' = Dir es') -> stores s m -> stores s' m.
Proof.
  intros (_ & F) (es' & E') (es & ies & E & I & R). exists es', ies. split; [exact E'|]. split; [|exact R]. assert (X : get (u "images") es' = get (u "images") es); [|rewrite X; exact I].
  apply top_same. rewrite <- E, <- E'. apply F. vm_compute. discriminate.
Qed.
(** Whatever the order of the calls, the images are those of the image calls alone and
    the data files those of the calls on data files alone; the rest of the UFO stays. *)
Theorem C115_with_images : forall c ks s mi md, ver c = 3%Z -> Forall plainStore ks -> stores s mi -> keepsData s md ->
  let s' := runStores c ks s in
  stores s' (rememberAll mi (imageCalls ks)) /\ keepsData s' (recallAll md (dataCalls ks)) /\
  layers s' = layers s /\ forall x r, x <> u "images" -> x <> u "data" -> find (tree s') (x :: r) = find (tree s) (x :: r).
Proof.
  intros c ks. induction ks as [|k ks IH]; intros s mi md V P Si Sd; cbv zeta; [split; [exact Si|]; split; [exact Sd|]; split; reflexivity|].
  inversion P as [|? ? P1 P2]; subst. cbn [runStores]. destruct k as [i|d]; cbn [plainStore doStore] in *.
  - change (imageCalls (inl i :: ks)) with (i :: imageCalls ks). change (dataCalls (inl i :: ks)) with (dataCalls ks). cbn [rememberAll].
    pose proof (C114_step c i s mi V P1 Si) as X. destruct (remember mi i) as [m'|]; [|rewrite X; exact (IH s mi md V P2 Si Sd)].
    destruct X as (s1 & -> & S1 & El). cbn [fst]. assert (T1 : exists es', tree s1 = Dir es') by (destruct S1 as (es1 & _ & E1 & _); eauto).
    destruct (IH s1 m' md V P2 S1 (data_kept s s1 md El T1 Sd)) as (A & B & L & F). split; [exact A|]. split; [exact B|]. destruct El as (L1 & F1). split; [congruence|]. intros x r N1 N2. rewrite F, F1 by assumption. reflexivity.
  - change (imageCalls (inr d :: ks)) with (imageCalls ks). change (dataCalls (inr d :: ks)) with (d :: dataCalls ks). cbn [recallAll].
    pose proof (C115_step (hp c) d s md P1 Sd) as X. destruct (recall md d) as [m'|e]; [|rewrite X; exact (IH s mi md V P2 Si Sd)].
    destruct X as (s1 & -> & S1 & El). cbn [fst]. assert (T1 : exists es', tree s1 = Dir es') by (destruct S1 as (es1 & E1 & _); eauto).
    destruct (IH s1 mi m' V P2 (images_kept s s1 mi El T1 Si) S1) as (A & B & L & F). split; [exact A|]. split; [exact B|]. destruct El as (L1 & F1). split; [congruence|]. intros x r N1 N2. rewrite F, F1 by assumption. reflexivity.
Qed.
Print Assumptions C115_with_images.
Example C115_with_images_case :
  let c := mkCfg 3 false PNone in let s := newState (Dir [(u "lib.plist", File [])]) in
  let ks := [inl (IWrite (u "x") [1%N] false); inr (DWrite [u "x"] [2%N]); inl (IRemove (u "x")); inr (DWrite [u "y"; u "z"] [3%N]); inl (IWrite (u "y") [4%N] true); inr (DRemove [u "x"])] in
  tree (runStores c ks s) = Dir [(u "lib.plist", File []); (u "data", Dir [(u "y", Dir [(u "z", File [3%N])])])] /\
  imageCalls ks = [IWrite (u "x") [1%N] false; IRemove (u "x"); IWrite (u "y") [4%N] true] /\
  recallAll [] (dataCalls ks) = [([u "y"; u "z"], [3%N])].
Proof. vm_compute. repeat split. Qed.
