(** Lemmas about the data directory in the model of a whole font (Font.v). *)
From Coq Require Import String NArith ZArith Bool Lia List Permutation.
From Verif Require Import Base PyVal PyText FS FSProofs Ufo UfoProofs PropUfoFiles PropLayers FontProofs Font.
From Verif Require ZipProofs.
Import ListNotations.
Local Open Scope string_scope.
Local Open Scope list_scope.
Local Notation mbind := Ufo.mbind.
Local Notation lift := Ufo.lift.
Local Notation find := FS.find.
Local Notation fileAt := FS.fileAt.

Lemma data_plain : plainName nData.
Proof. repeat split; try (vm_compute; discriminate). vm_compute. intuition discriminate. Qed.
Lemma dataPath_components p : Forall plainName p -> components (dataPath p) = Ok (nData :: p).
Proof. intro F. apply components_join; [discriminate|]. intros c [<-|I]; [exact data_plain|]. rewrite Forall_forall in F. apply F. exact I. Qed.
Lemma dataPath_dirname p : p <> [] -> Forall plainName p -> components (dirname (dataPath p)) = Ok (nData :: removelast p) /\ dirname (dataPath p) <> [].
Proof.
  intros N F. assert (E : nData :: p = (nData :: removelast p) ++ [last p []]) by (cbn [app]; f_equal; apply app_removelast_last; exact N).
  assert (A : forall c, In c ((nData :: removelast p) ++ [last p []]) -> plainName c) by (rewrite <- E; intros c [<-|I]; [exact data_plain|]; rewrite Forall_forall in F; apply F; exact I).
  unfold dataPath. rewrite E, dirname_join; [|discriminate|exact A]. split.
  - apply components_join; [discriminate|]. intros c I. apply A. apply in_or_app. left. exact I.
  - destruct (removelast p); [discriminate|]. discriminate.
Qed.

(** what is in the data directory *)
Definition dataIn (dat : list (path * bytes)) (n : option node) : Prop :=
  dict_ok dat /\ (forall p b, get p dat = Some b -> p <> [] /\ Forall plainName p) /\
  match n with
  | None => dat = []
  | Some (File _) => False
  | Some (Dir ds) => wf (Dir ds) /\ (forall p, fileAt (Dir ds) p = get p dat) /\
      forall q, q <> [] -> isdir (Dir ds) q = true -> exists r b, get (q ++ r) dat = Some b
  end.
Lemma find_below es c q : find (Dir es) (c :: q) = match get c es with Some n => find n q | None => None end.
Proof. reflexivity. Qed.
Lemma data_files dat es : dataIn dat (get nData es) -> forall p, fileAt (Dir es) (nData :: p) = get p dat.
Proof.
  intros (_ & _ & H) p. unfold FS.fileAt. rewrite find_below. destruct (get nData es) as [[b|ds]|]; [contradiction| |rewrite H; reflexivity]. destruct H as (_ & H & _). specialize (H p). unfold FS.fileAt in H. exact H.
Qed.
Lemma data_read dat t : dataIn dat (find t [nData]) ->
  (NoDup (getDataDirectoryListing t) /\ forall p, In p (getDataDirectoryListing t) <-> get p dat <> None) /\
  forall p b, get p dat = Some b -> readBytesFromPath t (join [slash] (u "data" :: p)) = Ok (Some b).
Proof.
  intros (D & Pl & H). unfold getDataDirectoryListing. split.
  - destruct (find t [nData]) as [[b|ds]|]; [contradiction| |subst dat; split; [constructor|]; intro p; split; [intros []|intro N; apply N; reflexivity]].
    destruct H as (W & H & _). split; [apply walk_nodup; exact W|]. intro p. rewrite <- H. split; [intro I; apply walk_spec; assumption|apply walk_all].
  - intros p b G. destruct (Pl _ _ G) as [N F]. unfold readBytesFromPath. change (join [slash] (u "data" :: p)) with (dataPath p). rewrite (dataPath_components p F). cbn [bind]. unfold getbytes.
    assert (X : find t (nData :: p) = Some (File b)); [|rewrite X; reflexivity]. destruct t as [x|es]; [cbn [FS.find] in H; subst dat; discriminate G|]. cbn [FS.find] in H |- *. destruct (get nData es) as [n|]; [|subst dat; discriminate G]. destruct n as [x|ds]; [contradiction|]. destruct H as (_ & H & _). specialize (H p). rewrite G in H. unfold FS.fileAt in H. destruct (find (Dir ds) p) as [[y|]|]; try discriminate H. injection H as ->. reflexivity.
Qed.
Lemma put_below c q n es t : q <> [] -> put (c :: q) n (Dir es) = Some t -> exists m m', get c es = Some m /\ put q n m = Some m' /\ t = Dir (set c m' es).
Proof.
  intros N H. destruct q as [|d q]; [contradiction|]. change (match get c es with None => None | Some m => match put (d :: q) n m with Some m' => Some (Dir (set c m' es)) | None => None end end = Some t) in H.
  destruct (get c es) as [m|] eqn:G; [|discriminate H]. destruct (put (d :: q) n m) as [m'|] eqn:E; [|discriminate H]. injection H as <-. exists m, m'. auto.
Qed.
(** the write itself *)
Lemma writeData_es prev p b s s' es : p <> [] -> Forall plainName p -> tree s = Dir es -> (forall m, get nData es = Some m -> wf m) -> writeBytesToPath prev (dataPath p) b s = (s', Ok tt) ->
  layers s' = layers s /\ exists es', tree s' = Dir es' /\ (forall y, y <> nData -> get y es' = get y es) /\ exists m', get nData es' = Some m' /\ wf m'.
Proof.
  intros N F E W H. unfold writeBytesToPath in H. unfold mbind at 1, lift at 1 in H. rewrite (dataPath_components p F) in H. unfold mbind at 1, getTree in H.
  assert (S : forall t, setbytes (Dir es) (nData :: p) b = FOk t -> exists es', t = Dir es' /\ (forall y, y <> nData -> get y es' = get y es) /\ exists m', get nData es' = Some m' /\ wf m').
  { intros t X. unfold setbytes in X. assert (X' : put (nData :: p) (File b) (Dir es) = Some t) by (destruct (find (Dir es) (nData :: p)) as [[]|]; try discriminate X; destruct (put (nData :: p) (File b) (Dir es)); try discriminate X; injection X as <-; reflexivity).
    apply put_below in X' as (m & m' & G & Pm & ->); [|exact N]. eexists. split; [reflexivity|]. split; [intros y Ny; apply get_set_other; exact Ny|]. exists m'. split; [apply get_set_same|]. eapply ZipProofs.wf_put; [apply W; exact G|constructor|exact Pm]. }
  destruct (prev && _) eqn:Sm.
  - apply andb_prop in Sm as [_ Sm]. assert (s' = s) as -> by (apply (f_equal fst) in H; symmetry; exact H). split; [reflexivity|]. exists es. split; [exact E|]. split; [reflexivity|]. rewrite E in Sm. unfold getbytes in Sm. cbn [FS.find] in Sm. destruct (get nData es) as [m|] eqn:G; [|discriminate Sm]. exists m. split; [reflexivity|apply W; reflexivity].
  - rewrite E in H. destruct (setbytes (Dir es) (nData :: p) b) as [t|e] eqn:B.
    + apply (f_equal fst) in H. cbn [change fst] in H. subst s'. cbn [layers tree]. split; [reflexivity|]. apply S. reflexivity.
    + destruct e; try discriminate H. unfold mbind at 1, lift at 1 in H. destruct (dataPath_dirname p N F) as [Dp _]. rewrite Dp in H. unfold makedirs in H. destruct (mkdirs (nData :: removelast p) (Dir es)) as [t1|] eqn:M; [|discriminate H].
      unfold mbind, change in H. apply fsSetbytes_spec in H as [(t & B2 & -> & _)|(e & _ & _ & H)]; [|discriminate H]. cbn [tree layers] in *. split; [reflexivity|]. cbn [mkdirs] in M. destruct (mkdirs (removelast p) _) as [m1|] eqn:M1; [|discriminate M]. injection M as <-.
      assert (W1 : wf m1) by (eapply ZipProofs.wf_mkdirs; [|exact M1]; destruct (get nData es) as [m|] eqn:G; [apply W; reflexivity|apply (proj1 ZipProofs.good_empty)]).
      unfold setbytes in B2. assert (X' : put (nData :: p) (File b) (Dir (set nData m1 es)) = Some t) by (destruct (find (Dir (set nData m1 es)) (nData :: p)) as [[]|]; try discriminate B2; destruct (put (nData :: p) (File b) (Dir (set nData m1 es))); try discriminate B2; injection B2 as <-; reflexivity).
      apply put_below in X' as (m & m' & G & Pm & ->); [|exact N]. rewrite get_set_same in G. injection G as <-. eexists. split; [reflexivity|]. split; [intros y Ny; rewrite !get_set_other by exact Ny; reflexivity|]. exists m'. split; [apply get_set_same|]. eapply ZipProofs.wf_put; [exact W1|constructor|exact Pm].
Qed.
Lemma data_write prev p b s s' es dat : p <> [] -> Forall plainName p -> tree s = Dir es -> dataIn dat (get nData es) -> writeBytesToPath prev (dataPath p) b s = (s', Ok tt) ->
  layers s' = layers s /\ exists es', tree s' = Dir es' /\ (forall y, y <> nData -> get y es' = get y es) /\ dataIn (set p b dat) (get nData es').
Proof.
  intros N F E D H. pose proof (data_files _ _ D) as Df. destruct D as (Dk & Pl & D).
  assert (W : forall m, get nData es = Some m -> wf m) by (intros m G; rewrite G in D; destruct m; [contradiction|apply D]).
  destruct (writeData_es _ _ _ _ _ _ N F E W H) as (L & es' & E' & Fr & m' & G' & W'). split; [exact L|]. exists es'. split; [exact E'|]. split; [exact Fr|].
  destruct (C71_read_back _ _ _ _ _ _ (dataPath_components p F) H) as (Rb & Rf & Rd). rewrite E, E' in Rf, Rd. rewrite E' in Rb.
  assert (Fp : fileAt (Dir es') (nData :: p) = Some b).
  { unfold readBytesFromPath in Rb. rewrite (dataPath_components p F) in Rb. cbn [bind] in Rb. unfold getbytes in Rb. unfold FS.fileAt. destruct (find (Dir es') (nData :: p)) as [[x|]|]; try discriminate Rb. injection Rb as ->. reflexivity. }
  assert (Fa : forall q, fileAt m' q = get q (set p b dat)).
  { intro q. assert (X : fileAt m' q = fileAt (Dir es') (nData :: q)) by (unfold FS.fileAt; rewrite find_below, G'; reflexivity). rewrite X. rewrite get_set. destruct (eqb_spec q p) as [->|Nq]; [exact Fp|]. rewrite Rf by congruence. apply Df. }
  split; [apply dict_ok_set; exact Dk|]. split.
  - intros q x G. rewrite get_set in G. destruct (eqb_spec q p) as [->|]; [auto|]. eapply Pl; exact G.
  - rewrite G'. destruct m' as [x|ds].
    + specialize (Fa []). cbn in Fa. rewrite get_set in Fa. destruct (eqb_spec [] p); [congruence|]. symmetry in Fa. apply Pl in Fa as [Fa _]. congruence.
    + split; [exact W'|]. split; [exact Fa|]. intros q Nq Dq. assert (X : isdir (Dir es') (nData :: q) = true) by (unfold isdir in *; rewrite find_below, G'; exact Dq). apply Rd in X as [X|[_ (r & X)]].
      * assert (Y : exists r x, get (q ++ r) dat = Some x).
        { unfold isdir in X. rewrite find_below in X. destruct (get nData es) as [[y|ds0]|]; [contradiction| |discriminate X]. destruct D as (_ & _ & D). apply D; [exact Nq|]. unfold isdir. exact X. }
        destruct Y as (r & x & Y). exists r. rewrite get_set. destruct (eqb_spec (q ++ r) p); eauto.
      * cbn [app] in X. injection X as X. exists r, b. rewrite <- X. apply get_set_same.
Qed.

(** ** Removal *)
(** [q] is [p] or below it *)
Definition under (p q : path) : bool := eqb (firstn (length p) q) p.
Lemma under_below p q : under p q = true <-> below p q.
Proof.
  unfold under. rewrite eqb_eq. split.
  - intro E. exists (skipn (length p) q). rewrite <- E at 1. symmetry. apply firstn_skipn.
  - intros (r & ->). rewrite firstn_app, Nat.sub_diag, firstn_all, firstn_O. apply app_nil_r.
Qed.
Definition without (p : path) (dat : list (path * bytes)) : list (path * bytes) := filter (fun kv => negb (under p (fst kv))) dat.
Lemma get_without p q dat : get q (without p dat) = if under p q then None else get q dat.
Proof.
  unfold without. induction dat as [|[k b] dat IH]; cbn [filter fst get]; [destruct (under p q); reflexivity|]. destruct (under p k) eqn:U; cbn [negb get].
  - rewrite IH. destruct (eqb_spec q k) as [->|]; [rewrite U; reflexivity|reflexivity].
  - destruct (eqb_spec q k) as [->|]; [rewrite U; reflexivity|exact IH].
Qed.
Lemma dict_ok_without p dat : dict_ok dat -> dict_ok (without p dat).
Proof.
  unfold dict_ok, keys, without. induction dat as [|[k b] dat IH]; intro D; [constructor|]. cbn [filter fst]. inversion D as [|? ? D1 D2]; subst. destruct (under p k); cbn [negb]; [apply IH; exact D2|]. cbn [map fst]. constructor; [|apply IH; exact D2].
  intro I. apply D1. apply in_map_iff in I as ([k' b'] & E & I). apply filter_In in I as [I _]. apply in_map_iff. exists (k', b'). auto.
Qed.
Definition topOk (es : list (str * node)) : Prop := forall m, get nData es = Some m -> wf m /\ isdir m [] = true.
Lemma topOk_cut es q : topOk es -> exists es', cut (nData :: q) (Dir es) = Dir es' /\ (forall y, y <> nData -> get y es' = get y es) /\ topOk es'.
Proof.
  intro W. cbn [cut]. destruct q as [|c q].
  - eexists. split; [reflexivity|]. split; [intros y N; rewrite get_filter_name; destruct (eqb_spec nData y); [congruence|reflexivity]|]. intros m G. rewrite get_filter_name, eqb_refl in G. discriminate G.
  - destruct (get nData es) as [m|] eqn:G; [|exists es; split; [reflexivity|]; split; [reflexivity|exact W]]. eexists. split; [reflexivity|]. split; [intros y N; apply get_set_other; exact N|]. intros m' G'. rewrite get_set_same in G'. injection G' as <-. destruct (W _ G) as [Wm Dm]. split; [apply (ZipProofs.wf_cut (c :: q)); exact Wm|]. destruct m as [b|ds]; [discriminate Dm|]. destruct q; [reflexivity|]. cbn [cut]. destruct (get c ds); reflexivity.
Qed.
Lemma topOk_empty r : forall es t' e, removeEmpty (Dir es) (r ++ [nData]) = (t', e) -> topOk es -> exists es', t' = Dir es' /\ (forall y, y <> nData -> get y es' = get y es) /\ topOk es'.
Proof.
  assert (K : forall es q t1, removedir (Dir es) (nData :: q) = FOk t1 -> t1 = cut (nData :: q) (Dir es)).
  { intros es q t1 X. unfold removedir in X. destruct (find (Dir es) (nData :: q)) as [[b|[|]]|]; try discriminate X. injection X as <-. reflexivity. }
  induction r as [|c r IH]; intros es t' e H W.
  - cbn [app removeEmpty] in H. change (rev [nData]) with [nData] in H. destruct (removedir (Dir es) [nData]) as [t1|er] eqn:Rm.
    + apply K in Rm. subst t1. destruct (topOk_cut es [] W) as (es' & Ec & A). rewrite Ec in H. injection H as <- _. eauto.
    + destruct er; injection H as <- _; exists es; auto.
  - cbn [app removeEmpty] in H. assert (Rv : rev (c :: r ++ [nData]) = nData :: rev r ++ [c]) by (cbn [rev]; rewrite rev_app_distr; reflexivity). rewrite Rv in H. destruct (removedir (Dir es) (nData :: rev r ++ [c])) as [t1|er] eqn:Rm.
    + apply K in Rm. subst t1. destruct (topOk_cut es (rev r ++ [c]) W) as (es1 & Ec & Fr & W1). rewrite Ec in H. destruct (IH _ _ _ H W1) as (es' & -> & Fr' & W'). exists es'. split; [reflexivity|]. split; [intros y N; rewrite Fr' by exact N; apply Fr; exact N|exact W'].
    + destruct er; injection H as <- _; exists es; auto.
Qed.
Lemma data_remove p s s' es dat : p <> [] -> Forall plainName p -> tree s = Dir es -> dataIn dat (get nData es) -> removePath (dataPath p) false true s = (s', Ok tt) ->
  layers s' = layers s /\ exists es', tree s' = Dir es' /\ (forall y, y <> nData -> get y es' = get y es) /\ dataIn (without p dat) (get nData es').
Proof.
  intros N F E D H. pose proof (data_files _ _ D) as Df. split; [eapply removePath_layers; exact H|]. pose proof D as (Dk & Pl & Dn).
  assert (W : topOk es) by (intros m G; rewrite G in Dn; destruct m; [contradiction|]; split; [apply Dn|reflexivity]).
  assert (X : exists es', tree s' = Dir es' /\ (forall y, y <> nData -> get y es' = get y es) /\ topOk es').
  { unfold removePath in H. unfold mbind at 1, lift at 1 in H. rewrite (dataPath_components p F) in H. unfold mbind at 1, getTree at 1 in H. rewrite E in H. destruct (topOk_cut es p W) as (es1 & Ec & Fr & W1).
    match type of H with mbind _ ?f _ = _ => set (rest := f) in H end. unfold mbind at 1 in H.
    assert (Y : exists lg, rest tt (mkUst (Dir es1) lg (layers s) (remap s)) = (s', Ok tt)).
    { unfold remove, removetree in H. destruct (find (Dir es) (nData :: p)) as [[b|ds]|]; try discriminate H; rewrite Ec in H; unfold change at 1 in H; eexists; exact H. }
    destruct Y as (lg & Y). subst rest. clear H. rename Y into H. cbv iota in H. destruct (dataPath_dirname p N F) as [Dp Nd]. destruct (dirname (dataPath p)) as [|c r] eqn:Ed; [congruence|]. unfold mbind at 1, lift at 1 in H. rewrite Dp in H. unfold mbind at 1, getTree in H. cbn [tree] in H.
    assert (Rv : rev (nData :: removelast p) = rev (removelast p) ++ [nData]) by reflexivity. rewrite Rv in H. destruct (removeEmpty (Dir es1) (rev (removelast p) ++ [nData])) as [t' e] eqn:Re. apply topOk_empty in Re as (es' & -> & Fr' & W'); [|exact W1].
    unfold mbind, change in H. exists es'. assert (Z : tree s' = Dir es') by (destruct e; [discriminate H|]; apply (f_equal fst) in H; cbn [fst] in H; rewrite <- H; reflexivity). split; [exact Z|]. split; [intros y Ny; rewrite Fr' by exact Ny; apply Fr; exact Ny|exact W']. }
  destruct X as (es' & E' & Fr & W'). exists es'. split; [exact E'|]. split; [exact Fr|].
  destruct (C71_remove _ _ _ _ _ _ (dataPath_components p F) ltac:(discriminate) H) as (_ & Rb & Rf & Rd & _ & Re). rewrite E, E' in *. specialize (Re eq_refl).
  assert (Bl : forall q, below (nData :: p) (nData :: q) <-> below p q) by (intro q; split; intros (r & X); [injection X as X; exists r; exact X|exists r; cbn [app]; congruence]).
  assert (Fa : forall q, fileAt (Dir es') (nData :: q) = get q (without p dat)).
  { intro q. rewrite get_without. destruct (under p q) eqn:U.
    - apply under_below, Bl, Rb in U. unfold existsAt in U. unfold FS.fileAt. destruct (find (Dir es') (nData :: q)); [discriminate U|reflexivity].
    - rewrite Rf; [apply Df|]. intro X. apply (proj1 (Bl q)), under_below in X. congruence. }
  split; [apply dict_ok_without; exact Dk|]. split; [intros q b G; rewrite get_without in G; destruct (under p q); [discriminate G|]; eapply Pl; exact G|].
  destruct (get nData es') as [[b|ds]|] eqn:G'.
  - destruct (W' _ G') as [_ X]. discriminate X.
  - destruct (W' _ G') as [Wd _]. split; [exact Wd|]. assert (Eq : forall q, find (Dir ds) q = find (Dir es') (nData :: q)) by (intro q; rewrite find_below, G'; reflexivity).
    split; [intro q; rewrite <- Fa; unfold FS.fileAt; rewrite Eq; reflexivity|].
    assert (St : forall k q, (length p <= k + length q)%nat -> isdir (Dir es') (nData :: q) = true -> q <> [] -> exists r b, get (q ++ r) (without p dat) = Some b).
    { induction k as [|k IH]; intros q Lq Dq Nq.
      - pose proof (Rd _ Dq) as Dq'. assert (Y : exists r b, get (q ++ r) dat = Some b).
        { unfold isdir in Dq'. rewrite find_below in Dq'. destruct (get nData es) as [[y|ds0]|]; [contradiction| |discriminate Dq']. apply (proj2 (proj2 Dn)); assumption. }
        destruct Y as (r & b & Y). exists r, b. rewrite get_without. destruct (under p (q ++ r)) eqn:U; [exfalso|exact Y]. apply under_below in U as (r' & U). assert (Bq : below p q).
        { exists (skipn (length p) q). rewrite <- (firstn_skipn (length p) q) at 1. f_equal. apply (f_equal (firstn (length p))) in U. rewrite firstn_app in U. replace (length p - length q)%nat with 0%nat in U by lia. rewrite firstn_O, app_nil_r in U. rewrite U. rewrite firstn_app, Nat.sub_diag, firstn_all, firstn_O. apply app_nil_r. }
        apply Bl, Rb in Bq. unfold existsAt in Bq. unfold isdir in Dq. destruct (find (Dir es') (nData :: q)); discriminate.
      - destruct (under p q) eqn:Uq; [apply under_below, Bl, Rb in Uq; unfold existsAt in Uq; unfold isdir in Dq; destruct (find (Dir es') (nData :: q)); discriminate|].
        destruct (under q p) eqn:Up.
        + apply under_below in Up. assert (Bq : below (nData :: q) (nData :: p)) by (destruct Up as (r & ->); exists r; reflexivity). destruct (Re (nData :: q) ltac:(discriminate) ltac:(intro X; injection X as ->; rewrite (proj2 (under_below p p)) in Uq; [discriminate Uq|exists []; rewrite app_nil_r; reflexivity]) Bq Dq) as (x & Ex).
          change ((nData :: q) ++ [x]) with (nData :: (q ++ [x])) in Ex. unfold existsAt in Ex. destruct (find (Dir es') (nData :: q ++ [x])) as [[b|ds']|] eqn:Fx; [| |discriminate Ex].
          * exists [x], b. rewrite <- Fa. unfold FS.fileAt. rewrite Fx. reflexivity.
          * destruct (IH (q ++ [x])) as (r & b & Y); [rewrite app_length; cbn; lia|unfold isdir; rewrite Fx; reflexivity|destruct q; discriminate|]. exists (x :: r), b. rewrite <- app_assoc in Y. exact Y.
        + pose proof (Rd _ Dq) as Dq'. assert (Y : exists r b, get (q ++ r) dat = Some b).
          { unfold isdir in Dq'. rewrite find_below in Dq'. destruct (get nData es) as [[y|ds0]|]; [contradiction| |discriminate Dq']. apply (proj2 (proj2 Dn)); assumption. }
          destruct Y as (r & b & Y). exists r, b. rewrite get_without. destruct (under p (q ++ r)) eqn:U; [exfalso|exact Y]. apply under_below in U as (r' & U).
          assert (C : below p q \/ below q p).
          { clear -U. revert q r r' U. induction p as [|a p IH]; intros q r r' U; [left; exists q; reflexivity|]. destruct q as [|b q]; [right; exists (a :: p); reflexivity|]. injection U as -> U. destruct (IH q r r' U) as [(z & ->)|(z & ->)]; [left|right]; exists z; reflexivity. }
          destruct C as [C|C]; apply under_below in C; congruence. }
    intros q Nq Dq. apply (St (length p) q); [lia| |exact Nq]. unfold isdir in *. rewrite <- Eq. exact Dq.
  - assert (Z : forall q, get q (without p dat) = None) by (intro q; rewrite <- Fa; unfold FS.fileAt; rewrite find_below, G'; reflexivity). destruct (without p dat) as [|[k b] l]; [reflexivity|]. specialize (Z k). cbn [get] in Z. rewrite eqb_refl in Z. discriminate Z.
Qed.
(** a write that nothing is in the way of *)
Lemma data_total prev p b s es dat : p <> [] -> Forall plainName p -> tree s = Dir es -> dataIn dat (get nData es) ->
  (forall q x, get q dat = Some x -> below q p \/ below p q -> q = p) -> exists s', writeBytesToPath prev (dataPath p) b s = (s', Ok tt).
Proof.
  intros N F E D Fr. pose proof (data_files _ _ D) as Df. destruct D as (Dk & Pl & D). apply C71_write_succeeds.
  - exists es. exact E.
  - discriminate.
  - intros c [<-|I]; [exact data_plain|]. rewrite Forall_forall in F. apply F. exact I.
  - rewrite E. destruct (isdir (Dir es) (nData :: p)) eqn:X; [exfalso|reflexivity]. unfold isdir in X. rewrite find_below in X. destruct (get nData es) as [[y|ds]|]; [contradiction| |discriminate X]. destruct D as (_ & H & D). destruct (D p N X) as (r & x & G). assert (Y : p ++ r = p) by (eapply Fr; [exact G|right; exists r; reflexivity]). rewrite Y, <- H in G. unfold FS.fileAt in G. destruct (find (Dir ds) p) as [[]|]; discriminate.
  - intros q (r & Eq) Nq. rewrite E. destruct q as [|c q]; [reflexivity|]. cbn [app] in Eq. injection Eq as <- Eq. destruct (isfile (Dir es) (nData :: q)) eqn:X; [exfalso|reflexivity]. unfold isfile in X. specialize (Df q). unfold FS.fileAt in Df. destruct (find (Dir es) (nData :: q)) as [[x|]|]; try discriminate X. symmetry in Df. apply Nq. f_equal. eapply Fr; [exact Df|left; exists r; exact Eq].
Qed.
(** removing what is there *)
Lemma isdir_up q r t : isdir t (q ++ r) = true -> isdir t q = true \/ r = [].
Proof.
  unfold isdir. rewrite find_app. destruct (find t q) as [[b|es]|]; [|left; reflexivity|discriminate]. destruct r; [right; reflexivity|discriminate].
Qed.
Lemma removeEmpty_total p : forall t, isdir t (rev p) = true -> exists t', removeEmpty t p = (t', None).
Proof.
  induction p as [|c p IH]; intros t D; cbn [removeEmpty]; [eauto|]. unfold removedir. pose proof D as D'. unfold isdir in D'. destruct (find t (rev (c :: p))) as [[b|es]|]; try discriminate D'. destruct es as [|x es]; [|eauto]. apply IH.
  cbn [rev] in *. destruct (isdir_up _ _ _ D) as [U|U]; [|discriminate U]. rewrite kind_isdir in *. rewrite kind_cut by (destruct (rev p); discriminate).
  destruct (strip (rev p ++ [c]) (rev p)) as [r|] eqn:S; [|exact U]. exfalso. apply strip_Some in S. apply (f_equal (@length str)) in S. rewrite !app_length in S. cbn in S. lia.
Qed.
Lemma removePath_total str pre x s : components str = Ok (pre ++ [x]) -> components (dirname str) = Ok pre -> dirname str <> [] -> existsAt (tree s) (pre ++ [x]) = true ->
  exists s', removePath str false true s = (s', Ok tt).
Proof.
  intros Cs Cd Nd Ex. unfold removePath. unfold mbind at 1, lift at 1. rewrite Cs. unfold mbind at 1, getTree at 1.
  assert (Up : isdir (tree s) pre = true).
  { unfold existsAt in Ex. rewrite find_app in Ex. unfold isdir. destruct (find (tree s) pre) as [[b|es]|]; [discriminate Ex|reflexivity|discriminate Ex]. }
  assert (Rest : forall lg, exists s', (match dirname str with [] => ret tt | parent =>
      let! ps := lift (components parent) in let! t := getTree in let '(t', e) := removeEmpty t (rev ps) in let! _ := change (ORemove ps) t' in match e with None => ret tt | Some _ => raise FSError end end)
      (mkUst (cut (pre ++ [x]) (tree s)) lg (layers s) (remap s)) = (s', Ok tt)).
  { intro lg. destruct (dirname str) as [|c r]; [congruence|]. unfold mbind at 1, lift. rewrite Cd. unfold mbind at 1, getTree. cbn [tree].
    destruct (removeEmpty_total (rev pre) (cut (pre ++ [x]) (tree s))) as (t' & ->); [|eexists; reflexivity].
    rewrite rev_involutive. rewrite kind_isdir in *. rewrite kind_cut by (destruct pre; discriminate). destruct (strip (pre ++ [x]) pre) as [z|] eqn:S; [|exact Up]. exfalso. apply strip_Some in S. apply (f_equal (@length (list N))) in S. rewrite !app_length in S. cbn in S. lia. }
  unfold existsAt in Ex. unfold remove, removetree. destruct (find (tree s) (pre ++ [x])) as [[b|es]|]; [| |discriminate Ex]; unfold mbind at 1, change at 1; apply Rest.
Qed.
Lemma data_remove_total p s es dat q b : p <> [] -> Forall plainName p -> tree s = Dir es -> dataIn dat (get nData es) -> get q dat = Some b -> below p q ->
  exists s', removePath (dataPath p) false true s = (s', Ok tt).
Proof.
  intros N F E D G (r & ->). pose proof (data_files _ _ D) as Df. destruct (dataPath_dirname p N F) as [Dp Nd]. pose proof (app_removelast_last [] N) as El.
  apply (removePath_total _ (nData :: removelast p) (last p [])).
  - change ((nData :: removelast p) ++ [last p []]) with (nData :: (removelast p ++ [last p []])). rewrite <- El. apply dataPath_components. exact F.
  - exact Dp.
  - exact Nd.
  - change ((nData :: removelast p) ++ [last p []]) with (nData :: (removelast p ++ [last p []])). rewrite <- El. specialize (Df (p ++ r)). rewrite G in Df. unfold FS.fileAt in Df. change (nData :: p ++ r) with ((nData :: p) ++ r) in Df. rewrite find_app in Df. rewrite E. unfold existsAt. destruct (find (Dir es) (nData :: p)); [reflexivity|discriminate Df].
Qed.
