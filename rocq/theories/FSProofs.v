(** Lemmas about the file system model. *)
From Coq Require Import String NArith ZArith Bool Lia List.
From Verif Require Import Base FS.
Import ListNotations.
Local Open Scope list_scope.

(** the kind of the node at a path: a file with its content, a directory, nothing *)
Definition kindOf (n : node) : option bytes := match n with File b => Some b | Dir _ => None end.
Definition kind (t : node) (p : path) : option (option bytes) := option_map kindOf (find t p).
(** the rest of [q] after [p] *)
Fixpoint strip (p q : path) : option path :=
  match p, q with
  | [], _ => Some q
  | a :: p', b :: q' => if eqb a b then strip p' q' else None
  | _ :: _, [] => None
  end.

Lemma strip_Some p q r : strip p q = Some r <-> q = p ++ r.
Proof.
  revert q; induction p as [|a p IH]; intro q; cbn.
  - split; [intro H; inversion H; reflexivity|intros ->; reflexivity].
  - destruct q as [|b q]; [split; discriminate|]. destruct (eqb_spec a b) as [->|n].
    + rewrite IH. split; [intros ->; reflexivity|intro H; inversion H; reflexivity].
    + split; [discriminate|intro H; inversion H; congruence].
Qed.
Lemma strip_None p q : strip p q = None <-> ~ below p q.
Proof.
  destruct (strip p q) as [r|] eqn:E.
  - apply strip_Some in E. split; [discriminate|]. intro H. exfalso. apply H. exists r. exact E.
  - split; [|reflexivity]. intros _ (r & H). apply strip_Some in H. congruence.
Qed.
Lemma strip_self p : strip p p = Some [].
Proof. apply strip_Some. symmetry. apply app_nil_r. Qed.

Lemma find_app t p q : find t (p ++ q) = match find t p with Some n => find n q | None => None end.
Proof.
  revert t; induction p as [|c p IH]; intro t; cbn [app find]; [reflexivity|].
  destruct t as [b|es]; [reflexivity|]. destruct (get c es) as [n|]; [apply IH|reflexivity].
Qed.
Lemma find_file b q : find (File b) q = match q with [] => Some (File b) | _ => None end.
Proof. destruct q; reflexivity. Qed.
Lemma kind_cons c q es : kind (Dir es) (c :: q) = match get c es with Some n => kind n q | None => None end.
Proof. unfold kind. cbn [find]. destruct (get c es); reflexivity. Qed.
Lemma kind_nil t : kind t [] = Some (kindOf t).
Proof. reflexivity. Qed.

Lemma put_find p n t t' : put p n t = Some t' -> find t' p = Some n.
Proof.
  revert t t'; induction p as [|c p IH]; intros t t' H; cbn [put] in H; [inversion H; reflexivity|].
  destruct t as [b|es]; [discriminate|]. destruct p as [|c' p].
  - inversion H; subst. cbn [find]. rewrite get_set_same. reflexivity.
  - destruct (get c es) as [m|]; [|discriminate]. destruct (put (c' :: p) n m) as [m'|] eqn:E; [|discriminate].
    inversion H; subst. cbn [find]. rewrite get_set_same. exact (IH _ _ E).
Qed.
Lemma kind_put p n t t' q : put p n t = Some t' ->
  kind t' q = match strip p q with Some r => kind n r | None => kind t q end.
Proof.
  revert t t' q; induction p as [|c p IH]; intros t t' q H; cbn [put] in H; [inversion H; reflexivity|].
  destruct t as [b|es]; [discriminate|]. destruct p as [|c' p].
  - inversion H; subst. destruct q as [|d q]; [reflexivity|]. rewrite !kind_cons, get_set. cbn [strip].
    destruct (eqb_spec d c) as [->|N]; [rewrite eqb_refl; reflexivity|].
    destruct (eqb_spec c d); [congruence|reflexivity].
  - destruct (get c es) as [m|] eqn:G; [|discriminate]. destruct (put (c' :: p) n m) as [m'|] eqn:E; [|discriminate].
    inversion H; subst. destruct q as [|d q]; [reflexivity|]. rewrite !kind_cons, get_set.
    change (strip (c :: c' :: p) (d :: q)) with (if eqb c d then strip (c' :: p) q else None).
    destruct (eqb_spec d c) as [->|N].
    + rewrite eqb_refl, G. apply IH. exact E.
    + destruct (eqb_spec c d); [congruence|reflexivity].
Qed.
Lemma get_filter c d (es : list (str * node)) :
  get d (filter (fun e => negb (eqb c (fst e))) es) = if eqb d c then None else get d es.
Proof.
  induction es as [|[k n] es IH]; cbn [filter get fst]; [destruct (eqb d c); reflexivity|].
  destruct (eqb_spec c k) as [->|N]; cbn [negb get].
  - rewrite IH. destruct (eqb_spec d k); reflexivity.
  - rewrite IH. destruct (eqb_spec d k) as [->|N2].
    + destruct (eqb_spec k c); [congruence|reflexivity].
    + reflexivity.
Qed.
Lemma kind_cut p t q : p <> [] ->
  kind (cut p t) q = match strip p q with Some _ => None | None => kind t q end.
Proof.
  revert t q; induction p as [|c p IH]; intros t q NE; [congruence|]. clear NE. cbn [cut].
  destruct t as [b|es].
  - destruct q as [|d q]; [reflexivity|]. cbn [strip]. unfold kind. cbn [find option_map].
    destruct (eqb c d); [destruct (strip p q)|]; reflexivity.
  - destruct p as [|c' p].
    + destruct q as [|d q]; [reflexivity|]. rewrite !kind_cons, get_filter. cbn [strip].
      destruct (eqb_spec d c) as [->|N]; [rewrite eqb_refl; reflexivity|].
      destruct (eqb_spec c d); [congruence|reflexivity].
    + destruct (get c es) as [m|] eqn:G.
      * destruct q as [|d q]; [reflexivity|]. rewrite !kind_cons, get_set.
        change (strip (c :: c' :: p) (d :: q)) with (if eqb c d then strip (c' :: p) q else None).
        destruct (eqb_spec d c) as [->|N].
        { rewrite eqb_refl, G. apply IH. discriminate. }
        destruct (eqb_spec c d); [congruence|reflexivity].
      * destruct q as [|d q]; [reflexivity|]. rewrite !kind_cons.
        change (strip (c :: c' :: p) (d :: q)) with (if eqb c d then strip (c' :: p) q else None).
        destruct (eqb_spec c d) as [->|N]; [|reflexivity]. rewrite G. destruct (strip (c' :: p) q); reflexivity.
Qed.
Lemma kind_mkdirs p t t' q : mkdirs p t = Some t' ->
  kind t' q = match strip q p with Some _ => Some None | None => kind t q end.
Proof.
  revert t t' q; induction p as [|c p IH]; intros t t' q H; cbn [mkdirs] in H.
  - destruct t as [b|es]; [discriminate|]. inversion H; subst. destruct q; reflexivity.
  - destruct t as [b|es]; [discriminate|].
    destruct (mkdirs p _) as [m|] eqn:E; [|discriminate]. inversion H; subst.
    destruct q as [|d q]; [reflexivity|]. rewrite !kind_cons, get_set. cbn [strip].
    destruct (eqb_spec d c) as [->|N]; [|reflexivity].
    rewrite (IH _ _ q E). destruct (strip q p) eqn:S; [reflexivity|].
    destruct (get c es); [reflexivity|]. destruct q; [discriminate S|reflexivity].
Qed.
Lemma mkdirs_Some p t : (forall q, below q p -> fileAt t q = None) -> exists t', mkdirs p t = Some t'.
Proof.
  revert t; induction p as [|c p IH]; intros t H; cbn [mkdirs].
  - destruct t as [b|es]; [|eauto]. specialize (H [] (ex_intro _ [] eq_refl)). discriminate H.
  - destruct t as [b|es]; [specialize (H [] (ex_intro _ (c :: p) eq_refl)); discriminate H|].
    destruct (IH (match get c es with Some n => n | None => Dir [] end)) as (m & ->); [|eauto].
    intros q (r & ->). specialize (H (c :: q) (ex_intro _ r eq_refl)). unfold fileAt in *. cbn [find] in H.
    destruct (get c es); [exact H|]. destruct q; reflexivity.
Qed.
Lemma mkdirs_None p t : mkdirs p t = None -> exists q, below q p /\ fileAt t q <> None.
Proof.
  revert t; induction p as [|c p IH]; intros t H; cbn [mkdirs] in H.
  - destruct t as [b|es]; [|discriminate]. exists []. split; [exists []; reflexivity|discriminate].
  - destruct t as [b|es]; [exists []; split; [exists (c :: p); reflexivity|discriminate]|].
    destruct (mkdirs p _) as [m|] eqn:E; [discriminate|]. apply IH in E as (q & (r & ->) & F).
    exists (c :: q). split; [exists r; reflexivity|]. unfold fileAt in *. cbn [find]. destruct (get c es); [exact F|].
    destruct q; exact F.
Qed.

Lemma kind_fileAt t p : fileAt t p = match kind t p with Some (Some b) => Some b | _ => None end.
Proof. unfold fileAt, kind. destruct (find t p) as [[b|es]|]; reflexivity. Qed.
Lemma kind_isdir t p : isdir t p = match kind t p with Some None => true | _ => false end.
Proof. unfold isdir, kind. destruct (find t p) as [[b|es]|]; reflexivity. Qed.
Lemma kind_isfile t p : isfile t p = match kind t p with Some (Some _) => true | _ => false end.
Proof. unfold isfile, kind. destruct (find t p) as [[b|es]|]; reflexivity. Qed.
Lemma kind_exists t p : existsAt t p = match kind t p with Some _ => true | _ => false end.
Proof. unfold existsAt, kind. destruct (find t p) as [[b|es]|]; reflexivity. Qed.
Lemma getbytes_kind t p : getbytes t p = match kind t p with
  | Some (Some b) => FOk b | Some None => FErr FileExpected | None => FErr ResourceNotFound end.
Proof. unfold getbytes, kind. destruct (find t p) as [[b|es]|]; reflexivity. Qed.

(** put succeeds when the parent is a directory *)
Lemma put_Some p c n t : isdir t p = true -> exists t', put (p ++ [c]) n t = Some t'.
Proof.
  revert t; induction p as [|d p IH]; intros t H.
  - destruct t as [b|es]; [discriminate H|]. cbn. eauto.
  - cbn [app]. destruct t as [b|es]; [discriminate H|]. unfold isdir in H. cbn [find] in H.
    destruct (get d es) as [m|] eqn:G; [|discriminate]. apply IH in H as (m' & E).
    cbn [put]. rewrite G, E. destruct (p ++ [c]) eqn:Q; [destruct p; discriminate|]. eauto.
Qed.
Lemma put_parent p c n t t' : put (p ++ [c]) n t = Some t' -> isdir t p = true.
Proof.
  revert t t'; induction p as [|d p IH]; intros t t' H.
  - destruct t as [b|es]; [discriminate H|reflexivity].
  - cbn [app] in H. destruct t as [b|es]; [discriminate H|]. cbn [put] in H.
    destruct (p ++ [c]) eqn:Q; [destruct p; discriminate|]. rewrite <- Q in *.
    destruct (get d es) as [m|] eqn:G; [|discriminate]. destruct (put (p ++ [c]) n m) eqn:E; [|discriminate].
    apply IH in E. unfold isdir in *. cbn [find]. rewrite G. exact E.
Qed.
(** above something there are only directories *)
Lemma kind_above t p r : kind t (p ++ r) <> None -> r <> [] -> kind t p = Some None.
Proof.
  unfold kind. rewrite find_app. destruct (find t p) as [[b|es]|]; cbn; try congruence.
  destruct r; [congruence|]. cbn. congruence.
Qed.

(** ** setbytes *)
Lemma setbytes_FOk t p b t' : setbytes t p b = FOk t' ->
  kind t p <> Some None /\ p <> [] \/ kind t p <> Some None.
Proof. intro H. right. unfold setbytes in H. unfold kind. destruct (find t p) as [[x|es]|]; cbn; congruence. Qed.
Lemma kind_setbytes t p b t' q : setbytes t p b = FOk t' ->
  kind t' q = if eqb q p then Some (Some b) else kind t q.
Proof.
  unfold setbytes. intro H.
  assert (K : match find t p with Some (Dir _) => False | _ => True end) by (destruct (find t p) as [[x|es]|]; [exact I|discriminate|exact I]).
  assert (P : put p (File b) t = Some t') by (destruct (find t p) as [[x|es]|]; [|contradiction|]; destruct (put p (File b) t); congruence).
  rewrite (kind_put _ _ _ _ _ P). destruct (strip p q) as [r|] eqn:S.
  - apply strip_Some in S as ->. destruct r as [|c r].
    + rewrite app_nil_r, eqb_refl. reflexivity.
    + destruct (eqb_spec (p ++ c :: r) p) as [E|_].
      { rewrite <- (app_nil_r p) in E at 2. apply app_inv_head in E. discriminate. }
      unfold kind. rewrite find_app. destruct (find t p) as [[x|es]|]; [reflexivity|contradiction|reflexivity].
  - destruct (eqb_spec q p) as [->|_]; [rewrite strip_self in S; discriminate|reflexivity].
Qed.
Lemma setbytes_ok t p c b : isdir t p = true -> isdir t (p ++ [c]) = false -> exists t', setbytes t (p ++ [c]) b = FOk t'.
Proof.
  intros H K. unfold setbytes. destruct (put_Some p c (File b) t H) as (t' & E). rewrite E.
  unfold isdir in K. destruct (find t (p ++ [c])) as [[x|es]|]; [eauto|discriminate|eauto].
Qed.
(** [setbytes] at the top level of a directory *)
Lemma setbytes_top es c b : isdir (Dir es) [c] = false -> setbytes (Dir es) [c] b = FOk (Dir (set c (File b) es)).
Proof.
  intro K. unfold setbytes. cbn [put]. unfold isdir in K. destruct (find (Dir es) [c]) as [[x|ds]|]; [reflexivity|discriminate|reflexivity].
Qed.
Lemma setbytes_errs t p b e : setbytes t p b = FErr e ->
  (e = FileExpected /\ isdir t p = true) \/ (e = ResourceNotFound /\ kind t p <> Some None).
Proof.
  unfold setbytes, isdir, kind. destruct (find t p) as [[x|es]|]; cbn.
  - destruct (put p (File b) t); [discriminate|]. intro H. inversion H. right. split; [reflexivity|discriminate].
  - intro H. inversion H. left. auto.
  - destruct (put p (File b) t); [discriminate|]. intro H. inversion H. right. split; [reflexivity|discriminate].
Qed.

(** ** path strings *)
Lemma normComps_plain cs acc : (forall c, In c cs -> c <> [] /\ c <> u "." /\ c <> u "..") ->
  normComps cs acc = Ok (rev acc ++ cs).
Proof.
  revert acc; induction cs as [|c cs IH]; intros acc H; cbn [normComps]; [rewrite app_nil_r; reflexivity|].
  destruct (H c (or_introl eq_refl)) as (A & B & C).
  destruct (eqb_spec c []); [contradiction|]. destruct (eqb_spec c (u ".")); [contradiction|]. cbn [orb].
  destruct (eqb_spec c (u "..")); [contradiction|].
  rewrite IH by (intros x I; apply H; right; exact I). cbn [rev]. rewrite <- app_assoc. reflexivity.
Qed.
(** a name that is a single path component *)
Definition plainName (c : str) : Prop := ~ In slash c /\ c <> [] /\ c <> u "." /\ c <> u "..".
Lemma components_plain c : plainName c -> components c = Ok [c].
Proof.
  intros (NS & H). unfold components. rewrite split1_none by exact NS. rewrite normComps_plain; [reflexivity|].
  intros x [<-|[]]. exact H.
Qed.
Lemma components_join cs : cs <> [] -> (forall c, In c cs -> plainName c) -> components (join [slash] cs) = Ok cs.
Proof.
  intros NE H. unfold components. rewrite split1_join; [|exact NE|intros c I; apply H; exact I].
  rewrite normComps_plain; [reflexivity|]. intros c I. apply H in I. unfold plainName in I. tauto.
Qed.
Lemma normComps_ok cs acc r : normComps cs acc = Ok r ->
  (forall c, In c acc -> c <> [] /\ c <> u "." /\ c <> u "..") -> (forall c, In c r -> (In c cs \/ In c acc) /\ c <> [] /\ c <> u "." /\ c <> u "..").
Proof.
  revert acc; induction cs as [|c cs IH]; intros acc H A; cbn [normComps] in H.
  - inversion H. intros x I. apply in_rev in I. split; [auto|auto].
  - destruct (eqb_spec c []) as [->|N1]; [cbn [orb] in H|].
    { intros x I. destruct (IH _ H A x I) as [[J|J] K]; [split; [left; right; exact J|exact K]|split; [right; exact J|exact K]]. }
    destruct (eqb_spec c (u ".")) as [->|N2]; [cbn [orb] in H|].
    { intros x I. destruct (IH _ H A x I) as [[J|J] K]; [split; [left; right; exact J|exact K]|split; [right; exact J|exact K]]. }
    cbn [orb] in H. destruct (eqb_spec c (u "..")) as [->|N3].
    { destruct acc as [|a acc]; [discriminate|]. intros x I.
      destruct (IH _ H (fun y Iy => A y (or_intror Iy)) x I) as [[J|J] K];
        [split; [left; right; exact J|exact K]|split; [right; right; exact J|exact K]]. }
    intros x I. destruct (IH (c :: acc) H) with (c := x) as [[J|[<-|J]] K]; auto.
    { intros y [<-|Iy]; [auto|apply A; exact Iy]. }
    { split; [left; right; exact J|exact K]. }
    { split; [left; left; reflexivity|exact K]. }
Qed.
Lemma components_parts p cs c : components p = Ok cs -> In c cs -> c <> [] /\ ~ In slash c.
Proof.
  unfold components. intros H I. eapply normComps_ok in H; [|intros x []|exact I]. destruct H as [[H|[]] (N & _)].
  split; [exact N|]. apply (split1_no_sep slash p c H).
Qed.

(** ** more about directories and paths *)
Lemma mkdirs_files p t t' q b : mkdirs p t = Some t' -> below q p -> kind t q <> Some (Some b).
Proof.
  revert t t' q; induction p as [|c p IH]; intros t t' q H (r & E).
  - symmetry in E. apply app_eq_nil in E as [-> ->]. cbn [mkdirs] in H. destruct t; [discriminate|]. cbn. discriminate.
  - cbn [mkdirs] in H. destruct t as [x|es]; [discriminate|]. destruct q as [|c' q]; [cbn; discriminate|].
    inversion E; subst c' p. rewrite kind_cons. destruct (mkdirs (q ++ r) _) as [m|] eqn:M; [|discriminate].
    destruct (get c es) as [n|]; [|discriminate]. eapply IH; [exact M|]. exists r. reflexivity.
Qed.
Lemma normComps_app a b acc : normComps (a ++ b) acc = match normComps a acc with Ok r => normComps b (rev r) | Err e => Err e end.
Proof.
  revert acc; induction a as [|c a IH]; intro acc; cbn [app normComps].
  - rewrite rev_involutive. reflexivity.
  - destruct (eqb c [] || eqb c (u ".")); [apply IH|]. destruct (eqb c (u "..")); [|apply IH].
    destruct acc as [|x acc]; [reflexivity|apply IH].
Qed.
(** how the components of a path and of its directory are related *)
Lemma components_dirname p cs : components p = Ok cs ->
  exists ps, components (dirname p) = Ok ps /\ (cs = ps \/ (exists c, cs = ps ++ [c]) \/ (exists c, ps = cs ++ [c])).
Proof.
  unfold components, dirname. intro H. pose proof (split1_nonempty slash p) as NE.
  destruct (rev (split1 slash p)) as [|l r] eqn:E.
  - apply (f_equal (@rev _)) in E. rewrite rev_involutive in E. contradiction.
  - apply (f_equal (@rev _)) in E. rewrite rev_involutive in E. cbn [rev] in E. rewrite E, normComps_app in H.
    destruct (normComps (rev r) []) as [ps|] eqn:N; [|discriminate]. exists ps.
    split.
    + destruct r as [|x r]; [cbn in N |- *; inversion N; reflexivity|].
      assert (S : split1 slash (join [slash] (rev (x :: r))) = rev (x :: r)).
      { apply split1_join; [cbn [rev]; destruct (rev r); discriminate|]. intros y I. apply (split1_no_sep slash p y). rewrite E. apply in_or_app. left. exact I. }
      destruct (join [slash] (rev (x :: r))) as [|c d] eqn:J.
      * rewrite <- S in N. cbn in N |- *. inversion N. reflexivity.
      * rewrite S. exact N.
    + cbn [normComps] in H. destruct (eqb l [] || eqb l (u ".")); [inversion H; left; apply rev_involutive|].
      destruct (eqb l (u "..")).
      * destruct (rev ps) as [|c q] eqn:R; [discriminate|]. inversion H; subst. right. right. exists c.
        apply (f_equal (@rev _)) in R. rewrite rev_involutive in R. exact R.
      * right. left. exists l. inversion H. cbn [rev]. rewrite rev_involutive. reflexivity.
Qed.
Lemma dirname_join cs c : cs <> [] -> (forall x, In x (cs ++ [c]) -> plainName x) -> dirname (join [slash] (cs ++ [c])) = join [slash] cs.
Proof.
  intros NE H. unfold dirname. rewrite split1_join; [|destruct cs; discriminate|intros x I; apply H; exact I].
  rewrite rev_app_distr. cbn [rev app]. destruct (rev cs) as [|x r] eqn:R.
  - apply (f_equal (@rev _)) in R. rewrite rev_involutive in R. contradiction.
  - rewrite <- R, rev_involutive. destruct (join [slash] cs) as [|y z] eqn:J; [|reflexivity].
    destruct cs as [|d cs]; [contradiction|]. destruct (H d (or_introl eq_refl)) as (_ & N & _).
    destruct d; [congruence|]. destruct cs; discriminate J.
Qed.
(** what fs.tools.remove_empty leaves: [a] is the remaining part of the path *)
Lemma removeEmpty_spec p t t' : removeEmpty t p = (t', None) ->
  exists a b, rev p = a ++ b /\
  (a <> [] -> exists x, kind t' (a ++ [x]) <> None) /\
  match b with
  | [] => t' = t
  | c :: _ => (forall q, kind t' q = match FSProofs.strip (a ++ [c]) q with Some _ => None | None => kind t q end) /\
              (forall q, below (a ++ [c]) q -> kind t q <> None -> below q (rev p))
  end.
Proof.
  revert t t'; induction p as [|x p IH]; intros t t' H; cbn [removeEmpty] in H.
  - inversion H; subst. exists [], []. split; [reflexivity|]. split; [congruence|reflexivity].
  - unfold removedir in H. destruct (find t (rev (x :: p))) as [[bs|es]|] eqn:F; [discriminate H| |discriminate H].
    destruct es as [|[k n] es].
    + assert (NE : rev (x :: p) <> []) by (cbn [rev]; destruct (rev p); discriminate).
      assert (K1 : forall q, kind (cut (rev (x :: p)) t) q = match strip (rev (x :: p)) q with Some _ => None | None => kind t q end) by (intro; apply kind_cut; exact NE).
      assert (Leaf : forall q, below (rev (x :: p)) q -> kind t q <> None -> q = rev (x :: p)).
      { intros q (r & ->) N. unfold kind in N. rewrite find_app, F in N. destruct r; [apply app_nil_r|]. cbn in N. congruence. }
      destruct (IH _ _ H) as (a & b & E & Non & B). destruct b as [|c b].
      * rewrite app_nil_r in E. subst a t'. exists (rev p), [x]. split; [reflexivity|]. split; [exact Non|]. split; [exact K1|].
        intros q Bq N. rewrite (Leaf q Bq N). exists []. symmetry. apply app_nil_r.
      * destruct B as [B1 B2]. exists a, ((c :: b) ++ [x]). cbn [app]. split; [cbn [rev]; rewrite E, <- app_assoc; reflexivity|].
        split; [exact Non|]. split.
        -- intro q. rewrite B1, K1. destruct (strip (a ++ [c]) q) as [r|] eqn:S; [reflexivity|].
           destruct (strip (rev (x :: p)) q) as [r|] eqn:S'; [|reflexivity]. exfalso.
           apply strip_Some in S'. apply strip_None in S. apply S. exists (b ++ [x] ++ r). rewrite S'. cbn [rev]. rewrite E, <- !app_assoc. reflexivity.
        -- intros q Bq N. destruct (strip (rev (x :: p)) q) as [r|] eqn:S'.
           ++ apply strip_Some in S'. rewrite (Leaf q (ex_intro _ r S') N). exists []. symmetry. apply app_nil_r.
           ++ destruct (B2 q Bq) as (r & R); [rewrite K1, S'; exact N|]. exists (r ++ [x]). cbn [rev]. rewrite R, <- app_assoc. reflexivity.
    + inversion H; subst. exists (rev (x :: p)), []. split; [symmetry; apply app_nil_r|]. split; [|reflexivity].
      intros _. exists k. unfold kind. rewrite find_app, F. cbn [find]. unfold get at 1. cbn [get]. rewrite eqb_refl. discriminate.
Qed.
