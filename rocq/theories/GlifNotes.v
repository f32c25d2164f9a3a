(** The lines of a note. *)
From Coq Require Import String NArith ZArith Bool Lia List.
From Coq.Floats Require Import SpecFloat.
From Verif Require Import Base PyVal PyText FloatRepr Xml FS Ufo Plist Etree Validators PointPen Glif.
Import ListNotations.
Local Open Scope string_scope.
Local Open Scope list_scope.

Section Strip.
Variable sp : N -> bool.
Definition blank (s : str) : Prop := forallb sp s = true.
(** [r] is [s] without the white space around it *)
Definition trimmed (s r : str) : Prop :=
  exists a b, s = a ++ r ++ b /\ blank a /\ blank b /\ (match r with [] => True | c :: _ => sp c = false end) /\ (match rev r with [] => True | c :: _ => sp c = false end).
Lemma lstrip_spec s : exists a, s = a ++ lstrip sp s /\ blank a /\ match lstrip sp s with [] => True | c :: _ => sp c = false end.
Proof.
  induction s as [|c s (a & E & B & H)]; [exists []; repeat split|]. cbn [lstrip]. destruct (sp c) eqn:S.
  - exists (c :: a). split; [cbn [app]; f_equal; exact E|]. split; [unfold blank; cbn [forallb]; rewrite S; exact B|exact H].
  - exists []. split; [reflexivity|]. split; [reflexivity|exact S].
Qed.
Lemma blank_rev s : blank s -> blank (rev s).
Proof. unfold blank. rewrite !forallb_forall. intros H x I. apply H. apply in_rev. exact I. Qed.
Lemma blank_app a b : blank (a ++ b) <-> blank a /\ blank b.
Proof. unfold blank. rewrite forallb_app, andb_true_iff. reflexivity. Qed.
Lemma strip_trimmed s : trimmed s (strip sp s).
Proof.
  unfold strip. destruct (lstrip_spec s) as (a & E & B & H). set (t := lstrip sp s) in *. destruct (lstrip_spec (rev t)) as (b & E' & B' & H'). set (w := lstrip sp (rev t)) in *.
  assert (Et : t = rev w ++ rev b) by (rewrite <- rev_app_distr, <- E'; symmetry; apply rev_involutive).
  exists a, (rev b). split; [rewrite E at 1; f_equal; exact Et|]. split; [exact B|]. split; [apply blank_rev; exact B'|]. rewrite rev_involutive. split; [|exact H'].
  destruct (rev w) as [|c r] eqn:Er; [exact I|]. rewrite Et in H. exact H.
Qed.
Lemma lstrip_blank a s : blank a -> lstrip sp (a ++ s) = lstrip sp s.
Proof. intro B. induction a as [|c a IH]; [reflexivity|]. unfold blank in B. cbn [forallb] in B. apply andb_true_iff in B as [S B]. cbn [app lstrip]. rewrite S. apply IH. exact B. Qed.
Lemma lstrip_nonblank s t : forallb sp s = false -> lstrip sp (s ++ t) = lstrip sp s ++ t.
Proof. induction s as [|c s IH]; cbn [forallb app lstrip]; [discriminate|]. destruct (sp c); [exact IH|reflexivity]. Qed.
Lemma lstrip_all s : blank s -> lstrip sp s = [].
Proof. intro B. rewrite <- (app_nil_r s). rewrite lstrip_blank by exact B. reflexivity. Qed.
Lemma strip_unique s r : trimmed s r -> strip sp s = r.
Proof.
  intros (a & b & -> & Ba & Bb & H1 & H2). unfold strip. rewrite lstrip_blank by exact Ba. destruct r as [|c r].
  - cbn [app]. rewrite (lstrip_all b Bb). reflexivity.
  - assert (E : lstrip sp ((c :: r) ++ b) = (c :: r) ++ b) by (cbn [app lstrip]; rewrite H1; reflexivity). rewrite E, rev_app_distr, lstrip_blank by (apply blank_rev; exact Bb).
    destruct (rev (c :: r)) as [|d q] eqn:Er; [apply (f_equal (@rev N)) in Er; rewrite rev_involutive in Er; discriminate Er|]. cbn [lstrip]. rewrite H2, <- Er. apply rev_involutive.
Qed.
Lemma strip_blank_l a s : blank a -> strip sp (a ++ s) = strip sp s.
Proof. intro B. unfold strip. rewrite lstrip_blank by exact B. reflexivity. Qed.
Lemma strip_blank_r a s : blank a -> strip sp (s ++ a) = strip sp s.
Proof.
  intro B. destruct (strip_trimmed s) as (x & y & E & Bx & By & H). apply strip_unique. exists x, (y ++ a). split; [rewrite E at 1; rewrite <- !app_assoc; reflexivity|]. split; [exact Bx|]. split; [apply blank_app; auto|exact H].
Qed.
Lemma strip_idem s : strip sp (strip sp s) = strip sp s.
Proof. destruct (strip_trimmed s) as (x & y & E & Bx & By & H). apply strip_unique. exists [], []. rewrite app_nil_r. repeat split; apply H. Qed.
Lemma strip_nonempty s : forallb sp s = false -> strip sp s <> [] /\ forallb sp (strip sp s) = false.
Proof.
  intro N. destruct (strip_trimmed s) as (x & y & E & Bx & By & H). destruct (strip sp s) as [|c r]; [|split; [discriminate|]; cbn [forallb]; destruct H as [H _]; rewrite H; reflexivity].
  cbn [app] in E. assert (B : blank s) by (rewrite E; apply blank_app; auto). unfold blank in B. congruence.
Qed.

(** the lines that are kept *)
Definition kept (l : list str) : list str := map (strip sp) (filter (fun l => negb (forallb sp l)) l).
Definition nl (s : str) : str := join [10%N] (kept (split1 10 s)).
Hypothesis sp10 : sp 10%N = true.
Lemma kept_app l m : kept (l ++ m) = kept l ++ kept m.
Proof. unfold kept. rewrite filter_app, map_app. reflexivity. Qed.
Lemma kept_lead a s : blank a -> kept (split1 10 (a ++ s)) = kept (split1 10 s).
Proof.
  intro B. induction a as [|c a IH]; [reflexivity|]. unfold blank in B. cbn [forallb] in B. apply andb_true_iff in B as [S B]. cbn [app split1]. destruct (N.eqb c 10).
  - change ([] :: split1 10 (a ++ s)) with ([[]] ++ split1 10 (a ++ s)). rewrite kept_app. apply IH. exact B.
  - rewrite <- (IH B). destruct (split1 10 (a ++ s)) as [|h t] eqn:E; [destruct (split1_nonempty 10 (a ++ s) E)|]. unfold kept. cbn [filter forallb]. rewrite S. cbn [andb]. destruct (forallb sp h) eqn:F; cbn [negb map]; [reflexivity|]. f_equal. apply (strip_blank_l [c]). unfold blank. cbn [forallb]. rewrite S. reflexivity.
Qed.
Lemma kept_trail a s : blank a -> kept (split1 10 (s ++ a)) = kept (split1 10 s).
Proof.
  revert s. induction a as [|c a IH]; intros s B; [rewrite app_nil_r; reflexivity|]. unfold blank in B. cbn [forallb] in B. apply andb_true_iff in B as [S B]. change (s ++ c :: a) with (s ++ [c] ++ a). rewrite app_assoc, IH by exact B.
  destruct (N.eqb_spec c 10) as [->|N].
  - rewrite (split1_app_sep 10 s []). rewrite kept_app. unfold kept at 2. cbn. rewrite app_nil_r. reflexivity.
  - destruct (split1_app_nosep 10 s [c]) as (l & last & E1 & E2); [intros [X|[]]; congruence|]. rewrite E1, E2, !kept_app. f_equal. unfold kept. cbn [filter]. rewrite forallb_app. cbn [forallb]. rewrite S. cbn [andb]. rewrite andb_true_r.
    destruct (forallb sp last); cbn [negb map]; [reflexivity|]. f_equal. apply strip_blank_r. unfold blank. cbn [forallb]. rewrite S. reflexivity.
Qed.
Theorem nl_written s : nl (10%N :: strip sp s ++ [10%N]) = nl s.
Proof.
  assert (B10 : blank [10%N]) by (unfold blank; cbn [forallb]; rewrite sp10; reflexivity). unfold nl. f_equal. change (10%N :: strip sp s ++ [10%N]) with ([10%N] ++ strip sp s ++ [10%N]). rewrite (kept_lead [10%N]) by exact B10. rewrite kept_trail by exact B10.
  destruct (strip_trimmed s) as (x & y & E & Bx & By & _). rewrite E at 2. rewrite kept_lead by exact Bx. rewrite kept_trail by exact By. reflexivity.
Qed.
Lemma kept_idem l : Forall (fun p => ~ In 10%N p) l -> nl (join [10%N] (kept l)) = join [10%N] (kept l).
Proof.
  intro F. unfold nl. f_equal. assert (K : kept (kept l) = kept l).
  { unfold kept. induction l as [|p l IH]; [reflexivity|]. inversion F; subst. cbn [filter]. destruct (forallb sp p) eqn:B; cbn [negb]; [auto|]. cbn [map filter]. destruct (strip_nonempty p B) as [_ N]. rewrite N. cbn [negb map]. rewrite strip_idem. f_equal. auto. }
  destruct (kept l) as [|p ls] eqn:E; [reflexivity|]. rewrite split1_join; [exact K|discriminate|]. rewrite <- E. intros q I. unfold kept in I. apply in_map_iff in I as (q' & <- & I). apply filter_In in I as [I _]. rewrite Forall_forall in F. specialize (F q' I).
  destruct (strip_trimmed q') as (x & y & Eq & _). intro X. apply F. rewrite Eq. apply in_or_app. right. apply in_or_app. left. exact X.
Qed.
Theorem nl_idem s : nl (nl s) = nl s.
Proof. unfold nl at 2 3. apply kept_idem. apply Forall_forall. intros p I. eapply split1_no_sep. exact I. Qed.
End Strip.
Lemma noteLines_nl T s : noteLines T s = nl (isSpace T) s.
Proof. reflexivity. Qed.
Lemma space10 T : pytext_laws T -> isSpace T 10%N = true.
Proof. intro LT. rewrite (space_ascii T LT) by lia. reflexivity. Qed.
Theorem noteLines_written T s : pytext_laws T -> noteLines T (10%N :: strip (isSpace T) s ++ [10%N]) = noteLines T s.
Proof. intro LT. apply (nl_written (isSpace T) (space10 T LT)). Qed.
Theorem noteLines_idem T s : noteLines T (noteLines T s) = noteLines T s.
Proof. apply (nl_idem (isSpace T)). Qed.
