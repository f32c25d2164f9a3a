(** Properties of plistlib.py (C60 to C64).  [T] stands for int(s) and float(s),
    [R] for repr(float); [plistable] (PlistProofs) are the objects built from
    strings, booleans, integers of 64 bits, floats, bytes, valid dates without
    microseconds, lists, tuples and dictionaries with distinct string keys.
    [psame v w]: w is v up to the order of dictionaries, tuples having become lists. *)
From Coq Require Import String NArith ZArith Bool Lia List Permutation.
From Coq.Floats Require Import SpecFloat.
From Verif Require Import Base PyVal PyText FloatRepr Xml Ufo UfoProofs Plist PlistProofs.
Import ListNotations.
Local Open Scope string_scope.
Local Open Scope list_scope.

(** [x] is [v] or an item or dictionary value somewhere inside of [v] *)
Inductive inside (x : pyval) : pyval -> Prop :=
| in_self : inside x x
| in_list l v : In v l -> inside x v -> inside x (PList l)
| in_tuple l v : In v l -> inside x v -> inside x (PTuple l)
| in_dict d k v : In (k, v) d -> inside x v -> inside x (PDict d).

(** ** C60 *)
(** no text of the tree is made of bytes *)
Inductive strTexts : elem -> Prop :=
| strTexts_intro tag at' text ch tail : (match text with Some (XB (_ :: _)) => False | _ => True end) ->
    Forall strTexts ch -> strTexts (Elem tag at' text ch tail).
Lemma walk_trace e : strTexts e -> trace e (walk e).
Proof.
  induction e as [tag at' text ch tail IH] using elem_ind'. intro S. inversion S as [? ? ? ? ? X F]; subst.
  cbn [walk]. destruct ch as [|c ch].
  - cbn [app]. set (x := if textTruthy text then match text with Some x => x | None => XS [] end else XS []).
    change (EvStart tag :: EvData x :: [EvEnd tag]) with (EvStart tag :: map EvData [x] ++ [EvEnd tag]). apply tr_leaf.
    subst x. destruct text as [[[|a s]|[|a s]]|]; cbn; rewrite ?app_nil_r; (reflexivity || contradiction).
  - change (?a ++ [] ++ [EvEnd tag]) with (a ++ [EvEnd tag]).
    match goal with |- trace _ (EvStart tag :: ?evs ++ ?z) => change (EvStart tag :: evs ++ z) with (EvStart tag :: [] ++ evs ++ z) end.
    apply tr_node; [discriminate|constructor|].
    assert (G : forall l, Forall (fun e => strTexts e -> trace e (walk e)) l -> Forall strTexts l ->
      ktrace l ((fix go l := match l with [] => [] | x :: r => walk x ++ go r end) l)).
    { induction l as [|x l IHl]; intros A B; [constructor|]. inversion A; inversion B; subst.
      change (walk x ++ ?r) with (walk x ++ [] ++ r). constructor; [auto|constructor|auto]. }
    apply (G (c :: ch)); assumption.
Qed.
Lemma strItems_In {A} (l : list (pyval * A)) m k x : strItems l = Some m -> In (k, x) m -> In (PStr k, x) l.
Proof.
  revert m. induction l as [|[k0 y] l IH]; intros m Em J; cbn in Em; [inversion Em; subst; destruct J|]. destruct k0; try discriminate.
  destruct (strItems l) as [m'|]; [|discriminate]. inversion Em; subst. destruct J as [J|J]; [inversion J; subst; left; reflexivity|right; eapply IH; [reflexivity|exact J]].
Qed.
Lemma mk_strTexts R v : (forall b, inside (PBytes b) v -> b = []) -> forall sk pr lv e, makeElement R sk pr lv v = Ok e -> strTexts e.
Proof.
  assert (Lf : forall tag s, strTexts (leaf tag (Some (XS s)))) by (intros; constructor; [exact I|constructor]).
  induction v using pyval_ind'; intros Nb sk pr lv e E.
  - discriminate.
  - cbn in E. inversion E; subst. constructor; [exact I|constructor].
  - cbn in E. destruct (_ && _); inversion E; subst. apply Lf.
  - cbn in E. inversion E; subst. apply Lf.
  - cbn in E. inversion E; subst. apply Lf.
  - rewrite (Nb b (in_self _)) in E. cbn in E. inversion E; subst. constructor; [exact I|constructor].
  - cbn in E. inversion E; subst. apply Lf.
  - rewrite mk_list in E. apply bind_Ok in E as (ch & M & E). inversion E; subst. constructor; [exact I|].
    apply mapM_Forall2 in M. clear E. revert Nb. induction M as [|x y l ch Ey M IH]; intro Nb; [constructor|]. inversion H as [|? ? Hx Hl]; subst. constructor.
    + eapply Hx; [|exact Ey]. intros b J. apply Nb. eapply in_list; [left; reflexivity|exact J].
    + apply IH; [exact Hl|]. intros b J. apply Nb. inversion J; subst; eapply in_list; [right; eassumption|assumption].
  - rewrite mk_tuple in E. apply bind_Ok in E as (ch & M & E). inversion E; subst. constructor; [exact I|].
    apply mapM_Forall2 in M. clear E. revert Nb. induction M as [|x y l ch Ey M IH]; intro Nb; [constructor|]. inversion H as [|? ? Hx Hl]; subst. constructor.
    + eapply Hx; [|exact Ey]. intros b J. apply Nb. eapply in_tuple; [left; reflexivity|exact J].
    + apply IH; [exact Hl|]. intros b J. apply Nb. inversion J; subst; eapply in_tuple; [right; eassumption|assumption].
  - rewrite mk_dict in E. unfold dictElement in E. apply bind_Ok in E as (ch & M & E). inversion E; subst. constructor; [exact I|].
    assert (K : forall (l : list (pyval * res elem)), (forall k x, In (k, x) l -> forall e, x = Ok e -> strTexts e) -> forall ch, dictChildren l = Ok ch -> Forall strTexts ch).
    { induction l as [|[k x] l IH]; intros Hl c D; cbn in D; [inversion D; constructor|]. destruct k; try discriminate.
      apply bind_Ok in D as (e0 & Ee & D). apply bind_Ok in D as (t & Et & D). inversion D; subst. constructor; [apply Lf|]. constructor.
      - eapply Hl; [left; reflexivity|reflexivity].
      - apply IH; [|exact Et]. intros; eapply Hl; [right; eassumption|assumption]. }
    assert (Q : forall k x, In (k, x) (map (fun '(k, x) => (k, makeElement R sk pr (S lv) x)) d) -> forall e, x = Ok e -> strTexts e).
    { intros k x J e0 Ee. apply in_map_iff in J as ([k' v] & Eq & J). inversion Eq; subst. rewrite Forall_forall in H. destruct (H _ J) as [_ Hv].
      eapply Hv; [|eassumption]. intros b Jb. apply Nb. eapply in_dict; eassumption. }
    destruct sk; [|eapply K; [exact Q|exact M]]. destruct (strItems _) as [m|] eqn:Em; [|discriminate]. eapply K; [|exact M].
    intros k x J. apply in_map_iff in J as ([k' x'] & Eq & J). inversion Eq; subst.
    apply (Permutation_in _ (sortItems_perm m)) in J. eapply Q. eapply strItems_In; eassumption.
  - discriminate.
Qed.
(** partial: all objects without (non-empty) bytes; with bytes the round trip
    holds for what is written to a file (C60_file_partial in PlistFiles.v) *)
Theorem C60_round_trip_partial : forall T R sortKeys pretty level v, pytext_laws T -> repr_laws T R ->
  plistable v -> (forall b, inside (PBytes b) v -> b = []) ->
  exists e w, totree R sortKeys pretty level v = Ok e /\ fromtree T e = Ok w /\ psame v w.
Proof.
  intros T R sk pr lv v LT LR P Nb. destruct (mk_total R v P sk pr lv) as (e & E). exists e.
  destruct (read_root T R LT LR v sk pr lv e (walk e) P E) as (w & Rw & S); [|exists w; split; [exact E|split; [exact Rw|exact S]]].
  apply walk_trace. eapply mk_strTexts; eassumption.
Qed.
Print Assumptions C60_round_trip_partial.
(** with the ElementTree of the standard library the text of a <data> element
    remains bytes, which PlistTarget can not join *)
Theorem C60_round_trip_refuted : forall T R sortKeys pretty level b, b <> [] ->
  exists e, totree R sortKeys pretty level (PBytes b) = Ok e /\ fromtree T e = Err TypeError.
Proof.
  intros T R sk pr lv b N. eexists. split; [reflexivity|].
  assert (X : exists c s, encodeBase64 b pr lv = c :: s).
  { unfold encodeBase64. destruct b as [|x [|y [|z r]]]; [congruence| | |]; cbn [b64encode]; destruct pr; cbv zeta; cbn [length chunks app]; eauto. }
  destruct X as (c & s & X). unfold fromtree, leaf. rewrite X. reflexivity.
Qed.
Print Assumptions C60_round_trip_refuted.
Example C60_case :
  let v := PDict [(PStr (u "b"), PList [PInt (-5); PBool true; PFloat (S754_finite false 6755399441055744 (-52))]); (PStr (u "a"), PTuple [PDate 2018 2 28 23 59 1 0; PStr []; PDict []])] in
  match totree toyRepr true true 1 v with
  | Ok e => fromtree toyText e = Ok (PDict [(PStr (u "a"), PList [PDate 2018 2 28 23 59 1 0; PStr []; PDict []]); (PStr (u "b"), PList [PInt (-5); PBool true; PFloat (S754_finite false 6755399441055744 (-52))])])
  | _ => False end.
Proof. vm_compute. reflexivity. Qed.

(** ** C61 *)
(** [x] is the text of the <data> element; a parser delivers it as a string *)
Theorem C61_data : forall T R sortKeys pretty level b, Forall (fun x => (x < 256)%N) b ->
  exists x, totree R sortKeys pretty level (PBytes b) = Ok (Elem (u "data") [] (Some (XB x)) [] None) /\
    forall tail, loadTree T (Elem (u "data") [] (Some (XS x)) [] tail) = Ok (PBytes b).
Proof.
  intros T R sk pr lv b F. exists (encodeBase64 b pr lv). split; [reflexivity|]. intro tail.
  unfold loadTree, runTarget. cbn [saxEvents dataEvents app foldM step]. change (startTag (u "data") newTarget) with (Ok newTarget). cbn [bind foldM step newTarget tstack tkey troot tdata app].
  assert (E : forall t, endTag T (u "data") t = withData t (fun s => do b <- b64decode s; Ok (PBytes b))) by reflexivity.
  rewrite E. unfold withData, getData. cbn [tdata joinTexts bind]. rewrite app_nil_r, b64_round_trip by exact F. reflexivity.
Qed.
Print Assumptions C61_data.
(** no line is longer than 76 characters or, in deep structures, than 16
    characters behind the indentation *)
Lemma chunks_lines fuel n indent s : (length s <= fuel)%nat -> (0 < n)%nat -> ~ In 10%N indent -> ~ In 10%N s ->
  forall l, In l (split1 10 (chunks fuel n (10%N :: indent) s ++ 10%N :: indent)) -> (length l <= length indent + n)%nat.
Proof.
  intros L P Ni. revert s L. induction fuel as [|fuel IH]; intros s L Ns l I.
  - cbn [chunks app] in I. cbn in I. destruct I as [<-|I]; [cbn; lia|].
    rewrite (split1_none 10 indent Ni) in I. destruct I as [<-|[]]. lia.
  - destruct s as [|c s].
    + cbn [chunks app] in I. cbn in I. destruct I as [<-|I]; [cbn; lia|]. rewrite (split1_none 10 indent Ni) in I. destruct I as [<-|[]]. lia.
    + cbn [chunks] in I. rewrite <- !app_assoc in I. cbn [app] in I. cbn [split1] in I. rewrite N.eqb_refl in I. destruct I as [<-|I]; [cbn; lia|].
      rewrite app_assoc in I.
      assert (Nf : ~ In 10%N (indent ++ firstn n (c :: s))).
      { intro J. apply in_app_or in J as [J|J]; [contradiction|]. apply Ns. rewrite <- (firstn_skipn n (c :: s)). apply in_or_app; auto. }
      set (X := chunks fuel n (10%N :: indent) (skipn n (c :: s)) ++ 10%N :: indent) in *.
      assert (HX : exists Y, X = 10%N :: Y).
      { subst X. destruct fuel; cbn [chunks app]; [eauto|]. destruct (skipn n (c :: s)); cbn [app]; eauto. }
      destruct HX as (Y & HX). rewrite HX in I.
      assert (Sp : forall a b, ~ In 10%N a -> split1 10 (a ++ 10%N :: b) = a :: split1 10 b).
      { clear. induction a as [|x a IHa]; intros b N; cbn [app split1].
        - rewrite N.eqb_refl. reflexivity.
        - destruct (N.eqb_spec x 10) as [->|]; [exfalso; apply N; left; reflexivity|]. rewrite IHa; [reflexivity|]. intro J; apply N; right; exact J. }
      rewrite (Sp _ Y Nf) in I. destruct I as [<-|I].
      * rewrite app_length, firstn_length. lia.
      * apply (IH (skipn n (c :: s))).
        -- rewrite skipn_length. cbn [length] in *. lia.
        -- intro J. apply Ns. rewrite <- (firstn_skipn n (c :: s)). apply in_or_app; auto.
        -- fold X. rewrite HX. cbn [split1]. rewrite N.eqb_refl. right. exact I.
Qed.
Theorem C61_lines : forall R sortKeys level b x l, Forall (fun x => (x < 256)%N) b ->
  totree R sortKeys true level (PBytes b) = Ok (Elem (u "data") [] (Some (XB x)) [] None) ->
  In l (split1 10 x) -> (length l <= Nat.max 76 (2 * level + 16))%nat.
Proof.
  intros R sk lv b x l F E I. cbn in E. assert (X : x = encodeBase64 b true lv) by (inversion E; reflexivity). clear E. subst x.
  unfold encodeBase64 in I. destruct (b64encode b) as [|c s] eqn:Eb; [destruct I as [<-|[]]; apply Nat.le_0_l|]. rewrite <- Eb in *. cbv zeta in I.
  assert (Li : length (concat (repeat (u "  ") lv)) = (2 * lv)%nat).
  { clear. induction lv as [|n IH]; [reflexivity|]. cbn [repeat concat]. rewrite app_length, IH. change (length (u "  ")) with 2%nat. lia. }
  apply chunks_lines in I.
  - cbn [length] in I. rewrite Li in I. lia.
  - lia.
  - lia.
  - intro J. apply in_concat in J as (t & Jt & J). apply repeat_spec in Jt. subst t. vm_compute in J. intuition discriminate.
  - intro J. pose proof (b64encode_chars b F) as C. rewrite Forall_forall in C. destruct (C _ J) as [C1 _]. vm_compute in C1. discriminate.
Qed.
Print Assumptions C61_lines.
Example C61_case : totree toyRepr true true 2 (PBytes [1; 2; 255; 0]%N) = Ok (Elem (u "data") [] (Some (XB (10%N :: u "    AQL/AA==" ++ 10%N :: u "    "))) [] None).
Proof. vm_compute. reflexivity. Qed.

(** ** C62 *)
(** the months of the Gregorian calendar *)
Definition leap (y : N) : Prop := (N.divide 4 y /\ ~ N.divide 100 y) \/ N.divide 400 y.
Inductive monthDays (y : N) : N -> N -> Prop :=
| md_31 m : In m [1; 3; 5; 7; 8; 10; 12]%N -> monthDays y m 31
| md_30 m : In m [4; 6; 9; 11]%N -> monthDays y m 30
| md_29 : leap y -> monthDays y 2 29
| md_28 : ~ leap y -> monthDays y 2 28.
Definition validDate (y mo d h mi s us : N) : Prop :=
  (1 <= y <= 9999)%N /\ (exists n, monthDays y mo n /\ 1 <= d <= n)%N /\ (h < 24)%N /\ (mi < 60)%N /\ (s < 60)%N /\ (us < 1000000)%N.
Lemma leapYear_spec y : leapYear y = true <-> leap y.
Proof.
  unfold leapYear, leap. rewrite andb_true_iff, orb_true_iff, negb_true_iff, N.eqb_eq, N.eqb_neq, N.eqb_eq.
  rewrite <- !N.mod_divide by discriminate. split; [tauto|]. intros [?|H]; [tauto|]. split; [|tauto].
  apply N.mod_divide; [discriminate|]. apply N.mod_divide in H; [|discriminate]. destruct H as [k ->]. exists (k * 100)%N. rewrite <- N.mul_assoc. reflexivity.
Qed.
Lemma validDate_ok y mo d h mi s us : validDate y mo d h mi s us -> datetimeOk y mo d h mi s us = true.
Proof.
  intros ((Y1 & Y2) & (n & M & D1 & D2) & H & Mi & S & Us).
  assert (K : (1 <= mo <= 12)%N /\ daysInMonth y mo = n).
  { inversion M as [m I|m I|L|L]; subst.
    - cbn [In] in I. repeat (destruct I as [<-|I]; [split; [lia|reflexivity]|]). destruct I.
    - cbn [In] in I. repeat (destruct I as [<-|I]; [split; [lia|reflexivity]|]). destruct I.
    - split; [lia|]. unfold daysInMonth. apply leapYear_spec in L. rewrite L. reflexivity.
    - split; [lia|]. unfold daysInMonth. destruct (leapYear y) eqn:E; [apply leapYear_spec in E; contradiction|reflexivity]. }
  destruct K as [[K1 K2] K3]. unfold datetimeOk. rewrite K3. rewrite !andb_true_iff, !N.leb_le. lia.
Qed.
(** microseconds are not stored *)
Theorem C62_dates : forall T R sortKeys pretty level y mo d h mi s us, validDate y mo d h mi s us ->
  exists e, totree R sortKeys pretty level (PDate y mo d h mi s us) = Ok e /\ fromtree T e = Ok (PDate y mo d h mi s 0).
Proof.
  intros T R sk pr lv y mo d h mi s us K. apply validDate_ok in K. eexists. split; [reflexivity|].
  assert (K0 : datetimeOk y mo d h mi s 0 = true) by (unfold datetimeOk in *; apply andb_prop in K as [-> _]; reflexivity).
  unfold fromtree, leaf, runTarget. cbn [walk app foldM step]. change (startTag (u "date") newTarget) with (Ok newTarget). cbn [bind foldM step newTarget tstack tkey troot tdata app].
  assert (E : forall t, endTag T (u "date") t = withData t dateFromString) by reflexivity.
  assert (X : (if textTruthy (Some (XS (dateToString y mo d h mi s))) then XS (dateToString y mo d h mi s) else XS []) = XS (dateToString y mo d h mi s)).
  { destruct (dateToString y mo d h mi s); reflexivity. }
  rewrite X, E. unfold withData, getData. cbn [tdata joinTexts bind]. rewrite app_nil_r, date_round_trip by exact K0. reflexivity.
Qed.
Print Assumptions C62_dates.
Example C62_case : datetimeOk 1 2 29 0 0 0 0 = false /\ datetimeOk 2000 2 29 23 59 59 7 = true /\
  dateToString 7 2 9 3 4 5 = u "0007-02-09T03:04:05Z" /\ dateFromString (u "2018-05-06Z") = Ok (PDate 2018 5 6 0 0 0 0) /\
  dateFromString (u "2018-05Z") = Err TypeError /\ dateFromString (u "2018-13-01Z") = Err ValueError /\ dateFromString (u "today") = Err AttributeError.
Proof. vm_compute. repeat split. Qed.

(** ** C63 *)
(** [reordered v w]: the same object, the items of its dictionaries in another order *)
Inductive reordered : pyval -> pyval -> Prop :=
| ro_atom v : container v = false -> reordered v v
| ro_list l m : Forall2 reordered l m -> reordered (PList l) (PList m)
| ro_tuple l m : Forall2 reordered l m -> reordered (PTuple l) (PTuple m)
| ro_dict d d' e : Forall2 (fun a b => fst a = fst b /\ reordered (snd a) (snd b)) d d' -> Permutation d' e -> reordered (PDict d) (PDict e).
(** the keys of every dictionary inside are distinct *)
Definition dictsOk (v : pyval) : Prop := forall d, inside (PDict d) v -> NoDup (map fst d).
Lemma strLe_total a b : strLe a b = true \/ strLe b a = true.
Proof.
  revert b. induction a as [|x a IH]; intros [|y b]; cbn; auto.
  destruct (N.lt_trichotomy x y) as [L|[->|L]].
  - left. apply N.ltb_lt in L. rewrite L. reflexivity.
  - rewrite N.ltb_irrefl, N.eqb_refl. apply IH.
  - right. apply N.ltb_lt in L. rewrite L. reflexivity.
Qed.
Lemma strLe_trans a b c : strLe a b = true -> strLe b c = true -> strLe a c = true.
Proof.
  revert b c. induction a as [|x a IH]; intros [|y b] [|z c]; cbn; auto; try discriminate.
  intros H K. apply orb_prop in H, K. destruct H as [H|H].
  - apply N.ltb_lt in H. assert (L : (x < z)%N); [|apply N.ltb_lt in L; rewrite L; reflexivity].
    destruct K as [K|K]; [apply N.ltb_lt in K; lia|]. apply andb_prop in K as [K _]. apply N.eqb_eq in K. lia.
  - apply andb_prop in H as [H1 H2]. apply N.eqb_eq in H1. subst y. destruct K as [K|K]; [rewrite K; reflexivity|].
    apply andb_prop in K as [K1 K2]. rewrite K1. cbn [andb]. rewrite (IH b c H2 K2). apply orb_true_r.
Qed.
Lemma strLe_antisym a b : strLe a b = true -> strLe b a = true -> a = b.
Proof.
  revert b. induction a as [|x a IH]; intros [|y b]; cbn; auto; try discriminate.
  intros H K. apply orb_prop in H, K. destruct H as [H|H], K as [K|K].
  - apply N.ltb_lt in H, K. lia.
  - apply andb_prop in K as [K _]. apply N.ltb_lt in H. apply N.eqb_eq in K. lia.
  - apply andb_prop in H as [H _]. apply N.ltb_lt in K. apply N.eqb_eq in H. lia.
  - apply andb_prop in H as [H1 H2], K as [_ K2]. apply N.eqb_eq in H1. subst. f_equal. auto.
Qed.
Lemma insert_swap {A} k1 (x1 : A) k2 x2 l : k1 <> k2 -> insertItem k1 x1 (insertItem k2 x2 l) = insertItem k2 x2 (insertItem k1 x1 l).
Proof.
  intro N.
  assert (T : strLe k1 k2 = true /\ strLe k2 k1 = false \/ strLe k2 k1 = true /\ strLe k1 k2 = false).
  { destruct (strLe k1 k2) eqn:E1, (strLe k2 k1) eqn:E2; auto.
    - exfalso. apply N. apply strLe_antisym; assumption.
    - destruct (strLe_total k1 k2); congruence. }
  induction l as [|[k x] l IH]; cbn.
  - destruct T as [[-> ->]|[-> ->]]; reflexivity.
  - destruct (strLe k2 k) eqn:E2, (strLe k1 k) eqn:E1; cbn; rewrite ?E1, ?E2.
    + destruct T as [[-> ->]|[-> ->]]; reflexivity.
    + destruct T as [[T1 T2]|[T1 T2]]; [|rewrite T2; reflexivity]. rewrite (strLe_trans _ _ _ T1 E2) in E1. discriminate.
    + destruct T as [[T1 T2]|[T1 T2]]; [rewrite T2; reflexivity|]. rewrite (strLe_trans _ _ _ T1 E1) in E2. discriminate.
    + rewrite IH. reflexivity.
Qed.
Lemma sortItems_unique {A} (l m : list (str * A)) : Permutation l m -> NoDup (map fst l) -> sortItems l = sortItems m.
Proof.
  induction 1 as [|[k x] l m _ IH|[k1 x1] [k2 x2] l|l m n P1 IH1 P2 IH2]; intro ND; cbn [sortItems].
  - reflexivity.
  - inversion ND; subst. rewrite IH by assumption. reflexivity.
  - apply insert_swap. inversion ND as [|? ? N _]; subst. intros ->. apply N. left. reflexivity.
  - rewrite IH1 by assumption. apply IH2. eapply Permutation_NoDup; [apply Permutation_map; exact P1|exact ND].
Qed.
Lemma strItems_perm {A} (l m : list (pyval * A)) : Permutation l m ->
  match strItems l, strItems m with Some a, Some b => Permutation a b | None, None => True | _, _ => False end.
Proof.
  induction 1 as [|[k x] l m _ IH|[k1 x1] [k2 x2] l|l m n P1 IH1 P2 IH2]; cbn [strItems].
  - constructor.
  - destruct k; auto. destruct (strItems l), (strItems m); auto.
  - destruct k1; destruct k2; auto; destruct (strItems l); auto. apply perm_swap.
  - destruct (strItems l), (strItems m), (strItems n); try contradiction; auto. eapply perm_trans; eassumption.
Qed.
Lemma strItems_keys {A} (l : list (pyval * A)) a : strItems l = Some a -> map fst l = map PStr (map fst a).
Proof.
  revert a. induction l as [|[k x] l IH]; intros a E; cbn in E; [inversion E; reflexivity|]. destruct k; try discriminate.
  destruct (strItems l); [|discriminate]. inversion E; subst. cbn. f_equal. apply IH. reflexivity.
Qed.
Theorem C63_order : forall R pretty v w, dictsOk v -> reordered v w ->
  forall level, totree R true pretty level v = totree R true pretty level w.
Proof.
  intros R pr. unfold totree.
  assert (Seq : forall l m lv, Forall2 (fun v w => makeElement R true pr lv v = makeElement R true pr lv w) l m -> mapM (makeElement R true pr lv) l = mapM (makeElement R true pr lv) m).
  { intros l m lv F. induction F as [|x y l m E _ IH]; [reflexivity|]. cbn. rewrite E. destruct (makeElement R true pr lv y); [|reflexivity]. cbn. rewrite IH. reflexivity. }
  induction v using pyval_ind'; intros w D Ro lv; inversion Ro; subst; try reflexivity; try discriminate.
  - rewrite !mk_list. f_equal. apply Seq.
    match goal with F : Forall2 reordered _ _ |- _ => revert H D; clear -F; induction F as [|x y l m E F IH]; intros H D; [constructor|] end.
    inversion H as [|? ? Hx Hl]; subst. constructor.
    + apply Hx; [|exact E]. intros d J. apply D. eapply in_list; [left; reflexivity|exact J].
    + apply IH; [exact Hl|]. intros d J. inversion J; subst; apply D; eapply in_list; [right; eassumption|assumption].
  - rewrite !mk_tuple. f_equal. apply Seq.
    match goal with F : Forall2 reordered _ _ |- _ => revert H D; clear -F; induction F as [|x y l m E F IH]; intros H D; [constructor|] end.
    inversion H as [|? ? Hx Hl]; subst. constructor.
    + apply Hx; [|exact E]. intros d J. apply D. eapply in_tuple; [left; reflexivity|exact J].
    + apply IH; [exact Hl|]. intros d J. inversion J; subst; apply D; eapply in_tuple; [right; eassumption|assumption].
  - rewrite !mk_dict. unfold dictElement. f_equal.
    assert (E : map (fun '(k, x) => (k, makeElement R true pr (S lv) x)) d = map (fun '(k, x) => (k, makeElement R true pr (S lv) x)) d').
    { assert (Dv : forall k x, In (k, x) d -> dictsOk x) by (intros k x I d0 J; apply D; eapply in_dict; eassumption).
      revert H Dv. match goal with F : Forall2 _ d d' |- _ => clear -F; induction F as [|[k x] [k' x'] d d' [E1 E2] F IH]; intros H Dv; [reflexivity|] end.
      inversion H as [|? ? [_ Hx] Hl]; subst. cbn in *. subst k'. f_equal.
      - f_equal. apply Hx; [eapply Dv; left; reflexivity|exact E2].
      - apply IH; [exact Hl|]. intros; eapply Dv; right; eassumption. }
    rewrite E. match goal with P : Permutation d' _ |- _ => pose proof (strItems_perm _ _ (Permutation_map (fun '(k, x) => (k, makeElement R true pr (S lv) x)) P)) as Q end.
    destruct (strItems (map (fun '(k, x) => (k, makeElement R true pr (S lv) x)) d')) as [a|] eqn:Ea;
      destruct (strItems (map (fun '(k, x) => (k, makeElement R true pr (S lv) x)) e)) as [b|] eqn:Eb; try contradiction; [|reflexivity].
    rewrite (sortItems_unique a b Q); [reflexivity|].
    pose proof (D d (in_self _)) as ND. rewrite <- E in Ea. apply strItems_keys in Ea. rewrite map_map in Ea.
    replace (map (fun x => fst (let '(k, x0) := x in (k, makeElement R true pr (S lv) x0))) d) with (map fst d) in Ea by (apply map_ext; intros [? ?]; reflexivity).
    rewrite Ea in ND. eapply NoDup_map_inv. exact ND.
Qed.
Print Assumptions C63_order.
Example C63_case :
  let i1 := PDict [(PStr (u "x"), PInt 1); (PStr (u "y"), PInt 2)] in let i2 := PDict [(PStr (u "y"), PInt 2); (PStr (u "x"), PInt 1)] in
  let v := PDict [(PStr (u "b"), i1); (PStr (u "a"), PStr (u "q"))] in let w := PDict [(PStr (u "a"), PStr (u "q")); (PStr (u "b"), i2)] in
  reordered v w /\ totree toyRepr true true 1 v = totree toyRepr true true 1 w /\ totree toyRepr false true 1 v <> totree toyRepr false true 1 w.
Proof.
  split; [|split; [vm_compute; reflexivity|vm_compute; discriminate]].
  eapply ro_dict with (d' := [(PStr (u "b"), PDict [(PStr (u "y"), PInt 2); (PStr (u "x"), PInt 1)]); (PStr (u "a"), PStr (u "q"))]); [|apply perm_swap].
  constructor; [split; [reflexivity|]|constructor; [split; [reflexivity|constructor; reflexivity]|constructor]]. cbn [snd].
  eapply ro_dict with (d' := [(PStr (u "x"), PInt 1); (PStr (u "y"), PInt 2)]); [|apply perm_swap].
  repeat constructor.
Qed.

(** ** C64 *)
Definition storable (z : Z) : Prop := (- 9223372036854775808 <= z < 18446744073709551616)%Z.
Theorem C64_range : forall T R sortKeys pretty level z, pytext_laws T ->
  (storable z -> exists e, totree R sortKeys pretty level (PInt z) = Ok e /\ fromtree T e = Ok (PInt z)) /\
  (~ storable z -> totree R sortKeys pretty level (PInt z) = Err OverflowError).
Proof.
  intros T R sk pr lv z LT. unfold storable, totree. cbn [makeElement].
  change (- 2 ^ 63)%Z with (- 9223372036854775808)%Z. change (2 ^ 64)%Z with 18446744073709551616%Z. split; intro H.
  - destruct (Z.leb_spec (- 9223372036854775808) z), (Z.ltb_spec z 18446744073709551616); try lia. cbn [andb]. eexists. split; [reflexivity|].
    unfold fromtree, leaf, runTarget. cbn [walk app foldM step]. change (startTag (u "integer") newTarget) with (Ok newTarget). cbn [bind foldM step newTarget tstack tkey troot tdata app].
    assert (E : forall t, endTag T (u "integer") t = withData t (fun s => match parseInt T s with Some z => Ok (PInt z) | None => Err ValueError end)) by reflexivity.
    assert (X : (if textTruthy (Some (XS (str_of_Z z))) then XS (str_of_Z z) else XS []) = XS (str_of_Z z)) by (destruct (str_of_Z z); reflexivity).
    rewrite X, E. unfold withData, getData. cbn [tdata joinTexts bind]. rewrite app_nil_r, parseInt_str_of_Z by exact LT. reflexivity.
  - destruct (Z.leb_spec (- 9223372036854775808) z), (Z.ltb_spec z 18446744073709551616); try reflexivity. exfalso. apply H. lia.
Qed.
Print Assumptions C64_range.
(** and no object that contains such an integer is stored *)
Theorem C64_inside : forall R sortKeys pretty level v z, inside (PInt z) v -> ~ storable z ->
  exists x, totree R sortKeys pretty level v = Err x.
Proof.
  intros R sk pr lv v z I N. unfold totree. revert lv.
  assert (Seq : forall l v lv, In v l -> (forall lv, exists x, makeElement R sk pr lv v = Err x) -> exists x, mapM (makeElement R sk pr lv) l = Err x).
  { intros l v0 lv J H. induction l as [|y l IH]; [destruct J|]. cbn. destruct J as [->|J].
    - destruct (H lv) as (x & ->). eexists; reflexivity.
    - destruct (makeElement R sk pr lv y); [|eexists; reflexivity]. destruct (IH J) as (x & ->). eexists; reflexivity. }
  induction I as [|l v J _ IH|l v J _ IH|d k v J _ IH]; intro lv.
  - destruct (C64_range asciiText R sk pr lv z asciiText_laws) as [_ H]. exists OverflowError. exact (H N).
  - rewrite mk_list. destruct (Seq l v (S lv) J IH) as (x & ->). eexists; reflexivity.
  - rewrite mk_tuple. destruct (Seq l v (S lv) J IH) as (x & ->). eexists; reflexivity.
  - rewrite mk_dict. unfold dictElement.
    assert (D : forall (l : list (pyval * res elem)) k y, In (k, Err y) l -> exists x, dictChildren l = Err x).
    { induction l as [|[k0 x0] l IHl]; intros k1 y Jy; [destruct Jy|]. cbn. destruct k0; try (eexists; reflexivity). destruct Jy as [E|Jy].
      - inversion E; subst. eexists; reflexivity.
      - destruct x0; [|eexists; reflexivity]. cbn. destruct (IHl _ _ Jy) as (x & ->). eexists; reflexivity. }
    destruct (IH (S lv)) as (y & Ey).
    assert (Jm : In (k, Err y) (map (fun '(k, x) => (k, makeElement R sk pr (S lv) x)) d)).
    { apply in_map_iff. exists (k, v). split; [rewrite Ey; reflexivity|exact J]. }
    destruct sk.
    + destruct (strItems _) as [m|] eqn:Em; [|eexists; reflexivity].
      assert (Jk : exists s, k = PStr s /\ In (s, Err y) m).
      { clear -Em Jm. revert m Em. induction (map (fun '(k, x) => (k, makeElement R true pr (S lv) x)) d) as [|[k0 x0] l IHl]; intros m Em; [destruct Jm|].
        cbn in Em. destruct k0; try discriminate. destruct (strItems l) as [m'|]; [|discriminate]. inversion Em; subst. destruct Jm as [E|Jm].
        - inversion E; subst. eexists. split; [reflexivity|left; reflexivity].
        - destruct (IHl Jm m' eq_refl) as (s' & -> & Js). exists s'. split; [reflexivity|right; exact Js]. }
      destruct Jk as (s & -> & Js). apply (Permutation_in _ (Permutation_sym (sortItems_perm m))) in Js.
      destruct (D (map (fun '(k, x) => (PStr k, x)) (sortItems m)) (PStr s) y) as (x & ->); [apply in_map_iff; exists (s, Err y); auto|]. eexists; reflexivity.
    + destruct (D _ _ _ Jm) as (x & ->). eexists; reflexivity.
Qed.
Print Assumptions C64_inside.
Example C64_case : totree toyRepr true true 1 (PList [PInt 18446744073709551616]) = Err OverflowError /\
  totree toyRepr true true 1 (PInt (-9223372036854775808)) = Ok (leaf (u "integer") (Some (XS (u "-9223372036854775808")))).
Proof. vm_compute. split; reflexivity. Qed.
