(** Lemmas about the glyph set model. *)
From Coq Require Import String NArith ZArith Bool Lia List.
From Verif Require Import Base LowerLaws Filenames FilenamesProofs GlyphSet.
Import ListNotations.
Local Open Scope string_scope.
Local Open Scope list_scope.

(** what plistlib must satisfy on contents dictionaries; [good] are the strings
    that a property list keeps *)
Definition goodMap (good : str -> Prop) (c : list (str * str)) : Prop := forall n f, get n c = Some f -> good n /\ good f.
Record codec_laws (dumps : list (str * str) -> res bytes) (loads : bytes -> res (list (str * str))) (good : str -> Prop) : Prop := {
  loads_dict : forall b c, loads b = Ok c -> dict_ok c;
  loads_dumps : forall c b, dict_ok c -> goodMap good c -> dumps c = Ok b -> exists c', loads b = Ok c' /\ dict_eq c' c;
  loads_empty : exists e, loads [] = Err e
}.

Section Proofs.
Variable canon lower : str -> str.
Variable toFileName : str -> list (str * str) -> res str.
Variable dumps : list (str * str) -> res bytes.
Variable loads : bytes -> res (list (str * str)).
Variable good : str -> Prop.
Hypothesis codec : codec_laws dumps loads good.
(** two names of one file differ at most in case *)
Hypothesis canon_lower : forall f g, canon f = canon g -> lower f = lower g.

Notation fileNameFor := (fileNameFor lower toFileName).
Notation writeGlyph := (writeGlyph canon lower toFileName).
Notation deleteGlyph := (deleteGlyph canon lower).
Notation writeContents := (writeContents canon dumps).
Notation rebuildContents := (rebuildContents canon loads).
Notation exec := (exec canon lower toFileName dumps loads).

Lemma fileNameFor_spec n w w' r : fileNameFor n w = (w', r) ->
  dir w' = dir w /\ log w' = log w /\
  match r with
  | Ok f => get n (contents (gs w)) = Some f /\ w' = w \/
      get n (contents (gs w)) = None /\ toFileName n (existingOf lower (gs w)) = Ok f /\
      gs w' = mkGset (set n f (contents (gs w))) (Some (set f (lower f) (existingOf lower (gs w))))
                (match reverse (gs w) with Some r => Some (set (lower f) n r) | None => None end) (havePrev (gs w))
  | Err e => get n (contents (gs w)) = None /\ toFileName n (existingOf lower (gs w)) = Err e /\
      gs w' = mkGset (contents (gs w)) (Some (existingOf lower (gs w))) (reverse (gs w)) (havePrev (gs w))
  end.
Proof.
  unfold GlyphSet.fileNameFor, mbind, getGs, setGs, lift, ret. destruct w as [g d l]. cbn [gs dir log].
  destruct (get n (contents g)) as [f|] eqn:G.
  - intro E. inversion E; subst. auto.
  - destruct (toFileName n (existingOf lower g)) as [f|e] eqn:T; intro E; inversion E; subst; cbn [gs dir log]; auto 6.
Qed.

Lemma writeGlyph_spec n bv d w w' r : writeGlyph n bv d w = (w', r) ->
  bv = true /\ w' = w /\ r = Err GlifLibError \/
  bv = false /\ exists w1 rf, fileNameFor n w = (w1, rf) /\
    match rf, d with
    | Err e, _ => w' = w1 /\ r = Err e
    | Ok f, Err e => w' = w1 /\ r = Err e
    | Ok f, Ok data => r = Ok tt /\ gs w' = gs w1 /\
        (havePrev (gs w) = true /\ get (canon f) (dir w) = Some data /\ dir w' = dir w /\ log w' = log w \/
         ~ (havePrev (gs w) = true /\ get (canon f) (dir w) = Some data) /\
         dir w' = set (canon f) data (dir w) /\ log w' = log w ++ [FSet f data])
    end.
Proof.
  unfold GlyphSet.writeGlyph. destruct bv; [intro E; inversion E; subst; left; auto|].
  unfold mbind at 1. destruct (fileNameFor n w) as [w1 rf] eqn:F. intro E. right. split; [reflexivity|].
  exists w1, rf. split; [reflexivity|].
  destruct (fileNameFor_spec _ _ _ _ F) as (D & L & S).
  destruct rf as [f|e]; [|inversion E; auto].
  assert (HP : havePrev (gs w1) = havePrev (gs w)).
  { destruct S as [(_ & ->)|(_ & _ & ->)]; reflexivity. }
  unfold mbind, lift in E. destruct d as [data|e]; [|inversion E; auto].
  unfold getGs, fsExists, fsGetbytes, fsSetbytes, perform, ret in E. rewrite HP in E.
  destruct w1 as [g1 d1 l1]. cbn [gs dir log] in *. subst d1 l1.
  revert E. destruct (havePrev (gs w)) eqn:HW.
  - unfold has. cbn [dir]. destruct (get (canon f) (dir w)) as [old|] eqn:G; cbn [dir]; rewrite ?G.
    + destruct (eqb_spec data old) as [->|ne]; intro E; inversion E; subst; cbn [gs dir log applyOp]; auto 8.
      split; [reflexivity|]. split; [reflexivity|]. right. split; [|auto]. intros (_ & X). congruence.
    + intro E; inversion E; subst; cbn [gs dir log applyOp]. split; [reflexivity|]. split; [reflexivity|]. right. split; [|auto].
      intros (_ & X). discriminate.
  - intro E; inversion E; subst; cbn [gs dir log applyOp]. split; [reflexivity|]. split; [reflexivity|]. right. split; [|auto].
    intros (X & _). discriminate.
Qed.

Lemma deleteGlyph_spec n w w' r : deleteGlyph n w = (w', r) ->
  match get n (contents (gs w)) with
  | None => w' = w /\ r = Err KeyError
  | Some f =>
    if has (canon f) (dir w) then
      dir w' = del (canon f) (dir w) /\ log w' = log w ++ [FRemove f] /\
      match r with
      | Ok _ => gs w' = mkGset (del n (contents (gs w))) (option_map (del f) (existing (gs w)))
                  (option_map (del (lower f)) (reverse (gs w))) (havePrev (gs w)) /\
          (forall e, existing (gs w) = Some e -> has f e = true) /\ (forall x, reverse (gs w) = Some x -> has (lower f) x = true)
      | Err e => e = KeyError /\ contents (gs w') = contents (gs w) /\
          ((exists e, existing (gs w) = Some e /\ has f e = false /\ gs w' = gs w) \/
           (exists x, reverse (gs w) = Some x /\ has (lower f) x = false))
      end
    else w' = w /\ r = Err FSError
  end.
Proof.
  unfold GlyphSet.deleteGlyph, mbind, getGs, setGs, fsRemove, fsExists, perform, raise, ret.
  destruct w as [g d l]. cbn [gs dir log]. destruct (get n (contents g)) as [f|]; [|intro E; inversion E; auto].
  unfold mbind, perform. cbn [gs dir log].
  destruct (has (canon f) d); [|intro E; inversion E; auto].
  cbn [gs dir log applyOp].
  destruct g as [c ex rv hp]. cbn [existing reverse contents havePrev] in *.
  destruct ex as [e|]; [destruct (has f e) eqn:He|]; cbn [gs dir log].
  - destruct rv as [x|]; [destruct (has (lower f) x) eqn:Hx|]; intro E; inversion E; subst; cbn [gs dir log option_map contents]; repeat (split; [try reflexivity|]); eauto; try congruence; try discriminate.
  - intro E; inversion E; subst; cbn [gs dir log contents]. repeat (split; [reflexivity|]). left. eauto.
  - destruct rv as [x|]; [destruct (has (lower f) x) eqn:Hx|]; intro E; inversion E; subst; cbn [gs dir log option_map contents]; repeat (split; [try reflexivity|]); eauto; try congruence; try discriminate.
Qed.

Lemma writeContents_spec w w' r : writeContents w = (w', r) ->
  gs w' = gs w /\
  match r with
  | Err e => e = UFOLibError /\ (exists x, dumps (contents (gs w)) = Err x) /\
      (havePrev (gs w) = true /\ w' = w \/
       havePrev (gs w) = false /\ dir w' = set (canon contentsName) [] (dir w) /\ log w' = log w ++ [FTrunc contentsName])
  | Ok _ => exists b, dumps (contents (gs w)) = Ok b /\
      (havePrev (gs w) = true /\ get (canon contentsName) (dir w) = Some b /\ w' = w \/
       havePrev (gs w) = true /\ dir w' = set (canon contentsName) b (dir w) /\ log w' = log w ++ [FSet contentsName b] \/
       havePrev (gs w) = false /\ dir w' = set (canon contentsName) b (set (canon contentsName) [] (dir w)) /\
         log w' = log w ++ [FTrunc contentsName; FSet contentsName b])
  end.
Proof.
  unfold GlyphSet.writeContents, mbind, getGs, lift, fsExists, fsGetbytes, fsSetbytes, perform, ret.
  destruct w as [g d l]. cbn [gs dir log]. destruct (havePrev g) eqn:HP.
  - destruct (dumps (contents g)) as [b|x] eqn:D; [|intro E; inversion E; subst; cbn; eauto 8].
    unfold has. cbn [dir]. destruct (get (canon contentsName) d) as [old|] eqn:G; cbn [dir]; rewrite ?G.
    + destruct (eqb_spec b old) as [->|ne]; intro E; inversion E; subst; cbn [gs dir log applyOp]; (split; [reflexivity|]); eexists; (split; [reflexivity|]); auto 8.
    + intro E; inversion E; subst; cbn [gs dir log applyOp]. split; [reflexivity|]. exists b. auto 8.
  - cbn [gs dir log]. destruct (dumps (contents g)) as [b|x] eqn:D; intro E; inversion E; subst; cbn [gs dir log applyOp].
    + split; [reflexivity|]. exists b. rewrite <- app_assoc. auto 8.
    + split; [reflexivity|]. split; [reflexivity|]. split; [eauto|]. auto.
Qed.

Definition diskContents (d : dirT) : res (list (str * str)) :=
  match get (canon contentsName) d with Some b => loads b | None => Ok [] end.

Lemma rebuild_spec w w' r : rebuildContents w = (w', r) ->
  dir w' = dir w /\ log w' = log w /\
  match r with
  | Err e => w' = w
  | Ok _ => exists c, diskContents (dir w) = Ok c /\ (forall n f, In (n, f) c -> has (canon f) (dir w) = true) /\
      gs w' = mkGset c None None (havePrev (gs w))
  end.
Proof.
  unfold GlyphSet.rebuildContents, diskContents.
  destruct (match get (canon contentsName) (dir w) with Some b => loads b | None => Ok [] end) as [c|e]; [|intro E; inversion E; auto].
  destruct (checkFiles canon (dir w) c) eqn:C; intro E; inversion E; subst; cbn [gs dir log]; auto.
  split; [reflexivity|]. split; [reflexivity|]. exists c. split; [reflexivity|]. split; [|reflexivity].
  intros n f I. unfold checkFiles in C. rewrite forallb_forall in C. apply (C (n, f) I).
Qed.
Lemma rebuild_ok w c : diskContents (dir w) = Ok c -> (forall n f, In (n, f) c -> has (canon f) (dir w) = true) ->
  rebuildContents w = (mkWorld (mkGset c None None (havePrev (gs w))) (dir w) (log w), Ok tt).
Proof.
  intros D H. unfold GlyphSet.rebuildContents. unfold diskContents in D. rewrite D.
  assert (checkFiles canon (dir w) c = true) as ->; [|reflexivity].
  apply forallb_forall. intros [n f] I. apply (H n f I).
Qed.
Lemma reverse_spec w w' r : getReverseContents lower w = (w', r) ->
  dir w' = dir w /\ log w' = log w /\ contents (gs w') = contents (gs w) /\ existing (gs w') = existing (gs w) /\ havePrev (gs w') = havePrev (gs w) /\
  exists d, r = Ok d /\ reverse (gs w') = Some d /\ match reverse (gs w) with Some x => d = x | None => d = invert lower (contents (gs w)) end.
Proof.
  unfold getReverseContents, mbind, getGs, setGs, ret. destruct w as [[c e rv h] d l]. cbn [gs dir log reverse contents existing havePrev].
  destruct rv as [x|]; intro E; inversion E; subst; cbn; repeat (split; [reflexivity|]); eauto.
Qed.
Lemma getGLIF_spec n w w' r : getGLIF canon n w = (w', r) -> w' = w /\
  r = match get n (contents (gs w)) with
      | None => Err KeyError
      | Some f => match get (canon f) (dir w) with Some b => Ok b | None => Err GlifLibError end
      end.
Proof.
  unfold getGLIF, mbind, getGs, raise. destruct (get n (contents (gs w))); intro E; inversion E; auto.
Qed.

(** ** caches *)
Definition lower_inj (c : list (str * str)) : Prop :=
  forall n m f g, get n c = Some f -> get m c = Some g -> lower f = lower g -> n = m.

Definition caches_ok (g : gset) : Prop :=
  dict_ok (contents g) /\
  (forall e, existing g = Some e -> dict_ok e /\ forall n f, get n (contents g) = Some f -> In f (keys e)) /\
  (forall x, reverse g = Some x -> dict_ok x /\ forall l n, get l x = Some n <-> exists f, get n (contents g) = Some f /\ lower f = l).

Lemma invert_spec c : dict_ok c -> lower_inj c ->
  dict_ok (invert lower c) /\ forall l n, get l (invert lower c) = Some n <-> exists f, get n c = Some f /\ lower f = l.
Proof.
  intros D I. unfold invert.
  enough (A : forall p acc, (forall n f, In (n, f) p -> get n c = Some f) -> dict_ok acc ->
    dict_ok (fold_left (fun d '(k, v) => set (lower v) k d) p acc) /\
    forall l n, get l (fold_left (fun d '(k, v) => set (lower v) k d) p acc) = Some n <->
      (exists f, In (n, f) p /\ lower f = l) \/ (~ (exists n' f, In (n', f) p /\ lower f = l) /\ get l acc = Some n)).
  { destruct (A c [] ltac:(intros n f H; apply In_get; assumption) ltac:(constructor)) as (Dk & G). split; [exact Dk|].
    intros l n. rewrite G. cbn [get]. split.
    - intros [(f & H & E)|(_ & H)]; [|discriminate]. exists f. split; [apply In_get; assumption|exact E].
    - intros (f & H & E). left. exists f. split; [apply get_In; exact H|exact E]. }
  induction p as [|[k v] p IH]; intros acc Hp Da; cbn [fold_left].
  - split; [exact Da|]. intros l n. split.
    + intro H. right. split; [|exact H]. intros (n' & f & [] & _).
    + intros [(f & [] & _)|(_ & H)]. exact H.
  - destruct (IH (set (lower v) k acc)) as (Dk & G); [intros n f H; apply Hp; right; exact H|apply dict_ok_set; exact Da|].
    split; [exact Dk|]. intros l n. rewrite G, get_set. split.
    + intros [(f & H & E)|(Hn & H)].
      * left. exists f. split; [right; exact H|exact E].
      * destruct (eqb_spec l (lower v)) as [->|ne].
        -- inversion H; subst. left. exists v. split; [left; reflexivity|reflexivity].
        -- right. split; [|exact H]. intros (n' & f & [X|X] & E); [inversion X; subst; congruence|]. apply Hn. eauto.
    + intros [(f & [X|X] & E)|(Hn & H)].
      * inversion X; subst. 
        destruct (in_dec (fun a b => eq_decide a b) (lower f) (map (fun kv => lower (snd kv)) p)) as [Hi|Hi].
        -- apply in_map_iff in Hi as ([n' f'] & E & Hi). cbn [snd] in E.
           assert (n' = n) as ->; [|left; exists f'; auto].
           eapply I; [apply Hp; right; exact Hi|apply Hp; left; reflexivity|exact E].
        -- right. split; [|rewrite eqb_refl; reflexivity]. intros (n' & f' & H & E). apply Hi. apply in_map_iff. exists (n', f'). auto.
      * left. exists f. auto.
      * right. split; [intros (n' & f & H' & E); apply Hn; exists n', f; split; [right; exact H'|exact E]|].
        destruct (eqb_spec l (lower v)) as [->|ne]; [|exact H]. exfalso. apply Hn. exists k, v. split; [left; reflexivity|reflexivity].
Qed.

Lemma existingOf_spec g : caches_ok g ->
  dict_ok (existingOf lower g) /\ forall n f, get n (contents g) = Some f -> In f (keys (existingOf lower g)).
Proof.
  intros (Dc & He & _). unfold existingOf. destruct (existing g) as [e|]; [apply He; reflexivity|].
  enough (A : forall p acc, dict_ok acc ->
     dict_ok (fold_left (fun d '(_, f) => set f (lower f) d) p acc) /\
     (forall x : str * str, In x p -> In (snd x) (keys (fold_left (fun d '(_, f) => set f (lower f) d) p acc))) /\
     forall x, In x (keys acc) -> In x (keys (fold_left (fun d '(_, f) => set f (lower f) d) p acc))).
  { destruct (A (contents g) [] ltac:(constructor)) as (D & K & _). split; [exact D|]. intros n f H. apply get_In in H. apply (K (n, f) H). }
  induction p as [|[k f] p IH]; intros acc Da; cbn [fold_left].
  - split; [exact Da|]. split; [intros x []|auto].
  - destruct (IH (set f (lower f) acc) ltac:(apply dict_ok_set; exact Da)) as (D & K & K').
    split; [exact D|]. split.
    + intros x [<-|Hx]; [|apply K; exact Hx]. cbn [snd]. apply K'. apply In_keys_set. auto.
    + intros x Hx. apply K'. apply In_keys_set. auto.
Qed.
Lemma existingOf_keys g x : In x (keys (existingOf lower g)) ->
  (exists e, existing g = Some e /\ In x (keys e)) \/ exists n, In (n, x) (contents g).
Proof.
  unfold existingOf. destruct (existing g) as [e|]; [left; eauto|]. right.
  enough (A : forall p acc, In x (keys (fold_left (fun d '((_, f) : str * str) => set f (lower f) d) p acc)) -> In x (keys acc) \/ exists n, In (n, x) p).
  { apply A in H as [[]|H]. exact H. }
  clear H. induction p as [|[k f] p IH]; intros acc Hx; cbn [fold_left] in Hx; [auto|].
  apply IH in Hx as [Hx|(n & Hn)]; [|right; exists n; right; exact Hn].
  apply In_keys_set in Hx as [->|Hx]; [right; exists k; left; reflexivity|auto].
Qed.

Lemma in_existing_val g n f : caches_ok g -> get n (contents g) = Some f -> In f (keys (existingOf lower g)).
Proof. intros C. apply existingOf_spec. exact C. Qed.

(** every call keeps the caches right, if no two files differ only in case
    before and after it *)
Lemma fileNameFor_caches n w w' r : fileNameFor n w = (w', r) ->
  caches_ok (gs w) -> lower_inj (contents (gs w')) -> caches_ok (gs w').
Proof.
  intros F C I. destruct (existingOf_spec _ C) as (De & Ke). pose proof C as (Dc & He & Hr).
  apply fileNameFor_spec in F as (_ & _ & F). destruct r as [f|e].
  - destruct F as [(_ & ->)|(G & T & E)]; [exact C|]. rewrite E in *. cbn [contents] in I.
    split; [apply dict_ok_set; exact Dc|]. split; cbn [existing reverse contents].
    + intros e0 E0. inversion E0; subst. split; [apply dict_ok_set; exact De|].
      intros m g. rewrite get_set. destruct (eqb_spec m n) as [->|ne]; intro X.
      * inversion X; subst. apply In_keys_set. auto.
      * apply In_keys_set. right. eapply Ke; exact X.
    + destruct (reverse (gs w)) as [x|] eqn:R; [|discriminate]. intros x' X'. inversion X'; subst.
      destruct (Hr x eq_refl) as (Dx & Gx). split; [apply dict_ok_set; exact Dx|].
      intros l m. rewrite get_set. destruct (eqb_spec l (lower f)) as [->|ne].
      * split.
        -- intro X. inversion X; subst. exists f. rewrite get_set_same. auto.
        -- intros (g & Gg & El). f_equal. symmetry. eapply I; [exact Gg|apply get_set_same|exact El].
      * rewrite Gx. split; intros (g & Gg & El); exists g; (split; [|exact El]).
        -- rewrite get_set_other; [exact Gg|]. intros ->. congruence.
        -- rewrite get_set in Gg. destruct (eqb_spec m n) as [->|ne2]; [|exact Gg]. inversion Gg; subst. congruence.
  - destruct F as (G & T & E). rewrite E. split; [exact Dc|]. cbn [existing reverse contents]. split; [|exact Hr].
    intros e0 E0. inversion E0; subst. split; [exact De|exact Ke].
Qed.
Lemma deleteGlyph_caches n w w' r : deleteGlyph n w = (w', r) ->
  caches_ok (gs w) -> lower_inj (contents (gs w)) -> caches_ok (gs w').
Proof.
  intros E C I. pose proof C as (Dc & He & Hr). apply deleteGlyph_spec in E.
  destruct (get n (contents (gs w))) as [f|] eqn:G; [|destruct E as (-> & _); exact C].
  destruct (has (canon f) (dir w)); [|destruct E as (-> & _); exact C].
  destruct E as (_ & _ & E). destruct r as [[]|e].
  - destruct E as (-> & _ & _). split; [apply dict_ok_del; exact Dc|]. cbn [existing reverse contents]. split.
    + destruct (existing (gs w)) as [e|]; [|discriminate]. cbn. intros e0 E0. inversion E0; subst.
      destruct (He e eq_refl) as (De & Ke). split; [apply dict_ok_del; exact De|].
      intros m g Gg. destruct (eq_decide m n) as [->|ne]; [rewrite get_del_same in Gg by exact Dc; discriminate|].
      rewrite get_del_other in Gg by exact ne. apply In_keys_del; [exact De|]. split; [|eapply Ke; exact Gg].
      intros ->. apply ne. eapply I; [exact Gg|exact G|reflexivity].
    + destruct (reverse (gs w)) as [x|]; [|discriminate]. cbn. intros x0 E0. inversion E0; subst.
      destruct (Hr x eq_refl) as (Dx & Gx). split; [apply dict_ok_del; exact Dx|].
      intros l m. destruct (eq_decide l (lower f)) as [->|ne].
      * rewrite get_del_same by exact Dx. split; [discriminate|]. intros (g & Gg & El).
        destruct (eq_decide m n) as [->|ne2]; [rewrite get_del_same in Gg by exact Dc; discriminate|].
        rewrite get_del_other in Gg by exact ne2. exfalso. apply ne2. eapply I; [exact Gg|exact G|exact El].
      * rewrite get_del_other by exact ne. rewrite Gx. split; intros (g & Gg & El); exists g; (split; [|exact El]).
        -- rewrite get_del_other; [exact Gg|]. intros ->. congruence.
        -- destruct (eq_decide m n) as [->|ne2]; [rewrite get_del_same in Gg by exact Dc; discriminate|].
           rewrite get_del_other in Gg by exact ne2. exact Gg.
  - destruct E as (_ & Ec & [(x & Ex & Hx & ->)|(x & Ex & Hx)]); [exact C|].
    exfalso. destruct (Hr x Ex) as (_ & Gx). apply has_nIn in Hx. apply Hx. apply has_In. unfold has.
    assert (get (lower f) x = Some n) as -> by (apply Gx; eauto). reflexivity.
Qed.
(** with right caches deleting fails only before anything was done *)
Lemma deleteGlyph_err n w w' e : deleteGlyph n w = (w', Err e) -> caches_ok (gs w) -> w' = w.
Proof.
  intros E (Dc & He & Hr). apply deleteGlyph_spec in E.
  destruct (get n (contents (gs w))) as [f|] eqn:G; [|tauto].
  destruct (has (canon f) (dir w)); [|tauto]. exfalso.
  destruct E as (_ & _ & _ & Ec & [(x & Ex & Hx & _)|(x & Ex & Hx)]).
  - destruct (He x Ex) as (_ & K). apply has_nIn in Hx. apply Hx. eapply K; exact G.
  - destruct (Hr x Ex) as (_ & Gx). apply has_nIn in Hx. apply Hx. apply has_In. unfold has.
    assert (get (lower f) x = Some n) as -> by (apply Gx; eauto). reflexivity.
Qed.

Lemma exec_caches c w : caches_ok (gs w) -> lower_inj (contents (gs w)) -> lower_inj (contents (gs (fst (exec c w)))) ->
  caches_ok (gs (fst (exec c w))).
Proof.
  intros C I I'. destruct (exec c w) as [w' r] eqn:E. cbn [fst] in *. destruct c as [n bv d|n| | | |n]; cbn [GlyphSet.exec] in E.
  - apply writeGlyph_spec in E as [(_ & -> & _)|(_ & w1 & rf & F & E)]; [exact C|].
    assert (gs w' = gs w1) as X by (destruct rf as [f|e]; [destruct d as [data|e]|]; destruct E as (E1 & E2); subst; tauto).
    rewrite X in *. eapply fileNameFor_caches; eauto.
  - eapply deleteGlyph_caches; eauto.
  - apply writeContents_spec in E as (-> & _). exact C.
  - apply rebuild_spec in E as (_ & _ & E). destruct r as [[]|e]; [|subst; exact C].
    destruct E as (c & Dc & _ & ->). split; [|split; discriminate]. cbn [contents].
    unfold diskContents in Dc. destruct (get (canon contentsName) (dir w)); [eapply loads_dict; [exact codec|exact Dc]|inversion Dc; constructor].
  - unfold mbind in E. destruct (getReverseContents lower w) as [w1 rr] eqn:R.
    apply reverse_spec in R as (_ & _ & Ec & Ee & Eh & d & -> & Er & M). inversion E; subst w1 r. 
    destruct C as (Dc & He & Hr). split; [rewrite Ec; exact Dc|]. rewrite Ee, Ec. split; [exact He|].
    rewrite Er. intros x X. inversion X; subst. destruct (reverse (gs w)) as [y|]; [subst; apply Hr; reflexivity|].
    subst. apply invert_spec; assumption.
  - unfold mbind in E. destruct (getGLIF canon n w) as [w1 rr] eqn:R. apply getGLIF_spec in R as (-> & _).
    destruct rr; inversion E; subst; exact C.
Qed.

Lemma openSet_spec d w : openSet canon loads d = (w, Ok tt) ->
  dir w = d /\ log w = [] /\ havePrev (gs w) = has (canon contentsName) d /\
  exists c, diskContents d = Ok c /\ contents (gs w) = c /\ dict_ok c /\ caches_ok (gs w) /\ (forall n f, In (n, f) c -> has (canon f) d = true).
Proof.
  intro E. apply rebuild_spec in E as (D & L & c & Dc & Hf & G). cbn [dir log gs havePrev] in *.
  split; [exact D|]. split; [exact L|]. rewrite G. cbn [havePrev contents]. split; [reflexivity|].
  exists c. assert (dict_ok c).
  { unfold diskContents in Dc. destruct (get (canon contentsName) d); [eapply loads_dict; [exact codec|exact Dc]|inversion Dc; constructor]. }
  split; [exact Dc|]. split; [reflexivity|]. split; [exact H|]. split; [|exact Hf].
  split; [exact H|]. split; discriminate.
Qed.
Lemma openSet_ok d c : diskContents d = Ok c -> (forall n f, In (n, f) c -> has (canon f) d = true) ->
  openSet canon loads d = (mkWorld (mkGset c None None (has (canon contentsName) d)) d [], Ok tt).
Proof. intros. unfold openSet. rewrite (rebuild_ok _ c); auto. Qed.

(** ** distinct files *)
(** file names produced by the file name function for a name satisfying [ok]:
    name and file name satisfy [P], and if the existing ones do with other names,
    the file name is different from them ignoring case, and not contents.plist *)
Variable ok : str -> Prop.
Variable P : str -> str -> Prop.
Hypothesis fresh_names : forall n e f, ok n -> (forall g, In g (keys e) -> exists m, m <> n /\ P m g) -> toFileName n e = Ok f ->
  P n f /\ ~ In (lower f) (map lower (keys e)) /\ canon f <> canon contentsName.

Hypothesis ok_good : forall n, ok n -> good n.
Hypothesis P_good : forall n f, P n f -> good f.
Definition okMap (c : list (str * str)) : Prop :=
  lower_inj c /\ forall n f, get n c = Some f -> P n f /\ canon f <> canon contentsName /\ good n.
Definition distinctInv (w : world) : Prop :=
  caches_ok (gs w) /\ okMap (contents (gs w)) /\
  (forall e, existing (gs w) = Some e -> forall f, In f (keys e) -> exists n, get n (contents (gs w)) = Some f) /\
  (forall c, diskContents (dir w) = Ok c -> okMap c).
Definition okCall (c : call) : Prop := match c with CWrite n _ _ => ok n | _ => True end.

Lemma okMap_eq c c' : dict_eq c' c -> okMap c -> okMap c'.
Proof.
  intros E (I & H). split.
  - intros n m f g. rewrite !E. apply I.
  - intros n f. rewrite E. apply H.
Qed.
Lemma existing_P w : distinctInv w -> forall f, In f (keys (existingOf lower (gs w))) -> exists n, get n (contents (gs w)) = Some f.
Proof.
  intros (C & (_ & H) & He & _) f I. apply existingOf_keys in I as [(e & E & I)|(n & I)]; [eapply He; eauto|].
  apply In_get in I; [|exact (proj1 C)]. eauto.
Qed.
Lemma fileNameFor_distinct n w w' r : ok n -> fileNameFor n w = (w', r) -> distinctInv w -> distinctInv w'.
Proof.
  intros On F DI. pose proof (existing_P w DI) as EP. pose proof F as F0. apply fileNameFor_spec in F as (D & L & F).
  pose proof DI as (C & (I & H) & He & Hd).
  destruct (existingOf_spec _ C) as (De & Ke).
  assert (EP' : get n (contents (gs w)) = None -> forall g, In g (keys (existingOf lower (gs w))) -> exists m, m <> n /\ P m g).
  { intros G g Ig. destruct (EP g Ig) as (m & Gm). exists m. split; [congruence|apply (H m g Gm)]. }
  assert (OM : okMap (contents (gs w'))).
  { destruct r as [f|e].
    - destruct F as [(_ & ->)|(G & T & E)]; [split; assumption|]. rewrite E. cbn [contents].
      destruct (fresh_names n _ f On (EP' G) T) as (Pf & Fr & Nc).
      assert (Hnew : forall m g, get m (contents (gs w)) = Some g -> lower g <> lower f).
      { intros m g Gm El. apply Fr. rewrite <- El. apply in_map. eapply Ke; exact Gm. }
      split.
      + intros m1 m2 f1 f2. rewrite !get_set. destruct (eqb_spec m1 n) as [->|n1], (eqb_spec m2 n) as [->|n2]; intros G1 G2 El; auto.
        * inversion G1; subst. exfalso. apply (Hnew m2 f2 G2). congruence.
        * inversion G2; subst. exfalso. apply (Hnew m1 f1 G1). congruence.
        * eapply I; eauto.
      + intros m g. rewrite get_set. destruct (eqb_spec m n) as [->|ne]; [intro X; inversion X; subst; auto 6|apply H].
    - destruct F as (G & T & E). rewrite E. split; assumption. }
  split; [eapply fileNameFor_caches; [exact F0|exact C|apply OM]|]. split; [exact OM|]. rewrite D. split; [|exact Hd].
  destruct r as [f|e].
  - destruct F as [(_ & ->)|(G & T & E)]; [exact He|]. rewrite E. cbn [existing].
    intros e0 E0. inversion E0; subst. intros g Hg. cbn [contents]. apply In_keys_set in Hg as [->|Hg]; [exists n; apply get_set_same|].
    destruct (EP g Hg) as (m & Gm). exists m. rewrite get_set_other; [exact Gm|congruence].
  - destruct F as (G & T & E). rewrite E. cbn [existing]. intros e0 E0. inversion E0; subst. exact EP.
Qed.
Lemma disk_set_other f data d : canon f <> canon contentsName -> diskContents (set (canon f) data d) = diskContents d.
Proof. intro N. unfold diskContents. rewrite get_set_other by congruence. reflexivity. Qed.
Lemma disk_del_other f d : canon f <> canon contentsName -> diskContents (del (canon f) d) = diskContents d.
Proof. intro N. unfold diskContents. rewrite get_del_other by congruence. reflexivity. Qed.

Lemma exec_distinct c w : okCall c -> distinctInv w -> distinctInv (fst (exec c w)).
Proof.
  intros Oc DI. pose proof DI as (C & (I & H) & He & Hd).
  destruct (exec c w) as [w' r] eqn:E. cbn [fst]. destruct c as [n bv d|n| | | |n]; cbn [GlyphSet.exec okCall] in *.
  - apply writeGlyph_spec in E as [(_ & -> & _)|(_ & w1 & rf & F & E)]; [exact DI|].
    pose proof (fileNameFor_distinct n w w1 rf Oc F DI) as DI1.
    destruct rf as [f|e]; [|destruct E as (-> & _); exact DI1]. destruct d as [data|e]; [|destruct E as (-> & _); exact DI1].
    destruct E as (_ & Eg & E). destruct (fileNameFor_spec _ _ _ _ F) as (D1 & L1 & F1).
    assert (G1 : get n (contents (gs w1)) = Some f).
    { destruct F1 as [(G & ->)|(_ & _ & ->)]; [exact G|]. cbn. apply get_set_same. }
    destruct DI1 as (C1 & (I1 & H1) & He1 & Hd1).
    destruct (H1 n f G1) as (Pf & Nf & _).
    unfold distinctInv. rewrite Eg. split; [exact C1|]. split; [split; assumption|]. split; [exact He1|].
    destruct E as [(_ & _ & -> & _)|(_ & -> & _)]; [exact Hd|]. rewrite disk_set_other by exact Nf. exact Hd.
  - pose proof (deleteGlyph_caches n w w' r E C I) as C'. destruct r as [[]|e].
    2:{ apply deleteGlyph_err in E; [|exact C]. subst. exact DI. }
    apply deleteGlyph_spec in E. destruct (get n (contents (gs w))) as [f|] eqn:G; [|destruct E as (_ & E); discriminate].
    destruct (has (canon f) (dir w)); [|destruct E as (_ & E); discriminate].
    destruct E as (D & L & E & _). split; [exact C'|]. rewrite E. cbn [contents existing].
    assert (Dc : dict_ok (contents (gs w))) by exact (proj1 C).
    assert (Sub : forall m g, get m (del n (contents (gs w))) = Some g -> get m (contents (gs w)) = Some g).
    { intros m g Gm. destruct (eq_decide m n) as [->|ne]; [rewrite get_del_same in Gm by exact Dc; discriminate|].
      rewrite get_del_other in Gm by exact ne. exact Gm. }
    split; [split|].
    + intros m1 m2 f1 f2 G1 G2. apply I; apply Sub; assumption.
    + intros m g Gm. apply (H m). apply Sub. exact Gm.
    + split.
      * destruct (existing (gs w)) as [e|] eqn:Ee; [|discriminate]. cbn. intros e0 E0. inversion E0; subst.
        destruct C as (_ & Ce & _). destruct (Ce e Ee) as (De & _).
        intros g Hg. apply In_keys_del in Hg as [Ng Hg]; [|exact De]. destruct (He e eq_refl g Hg) as (m & Gm). exists m. rewrite get_del_other; [exact Gm|congruence].
      * rewrite D, disk_del_other; [exact Hd|]. apply (H n f G).
  - apply writeContents_spec in E as (Eg & E). unfold distinctInv. rewrite Eg. split; [exact C|]. split; [split; assumption|]. split; [exact He|].
    assert (W : forall b d0, dumps (contents (gs w)) = Ok b -> forall c, diskContents (set (canon contentsName) b d0) = Ok c -> okMap c).
    { intros b d0 Db c Dc. unfold diskContents in Dc. rewrite get_set_same in Dc.
      assert (Gm : goodMap good (contents (gs w))) by (intros n f G; destruct (H n f G) as (Pf & _ & Gn); eauto).
      destruct (loads_dumps _ _ _ codec _ _ (proj1 C) Gm Db) as (c' & Lc & Eq). rewrite Lc in Dc. inversion Dc; subst.
      eapply okMap_eq; [exact Eq|]. split; assumption. }
    destruct r as [[]|e].
    + destruct E as (b & Db & [(_ & _ & ->)|[(_ & -> & _)|(_ & -> & _)]]); [exact Hd|eapply W; exact Db..].
    + destruct E as (_ & _ & [(_ & ->)|(_ & -> & _)]); [exact Hd|]. intros c Dc. unfold diskContents in Dc. rewrite get_set_same in Dc.
      destruct (loads_empty _ _ _ codec) as (x & X). congruence.
  - apply rebuild_spec in E as (D & L & E). destruct r as [[]|e]; [|subst; exact DI].
    destruct E as (c & Dc & Hf & G). pose proof (Hd c Dc) as Oc'. unfold distinctInv. rewrite G, D. cbn [contents existing].
    split; [|split; [exact Oc'|split; [discriminate|exact Hd]]]. split; [|split; discriminate]. cbn.
    unfold diskContents in Dc. destruct (get (canon contentsName) (dir w)); [eapply loads_dict; [exact codec|exact Dc]|inversion Dc; constructor].
  - assert (C' : caches_ok (gs w')).
    { pose proof (exec_caches CReverse w C I) as X. cbn [GlyphSet.exec] in X. rewrite E in X. apply X. cbn [fst].
      unfold mbind in E. destruct (getReverseContents lower w) as [w1 rr] eqn:R.
      apply reverse_spec in R as (_ & _ & Ec & _ & _ & d & -> & _). inversion E; subst. rewrite Ec. exact I. }
    unfold mbind in E. destruct (getReverseContents lower w) as [w1 rr] eqn:R.
    apply reverse_spec in R as (D & _ & Ec & Ee & Eh & d & -> & _). inversion E; subst w1 r.
    split; [exact C'|]. rewrite Ec, Ee, D. split; [split; assumption|]. split; assumption.
  - unfold mbind in E. destruct (getGLIF canon n w) as [w1 rr] eqn:R. apply getGLIF_spec in R as (-> & _).
    destruct rr; inversion E; subst; exact DI.
Qed.

Lemma run_distinct cs w : Forall okCall cs -> distinctInv w -> distinctInv (run canon lower toFileName dumps loads cs w).
Proof.
  revert w; induction cs as [|c cs IH]; intros w O DI; [exact DI|]. inversion O; subst.
  unfold run. cbn [fold_left]. apply IH; [assumption|]. apply exec_distinct; assumption.
Qed.

(** ** every listed glyph has its file *)
Definition filesInv (w : world) : Prop := forall n f, get n (contents (gs w)) = Some f -> has (canon f) (dir w) = true.

Lemma has_set k k2 (v : bytes) (d : dirT) : has k d = true -> has k (set k2 v d) = true.
Proof. intro H. apply has_In. apply In_keys_set. right. apply has_In. exact H. Qed.
Lemma exec_files c w w' : distinctInv w -> filesInv w -> exec c w = (w', Ok tt) -> dict_ok (dir w) -> filesInv w'.
Proof.
  intros DI FI E Dd. pose proof DI as (C & (I & H) & He & Hd).
  destruct c as [n bv d|n| | | |n]; cbn [GlyphSet.exec] in E.
  - apply writeGlyph_spec in E as [(_ & _ & E)|(_ & w1 & rf & F & E)]; [discriminate|].
    destruct rf as [f|e]; [|destruct E; discriminate]. destruct d as [data|e]; [|destruct E; discriminate].
    destruct E as (_ & Eg & E). destruct (fileNameFor_spec _ _ _ _ F) as (D1 & L1 & F1).
    assert (G1 : forall m g, get m (contents (gs w')) = Some g -> g = f \/ get m (contents (gs w)) = Some g).
    { intros m g. rewrite Eg. destruct F1 as [(G & ->)|(_ & _ & ->)]; [auto|]. cbn [contents]. rewrite get_set.
      destruct (eqb m n); [intro X; inversion X; auto|auto]. }
    intros m g Gm. destruct E as [(_ & Gd & -> & _)|(_ & -> & _)].
    + destruct (G1 m g Gm) as [->|Gm']; [unfold has; rewrite Gd; reflexivity|eapply FI; exact Gm'].
    + destruct (G1 m g Gm) as [->|Gm']; [unfold has; rewrite get_set_same; reflexivity|]. apply has_set. eapply FI; exact Gm'.
  - apply deleteGlyph_spec in E. destruct (get n (contents (gs w))) as [f|] eqn:G; [|destruct E; discriminate].
    destruct (has (canon f) (dir w)); [|destruct E; discriminate].
    destruct E as (D & L & E & _). intros m g. rewrite E, D. cbn [contents]. intro Gm.
    destruct (eq_decide m n) as [->|ne]; [rewrite get_del_same in Gm by exact (proj1 C); discriminate|].
    rewrite get_del_other in Gm by exact ne. apply has_In. apply In_keys_del; [exact Dd|]. split.
    + intro X. apply ne. eapply I; [exact Gm|exact G|apply canon_lower; exact X].
    + apply has_In. eapply FI; exact Gm.
  - apply writeContents_spec in E as (Eg & b & Db & E). intros m g. rewrite Eg. intro Gm. apply FI in Gm.
    destruct E as [(_ & _ & ->)|[(_ & -> & _)|(_ & -> & _)]]; auto using has_set.
  - apply rebuild_spec in E as (D & L & c & Dc & Hf & G). intros m g. rewrite G, D. cbn [contents]. intro Gm. apply get_In in Gm. eapply Hf; exact Gm.
  - unfold mbind in E. destruct (getReverseContents lower w) as [w1 rr] eqn:R.
    apply reverse_spec in R as (D & _ & Ec & _ & _ & d & -> & _). inversion E; subst. intros m g. rewrite Ec, D. apply FI.
  - unfold mbind in E. destruct (getGLIF canon n w) as [w1 rr] eqn:R. apply getGLIF_spec in R as (-> & _).
    destruct rr; inversion E; subst; exact FI.
Qed.

(** ** crashes *)
Definition replay (ops : list fsop) (d : dirT) : dirT := fold_left (applyOp canon) ops d.
(** contents.plist can be read and every file it lists exists *)
Definition safe (d : dirT) : Prop :=
  exists b c, get (canon contentsName) d = Some b /\ loads b = Ok c /\ forall n f, In (n, f) c -> has (canon f) d = true.
Definition crashInv (w : world) : Prop :=
  safe (dir w) /\ filesInv w /\ dict_ok (contents (gs w)) /\ havePrev (gs w) = true /\
  (forall n f, get n (contents (gs w)) = Some f -> canon f <> canon contentsName /\ good n /\ good f).
Definition isDelete (c : call) : bool := match c with CDelete _ => true | _ => false end.
Definition noContentsFile (f : str) : Prop := canon f <> canon contentsName.
Definition goodWrite (c : call) : Prop := match c with CWrite n _ _ => good n | _ => True end.

Lemma safe_set f data d : noContentsFile f -> safe d -> safe (set (canon f) data d).
Proof.
  intros N (b & c & G & L & H). exists b, c. split; [rewrite get_set_other; [exact G|unfold noContentsFile in N; congruence]|].
  split; [exact L|]. intros n g I. apply has_set. eapply H; exact I.
Qed.
Lemma exec_crash c w w' : (forall n e f, good n -> toFileName n e = Ok f -> noContentsFile f /\ good f) -> goodWrite c ->
  (forall b c, get (canon contentsName) (dir w) = Some b -> loads b = Ok c -> forall n f, In (n, f) c -> noContentsFile f /\ good n /\ good f) ->
  crashInv w -> isDelete c = false -> exec c w = (w', Ok tt) ->
  crashInv w' /\
  (forall b c, get (canon contentsName) (dir w') = Some b -> loads b = Ok c -> forall n f, In (n, f) c -> noContentsFile f /\ good n /\ good f) /\
  exists ops, log w' = log w ++ ops /\ dir w' = replay ops (dir w) /\ length ops <= 1.
Proof.
  intros NF GW ND (S & FI & Dc & HP & NC) Hd E. destruct c as [n bv d|n| | | |n]; cbn [GlyphSet.exec isDelete goodWrite] in *; try discriminate.
  - apply writeGlyph_spec in E as [(_ & _ & E)|(_ & w1 & rf & F & E)]; [discriminate|].
    destruct rf as [f|e]; [|destruct E; discriminate]. destruct d as [data|e]; [|destruct E; discriminate].
    destruct E as (_ & Eg & E). destruct (fileNameFor_spec _ _ _ _ F) as (D1 & L1 & F1).
    assert (Nf' : noContentsFile f /\ good f).
    { destruct F1 as [(G & _)|(_ & T & _)]; [destruct (NC _ _ G) as (A & _ & B); split; assumption|eapply NF; [exact GW|exact T]]. }
    destruct Nf' as [Nf Gf].
    assert (K : (forall m g, get m (contents (gs w')) = Some g -> g = f /\ m = n \/ get m (contents (gs w)) = Some g) /\
                dict_ok (contents (gs w')) /\ havePrev (gs w') = true).
    { rewrite Eg. destruct F1 as [(G & ->)|(_ & _ & ->)]; [auto|]. cbn [contents havePrev]. split; [|split; [apply dict_ok_set; exact Dc|exact HP]].
      intros m g. rewrite get_set. destruct (eqb_spec m n); [intro X; inversion X; auto|auto]. }
    destruct K as (K & Dc' & HP').
    assert (NC' : forall m g, get m (contents (gs w')) = Some g -> canon g <> canon contentsName /\ good m /\ good g).
    { intros m g Gm. destruct (K m g Gm) as [(-> & ->)|Gm']; [auto|eapply NC; exact Gm']. }
    destruct E as [(_ & Gd & Ed & El)|(_ & Ed & El)].
    + unfold crashInv, filesInv. rewrite Ed. split; [|split; [exact ND|exists []; rewrite app_nil_r; auto]].
      split; [exact S|]. split; [|auto]. intros m g Gm. destruct (K m g Gm) as [(-> & _)|Gm']; [unfold has; rewrite Gd; reflexivity|eapply FI; exact Gm'].
    + unfold crashInv, filesInv. rewrite Ed. split; [|split; [|exists [FSet f data]; rewrite El; auto]].
      * split; [apply safe_set; assumption|]. split; [|auto]. intros m g Gm.
        destruct (K m g Gm) as [(-> & _)|Gm']; [unfold has; rewrite get_set_same; reflexivity|]. apply has_set. eapply FI; exact Gm'.
      * rewrite get_set_other by (unfold noContentsFile in Nf; congruence). exact ND.
  - apply writeContents_spec in E as (Eg & b & Db & E). rewrite HP in E.
    destruct E as [(_ & _ & ->)|[(_ & Ed & El)|(X & _)]]; [| |discriminate].
    + split; [split; [assumption|]; split; [assumption|]; split; [assumption|]; split; assumption|]. split; [exact ND|]. exists []. rewrite app_nil_r. auto.
    + assert (Gm : goodMap good (contents (gs w))) by (intros n f G; destruct (NC n f G) as (_ & Gn & Gf); auto).
      destruct (loads_dumps _ _ _ codec _ _ Dc Gm Db) as (c' & Lc & Eq).
      assert (In' : forall n f, In (n, f) c' -> get n (contents (gs w)) = Some f).
      { intros n f I. rewrite <- Eq. apply In_get; [eapply loads_dict; [exact codec|exact Lc]|exact I]. }
      unfold crashInv, filesInv. rewrite Eg, Ed. split; [|split; [|exists [FSet contentsName b]; rewrite El; auto]].
      * split; [|split; [|auto]].
        -- exists b, c'. split; [apply get_set_same|]. split; [exact Lc|]. intros n f I. apply has_set. eapply FI. apply In'. exact I.
        -- intros n f G. apply has_set. eapply FI; exact G.
      * intros b' c0. rewrite get_set_same. intros X L. inversion X; subst. rewrite Lc in L. inversion L; subst.
        intros n f I. eapply NC. apply In'. exact I.
  - apply rebuild_spec in E as (D & L & c & Dk & Hf & G). unfold diskContents in Dk.
    destruct S as (b & c0 & Gb & Lb & Hs). rewrite Gb in Dk. rewrite Lb in Dk. inversion Dk; subst c0.
    assert (Dcc : dict_ok c) by (eapply loads_dict; [exact codec|exact Lb]).
    unfold crashInv, filesInv. rewrite G, D. cbn [contents havePrev]. split; [|split; [exact ND|exists []; rewrite app_nil_r; auto]].
    split; [exists b, c; auto|]. split; [|split; [exact Dcc|split; [exact HP|]]].
    + intros n f Gn. apply get_In in Gn. eapply Hf; exact Gn.
    + intros n f Gn. apply get_In in Gn. eapply ND; eauto.
  - unfold mbind in E. destruct (getReverseContents lower w) as [w1 rr] eqn:R.
    apply reverse_spec in R as (D & L & Ec & _ & Eh & d & -> & _). inversion E; subst w1.
    unfold crashInv, filesInv. rewrite Ec, D, Eh. split; [split; [assumption|]; split; [assumption|]; split; [assumption|]; split; assumption|]. split; [exact ND|]. exists []. rewrite app_nil_r. auto.
  - unfold mbind in E. destruct (getGLIF canon n w) as [w1 rr] eqn:R. apply getGLIF_spec in R as (-> & _).
    destruct rr; inversion E; subst. split; [split; [assumption|]; split; [assumption|]; split; [assumption|]; split; assumption|]. split; [exact ND|]. exists []. rewrite app_nil_r. auto.
Qed.
End Proofs.

(** all calls of a history return normally *)
Fixpoint allOk (ex : call -> world -> world * res unit) (cs : list call) (w : world) : Prop :=
  match cs with
  | [] => True
  | c :: r => snd (ex c w) = Ok tt /\ allOk ex r (fst (ex c w))
  end.

Section Histories.
Variable canon lower : str -> str.
Variable toFileName : str -> list (str * str) -> res str.
Variable dumps : list (str * str) -> res bytes.
Variable loads : bytes -> res (list (str * str)).
Variable good : str -> Prop.
Hypothesis codec : codec_laws dumps loads good.
Notation exec := (exec canon lower toFileName dumps loads).
Notation run := (run canon lower toFileName dumps loads).

Lemma run_crash cs w : (forall n e f, good n -> toFileName n e = Ok f -> noContentsFile canon f /\ good f) -> Forall (goodWrite good) cs ->
  (forall b c, get (canon contentsName) (dir w) = Some b -> loads b = Ok c -> forall n f, In (n, f) c -> noContentsFile canon f /\ good n /\ good f) ->
  crashInv canon loads good w -> forallb (fun c => negb (isDelete c)) cs = true -> allOk exec cs w ->
  exists ops, log (run cs w) = log w ++ ops /\ forall k, safe canon loads (replay canon (firstn k ops) (dir w)).
Proof.
  intros NF. revert w. induction cs as [|c cs IH]; intros w GW ND CI Hd A; [|inversion GW as [|? ? GW1 GW2]; subst].
  - exists []. cbn. rewrite app_nil_r. split; [reflexivity|]. intro k. rewrite firstn_nil. apply CI.
  - cbn in Hd. apply andb_prop in Hd as [Hc Hd]. apply negb_true_iff in Hc. destruct A as (A1 & A2).
    destruct (exec c w) as [w' r] eqn:E. cbn [fst snd] in *. subst r.
    destruct (exec_crash canon lower toFileName dumps loads good codec c w w' NF GW1 ND CI Hc E) as (CI' & ND' & ops & L & D & Len).
    destruct (IH w' GW2 ND' CI' Hd A2) as (ops' & L' & S'). exists (ops ++ ops').
    split.
    + unfold GlyphSet.run in *. cbn [fold_left]. rewrite E. cbn [fst]. rewrite L', L, app_assoc. reflexivity.
    + intro k. rewrite firstn_app. unfold replay. rewrite fold_left_app.
      destruct ops as [|o [|]]; cbn [length] in *.
      * rewrite firstn_nil. cbn [fold_left]. rewrite Nat.sub_0_r. cbn in D. rewrite D in S'. apply S'.
      * destruct k as [|k]; [cbn; apply CI|]. cbn [firstn fold_left]. rewrite firstn_nil. cbn [fold_left]. rewrite Nat.sub_0_r || (replace (S k - 1) with k by lia).
        replace (applyOp canon (dir w) o) with (dir w') by exact D.
        replace (S k - 1) with k by lia. apply S'.
      * lia.
Qed.

Lemma log_exec c w : exists ops, log (fst (exec c w)) = log w ++ ops /\ dir (fst (exec c w)) = replay canon ops (dir w).
Proof.
  destruct (exec c w) as [w' r] eqn:E. cbn [fst]. destruct c as [n bv d|n| | | |n]; cbn [GlyphSet.exec] in E.
  - apply writeGlyph_spec in E as [(_ & -> & _)|(_ & w1 & rf & F & E)]; [exists []; rewrite app_nil_r; auto|].
    destruct (fileNameFor_spec _ _ _ _ _ _ F) as (D1 & L1 & _).
    destruct rf as [f|e]; [|destruct E as (-> & _); exists []; rewrite app_nil_r; auto].
    destruct d as [data|e]; [|destruct E as (-> & _); exists []; rewrite app_nil_r; auto].
    destruct E as (_ & _ & [(_ & _ & -> & ->)|(_ & -> & ->)]); [exists []; rewrite app_nil_r; auto|]. exists [FSet f data]. auto.
  - apply deleteGlyph_spec in E. destruct (get n (contents (gs w))) as [f|]; [|destruct E as (-> & _); exists []; rewrite app_nil_r; auto].
    destruct (has (canon f) (dir w)); [|destruct E as (-> & _); exists []; rewrite app_nil_r; auto].
    destruct E as (-> & -> & _). exists [FRemove f]. auto.
  - apply writeContents_spec in E as (_ & E). destruct r as [[]|e].
    + destruct E as (b & _ & [(_ & _ & ->)|[(_ & -> & ->)|(_ & -> & ->)]]); [exists []; rewrite app_nil_r; auto|eexists; split; reflexivity..].
    + destruct E as (_ & _ & [(_ & ->)|(_ & -> & ->)]); [exists []; rewrite app_nil_r; auto|eexists; split; reflexivity].
  - apply rebuild_spec in E as (-> & -> & _). exists []; rewrite app_nil_r; auto.
  - unfold mbind in E. destruct (getReverseContents lower w) as [w1 rr] eqn:R.
    apply reverse_spec in R as (D & L & _ & _ & _ & d & -> & _). inversion E; subst. exists []. rewrite app_nil_r. auto.
  - unfold mbind in E. destruct (getGLIF canon n w) as [w1 rr] eqn:R. apply getGLIF_spec in R as (-> & _).
    destruct rr; inversion E; subst; exists []; rewrite app_nil_r; auto.
Qed.
Lemma log_run cs w : exists ops, log (run cs w) = log w ++ ops /\ dir (run cs w) = replay canon ops (dir w).
Proof.
  revert w; induction cs as [|c cs IH]; intro w; [exists []; rewrite app_nil_r; auto|].
  unfold GlyphSet.run in *. cbn [fold_left]. destruct (log_exec c w) as (o1 & L1 & D1).
  destruct (IH (fst (exec c w))) as (o2 & L2 & D2). exists (o1 ++ o2).
  rewrite L2, L1, D2, D1, app_assoc. split; [reflexivity|]. unfold replay. rewrite fold_left_app. reflexivity.
Qed.
Lemma dict_ok_replay ops d : dict_ok d -> dict_ok (replay canon ops d).
Proof.
  revert d; induction ops as [|o ops IH]; intros d H; [exact H|]. cbn [replay fold_left]. apply IH.
  destruct o; cbn [applyOp]; [apply dict_ok_set|apply dict_ok_del|apply dict_ok_set]; exact H.
Qed.
Hypothesis canon_lower : forall f g, canon f = canon g -> lower f = lower g.
Lemma run_files (ok : str -> Prop) (P : str -> str -> Prop) cs w :
  (forall n e f, ok n -> (forall g, In g (keys e) -> exists m, m <> n /\ P m g) -> toFileName n e = Ok f ->
     P n f /\ ~ In (lower f) (map lower (keys e)) /\ canon f <> canon contentsName) ->
  (forall n, ok n -> good n) -> (forall n f, P n f -> good f) ->
  Forall (okCall ok) cs -> distinctInv canon lower loads good P w -> filesInv canon w -> dict_ok (dir w) -> allOk exec cs w ->
  filesInv canon (run cs w).
Proof.
  intros FN OG PG. revert w; induction cs as [|c cs IH]; intros w O DI FI Dd A; [exact FI|].
  inversion O; subst. destruct A as (A1 & A2).
  unfold GlyphSet.run in *. cbn [fold_left].
  apply IH; [assumption| | | |exact A2].
  - eapply exec_distinct; eauto.
  - destruct (exec c w) as [w' r] eqn:E. cbn [fst snd] in *. subst r. eapply exec_files; eauto.
  - destruct (log_exec c w) as (ops & _ & ->). apply dict_ok_replay. exact Dd.
Qed.
End Histories.

(** ** the default file name function on names without upper case *)
Definition no_upper (c : N) : bool := (is_ascii c && negb ((65 <=? c) && (c <=? 90)))%N.
Definition plainLower (s : str) : Prop := forallb no_upper s = true.

Lemma plainLower_In s : plainLower s <-> forall x, In x s -> no_upper x = true.
Proof. apply forallb_forall. Qed.
Lemma lower_plain lower s : lower_laws lower -> plainLower s -> lower s = s.
Proof.
  intros L H. rewrite (lower_ascii _ L).
  - unfold ascii_lower. rewrite <- (map_id s) at 2. apply map_ext_in. intros x Hx.
    rewrite plainLower_In in H. apply H in Hx. unfold no_upper in Hx. apply andb_prop in Hx as [_ Hx]. apply negb_true_iff in Hx.
    unfold lower_char. rewrite Hx. reflexivity.
  - apply forallb_forall. intros x Hx. rewrite plainLower_In in H. apply H in Hx. apply andb_prop in Hx. tauto.
Qed.
Lemma no_upper_digit c : is_digit c = true -> no_upper c = true.
Proof.
  unfold is_digit, no_upper, is_ascii. intro H. apply andb_prop in H as [H1 H2]. apply N.leb_le in H1, H2.
  apply andb_true_intro. split; [apply N.ltb_lt; lia|]. apply negb_true_iff, andb_false_iff. left. apply N.leb_gt. lia.
Qed.
Lemma cleanName_plain lower p s n : plainLower n -> plainLower (cleanName lower p s n).
Proof.
  intro H. apply plainLower_In. rewrite plainLower_In in H. intros x Hx. unfold cleanName in Hx.
  apply In_join in Hx as [[<-|[]]|(q & Hq & Hx)]; [reflexivity|].
  apply in_map_iff in Hq as (r & <- & Hr). unfold escapePart in Hx.
  assert (Hx' : x = underscore \/ In x r) by (destruct (mem _ _); cbn in Hx; [intuition congruence|auto]).
  destruct Hx' as [->|Hx']; [reflexivity|].
  apply In_split1 with (x := x) in Hr; [|exact Hx']. apply slice_to_In in Hr.
  apply in_concat in Hr as (y & Hy & Hxy). apply in_map_iff in Hy as (c & <- & Hc).
  unfold filterCharacter in Hxy. destruct (mem c _); [destruct Hxy as [<-|[]]; reflexivity|].
  destruct (negb _); [destruct Hxy as [<-|[<-|[]]]|destruct Hxy as [<-|[]]]; auto.
Qed.
Lemma default_plain lower name ex f : plainLower name -> glyphNameToFileName lower name ex = Ok f ->
  plainLower f /\ exists body, f = body ++ u ".glif".
Proof.
  intros Hn H. unfold glyphNameToFileName in H. apply userNameToFileName_shape in H as (n & Rn & Sh & _).
  assert (Pn : plainLower n).
  { unfold replaceInitialPeriod in Rn. destruct name as [|c r]; [discriminate|].
    destruct (N.eqb c period); inversion Rn; subst; [|exact Hn]. unfold plainLower in *. cbn [forallb] in *. apply andb_prop in Hn as [_ Hn]. rewrite Hn. reflexivity. }
  pose proof (cleanName_plain lower [] (u ".glif") n Pn) as Pc. set (c := cleanName lower [] (u ".glif") n) in *.
  assert (App : forall a b, plainLower a -> plainLower b -> plainLower (a ++ b)).
  { intros a b Ha Hb. unfold plainLower. rewrite forallb_app. rewrite Ha, Hb. reflexivity. }
  assert (Dg : forall d, forallb is_digit d = true -> plainLower d).
  { intros d Hd. apply plainLower_In. intros x Hx. rewrite forallb_forall in Hd. apply no_upper_digit. apply Hd. exact Hx. }
  assert (Suf : plainLower (u ".glif")) by reflexivity.
  inversion Sh as [E|k Hk Hi E|k m Hk Hm Hp E]; cbn [app].
  - split; [apply App; assumption|eauto].
  - split; [|eauto]. apply App; [|exact Suf]. apply App; [|apply Dg, zfill_digit, str_of_N_digit].
    destruct (clash1Name_prefix c [] (u ".glif")) as (r & Er). rewrite Er in Pc. unfold plainLower in Pc. rewrite forallb_app in Pc.
    apply andb_prop in Pc. apply Pc.
  - split; [|eauto]. apply App; [apply Dg, str_of_N_digit|exact Suf].
Qed.
Lemma glif_not_contents body : body ++ u ".glif" <> contentsName.
Proof.
  intro E. apply (f_equal (@rev N)) in E. rewrite rev_app_distr in E. vm_compute in E. discriminate.
Qed.
Lemma default_fresh_plain (canon lower : str -> str) : lower_laws lower -> (forall f g, canon f = canon g -> lower f = lower g) ->
  forall n e f, plainLower n -> (forall g, In g (keys e) -> plainLower g) -> defaultFileName lower n e = Ok f ->
  plainLower f /\ ~ In (lower f) (map lower (keys e)) /\ canon f <> canon contentsName.
Proof.
  intros L CL n e f Hn He T. unfold defaultFileName in T. destruct (default_plain lower n _ f Hn T) as (Pf & body & Ef).
  split; [exact Pf|]. split.
  - replace (map lower (keys e)) with (keys e).
    + eapply fresh. exact T.
    + rewrite <- (map_id (keys e)) at 1. apply map_ext_in. intros g Hg. symmetry. apply lower_plain; auto.
  - intro E. apply CL in E. assert (Pc : plainLower contentsName) by reflexivity.
    rewrite (lower_plain lower f L Pf), (lower_plain lower contentsName L Pc) in E. subst f.
    exact (glif_not_contents body E).
Qed.
(** a file name function that compares ignoring case, as filenames.py intends *)
Definition carefulFileName (lower : str -> str) (name : str) (ex : list (str * str)) : res str :=
  glyphNameToFileName lower name (lower contentsName :: map lower (keys ex)).
Lemma careful_fresh (canon lower : str -> str) : (forall f g, canon f = canon g -> lower f = lower g) ->
  forall n e f, carefulFileName lower n e = Ok f ->
  ~ In (lower f) (map lower (keys e)) /\ canon f <> canon contentsName.
Proof.
  intros CL n e f T. unfold carefulFileName in T. apply fresh in T. split.
  - intro I. apply T. right. exact I.
  - intro E. apply T. left. symmetry. apply CL. exact E.
Qed.
