From Verif Require Import Base Str ConvertModel NumModel NumSpec NumProof SpoolModel SpoolSpec.
From Coq Require Import Permutation Sorted.
Open Scope Z_scope.

(** * strLstMergeAnti *)

Lemma antiStep_spec x anti add anti' : antiStep x anti = (add, anti') ->
  (exists p, anti = p ++ anti') /\ (add = false -> In x anti) /\
  (StronglySorted sle anti -> (add = true -> ~ In x anti) /\ (forall y, slt x y -> In y anti -> In y anti')).
Proof.
  revert add anti'; induction anti as [|a r IH]; cbn [antiStep]; intros add anti' H.
  - injection H as <- <-. split; [now exists []|]. split; [discriminate|]. intros _. split; [auto|]. intros y _ [].
  - destruct (strCmp x a) eqn:E.
    + injection H as <- <-. apply strCmp_eq in E. subst a. split; [now exists [x]|]. split; [now left|]. intros Hs. split; [discriminate|].
      intros y Hxy [<-|Hy]; [now apply slt_irrefl in Hxy|exact Hy].
    + injection H as <- <-. split; [now exists []|]. split; [discriminate|]. intros Hs. split; [|auto]. intros _ [->|Hi].
      * rewrite strCmp_refl in E. discriminate.
      * inversion Hs as [|? ? _ Hf]; subst. rewrite Forall_forall in Hf. apply (slt_irrefl x). eapply slt_le_trans; [exact E|]. now apply Hf.
    + destruct (IH _ _ H) as ((p & Hp) & Ha & Hb). split; [exists (a :: p); cbn; now f_equal|]. split; [intros F; right; now apply Ha|].
      intros Hs. inversion Hs as [|? ? Hs' _]; subst. destruct (Hb Hs') as (B1 & B2). split.
      * intros T [->|Hi]; [rewrite strCmp_refl in E; discriminate|now apply B1].
      * intros y Hxy [->|Hi]; [|now apply B2]. unfold slt in Hxy. congruence.
Qed.

Lemma suffix_sorted {A} (R : A -> A -> Prop) p l : StronglySorted R (p ++ l) -> StronglySorted R l.
Proof. intros H. apply StronglySorted_app_inv in H. tauto. Qed.

Lemma mergeAnti_filter this anti : ssorted this -> StronglySorted sle anti ->
  strLstMergeAnti this anti = filter (fun x => negb (strLstExists anti x)) this.
Proof.
  intros H. revert anti. induction H as [|x r Hr IH Hx]; intros anti Ha; cbn [strLstMergeAnti filter]; [reflexivity|].
  destruct (antiStep x anti) as [add anti'] eqn:E. destruct (antiStep_spec _ _ _ _ E) as ((p & Hp) & A & B). destruct (B Ha) as (B1 & B2).
  assert (Hsub : filter (fun z => negb (strLstExists anti z)) r = strLstMergeAnti r anti').
  { rewrite IH by (rewrite Hp in Ha; eapply suffix_sorted; exact Ha). apply filter_ext_in. intros z Hz. f_equal. rewrite Forall_forall in Hx. specialize (Hx z Hz).
    destruct (strLstExists_spec anti z) as [I|I], (strLstExists_spec anti' z) as [J|J]; auto.
    - exfalso. apply J. now apply B2.
    - exfalso. apply I. rewrite Hp. apply in_or_app. now right. }
  destruct add.
  - destruct (strLstExists_spec anti x) as [I|I]; [exfalso; now apply B1|]. cbn. now rewrite Hsub.
  - destruct (strLstExists_spec anti x) as [I|I]; [|exfalso; apply I; now apply A]. cbn. now rewrite Hsub.
Qed.

Inductive sublist {A} : list A -> list A -> Prop :=
| sub_nil : sublist [] []
| sub_skip x a b : sublist a b -> sublist a (x :: b)
| sub_take x a b : sublist a b -> sublist (x :: a) (x :: b).
Lemma sublist_in {A} (a b : list A) x : sublist a b -> In x a -> In x b.
Proof. induction 1; cbn; intuition. Qed.
Lemma sublist_NoDup {A} (a b : list A) : sublist a b -> NoDup b -> NoDup a.
Proof.
  induction 1 as [|x a b H IH|x a b H IH]; intros Hn; [constructor|inversion Hn; auto|]. inversion Hn; subst. constructor; [|auto]. intros Hi. apply H2. eapply sublist_in; eauto.
Qed.
Lemma mergeAnti_sublist this anti : sublist (strLstMergeAnti this anti) this.
Proof.
  revert anti; induction this as [|x r IH]; intros anti; cbn; [constructor|]. destruct (antiStep x anti) as [[] anti']; constructor; apply IH.
Qed.
(** Whatever the order of the lists, nothing outside [anti] is lost. *)
Lemma mergeAnti_keeps this anti x : In x this -> ~ In x anti -> In x (strLstMergeAnti this anti).
Proof.
  revert anti; induction this as [|y r IH]; intros anti Hi Ha; [destruct Hi|]. cbn [strLstMergeAnti]. destruct (antiStep y anti) as [add anti'] eqn:E.
  destruct (antiStep_spec _ _ _ _ E) as ((p & Hp) & A & _).
  assert (Ha' : ~ In x anti') by (intros I; apply Ha; rewrite Hp; apply in_or_app; now right).
  destruct Hi as [->|Hi].
  - destruct add; [now left|]. exfalso. apply Ha. now apply A.
  - destruct add; [right|]; now apply IH.
Qed.

(** * Extensions *)

Lemma endsWith_app s e : strEndsWith (s ++ e) e = true.
Proof.
  unfold strEndsWith. rewrite app_length. destruct (Nat.leb_spec (length e) (length s + length e)); [|lia]. cbn [andb].
  replace (length s + length e - length e)%nat with (length s) by lia. rewrite skipn_app, skipn_all, Nat.sub_diag. apply strEqb_refl.
Qed.
Lemma endsWith_ex s e : strEndsWith s e = true -> s = stripExt e s ++ e.
Proof.
  unfold strEndsWith, stripExt. rewrite andb_true_iff, Nat.leb_le. intros (L & E). apply strEqb_eq in E. rewrite <- E at 2. symmetry. apply firstn_skipn.
Qed.
Lemma stripExt_app s e : stripExt e (s ++ e) = s.
Proof. unfold stripExt. rewrite app_length. replace (length s + length e - length e)%nat with (length s) by lia. now rewrite firstn_app, Nat.sub_diag, firstn_all, app_nil_r. Qed.

Lemma stripped_in ext names n : In n (map (stripExt ext) (strLstSortAsc (filter (fun x => strEndsWith x ext) names))) <-> In (n ++ ext) names.
Proof.
  rewrite in_map_iff. split.
  - intros (x & <- & Hx). rewrite strLstSortAsc_in, filter_In in Hx. destruct Hx as (Hi & He). apply endsWith_ex in He. now rewrite <- He.
  - intros H. exists (n ++ ext). split; [apply stripExt_app|]. rewrite strLstSortAsc_in, filter_In. split; [exact H|apply endsWith_app].
Qed.

Lemma filter_sort_comm (f : str -> bool) l : Permutation (filter f (strLstSortAsc l)) (strLstSortAsc (filter f l)).
Proof.
  etransitivity; [|symmetry; apply strLstSortAsc_perm]. generalize (strLstSortAsc_perm l). generalize (strLstSortAsc l). intros k H.
  induction H; cbn; auto.
  - destruct (f x); auto.
  - destruct (f x), (f y); auto. constructor.
  - etransitivity; eauto.
Qed.

Lemma sle_sorted_perm_eq l1 l2 : StronglySorted sle l1 -> StronglySorted sle l2 -> Permutation l1 l2 -> l1 = l2.
Proof.
  intros H1; revert l2; induction H1 as [|x r Hr IH Hx]; intros l2 H2 P.
  - apply Permutation_nil in P. now subst.
  - destruct H2 as [|y r2 Hr2 Hy]; [apply Permutation_sym, Permutation_nil in P; discriminate|].
    assert (x = y).
    { rewrite Forall_forall in Hx, Hy. apply sle_antisym.
      - destruct (Permutation_in y (Permutation_sym P)) as [->|I]; [now left|apply sle_refl|now apply Hx].
      - destruct (Permutation_in x P) as [->|I]; [now left|apply sle_refl|now apply Hy]. }
    subst y. f_equal. apply IH; [exact Hr2|]. now apply Permutation_cons_inv in P.
Qed.
Lemma filter_sort f l : filter f (strLstSortAsc l) = strLstSortAsc (filter f l).
Proof. apply sle_sorted_perm_eq; [apply StronglySorted_filter, strLstSortAsc_sorted|apply strLstSortAsc_sorted|apply filter_sort_comm]. Qed.

Lemma NoDup_sort l : NoDup l -> NoDup (strLstSortAsc l).
Proof. apply Permutation_NoDup, Permutation_sym, strLstSortAsc_perm. Qed.
Lemma sorted_NoDup_ssorted l : StronglySorted sle l -> NoDup l -> ssorted l.
Proof.
  induction 1 as [|x r Hr IH Hx]; intros Hn; constructor; inversion Hn; subst; [now apply IH|]. apply Forall_forall. intros y Hy. rewrite Forall_forall in Hx.
  specialize (Hx y Hy). apply sle_lt_eq in Hx. destruct Hx as [Hx| ->]; [exact Hx|contradiction].
Qed.
Lemma NoDup_filter' {A} (f : A -> bool) l : NoDup l -> NoDup (filter f l).
Proof. induction 1; cbn; [constructor|]. destruct (f x); [constructor|]; auto. rewrite filter_In. tauto. Qed.
Lemma strip_NoDup ext l : NoDup l -> Forall (fun x => strEndsWith x ext = true) l -> NoDup (map (stripExt ext) l).
Proof.
  induction 1 as [|x r Hx Hr IH]; intros F; cbn; [constructor|]. inversion F; subst. constructor; [|now apply IH]. rewrite in_map_iff. intros (y & E & Hy).
  rewrite Forall_forall in H2. specialize (H2 y Hy). apply endsWith_ex in H1, H2. apply Hx. rewrite H1, <- E, <- H2. exact Hy.
Qed.

(** Order of names without extension. *)
Lemma cmp_ext a b e f : ~ isPrefix a b -> ~ isPrefix b a -> strCmp (a ++ e) (b ++ f) = strCmp a b.
Proof.
  revert b; induction a as [|x a IH]; intros b H1 H2; [exfalso; apply H1; now exists b|].
  destruct b as [|y b]; [exfalso; apply H2; now exists (x :: a)|]. cbn. destruct (Z.compare_spec x y); [|reflexivity..]. subst y. apply IH.
  - intros (t & Ht). apply H1. exists t. now rewrite Ht.
  - intros (t & Ht). apply H2. exists t. now rewrite Ht.
Qed.
Lemma strip_ssorted ext l : ssorted l -> Forall (fun x => strEndsWith x ext = true) l -> prefixFree (fun n => In (n ++ ext) l) -> ssorted (map (stripExt ext) l).
Proof.
  intros H F P. induction H as [|x r Hr IH Hx]; cbn; [constructor|]. inversion F; subst. constructor.
  - apply IH; [assumption|]. intros a b Ha Hb. apply P; now right.
  - apply Forall_forall. intros n Hn. apply in_map_iff in Hn. destruct Hn as (y & <- & Hy). rewrite Forall_forall in Hx, H2. specialize (Hx y Hy). specialize (H2 y Hy).
    apply endsWith_ex in H1, H2. set (a := stripExt ext x) in *. set (b := stripExt ext y) in *.
    assert (Ha : In (a ++ ext) (x :: r)) by (left; exact H1). assert (Hb : In (b ++ ext) (x :: r)) by (right; now rewrite <- H2).
    assert (Hne : a <> b) by (intros E; rewrite H1, H2, E in Hx; exact (slt_irrefl _ Hx)).
    rewrite H1, H2 in Hx. unfold slt in *. rewrite cmp_ext in Hx; [exact Hx| |].
    + intros Hp. apply Hne. now apply P.
    + intros Hp. apply Hne. symmetry. now apply P.
Qed.

(** * Directories *)

Lemma dirRemove_in d n f : In f (dirRemove d n) <-> In f d /\ fst f <> n.
Proof. unfold dirRemove. rewrite filter_In. destruct (strEqb_spec (fst f) n); cbn; intuition congruence. Qed.
Lemma dirGet_in d n c : isDir d -> (dirGet d n = Some c <-> In (n, c) d).
Proof.
  unfold isDir. induction d as [|[m e] r IH]; cbn; intros H; [split; [discriminate|tauto]|]. inversion H; subst. destruct (strEqb_spec m n) as [->|N].
  - split; [intros [= ->]; now left|]. intros [[= ->]|I]; [reflexivity|]. exfalso. apply H2. apply (in_map fst) in I. exact I.
  - rewrite (IH H3). split; [now right|]. intros [[= ? ?]|I]; [congruence|exact I].
Qed.
Lemma dirGet_none d n : dirGet d n = None <-> ~ In n (map fst d).
Proof.
  induction d as [|[m e] r IH]; cbn; [tauto|]. destruct (strEqb_spec m n) as [->|N]; [split; [discriminate|tauto]|]. rewrite IH. tauto.
Qed.
Lemma dirExists_in d n : dirExists d n = true <-> In n (map fst d).
Proof. unfold dirExists. destruct (dirGet d n) eqn:E; [|apply dirGet_none in E; split; [discriminate|tauto]]. split; [|reflexivity]. intros _. destruct (in_dec str_dec n (map fst d)) as [I|I]; [exact I|]. apply dirGet_none in I. congruence. Qed.
Lemma dirRemove_names d n x : In x (map fst (dirRemove d n)) <-> In x (map fst d) /\ x <> n.
Proof.
  rewrite !in_map_iff. split.
  - intros (f & <- & Hf). apply dirRemove_in in Hf. split; [|tauto]. exists f. tauto.
  - intros ((f & <- & Hf) & N). exists f. split; [reflexivity|]. apply dirRemove_in. tauto.
Qed.
Lemma dirRemove_isDir d n : isDir d -> isDir (dirRemove d n).
Proof.
  unfold isDir, dirRemove. induction d as [|f r IH]; cbn; intros H; [constructor|]. inversion H; subst. destruct (negb (strEqb (fst f) n)); cbn; [constructor|]; auto.
  intros I. apply H2. apply in_map_iff in I. destruct I as (g & <- & Hg). apply filter_In in Hg. apply in_map, Hg.
Qed.
Lemma dirPut_isDir d n c : isDir d -> isDir (dirPut d n c).
Proof. intros H. unfold dirPut, isDir. cbn. constructor; [|now apply dirRemove_isDir]. intros I. apply dirRemove_names in I. tauto. Qed.
Lemma dirGet_put d n c m : dirGet (dirPut d n c) m = if strEqb n m then Some c else dirGet d m.
Proof.
  unfold dirPut. cbn [dirGet]. destruct (strEqb_spec n m) as [->|N]; [reflexivity|]. induction d as [|[a e] r IH]; cbn; [reflexivity|].
  destruct (strEqb_spec a n) as [->|Na]; cbn; [destruct (strEqb_spec n m); [congruence|exact IH]|]. destruct (strEqb_spec a m); [reflexivity|exact IH].
Qed.
Lemma dirGet_remove d n m : dirGet (dirRemove d n) m = if strEqb n m then None else dirGet d m.
Proof.
  unfold dirRemove. induction d as [|[a e] r IH]; cbn; [now destruct (strEqb n m)|]. destruct (strEqb_spec a n) as [->|Na]; cbn.
  - rewrite IH. destruct (strEqb_spec n m); reflexivity.
  - destruct (strEqb_spec a m) as [->|Nm]; [|exact IH]. destruct (strEqb_spec n m); [congruence|reflexivity].
Qed.

Lemma dirRemoveAll_ok d l : isDir d -> NoDup l -> incl l (map fst d) ->
  exists d', dirRemoveAll d l = Ok d' /\ isDir d' /\ forall f, In f d' <-> In f d /\ ~ In (fst f) l.
Proof.
  revert d; induction l as [|n r IH]; intros d Hd Hn Hi; cbn.
  - exists d. split; [reflexivity|]. split; [exact Hd|]. tauto.
  - unfold dirRemoveStrict. assert (E : dirExists d n = true) by (apply dirExists_in, Hi; now left). rewrite E. cbn. inversion Hn; subst.
    destruct (IH (dirRemove d n)) as (d' & E' & D' & F').
    + now apply dirRemove_isDir.
    + assumption.
    + intros x Hx. apply dirRemove_names. split; [apply Hi; now right|congruence].
    + exists d'. split; [exact E'|]. split; [exact D'|]. intros f. rewrite F', dirRemove_in. intuition.
Qed.

(** * The process list *)

Section Process.
  Variables (spool : dir) (names : list str).
  Hypothesis Hspool : isDir spool.
  Let okList := map (stripExt extOk) (filter (fun n => strEndsWith n extOk) (strLstSortAsc (dirNames spool))).
  Let readyList := pushReadyList names.

  Lemma okList_in n : In n okList <-> hasOk spool n.
  Proof.
    unfold okList. rewrite filter_sort, stripped_in. unfold hasOk, dirNames. change [46;111;107] with extOk. rewrite in_map_iff. split.
    - intros ((m & c) & E & H). cbn in E. subst m. now exists c.
    - intros (c & H). exists (n ++ extOk, c). auto.
  Qed.
  Lemma readyList_in n : In n readyList <-> isReady names n.
  Proof. unfold readyList, pushReadyList. apply stripped_in. Qed.
  Lemma okList_NoDup : NoDup okList.
  Proof.
    unfold okList. rewrite filter_sort. apply strip_NoDup; [apply NoDup_sort, NoDup_filter', Hspool|]. apply Forall_forall. intros x Hx. rewrite strLstSortAsc_in, filter_In in Hx. tauto.
  Qed.

  Lemma process_ok : exists spool', pushProcessList spool names = Ok (spool', strLstMergeAnti readyList okList) /\ isDir spool' /\
    forall n c, In (n, c) spool' <-> In (n, c) spool /\ exists m, n = m ++ extOk /\ ~ In m (strLstMergeAnti okList readyList).
  Proof.
    unfold pushProcessList. fold okList readyList. unfold dirNames in *.
    set (rm1 := filter (fun n => negb (strEndsWith n extOk)) (strLstSortAsc (map fst spool))).
    destruct (dirRemoveAll_ok spool rm1 Hspool) as (d1 & E1 & D1 & F1).
    { apply NoDup_filter', NoDup_sort, Hspool. }
    { intros x Hx. apply filter_In in Hx. now rewrite strLstSortAsc_in in Hx. }
    rewrite E1. cbn [bind].
    assert (Hd1 : forall n c, In (n, c) d1 <-> In (n, c) spool /\ strEndsWith n extOk = true).
    { intros n c. rewrite F1. cbn. split; intros (A & B); (split; [exact A|]).
      - destruct (strEndsWith n extOk) eqn:E; [reflexivity|]. exfalso. apply B. apply filter_In. rewrite strLstSortAsc_in, E. split; [apply in_map_iff; exists (n, c); auto|reflexivity].
      - intros I. apply filter_In in I. rewrite B in I. destruct I. discriminate. }
    set (rm2 := map (fun n => n ++ extOk) (strLstMergeAnti okList readyList)).
    destruct (dirRemoveAll_ok d1 rm2 D1) as (d2 & E2 & D2 & F2).
    { assert (H : NoDup (strLstMergeAnti okList readyList)) by (eapply sublist_NoDup; [apply mergeAnti_sublist|apply okList_NoDup]).
      unfold rm2. clear -H. induction H as [|x r Hx Hr IH]; cbn; constructor; auto. rewrite in_map_iff. intros (y & E & Hy). apply app_inv_tail in E. now subst. }
    { intros x Hx. apply in_map_iff in Hx. destruct Hx as (n & <- & Hn). apply (sublist_in _ _ _ (mergeAnti_sublist okList readyList)) in Hn. apply okList_in in Hn.
      destruct Hn as (c & Hc). apply in_map_iff. exists (n ++ extOk, c). split; [reflexivity|]. apply Hd1. split; [exact Hc|apply endsWith_app]. }
    rewrite E2. cbn [bind]. exists d2. split; [reflexivity|]. split; [exact D2|]. intros n c. rewrite F2, Hd1. cbn. split.
    - intros ((A & B) & N). split; [exact A|]. apply endsWith_ex in B. exists (stripExt extOk n). split; [exact B|]. intros I. apply N. rewrite B. now apply (in_map (fun x => x ++ extOk)).
    - intros (A & m & -> & N). split; [split; [exact A|apply endsWith_app]|]. intros I. apply in_map_iff in I. destruct I as (y & E & Hy). apply app_inv_tail in E. now subst.
  Qed.

  (** Sound whatever the names are. *)
  Lemma process_sound : exists spool' l, pushProcessList spool names = Ok (spool', l) /\
    (forall n, In n l -> isReady names n) /\ (forall n, isReady names n -> ~ hasOk spool n -> In n l) /\
    incl spool' spool /\ (forall n c, In (n, c) spool' -> exists m, n = m ++ [46;111;107] /\ isReady names m).
  Proof.
    destruct process_ok as (spool' & E & D & F). exists spool', (strLstMergeAnti readyList okList). split; [exact E|]. split; [|split; [|split]].
    - intros n Hn. apply readyList_in. eapply sublist_in; [apply mergeAnti_sublist|exact Hn].
    - intros n Hr Ho. apply mergeAnti_keeps; [now apply readyList_in|]. now rewrite okList_in.
    - intros [n c] H. apply F in H. tauto.
    - intros n c H. apply F in H. destruct H as (H & m & -> & N). exists m. split; [reflexivity|]. apply readyList_in. destruct (in_dec str_dec m readyList) as [I|I]; [exact I|].
      exfalso. apply N. apply mergeAnti_keeps; [|exact I]. apply okList_in. now exists c.
  Qed.

  Hypothesis Hnames : NoDup names.
  Hypothesis Hfree : prefixFree (fun n => isReady names n \/ hasOk spool n).
  Lemma okList_sorted : ssorted okList.
  Proof.
    unfold okList. rewrite filter_sort. apply strip_ssorted.
    - apply sorted_NoDup_ssorted; [apply strLstSortAsc_sorted|]. apply NoDup_sort, NoDup_filter', Hspool.
    - apply Forall_forall. intros x Hx. rewrite strLstSortAsc_in, filter_In in Hx. tauto.
    - intros a b Ha Hb. apply Hfree; right; rewrite strLstSortAsc_in, filter_In in *; unfold dirNames in *; rewrite in_map_iff in *.
      + destruct Ha as (((m & c) & E & H) & _). cbn in E. subst. now exists c.
      + destruct Hb as (((m & c) & E & H) & _). cbn in E. subst. now exists c.
  Qed.
  Lemma readyList_sorted : ssorted readyList.
  Proof.
    unfold readyList, pushReadyList. apply strip_ssorted.
    - apply sorted_NoDup_ssorted; [apply strLstSortAsc_sorted|]. now apply NoDup_sort, NoDup_filter'.
    - apply Forall_forall. intros x Hx. rewrite strLstSortAsc_in, filter_In in Hx. tauto.
    - intros a b Ha Hb. rewrite strLstSortAsc_in, filter_In in *. apply Hfree; left; [apply Ha|apply Hb].
  Qed.
  Lemma ssorted_sle l : ssorted l -> StronglySorted sle l.
  Proof. apply StronglySorted_impl. intros x y. apply slt_le. Qed.

  Lemma process_exact : exists spool' l, pushProcessList spool names = Ok (spool', l) /\ ssorted l /\
    (forall n, In n l <-> isReady names n /\ ~ hasOk spool n) /\
    (forall n c, In (n, c) spool' <-> In (n, c) spool /\ exists m, n = m ++ [46;111;107] /\ isReady names m).
  Proof.
    destruct process_ok as (spool' & E & D & F). exists spool', (strLstMergeAnti readyList okList). split; [exact E|].
    pose proof okList_sorted as So. pose proof readyList_sorted as Sr. rewrite (mergeAnti_filter readyList okList Sr (ssorted_sle _ So)).
    split; [now apply StronglySorted_filter|]. split.
    - intros n. rewrite filter_In, readyList_in. rewrite <- okList_in. destruct (strLstExists_spec okList n); cbn; intuition congruence.
    - intros n c. rewrite F. rewrite (mergeAnti_filter okList readyList So (ssorted_sle _ Sr)). split; intros (A & m & -> & B); (split; [exact A|]); exists m; (split; [reflexivity|]).
      + apply readyList_in. destruct (strLstExists_spec readyList m) as [I|I]; [exact I|]. exfalso. apply B. apply filter_In. split; [apply okList_in; now exists c|].
        destruct (strLstExists_spec readyList m); [contradiction|reflexivity].
      + rewrite filter_In. intros (_ & G). apply readyList_in in B. destruct (strLstExists_spec readyList m); [discriminate|contradiction].
  Qed.
End Process.

(** * Queue limits *)

Lemma batchLimit_firstn fuel bm l : (length l <= fuel)%nat -> 0 <= bm -> batchLimit fuel bm l = firstn (Z.to_nat (Z.max 1 (Z.min bm (Z.of_nat (length l))))) l.
Proof.
  revert l; induction fuel as [|f IH]; intros l H Hb; cbn [batchLimit].
  - destruct l; [now rewrite firstn_nil|cbn in H; lia].
  - destruct (Z.ltb_spec 1 (Z.of_nat (length l))) as [L|L], (Z.ltb_spec bm (Z.of_nat (length l))) as [B|B]; cbn [andb].
    + assert (Hne : l <> []) by (intros ->; cbn in L; lia). destruct (exists_last Hne) as (k & x & ->). rewrite removelast_last. rewrite app_length in *. cbn [length] in *.
      rewrite IH by lia. rewrite firstn_app. replace (Z.to_nat (Z.max 1 (Z.min bm (Z.of_nat (length k + 1)))) - length k)%nat with 0%nat by lia. rewrite firstn_O, app_nil_r. f_equal. lia.
    + rewrite firstn_all2; [reflexivity|lia].
    + rewrite firstn_all2; [reflexivity|lia].
    + rewrite firstn_all2; [reflexivity|lia].
Qed.

(** * Status files *)

Lemma status_true_ok d seg t w x : asyncStatus d seg t w = Ok (StTrue x) -> exists c, dirGet d (seg ++ extOk) = Some c.
Proof.
  unfold asyncStatus. destruct (dirGet d (seg ++ extOk)) as [c|]; [eauto|]. destruct (match dirGet d (seg ++ extError) with Some c => Some c | None => dirGet d (statusGlobal ++ extError) end) as [c|]; [|discriminate].
  destruct (statusContent c) as [[code m]| |]; cbn; try discriminate. destruct t; [|discriminate]. destruct c; discriminate.
Qed.

Lemma splitLine_app a b : ~ In 10 a -> splitLine (a ++ 10 :: b) = Some (a, b).
Proof.
  induction a as [|c a IH]; cbn; intros H; [reflexivity|]. destruct (Z.eqb_spec c 10); [tauto|]. rewrite IH; tauto.
Qed.

Lemma baseText_chars up base fuel : 2 <= base <= 16 -> forall n, 0 <= n -> Forall (fun c => 48 <= c) (baseText fuel up base n).
Proof.
  intros Hb. induction fuel as [|f IH]; intros n Hn; cbn; [constructor|].
  assert (D : forall d, 0 <= d -> 48 <= digitText up d) by (intros d Hd; unfold digitText; destruct (Z.ltb_spec d 10); [lia|]; destruct up; lia).
  destruct (Z.ltb_spec n base); [constructor; [now apply D|constructor]|]. apply Forall_app. split.
  - apply IH. apply Z.div_pos; lia.
  - constructor; [|constructor]. apply D. apply Z.mod_pos_bound. lia.
Qed.
Lemma intText_no_lf n : ~ In 10 (cvtIntToZ n).
Proof.
  assert (H : Forall (fun c => 45 <= c) (intText n)).
  { unfold intText, numText. destruct (Z.ltb_spec n 0); [constructor; [lia|]|]; (eapply Forall_impl; [|apply baseText_chars; lia]; cbn; lia). }
  intros I. rewrite Forall_forall in H. apply H in I. lia.
Qed.

Lemma statusContent_write code m : - 2 ^ 31 <= code < 2 ^ 31 -> m <> [] -> statusContent (cvtIntToZ code ++ 10 :: m) = Ok (code, strTrim m).
Proof.
  intros Hc Hm. unfold statusContent. rewrite splitLine_app by apply intText_no_lf.
  assert (E : cvtZToInt 10 (cvtIntToZ code) = Ok code).
  { apply cvtZToInt_spec; [lia|]. split; [|exact Hc]. apply intText_signed. unfold two63. lia. }
  destruct (cvtIntToZ code ++ 10 :: m) eqn:X; [destruct (cvtIntToZ code); discriminate|]. destruct m; [congruence|]. now rewrite E.
Qed.

Lemma ext_ne a b : a ++ extOk <> b ++ extError.
Proof. intros H. apply (f_equal (@rev Z)) in H. rewrite !rev_app_distr in H. cbn in H. discriminate. Qed.

Lemma status_error_write d seg code m d' w t : asyncErrorWrite d (Some seg) code m = Ok d' -> dirGet d (seg ++ extOk) = None ->
  - 2 ^ 31 <= code < 2 ^ 31 -> m <> [] -> asyncStatus d' seg t w = Ok (if t then StThrow code (strTrim m) else StFalse).
Proof.
  unfold asyncErrorWrite. destruct (code =? 0); [discriminate|]. intros [= <-] Ho Hc Hm. unfold asyncStatus. rewrite !dirGet_put.
  destruct (strEqb_spec (seg ++ extError) (seg ++ extOk)) as [E|E]; [symmetry in E; now apply ext_ne in E|]. rewrite Ho, strEqb_refl.
  rewrite statusContent_write by assumption. cbn [bind]. destruct t; [|reflexivity]. destruct (cvtIntToZ code ++ 10 :: m) eqn:X; [destruct (cvtIntToZ code); discriminate|reflexivity].
Qed.
Lemma status_global_write d seg code m d' w t : asyncErrorWrite d None code m = Ok d' -> dirGet d (seg ++ extOk) = None -> dirGet d (seg ++ extError) = None ->
  - 2 ^ 31 <= code < 2 ^ 31 -> m <> [] -> asyncStatus d' seg t w = Ok (if t then StThrow code (strTrim m) else StFalse).
Proof.
  unfold asyncErrorWrite. destruct (code =? 0); [discriminate|]. assert (Ng : statusGlobal ++ extError <> seg ++ extOk) by (intros E; symmetry in E; now apply ext_ne in E).
  unfold asyncStatus. set (g := statusGlobal ++ extError) in *. clearbody g. intros [= <-] Ho He Hc Hm. rewrite !dirGet_put. rewrite (proj2 (strEqb_neq _ _) Ng), Ho, strEqb_refl, He.
  destruct (strEqb g (seg ++ extError)); rewrite statusContent_write by assumption; cbn [bind];
    (destruct t; [|reflexivity]; destruct (cvtIntToZ code ++ 10 :: m) eqn:X; [destruct (cvtIntToZ code); discriminate|reflexivity]).
Qed.
Lemma status_ok_write d seg w t : asyncStatus (asyncOkWrite d seg None) seg t w = Ok (StTrue None) /\
  forall m, m <> [] -> asyncStatus (asyncOkWrite d seg (Some m)) seg t w = Ok (StTrue (if w then Some (Warn (strTrim m)) else None)).
Proof.
  unfold asyncStatus, asyncOkWrite. split.
  - rewrite dirGet_put, strEqb_refl. reflexivity.
  - intros m Hm. rewrite dirGet_put, strEqb_refl. change (48 :: 10 :: m) with (cvtIntToZ 0 ++ 10 :: m). rewrite statusContent_write by (lia || assumption). cbn [bind].
    change (cvtIntToZ 0 ++ 10 :: m) with (48 :: 10 :: m). now destruct w.
Qed.
Lemma status_error_seen d seg w : dirGet d (seg ++ extOk) = None -> (dirGet d (seg ++ extError) <> None \/ dirGet d (statusGlobal ++ extError) <> None) ->
  (exists code m, asyncStatus d seg true w = Ok (StThrow code m)) \/ (exists e, asyncStatus d seg true w = Err e).
Proof.
  intros Ho He. unfold asyncStatus. rewrite Ho. destruct (match dirGet d (seg ++ extError) with Some c => Some c | None => dirGet d (statusGlobal ++ extError) end) as [c|] eqn:E.
  - destruct (statusContent c) as [[code m]|e|] eqn:X; cbn [bind].
    + destruct c; eauto.
    + eauto.
    + exfalso. revert X. unfold statusContent. destruct c; [discriminate|]. destruct (splitLine _) as [[l m]|]; [|discriminate]. destruct m; [discriminate|].
      unfold cvtZToInt, zToInt64Internal. destruct (strtoll 10 l) as [[v e] r]. destruct (zValid e l r); cbn; [|discriminate]. destruct (_ || _); discriminate.
  - exfalso. destruct (dirGet d (seg ++ extError)); [discriminate|]. destruct He; congruence.
Qed.
Lemma error_clear d seg n : dirGet (asyncErrorClear d seg) n = if strEqb (seg ++ extError) n || strEqb (statusGlobal ++ extError) n then None else dirGet d n.
Proof. unfold asyncErrorClear. rewrite !dirGet_remove. destruct (strEqb (statusGlobal ++ extError) n), (strEqb (seg ++ extError) n); reflexivity. Qed.

(** * Trim *)
Lemma isTrim_white c : isTrim c = true <-> white c.
Proof. unfold isTrim, white. rewrite !orb_true_iff, !Z.eqb_eq. tauto. Qed.
Lemma trimFront_spec s : exists a, s = a ++ trimFront s /\ Forall white a /\ (forall c r, trimFront s = c :: r -> ~ white c).
Proof.
  induction s as [|c s (a & E & W & N)]; cbn; [exists []; repeat split; auto; discriminate|]. destruct (isTrim c) eqn:T.
  - exists (c :: a). split; [cbn; now f_equal|]. split; [constructor; [now apply isTrim_white|exact W]|exact N].
  - exists []. split; [reflexivity|]. split; [constructor|]. intros x r [= -> ->] Hw. apply isTrim_white in Hw. congruence.
Qed.
Lemma strTrim_spec s : exists a b, s = a ++ strTrim s ++ b /\ Forall white a /\ Forall white b /\
  (forall c r, strTrim s = c :: r -> ~ white c) /\ (forall c r, strTrim s = r ++ [c] -> ~ white c).
Proof.
  unfold strTrim. destruct (trimFront_spec s) as (a & E & Wa & Na). set (t := trimFront s) in *. destruct (trimFront_spec (rev t)) as (b & Eb & Wb & Nb).
  set (u := trimFront (rev t)) in *.
  assert (Et : t = rev u ++ rev b) by (rewrite <- (rev_involutive t), Eb, rev_app_distr; reflexivity).
  exists a, (rev b). split; [rewrite <- Et; exact E|]. split; [exact Wa|]. split; [now apply Forall_rev|]. split.
  - intros c r H. rewrite H in Et. eapply Na. rewrite Et. reflexivity.
  - intros c r H. apply (f_equal (@rev Z)) in H. rewrite rev_involutive, rev_app_distr in H. cbn in H. eapply Nb. exact H.
Qed.
