(** The databases selected. *)
From Coq Require Import String Sorted Permutation.
From Verif Require Import Base Str ConvertModel NumModel NumSpec NumProof ArchiveIdModel ArchiveIdProof RegModel RegSpec RegNameModel RegProof2 JsonProof5 ManifestPackModel ManifestModel
  LinkCheckModel LinkCheckProof2 LinkCheckProof3 SpoolModel SpoolProof SelectModel SelectSpec SelectProof.
Open Scope Z_scope.
Open Scope list_scope.

(** * Ids as text *)
Lemma id_noslash d : isId d -> noSlash d.
Proof. intros [_ H] F. specialize (H _ F). lia. Qed.
Lemma id_literal d : isId d -> forallb literal d = true.
Proof.
  intros [N H]. destruct (digits_value d N) as (v & Hv & _); [| exact (digit_literal _ _ Hv)].
  apply Forall_forall. intros c Hc. specialize (H c Hc). unfold JsonModel.isDigit. apply andb_true_intro. split; apply Z.leb_le; lia.
Qed.
Lemma id_value d : isId d -> exists v, digitsIs 10 d v.
Proof.
  intros [N H]. destruct (digits_value d N) as (v & Hv & _); [| eauto].
  apply Forall_forall. intros c Hc. specialize (H c Hc). unfold JsonModel.isDigit. apply andb_true_intro. split; apply Z.leb_le; lia.
Qed.
Lemma digits_id d v : digitsIs 10 d v -> isId d.
Proof.
  intros H. apply digits_chars in H. destruct H as [N H]. split; [exact N|]. intros c Hc. specialize (H c Hc). unfold ArchiveIdModel.isDigit in H. apply andb_prop in H. lia.
Qed.
Lemma uint_id n : 0 <= n < 2 ^ 32 -> isId (cvtUIntToZ n).
Proof. intros H. eapply digits_id, uint_is, H. Qed.
Lemma cvt_id d v : isId d -> cvtZToUInt 10 d = Ok v <-> digitsIs 10 d v /\ v < 2 ^ 32.
Proof.
  intros HD. rewrite cvtZToUInt_spec by lia. change two32 with (2 ^ 32). split; intros [H1 H2]; (split; [| exact H2]).
  - destruct H1 as (sg & p & ds & Hs & Hp & E & Hd). destruct Hp as [-> | [F _]]; [| discriminate F]. destruct Hs as [-> | ->]; [cbn [app] in E; now subst|].
    destruct HD as [_ HD]. specialize (HD 43). rewrite E in HD. specialize (HD (or_introl eq_refl)). lia.
  - exists [], [], d. split; [now left|]. split; [now left|]. split; [reflexivity | exact H1].
Qed.
Lemma digit_det c d e : digitIs c d -> digitIs c e -> d = e.
Proof.
  assert (K : forall c d, digitIs c d -> (c = 48 + d /\ 0 <= d < 10) \/ (c = 87 + d /\ 10 <= d < 36) \/ (c = 55 + d /\ 10 <= d < 36)) by (intros ? ? []; auto).
  intros H1 H2. apply K in H1. apply K in H2. lia.
Qed.
Lemma digits_nonempty v : ~ digitsIs 10 [] v.
Proof. intros H. inversion H as [| s ? ? ? ? ? ? E]. destruct s; discriminate. Qed.
Lemma digits_det d v w : digitsIs 10 d v -> digitsIs 10 d w -> v = w.
Proof.
  intros H. revert w. induction H as [c d H1 H2 | s v c d Hs IH H1 H2]; intros w Hw.
  - inversion Hw as [c' d' H1' H2' E | s' v' c' d' Hs' H1' H2' E].
    + exact (digit_det _ _ _ H1 H1').
    + destruct s' as [| a [|]]; [destruct (digits_nonempty _ Hs') | discriminate | discriminate].
  - inversion Hw as [c' d' H1' H2' E | s' v' c' d' Hs' H1' H2' E].
    + destruct s as [| a [|]]; [destruct (digits_nonempty _ Hs) | discriminate | discriminate].
    + apply app_inj_tail in E. destruct E as [-> ->]. rewrite (IH _ Hs'). f_equal. exact (digit_det _ _ _ H1 H1').
Qed.
Lemma cvt_err d v : isId d -> digitsIs 10 d v -> 2 ^ 32 <= v -> cvtZToUInt 10 d = Err EFormat.
Proof.
  intros HD Hv HB. destruct (cvtZToUInt 10 d) as [w | e |] eqn:E.
  - apply cvt_id in E; [| exact HD]. destruct E as [E1 E2]. rewrite (digits_det _ _ _ Hv E1) in HB. lia.
  - f_equal. revert E. unfold cvtZToUInt. destruct (zToUInt64Internal 10 d) as [w | e' |] eqn:EZ; cbn [bind].
    + destruct (startsMinus d || (two32 - 1 <? w)); congruence.
    + intros E. injection E as <-. revert EZ. unfold zToUInt64Internal. repeat match goal with |- context [match ?x with _ => _ end] => destruct x end; congruence.
    + discriminate.
  - exfalso. revert E. unfold cvtZToUInt. destruct (zToUInt64Internal 10 d) as [w | e' |] eqn:EZ; cbn [bind].
    + destruct (startsMinus d || (two32 - 1 <? w)); congruence.
    + discriminate.
    + revert EZ. unfold zToUInt64Internal. repeat match goal with |- context [match ?x with _ => _ end] => destruct x end; congruence.
Qed.
Lemma uint_inj a b : 0 <= a < 2 ^ 32 -> 0 <= b < 2 ^ 32 -> cvtUIntToZ a = cvtUIntToZ b -> a = b.
Proof. intros Ha Hb E. pose proof (uint_is a Ha) as H. rewrite E in H. exact (digits_det _ _ _ H (uint_is b Hb)). Qed.

(** * The name of a database's directory *)
Lemma strPath_app p c : p <> [] -> noSlash c -> strPath (p ++ 47 :: c) = p.
Proof.
  intros N H. unfold strPath. rewrite upToSlash_app by exact H. rewrite app_length. cbn [length].
  destruct p as [| a p]; [contradiction|]. cbn [length Nat.add]. destruct (Nat.leb_spec (S (length p + 1)) 1); [lia|]. apply removelast_last.
Qed.
Lemma strBase_app p c : noSlash c -> strBase (p ++ 47 :: c) = c.
Proof.
  intros H. unfold strBase. rewrite upToSlash_app by exact H. change (p ++ 47 :: c) with (p ++ [47] ++ c). rewrite app_assoc. rewrite skipn_app, skipn_all, Nat.sub_diag. reflexivity.
Qed.
Lemma version_noslash r : ~ In 47 r -> noSlash (txt "PG_VERSION" ++ r).
Proof.
  intros H F. apply in_app_or in F. destruct F as [F | F]; [| exact (H F)]. revert F. vm_compute. intuition discriminate.
Qed.
Lemma versionFile_base tid f d : versionFile tid f d -> strBase (strPath f) = d.
Proof.
  intros (HD & r & Hr & H).
  assert (E : exists p, f = (p ++ 47 :: d) ++ 47 :: txt "PG_VERSION" ++ r).
  { destruct H as [-> | (o & t & _ & _ & ->)].
    - exists (txt "pg_data/base"). rewrite <- !app_assoc. reflexivity.
    - exists (txt "pg_tblspc/" ++ o ++ txt "/" ++ t). rewrite <- !app_assoc. reflexivity. }
  destruct E as (p & ->). rewrite strPath_app; [| destruct p; discriminate | apply version_noslash, Hr]. apply strBase_app, id_noslash, HD.
Qed.
Lemma file_matches tid b t f : forallb patChar tid = true -> regExpNew baseExp = Ok b -> regExpNew (tablespaceExp tid) = Ok t -> ~ belowVersionFile tid f ->
  regExpMatch b f || regExpMatch t f = true <-> exists d, versionFile tid f d.
Proof.
  intros HT HB HR HN. rewrite orb_true_iff, (base_match b f HB), (ts_match tid t f HT HR). split.
  - intros [(d & x & Hd & E) | (o & y & d & x & Ho & Hy & Hd & E)]; exists d; (split; [exact Hd|]); exists x; (split; [intros F; apply HN; exists d, x; eauto 10 | eauto 10]).
  - intros (d & Hd & r & Hr & [E | (o & y & Ho & Hy & E)]); [left; eauto | right; eauto 10].
Qed.

(** * Scanning the files *)
Lemma addIfMissing_in l s x : In x (strLstAddIfMissing l s) <-> In x l \/ x = s.
Proof.
  unfold strLstAddIfMissing. destruct (strLstExists_spec l s) as [H | H].
  - split; [auto|]. intros [? | ->]; auto.
  - rewrite in_app_iff. cbn [In]. intuition.
Qed.
Lemma addIfMissing_nodup l s : NoDup l -> NoDup (strLstAddIfMissing l s).
Proof.
  unfold strLstAddIfMissing. destruct (strLstExists_spec l s) as [H | H]; [auto|]. intros N.
  eapply Permutation_NoDup; [apply Permutation_cons_append|]. constructor; assumption.
Qed.
Section Scan.
  Variables (tid : str) (b t : re).
  Hypotheses (HT : forallb patChar tid = true) (HB : regExpNew baseExp = Ok b) (HR : regExpNew (tablespaceExp tid) = Ok t).
  Definition smallIds (files : list str) : Prop := forall f d v, In f files -> versionFile tid f d -> digitsIs 10 d v -> v < 2 ^ 32.
  Lemma scan_ok files : (forall f, In f files -> ~ belowVersionFile tid f) -> smallIds files -> forall sys all, NoDup sys -> NoDup all ->
    exists sys' all', scanFiles b t files sys all = Ok (sys', all') /\ NoDup sys' /\ NoDup all' /\
      (forall d, In d all' <-> In d all \/ exists f, In f files /\ versionFile tid f d) /\
      (forall d, In d sys' <-> In d sys \/ exists f v, In f files /\ versionFile tid f d /\ digitsIs 10 d v /\ v < 16384).
  Proof.
    induction files as [| f files IH]; intros HN HS sys all N1 N2.
    - exists sys, all. split; [reflexivity|]. split; [exact N1|]. split; [exact N2|]. split; intros d; (split; [auto|]); [intros [H | (f & [] & _)]; exact H | intros [H | (f & v & [] & _)]; exact H].
    - assert (HN' : forall g, In g files -> ~ belowVersionFile tid g) by (intros; apply HN; now right).
      assert (HS' : smallIds files) by (intros g d v Hg; apply HS; now right).
      cbn [scanFiles]. pose proof (file_matches tid b t f HT HB HR (HN f (or_introl eq_refl))) as HM.
      destruct (regExpMatch b f || regExpMatch t f).
      + destruct (proj1 HM eq_refl) as (d0 & Hd0). rewrite (versionFile_base _ _ _ Hd0). destruct (id_value d0 (proj1 Hd0)) as (v0 & Hv0).
        assert (HC : cvtZToUInt 10 d0 = Ok v0) by (apply cvt_id; [apply Hd0|]; split; [exact Hv0 | exact (HS f d0 v0 (or_introl eq_refl) Hd0 Hv0)]).
        rewrite HC. cbn [bind].
        assert (HU : forall d, versionFile tid f d -> d = d0) by (intros d Hd; rewrite <- (versionFile_base _ _ _ Hd); apply (versionFile_base _ _ _ Hd0)).
        destruct (IH HN' HS' (if pgDbIsSystemId v0 then strLstAddIfMissing sys d0 else sys) (strLstAddIfMissing all d0)) as (sys' & all' & E & M1 & M2 & M3 & M4).
        { destruct (pgDbIsSystemId v0); [apply addIfMissing_nodup, N1 | exact N1]. }
        { apply addIfMissing_nodup, N2. }
        exists sys', all'. split; [exact E|]. split; [exact M1|]. split; [exact M2|]. split.
        * intros d. rewrite M3, addIfMissing_in. split.
          -- intros [[H | ->] | (g & Hg & H)]; [now left | right; exists f; split; [now left | exact Hd0] | right; exists g; split; [now right | exact H]].
          -- intros [H | (g & [<- | Hg] & H)]; [auto | left; right; apply HU, H | right; eauto].
        * intros d. rewrite M4. unfold pgDbIsSystemId. destruct (Z.ltb_spec v0 16384) as [L | L].
          -- rewrite addIfMissing_in. split.
             ++ intros [[H | ->] | (g & v & Hg & H)]; [now left | right; exists f, v0; split; [now left | auto] | right; exists g, v; split; [now right | exact H]].
             ++ intros [H | (g & v & [<- | Hg] & H)]; [auto | left; right; apply HU, H | right; eauto].
          -- split.
             ++ intros [H | (g & v & Hg & H)]; [now left | right; exists g, v; split; [now right | exact H]].
             ++ intros [H | (g & v & [<- | Hg] & H)]; [auto | | right; eauto]. exfalso. destruct H as (H1 & H2 & H3). rewrite (HU d H1) in H2. rewrite (digits_det _ _ _ H2 Hv0) in H3. lia.
      + destruct (IH HN' HS' sys all N1 N2) as (sys' & all' & E & M1 & M2 & M3 & M4). exists sys', all'. split; [exact E|]. split; [exact M1|]. split; [exact M2|].
        assert (HZ : forall d, ~ versionFile tid f d) by (intros d Hd; assert (false = true) by (apply HM; eauto); discriminate).
        split; intros d; [rewrite M3 | rewrite M4].
        * split; [intros [H | (g & Hg & H)]; [now left | right; exists g; split; [now right | exact H]] | intros [H | (g & [<- | Hg] & H)]; [auto | destruct (HZ d H) | right; eauto]].
        * split; [intros [H | (g & v & Hg & H)]; [now left | right; exists g, v; split; [now right | exact H]] | intros [H | (g & v & [<- | Hg] & H)]; [auto | destruct (HZ d (proj1 H)) | right; eauto]].
  Qed.
  Lemma scan_err files : (forall f, In f files -> ~ belowVersionFile tid f) -> ~ smallIds files -> forall sys all, scanFiles b t files sys all = Err EFormat.
  Proof.
    induction files as [| f files IH]; intros HN HS sys all; [destruct HS; intros f d v []|].
    assert (HN' : forall g, In g files -> ~ belowVersionFile tid g) by (intros; apply HN; now right).
    cbn [scanFiles]. pose proof (file_matches tid b t f HT HB HR (HN f (or_introl eq_refl))) as HM.
    destruct (regExpMatch b f || regExpMatch t f).
    - destruct (proj1 HM eq_refl) as (d0 & Hd0). rewrite (versionFile_base _ _ _ Hd0). destruct (id_value d0 (proj1 Hd0)) as (v0 & Hv0).
      destruct (Z.lt_ge_cases v0 (2 ^ 32)) as [L | L].
      + rewrite (proj2 (cvt_id d0 v0 (proj1 Hd0)) (conj Hv0 L)). cbn [bind]. apply IH; [exact HN'|]. intros HS'. apply HS. intros g d v [<- | Hg] Hd Hv; [| eapply HS'; eauto].
        assert (E : d = d0) by (rewrite <- (versionFile_base _ _ _ Hd); apply (versionFile_base _ _ _ Hd0)). subst d. now rewrite (digits_det _ _ _ Hv Hv0).
      + rewrite (cvt_err d0 v0 (proj1 Hd0) Hv0 L). reflexivity.
    - apply IH; [exact HN'|]. intros HS'. apply HS. intros g d v [<- | Hg] Hd Hv; [| eapply HS'; eauto]. assert (false = true) by (apply HM; eauto). discriminate.
  Qed.
End Scan.

(** * Sorted lists of ids *)
Lemma sorted_strict l : NoDup l -> ssorted (strLstSortAsc l).
Proof.
  intros N. pose proof (strLstSortAsc_sorted l) as S. assert (N' : NoDup (strLstSortAsc l)) by (eapply Permutation_NoDup; [apply Permutation_sym, strLstSortAsc_perm | exact N]).
  revert S N'. generalize (strLstSortAsc l). clear. intros l S. induction S as [| a r Hr IH Ha]; intros N; [constructor|]. inversion N as [| ? ? Hi Hn]; subst. constructor; [apply IH, Hn|].
  rewrite Forall_forall in *. intros x Hx. specialize (Ha x Hx). apply sle_lt_eq in Ha. destruct Ha as [H | ->]; [exact H | contradiction].
Qed.
Lemma remove_in l s x : NoDup l -> In x (strLstRemove l s) <-> In x l /\ x <> s.
Proof.
  induction 1 as [| a r Hi Hn IH]; [cbn; tauto|]. cbn [strLstRemove]. destruct (strEqb_spec a s) as [-> | N]; cbn [In].
  - split; [intros H; split; [auto | intros ->; contradiction] | intros [[-> | H] H2]; [contradiction | exact H]].
  - rewrite IH. split; [intros [-> | [H1 H2]]; auto | intros [[-> | H1] H2]; auto].
Qed.
Lemma remove_sorted l s : ssorted l -> ssorted (strLstRemove l s).
Proof.
  induction 1 as [| a r Hr IH Ha]; [constructor|]. cbn [strLstRemove]. destruct (strEqb a s); [exact Hr|]. constructor; [exact IH|].
  rewrite Forall_forall in *. intros x Hx. apply Ha. clear -Hx. induction r as [| b r IHr]; [destruct Hx|]. cbn [strLstRemove] in Hx. destruct (strEqb b s); [now right|].
  destruct Hx as [-> | Hx]; [now left | right; auto].
Qed.
