(** C62: selective restore zeroes the files of exactly the databases that were not selected. *)
From Coq Require Import String.
From Verif Require Import Base Str NumModel NumSpec ArchiveIdModel RegModel RegSpec RegNameModel RegProof2 ManifestPackModel ManifestModel
  SpoolModel SelectModel SelectSpec SelectProof SelectProof2 SelectProof3.
Open Scope Z_scope.
Open Scope list_scope.

Section Props.
  Variables (dbs : list mdb) (files : list str) (targets : list mtarget) (ver cat : Z) (exclude include : list str).
  Hypotheses (Hver : 0 <= ver < 2 ^ 32) (Hcat : 0 <= cat < 2 ^ 32).
  Let tid := pgTablespaceId ver cat.
  Hypothesis HS : sound dbs files tid targets.
  Let zeroExp := restoreZeroExp dbs files targets ver cat exclude include.
  Hypothesis HO : exclude <> [] \/ include <> [].

  (** The options are accepted exactly when there are databases, each id fits, each excluded and included database is there, and included databases are
      given once and are neither system databases nor excluded. *)
  Theorem C62_accepts :
    (exists z, zeroExp = Ok z) <->
    ((forall f d v, In f files -> versionFile tid f d -> digitsIs 10 d v -> v < 2 ^ 32) /\
     (exists d, dbFound dbs files tid d) /\
     exists eids iids, Forall2 (denotes dbs files tid) exclude eids /\ Forall2 (denotes dbs files tid) include iids /\ NoDup iids /\
       forall i, In i iids -> ~ dbSystem dbs files tid i /\ ~ In i eids).
  Proof.
    split.
    - intros (z & E). exact (proj1 (zeroExp_ok dbs files targets ver cat Hver Hcat HS exclude include z HO E)).
    - intros H. exact (zeroExp_accepts dbs files targets ver cat Hver Hcat HS exclude include HO H).
  Qed.

  (** With databases to include, the files zeroed are those in the directories of a database that was found, is not included, and is no system database unless
      excluded; without, those of the databases excluded.  The version file of a database is never zeroed. *)
  Theorem C62_zeroed z f : zeroExp = Ok z ->
    restoreFileZeroed f z = true <->
    ~ isVersionName f /\
    exists d, inDb targets tid d f /\
      ((include = [] /\ exists x, In x exclude /\ denotes dbs files tid x d) \/
       (include <> [] /\ dbFound dbs files tid d /\ (forall x, In x include -> ~ denotes dbs files tid x d) /\
        (dbSystem dbs files tid d -> exists x, In x exclude /\ denotes dbs files tid x d))).
  Proof.
    intros E. rewrite (proj2 (zeroExp_ok dbs files targets ver cat Hver Hcat HS exclude include z HO E) f). fold tid. unfold chosen. fold tid.
    split; intros (HV & d & H1 & H2); (split; [exact HV|]); exists d.
    - split; [exact H2|]. destruct include as [| i l]; [left; auto | right; split; [discriminate | exact H1]].
    - split; [| exact H1]. destruct include as [| i l]; [destruct H2 as [[_ H2] | [H2 _]]; [exact H2 | contradiction] | destruct H2 as [[H2 _] | [_ H2]]; [discriminate | exact H2]].
  Qed.

  (** No file of an included database is zeroed. *)
  Theorem C62_included_kept z f d x : zeroExp = Ok z -> In x include -> denotes dbs files tid x d -> inDb targets tid d f -> restoreFileZeroed f z = false.
  Proof.
    intros E Hx Hd Hf. destruct (restoreFileZeroed f z) eqn:EZ; [| reflexivity]. exfalso. apply (C62_zeroed z f E) in EZ. destruct EZ as (_ & e & He & [[H _] | (_ & H1 & H2 & _)]).
    - rewrite H in Hx. destruct Hx.
    - apply (H2 x Hx). rewrite <- (inDb_unique dbs files targets ver cat HS d e f); [exact Hd | | | exact Hf | exact He].
      + apply (found_id dbs files targets ver cat HS), (denotes_found dbs files ver cat x), Hd.
      + apply (found_id dbs files targets ver cat HS), H1.
  Qed.
  (** No file of a system database is zeroed unless the database is excluded. *)
  Theorem C62_system_kept z f d : zeroExp = Ok z -> dbSystem dbs files tid d -> (forall x, In x exclude -> ~ denotes dbs files tid x d) -> inDb targets tid d f ->
    restoreFileZeroed f z = false.
  Proof.
    intros E Hs Hx Hf. destruct (restoreFileZeroed f z) eqn:EZ; [| reflexivity]. exfalso. apply (C62_zeroed z f E) in EZ.
    assert (FD : isId d) by (apply (found_id dbs files targets ver cat HS), (system_found dbs files ver cat), Hs).
    destruct EZ as (_ & e & He & [[_ (x & H1 & H2)] | (_ & H1 & _ & H2)]).
    - apply (Hx x H1). rewrite (inDb_unique dbs files targets ver cat HS d e f FD); [exact H2 | | exact Hf | exact He]. apply (found_id dbs files targets ver cat HS), (denotes_found dbs files ver cat x), H2.
    - assert (X : d = e) by (apply (inDb_unique dbs files targets ver cat HS d e f FD); [apply (found_id dbs files targets ver cat HS), H1 | exact Hf | exact He]). subst e.
      destruct (H2 Hs) as (x & H3 & H4). exact (Hx x H3 H4).
  Qed.
  (** Each file of an excluded database but its version file is zeroed. *)
  Theorem C62_excluded_zeroed z f d x : zeroExp = Ok z -> In x exclude -> denotes dbs files tid x d -> inDb targets tid d f -> ~ isVersionName f -> restoreFileZeroed f z = true.
  Proof.
    intros E Hx Hd Hf Hv. apply (C62_zeroed z f E). split; [exact Hv|]. exists d. split; [exact Hf|]. assert (EI : include = [] \/ include <> []) by (clear; destruct include; [left; reflexivity | right; discriminate]). destruct EI as [EI | EI]; [left; eauto|]. right. split; [exact EI|].
    split; [exact (denotes_found dbs files ver cat x d Hd)|]. split; [| eauto]. intros y Hy Hyd.
    destruct (proj1 C62_accepts (ex_intro _ z E)) as (_ & _ & eids & iids & A1 & A2 & _ & A4).
    assert (I1 : In d iids) by (apply (den_in dbs files targets ver cat HS _ _ d A2); eauto).
    destruct (A4 d I1) as [_ N]. apply N. apply (den_in dbs files targets ver cat HS _ _ d A1). eauto.
  Qed.
  (** When databases to include are given, each file but the version file of another user database is zeroed. *)
  Theorem C62_other_zeroed z f d : zeroExp = Ok z -> include <> [] -> dbFound dbs files tid d -> ~ dbSystem dbs files tid d -> (forall x, In x include -> ~ denotes dbs files tid x d) ->
    inDb targets tid d f -> ~ isVersionName f -> restoreFileZeroed f z = true.
  Proof. intros E HI H1 H2 H3 H4 H5. apply (C62_zeroed z f E). split; [exact H5|]. exists d. split; [exact H4|]. right. split; [exact HI|]. split; [exact H1|]. split; [exact H3 | contradiction]. Qed.
  (** Files outside of the directories of databases are never zeroed. *)
  Theorem C62_outside_kept z f : zeroExp = Ok z -> (forall d, dbFound dbs files tid d -> ~ inDb targets tid d f) -> restoreFileZeroed f z = false.
  Proof.
    intros E H. destruct (restoreFileZeroed f z) eqn:EZ; [| reflexivity]. exfalso. apply (C62_zeroed z f E) in EZ. destruct EZ as (_ & d & Hd & [[_ (x & _ & H2)] | (_ & H1 & _)]).
    - exact (H d (denotes_found dbs files ver cat x d H2) Hd).
    - exact (H d H1 Hd).
  Qed.

  (** Errors, in the order of the checks. *)
  Theorem C62_no_databases : (forall d, ~ dbFound dbs files tid d) -> zeroExp = Err EFormat.
  Proof.
    intros H. assert (HM : smallIds tid files) by (intros f d v Hf Hd _; destruct (H d); right; eauto).
    destruct (expression_run dbs files targets ver cat Hver Hcat HS exclude include HO HM) as (sys & L & _ & _ & HL & _ & E). unfold zeroExp, restoreZeroExp. rewrite E.
    destruct L as [| d l]; [reflexivity|]. destruct (H d). apply HL. now left.
  Qed.
  Theorem C62_unknown_excluded : (forall f d v, In f files -> versionFile tid f d -> digitsIs 10 d v -> v < 2 ^ 32) -> (exists d, dbFound dbs files tid d) ->
    (exists x, In x exclude /\ forall d, ~ denotes dbs files tid x d) -> zeroExp = Err EFileMissing.
  Proof.
    intros HM (d0 & H0) (x & Hx & HN).
    destruct (expression_run dbs files targets ver cat Hver Hcat HS exclude include HO HM) as (sys & L & _ & _ & HL & _ & E). unfold zeroExp, restoreZeroExp. rewrite E. clear E.
    destruct L as [| d l] eqn:EL; [apply HL in H0; destruct H0|]. rewrite <- EL in *. clear EL d l.
    destruct (exclude_cases dbs L exclude) as [(ids & EE) | ->]; [| reflexivity]. exfalso.
    apply (exclude_ok dbs files targets ver cat HS L HL) in EE. clear -EE Hx HN. induction EE as [| a b l m H1 H2 IH]; [destruct Hx|]. destruct Hx as [-> | Hx]; [exact (HN b H1) | auto].
  Qed.
  (** The first database to include decides: unknown, or a system database or one excluded. *)
  Theorem C62_first_include x r eids : include = x :: r -> (forall f d v, In f files -> versionFile tid f d -> digitsIs 10 d v -> v < 2 ^ 32) -> (exists d, dbFound dbs files tid d) ->
    Forall2 (denotes dbs files tid) exclude eids ->
    ((forall d, ~ denotes dbs files tid x d) -> zeroExp = Err EFileMissing) /\
    (forall d, denotes dbs files tid x d -> dbSystem dbs files tid d \/ In d eids -> zeroExp = Err EOptionInvalidValue).
  Proof.
    intros HI HM (d0 & H0) HE.
    destruct (expression_run dbs files targets ver cat Hver Hcat HS exclude include HO HM) as (sys & L & _ & _ & HL & HY & E). unfold zeroExp, restoreZeroExp. rewrite E. clear E.
    destruct L as [| d l] eqn:EL; [apply HL in H0; destruct H0|]. rewrite <- EL in *. clear EL d l.
    apply (exclude_ok dbs files targets ver cat HS L HL) in HE. rewrite HE. cbn [bind]. rewrite HI. cbn [removeIncluded]. split.
    - intros HN. destruct (resolve_cases dbs L x) as [(d & ER) | ->]; [| reflexivity]. exfalso. apply (resolve_ok dbs files targets ver cat HS L x d (fun y => proj1 (HL y))) in ER. exact (HN d (proj1 ER)).
    - intros d Hd HB. assert (ER : resolveDb dbs L x = Ok d) by (apply (resolve_ok dbs files targets ver cat HS L x d (fun y => proj1 (HL y))); split; [exact Hd | apply HL, (denotes_found dbs files ver cat x d Hd)]).
      rewrite ER. cbn [bind]. destruct (strLstExists_spec sys d) as [| NS]; [reflexivity|]. destruct (strLstExists_spec eids d) as [| NE]; [reflexivity|]. destruct HB as [HB | HB]; [destruct NS; now apply HY | contradiction].
  Qed.
End Props.
Print Assumptions C62_accepts.
Print Assumptions C62_zeroed.
Print Assumptions C62_included_kept.
Print Assumptions C62_system_kept.
Print Assumptions C62_excluded_zeroed.
Print Assumptions C62_other_zeroed.
Print Assumptions C62_outside_kept.
Print Assumptions C62_no_databases.
Print Assumptions C62_unknown_excluded.
Print Assumptions C62_first_include.

(** The version file of a database is never zeroed, whatever the expression. *)
Theorem C62_version_kept z f : isVersionName f -> restoreFileZeroed f z = false.
Proof. intros H. apply (endsVersion f) in H. destruct z as [r |]; [| reflexivity]. cbn [restoreFileZeroed]. rewrite H. apply andb_false_r. Qed.
Print Assumptions C62_version_kept.
(** Without options nothing is zeroed. *)
Theorem C62_none dbs files targets ver cat : exists z, restoreZeroExp dbs files targets ver cat [] [] = Ok z /\ forall f, restoreFileZeroed f z = false.
Proof. exists None. split; reflexivity. Qed.
Print Assumptions C62_none.
(** From PostgreSQL 10 on the tablespace directory is matched exactly. *)
Theorem C62_tablespace_exact ver cat x : 100000 <= ver < 2 ^ 32 -> 0 <= cat < 2 ^ 32 -> fits (pgTablespaceId ver cat) x <-> x = pgTablespaceId ver cat.
Proof. intros Hv Hc. apply fits_literal, tid_literal; [exact Hv | exact Hc]. Qed.
Print Assumptions C62_tablespace_exact.
(** Before, a directory of another name can be taken for it. *)
Theorem C62_tablespace_dot_refuted : ~ (forall ver cat x, 0 <= ver < 2 ^ 32 -> 0 <= cat < 2 ^ 32 -> fits (pgTablespaceId ver cat) x -> x = pgTablespaceId ver cat).
Proof.
  intros H. specialize (H 90600 201608131 (txt "PG_9x6_201608131") ltac:(lia) ltac:(lia)). assert (F : fits (pgTablespaceId 90600 201608131) (txt "PG_9x6_201608131")).
  { vm_compute. repeat (apply Forall2_cons; [first [left; reflexivity | right; reflexivity]|]). apply Forall2_nil. }
  specialize (H F). vm_compute in H. discriminate.
Qed.
Print Assumptions C62_tablespace_dot_refuted.

Definition c62Dbs : list mdb := [mkMdb (txt "postgres") 5 0; mkMdb (txt "sales") 16384 0; mkMdb (txt "hr") 16385 0].
Definition c62Files : list str := [txt "pg_data/base/5/PG_VERSION"; txt "pg_data/base/16384/PG_VERSION"; txt "pg_tblspc/1/PG_15_202209061/16385/PG_VERSION"; txt "pg_tblspc/1/PG_15_202209061/16385/2608"].
Definition c62Targets : list mtarget := [mkMtarget (txt "pg_tblspc/1") false (txt "/ts") None 1 (Some (txt "ts1"))].
(** Including the same database twice is refused as if it did not exist. *)
Theorem C62_include_twice_refuted : ~ (forall dbs files targets ver cat x, (exists z, restoreZeroExp dbs files targets ver cat [] [x] = Ok z) -> exists z, restoreZeroExp dbs files targets ver cat [] [x; x] = Ok z).
Proof.
  intros H. destruct (H c62Dbs c62Files c62Targets 150000 202209061 (txt "sales")) as (z & E); [eexists; vm_compute; reflexivity | vm_compute in E; discriminate].
Qed.
Print Assumptions C62_include_twice_refuted.


Lemma c62_below f : In f c62Files -> ~ belowVersionFile (pgTablespaceId 150000 202209061) f.
Proof.
  assert (C : forall s, In 47 s -> (1 <= count_occ Z.eq_dec s 47%Z)%nat) by (intros s Hs; apply (count_occ_In Z.eq_dec) in Hs; lia).
  intros H (d & r & _ & Hr & [E | (o & t & _ & _ & E)]); apply C in Hr; assert (N : count_occ Z.eq_dec f 47 = count_occ Z.eq_dec f 47) by reflexivity.
  - rewrite E in N at 2. rewrite !count_occ_app in N. change (count_occ Z.eq_dec (txt "pg_data/base/") 47) with 2%nat in N. change (count_occ Z.eq_dec (txt "/PG_VERSION") 47) with 1%nat in N.
    destruct H as [<- | [<- | [<- | [<- | []]]]]; [| | discriminate | discriminate]; (match type of N with ?c = _ => let v := eval vm_compute in c in change c with v in N end; lia).
  - rewrite E in N at 2. rewrite !count_occ_app in N. change (count_occ Z.eq_dec (txt "pg_tblspc/") 47) with 1%nat in N. change (count_occ Z.eq_dec (txt "/PG_VERSION") 47) with 1%nat in N. change (count_occ Z.eq_dec (txt "/") 47) with 1%nat in N.
    destruct H as [<- | [<- | [<- | [<- | []]]]]; [discriminate | discriminate | |]; (match type of N with ?c = _ => let v := eval vm_compute in c in change c with v in N end; lia).
Qed.
(** The hypotheses are met by a manifest with a system database and two others, one in a tablespace; the included database and the system database are kept *)
Example C62_nontrivial :
  sound c62Dbs c62Files (pgTablespaceId 150000 202209061) c62Targets /\
  exists z, restoreZeroExp c62Dbs c62Files c62Targets 150000 202209061 [] [txt "sales"] = Ok z /\
    map (fun f => restoreFileZeroed f z) (c62Files ++ [txt "pg_data/base/16384/1"; txt "pg_data/base/5/1"; txt "pg_data/base/16385/1"]) = [false; false; false; true; false; false; true].
Proof.
  split; [| eexists; split; [vm_compute; reflexivity | vm_compute; reflexivity]]. constructor.
  - intros d [<- | [<- | [<- | []]]]; cbn [mdId]; lia.
  - repeat (apply NoDup_cons; [cbn [In map mdId c62Dbs]; lia|]). apply NoDup_nil.
  - repeat (apply NoDup_cons; [cbn [In map mdName c62Dbs]; intuition discriminate|]). apply NoDup_nil.
  - intros d Hd HF. assert (HI : isId (mdName d)).
    { destruct HF as [(db & H & _ & ->) | (f & _ & [H _])]; [| exact H]. apply uint_id. destruct H as [<- | [<- | [<- | []]]]; cbn [mdId]; lia. }
    destruct HI as [_ HI]. assert (HC : exists c, In c (mdName d) /\ 57 < c).
    { destruct Hd as [<- | [<- | [<- | []]]]; [exists 112 | exists 115 | exists 104]; (split; [now left | lia]). }
    destruct HC as (c & C1 & C2). specialize (HI c C1). lia.
  - exact c62_below.
  - intros t [<- | []] _. exists (txt "1"). split; [| reflexivity]. split; [discriminate|]. intros c Hc. change (txt "1") with [49] in Hc. destruct Hc as [<- | []]. lia.
Qed.
