(** Unlogged relations are left out of a backup. *)
From Coq Require Import String.
From Verif Require Import Base Str ArchiveIdModel RegModel RegSpec RegNameModel RegProof3 LinkCheckModel SelectModel SelectSpec SelectProof UnloggedModel UnloggedSpec UnloggedProof UnloggedProof2.
Open Scope Z_scope.
Open Scope list_scope.

(** A path of relations is global, a database of the data directory, or a database of a tablespace for this version, and nothing else. *)
Theorem C64_database_path tid p : forallb patChar tid = true -> regExpMatchOne (dbPathExp tid) p = Ok true <-> isDbPath tid p.
Proof. apply dbPath_match. Qed.
Print Assumptions C64_database_path.
(** A file of a temp relation is named by the backend, the relation, its fork and its segment. *)
Theorem C64_temp_relation n : regExpMatchOne tempRelationExp n = Ok true <-> tempRelation n.
Proof. apply temp_match. Qed.
Print Assumptions C64_temp_relation.
(** With no two files of relations with the same id next to each other of which one is unlogged, the files removed are exactly those of unlogged relations, and
    all others stay in order.  If it is so for sorted files then there were no such two files: the condition is needed. *)
Theorem C64_exact tid files keep : forallb patChar tid = true -> NoDup files -> (forall f p id, In f files -> relation tid f p id -> (length id <= 20)%nat) ->
  (forall f, In f files -> keep f = true <-> ~ exists p id, relation tid f p id /\ unlogged files p id) ->
  manifestRemoveUnlogged tid files = Ok (filter keep files) <-> noClash tid files.
Proof.
  intros HT ND HS HK. destruct (relation_new tid HT) as (rel & E & HR). unfold manifestRemoveUnlogged. rewrite E. cbn [bind].
  assert (HL : lastIs tid files [] [] false) by (left; split; [reflexivity | intros g q i []]). rewrite noClash_agree. split.
  - intros H d f' b EF. exact (run_back tid rel files keep HR HK files [] [] false ND eq_refl HS HL H d f' b EF).
  - intros H. exact (run_exact tid rel files keep HR HK files [] [] false eq_refl HS HL H).
Qed.
Print Assumptions C64_exact.
(** Whatever the ids: nothing is added, and a file that is not of a relation is never removed. *)
Theorem C64_only_relations tid files l f : forallb patChar tid = true -> manifestRemoveUnlogged tid files = Ok l ->
  (In f l -> In f files) /\ ((forall p id, ~ relation tid f p id) -> In f files -> In f l).
Proof.
  intros HT. destruct (relation_new tid HT) as (rel & E & HR). unfold manifestRemoveUnlogged. rewrite E. cbn [bind]. intros H. split.
  - intros HI. destruct (run_members rel files [] [] false l H) as [_ HM]. destruct (HM f HI) as [[] | HF]. exact HF.
  - intros HN. assert (NR : regExpMatch rel f = false) by (apply not_true_iff_false; rewrite HR; intros (p & id & F); exact (HN p id F)). revert H. clear - NR.
    generalize (@nil str) as kept, (@nil Z) as lastId, false as u. induction files as [| g r IH]; intros kept lastId u; cbn [removeUnlogged]; [intros _ []|].
    intros H [-> | HI].
    + rewrite NR in H. exact (proj1 (run_members _ _ _ _ _ _ H) f (or_introl eq_refl)).
    + destruct (regExpMatch rel g); [| exact (IH _ _ _ H HI)]. destruct (20 <? _)%nat; [discriminate|]. destruct (if strEqb lastId _ then u else _); exact (IH _ _ _ H HI).
Qed.
Print Assumptions C64_only_relations.
(** The init fork of a relation is in the result if it was in the manifest. *)
Theorem C64_init_kept tid files l p id : forallb patChar tid = true -> isId id -> manifestRemoveUnlogged tid files = Ok l -> unlogged files p id <-> unlogged l p id.
Proof.
  intros HT HI H. pose proof (C64_only_relations tid files l (p ++ txt "/" ++ id ++ txt "_init") HT H) as [H1 H2]. split; [| exact H1].
  apply H2. intros q i. apply init_not_rel, HI.
Qed.
Print Assumptions C64_init_kept.
(** The loop reads and writes inside its buffer exactly if no relation has an id of more than 20 digits, and it has no error. *)
Theorem C64_defined tid files : forallb patChar tid = true ->
  (manifestRemoveUnlogged tid files = UB <-> exists f p id, In f files /\ relation tid f p id /\ (20 < length id)%nat) /\ (forall e, manifestRemoveUnlogged tid files <> Err e).
Proof. intros HT. destruct (relation_new tid HT) as (rel & E & HR). unfold manifestRemoveUnlogged. rewrite E. cbn [bind]. apply (run_ub tid rel HR). Qed.
Print Assumptions C64_defined.

Definition c64Tid : str := txt "PG_15_202209061".
Definition c64File (db f : String.string) : str := txt "pg_tblspc/1/" ++ c64Tid ++ txt "/" ++ txt db ++ txt "/" ++ txt f.
Definition c64Clash : list str := [c64File "16384" "16400"; c64File "16384" "16400_init"; c64File "16385" "16400"].
Lemma c64_id s : negb (match s with [] => true | _ => false end) && forallb isDigit s = true -> isId s.
Proof.
  intros H. apply andb_prop in H. destruct H as [H1 H2]. split; [destruct s; discriminate|]. intros c Hc. rewrite forallb_forall in H2. specialize (H2 c Hc). unfold isDigit in H2. lia.
Qed.
Lemma c64_db db : isId (txt db) -> isDbPath c64Tid (txt "pg_tblspc/1/" ++ c64Tid ++ txt "/" ++ txt db).
Proof.
  intros H. right. right. exists (txt "1"), c64Tid, (txt db). split; [apply c64_id; reflexivity|]. split; [| split; [exact H | reflexivity]].
  unfold fits. induction c64Tid; constructor; auto.
Qed.
(** A relation that is not unlogged is left out of the backup if the relation before it, of another database, is unlogged and has the same id. *)
Theorem C64_clash_refuted : ~ (forall tid files l f p id, forallb patChar tid = true -> ssorted files -> manifestRemoveUnlogged tid files = Ok l ->
  In f files -> relation tid f p id -> ~ unlogged files p id -> In f l).
Proof.
  intros H. specialize (H c64Tid c64Clash [c64File "16384" "16400_init"] (c64File "16385" "16400") (txt "pg_tblspc/1/" ++ c64Tid ++ txt "/16385") (txt "16400")).
  destruct H as [F | []].
  - vm_compute. reflexivity.
  - repeat constructor.
  - vm_compute. reflexivity.
  - right. right. left. reflexivity.
  - split; [apply (c64_db "16385"), c64_id; reflexivity|]. split; [apply c64_id; reflexivity|]. exists []. split; [| vm_compute; reflexivity].
    exists [], []. split; [reflexivity|]. split; [now left | now left].
  - unfold unlogged. vm_compute. intuition discriminate.
  - vm_compute in F. discriminate.
Qed.
Print Assumptions C64_clash_refuted.
(** The name of a file can make the loop write past the end of its buffer. *)
Theorem C64_overflow_refuted : ~ (forall tid files, forallb patChar tid = true -> manifestRemoveUnlogged tid files <> UB).
Proof. intros H. apply (H c64Tid [txt "pg_data/base/1/100000000000000000000"]); vm_compute; reflexivity. Qed.
Print Assumptions C64_overflow_refuted.

Definition c64Files : list str := map txt ["pg_data/PG_VERSION"; "pg_data/base/1/100"; "pg_data/base/1/100.1"; "pg_data/base/1/100_fsm"; "pg_data/base/1/100_init"; "pg_data/base/1/101"; "pg_data/base/1/101_vm";
  "pg_data/base/1/PG_VERSION"; "pg_data/global/100"]%string.
Example C64_nontrivial :
  NoDup c64Files /\ (forall f p id, In f c64Files -> relation c64Tid f p id -> (length id <= 20)%nat) /\ noClash c64Tid c64Files /\
  manifestRemoveUnlogged c64Tid c64Files = Ok (map txt ["pg_data/PG_VERSION"; "pg_data/base/1/100_init"; "pg_data/base/1/101"; "pg_data/base/1/101_vm"; "pg_data/base/1/PG_VERSION"; "pg_data/global/100"]%string) /\
  forallb patChar c64Tid = true /\ relation c64Tid (txt "pg_data/base/1/100.1") (txt "pg_data/base/1") (txt "100") /\ unlogged c64Files (txt "pg_data/base/1") (txt "100") /\
  regExpMatchOne (dbPathExp c64Tid) (txt "pg_data/base/1") = Ok true /\ regExpMatchOne (dbPathExp c64Tid) (txt "pg_data/base/1/2") = Ok false /\
  regExpMatchOne tempRelationExp (txt "t3_16384_fsm.2") = Ok true /\ regExpMatchOne tempRelationExp (txt "t3_16384_init") = Ok false.
Proof.
  assert (ND : NoDup c64Files) by (apply ssorted_NoDup; repeat constructor).
  assert (HS : forall f p id, In f c64Files -> relation c64Tid f p id -> (length id <= 20)%nat).
  { intros f p id HF H. rewrite <- (rel_id c64Tid f p id H). clear H. revert f HF. apply Forall_forall. repeat constructor. }
  split; [exact ND|]. split; [exact HS|]. split.
  { destruct (relation_new c64Tid eq_refl) as (rel & E & HR). apply (C64_exact c64Tid c64Files (keepB rel c64Files) eq_refl ND HS).
    - intros f _. apply (keepB_spec c64Tid rel c64Files HR).
    - vm_compute in E. injection E as <-. vm_compute. reflexivity. }
  split; [vm_compute; reflexivity|]. split; [reflexivity|]. split; [| split; [vm_compute; tauto | repeat split; vm_compute; reflexivity]].
  split; [right; left; exists (txt "1"); split; [apply c64_id; reflexivity | reflexivity]|]. split; [apply c64_id; reflexivity|]. exists (txt ".1"). split; [| reflexivity].
  exists [], (txt ".1"). split; [reflexivity|]. split; [now left|]. right. exists (txt "1"). split; [apply c64_id; reflexivity | reflexivity].
Qed.
