(** C41: archive ids and the cluster history. *)
From Verif Require Import Base Str NumSpec NumModel ArchiveIdModel ArchiveIdSpec ArchiveIdProof.
Open Scope Z_scope.

(** The lookup gives the id of an entry of the same cluster: the one with the requested history id if there is one, else the newest.  It fails iff the
    history has no entry of the cluster. *)
Theorem C41_match : forall this id version systemId,
  let same d := pdSystemId d = systemId /\ pdVersion d = version in
  match historyMatch this id version systemId with
  | Ok a => exists newer d older, ipHistory this = newer ++ d :: older /\ a = archiveIdOf d /\ same d /\
      ((pdId d = id) \/ (forall x, In x (ipHistory this) -> same x -> pdId x <> id) /\ (forall x, In x newer -> ~ same x))
  | Err e => e = EArchiveMismatch /\ forall d, In d (ipHistory this) -> ~ same d
  | UB => False
  end.
Proof. exact match_spec. Qed.
Print Assumptions C41_match.

(** The id is the text VERSION-ID, and no two entries with other version or id have the same text. *)
Theorem C41_text : forall d, isVersion (pdVersion d) -> 0 <= pdId d < 2 ^ 32 -> archiveIdText (pdVersion d) (pdId d) (archiveIdOf d).
Proof. exact id_text. Qed.
Print Assumptions C41_text.
Theorem C41_unique : forall v i v' i' s, archiveIdText v i s -> archiveIdText v' i' s -> v = v' /\ i = i'.
Proof. exact id_text_inj. Qed.
Print Assumptions C41_unique.

(** Version numbers and their text. *)
Theorem C41_version : forall v, isVersion v -> versionText v (pgVersionToStr v) /\ pgVersionFromStr (pgVersionToStr v) = Ok v.
Proof. intros v H. split; [apply toStr_text, H|apply version_roundtrip, H]. Qed.
Print Assumptions C41_version.
Theorem C41_version_text : forall v s, versionText v s -> pgVersionFromStr s = Ok v.
Proof. exact fromStr_text. Qed.
Print Assumptions C41_version_text.

(** A history made by stanza-create and any number of upgrades is numbered from 1, newest first, and the newest is current. *)
Theorem C41_history : forall i l, built i l -> (Z.of_nat (length l) < 2 ^ 32) ->
  ipCurrent i = O /\ map (fun d => (pdVersion d, pdSystemId d)) (ipHistory i) = l /\ map pdId (ipHistory i) = rev (map (fun k => Z.of_nat (S k)) (seq 0 (length l))).
Proof.
  intros i l B L. destruct (built_spec i l B L) as (-> & _). cbn [ipCurrent ipHistory]. split; [reflexivity|]. clear. induction l as [|(v, s) l (IH1 & IH2)]; [auto|].
  cbn [numbered map length pdVersion pdSystemId pdId]. rewrite IH1. split; [reflexivity|]. rewrite IH2. replace (S (length l)) with (length l + 1)%nat at 2 by lia.
  rewrite seq_app, map_app, rev_app_distr. reflexivity.
Qed.
Print Assumptions C41_history.

(** What is saved loads as it was, for every history with valid versions and distinct ids. *)
Theorem C41_save_load : forall i f, Forall (fun d => 1 <= pdId d < 2 ^ 32 /\ isVersion (pdVersion d)) (ipHistory i) -> NoDup (map pdId (ipHistory i)) ->
  infoPgSave i = Ok f -> infoPgNewLoad f = Ok i.
Proof. exact save_load. Qed.
Print Assumptions C41_save_load.
(** In particular a history made by create and upgrades. *)
Theorem C41_built_save_load : forall i l, built i l -> Z.of_nat (length l) < 2 ^ 32 -> Forall (fun p => isVersion (fst p)) l ->
  exists f, infoPgSave i = Ok f /\ infoPgNewLoad f = Ok i.
Proof.
  intros i l B L V. destruct (built_spec i l B L) as (-> & N).
  assert (E : exists f, infoPgSave (mkInfoPg (numbered l) 0) = Ok f) by (destruct l as [|(v, s) l]; [contradiction|eexists; reflexivity]).
  destruct E as (f & E). exists f. split; [exact E|]. apply save_load; [| apply numbered_nodup|exact E]. cbn [ipHistory]. apply Forall_forall. intros d Hd.
  apply numbered_in in Hd. destruct Hd as (H1 & H2). split; [lia|]. rewrite Forall_forall in V. exact (V _ H2).
Qed.
Print Assumptions C41_built_save_load.

Lemma ver96 : isVersion 90600.
Proof. exists (pgVersionToStr 90600). apply (vt_old 9 6 [57] [54]); [lia|lia|apply (ds_one 10 57 9); [exact (dec 9 ltac:(lia))|lia]|apply (ds_one 10 54 6); [exact (dec 6 ltac:(lia))|lia]]. Qed.
Lemma ver17 : isVersion 170000.
Proof. exists [49; 55]. apply (vt_new 17 [49; 55]); [lia|lia|]. apply (ds_snoc 10 [49] 1 55 7); [apply (ds_one 10 49 1); [exact (dec 1 ltac:(lia))|lia]|exact (dec 7 ltac:(lia))|lia]. Qed.
(** A cluster moved to another version and back: entries 1 and 3 are the same cluster. *)
Definition exHist : list (Z * Z) := [(90600, 7); (170000, 8); (90600, 7)].
Example C41_nontrivial : exists i, built i exHist /\ Forall (fun p => isVersion (fst p)) exHist /\
  historyMatch i 1 90600 7 = Ok [57; 46; 54; 45; 49] /\ historyMatch i 2 90600 7 = Ok [57; 46; 54; 45; 51] /\ historyMatch i 1 170000 8 = Ok [49; 55; 45; 50] /\
  historyMatch i 1 170000 7 = Err EArchiveMismatch.
Proof.
  eexists. split; [eapply b_set; [eapply b_set; [apply b_new; reflexivity|reflexivity]|reflexivity]|].
  split; [repeat constructor; cbn; auto using ver96, ver17|]. vm_compute. auto.
Qed.
