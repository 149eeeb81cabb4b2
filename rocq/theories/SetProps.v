(** C63: the backup set for a restore is the newest that fits what was asked for, in the first repository that has one. *)
From Coq Require Import String Sorted.
From Verif Require Import Base Str LsnModel TimeModel RegNameModel SetModel SetSpec SetProof.
Open Scope Z_scope.
Open Scope list_scope.

Section Props.
  Variables (mktime : Z -> Z -> Z -> Z -> Z -> Z -> Z) (repo : option Z) (requested : option str) (type : stype) (repos looks : list srepo) (w : want).
  Hypotheses (HA : asks mktime requested type w) (HL : looked repo repos looks).

  (** A backup is selected exactly when it is the one a repository has and the repositories before it were passed over. *)
  Theorem C63_selects r :
    restoreBackupSet mktime repo requested type repos = Ok r <->
    exists before i after, looks = before ++ (srRepo r, Ok (Some i)) :: after /\ Forall (passed w) before /\ offers w i (srLabel r) /\ srCipher r = siCipher i.
  Proof.
    rewrite (set_run _ _ _ _ _ _ _ HA HL), repos_outcome. split.
    - intros H. inversion H as [before idx i after label E HF HO | | | |]; subst; cbn [srRepo srLabel srCipher]. exists before, i, after. auto.
    - intros (before & i & after & E & HF & HO & EC). destruct r as [idx c label]. cbn [srRepo srLabel srCipher] in *. subst c. exact (OFound w looks before idx i after label E HF HO).
  Qed.
  (** When all repositories are passed over there is an error. *)
  Theorem C63_none : Forall (passed w) looks -> restoreBackupSet mktime repo requested type repos = Err EBackupSetInvalid.
  Proof. intros H. rewrite (set_run _ _ _ _ _ _ _ HA HL), repos_outcome. now apply ONone. Qed.
  (** All errors: nothing found, a repository that ends the search, and storage that is not available. *)
  Theorem C63_errors e :
    restoreBackupSet mktime repo requested type repos = Err e <->
    (e = EBackupSetInvalid /\ Forall (passed w) looks) \/
    exists before idx loaded after, looks = before ++ (idx, loaded) :: after /\ Forall (passed w) before /\ (loaded = Err e \/ exists i, loaded = Ok (Some i) /\ refuses w i e).
  Proof.
    rewrite (set_run _ _ _ _ _ _ _ HA HL), repos_outcome. split.
    - intros H. inversion H as [| HF | before idx i after e' E HF HO | before idx e' after E HF |]; subst; [left; auto | right; exists before, idx, (Ok (Some i)), after; eauto 6 | right; exists before, idx, (Err e), after; auto].
    - intros [[-> HF] | (before & idx & loaded & after & E & HF & [-> | (i & -> & HO)])]; [now apply ONone | exact (OStorage w looks before idx e after E HF) | exact (ORefuse w looks before idx i after e E HF HO)].
  Qed.
  (** A repository that can be loaded and has the backup is never passed over. *)
  Theorem C63_not_passed r i label before after : looks = before ++ (r, Ok (Some i)) :: after -> Forall (passed w) before -> offers w i label ->
    restoreBackupSet mktime repo requested type repos = Ok (mkSresult r (siCipher i) label).
  Proof. intros E HF HO. rewrite (set_run _ _ _ _ _ _ _ HA HL), repos_outcome. exact (OFound w looks before r i after label E HF HO). Qed.
End Props.
Print Assumptions C63_selects.
Print Assumptions C63_none.
Print Assumptions C63_errors.
Print Assumptions C63_not_passed.

(** A repository either has a backup, or has none, or ends the search, and only one of these. *)
Theorem C63_total w i : lacks w i \/ (exists label, offers w i label) \/ exists e, refuses w i e.
Proof. apply search_total. Qed.
Print Assumptions C63_total.
Theorem C63_exclusive w i :
  (forall a b, offers w i a -> offers w i b -> a = b) /\ (forall a, ~ (offers w i a /\ lacks w i)) /\ (forall a e, ~ (offers w i a /\ refuses w i e)) /\ (forall e, ~ (lacks w i /\ refuses w i e)).
Proof.
  split; [intros a b H1 H2; apply search_some in H1; apply search_some in H2; congruence|]. split; [intros a [H1 H2]; apply search_some in H1; apply search_none in H2; congruence|].
  split; [intros a e [H1 H2]; apply search_some in H1; apply search_err in H2; congruence | intros e [H1 H2]; apply search_none in H1; apply search_err in H2; congruence].
Qed.
Print Assumptions C63_exclusive.

(** With a time the backup had ended before it, and no backup of the repository that had is later, when backups are in the order in which they ended. *)
Theorem C63_time_best t i label : StronglySorted (fun a b => sbStop a <= sbStop b) (siBackups i) -> offers (WTime t) i label ->
  exists b, In b (siBackups i) /\ sbLabel b = label /\ sbStop b < t /\ forall x, In x (siBackups i) -> sbStop x < t -> sbStop x <= sbStop b.
Proof.
  intros HS (o & b & n & E & EL & H1 & H2). exists b. split; [rewrite E; apply in_elt|]. split; [exact EL|]. split; [exact H1|]. intros x Hx Hs. rewrite E in Hx, HS. apply in_app_iff in Hx.
  destruct Hx as [Hx | [-> | Hx]]; [| lia |].
  - clear -HS Hx. induction o as [| a o IH]; [destruct Hx|]. cbn [app] in HS. inversion HS as [| ? ? Hn Hf]; subst. destruct Hx as [-> | Hx]; [| auto]. rewrite Forall_forall in Hf. apply Hf, in_elt.
  - rewrite Forall_forall in H2. specialize (H2 x Hx). lia.
Qed.
Print Assumptions C63_time_best.
(** With an lsn the backup ended at it or before, and each newer one after. *)
Theorem C63_lsn_reached l i label : offers (WLsn l) i label -> exists b s v, In b (siBackups i) /\ sbLabel b = label /\ sbLsnStop b = Some s /\ lsnFromStr s = Ok v /\ v <= l.
Proof. intros (o & b & n & s & v & E & EL & H1 & H2 & H3 & _). exists b, s, v. split; [rewrite E; apply in_elt | auto]. Qed.
Print Assumptions C63_lsn_reached.
(** Whatever is selected is a backup in backup.info of the repository it is for. *)
Theorem C63_exists w i label : offers w i label -> In label (map sbLabel (siBackups i)).
Proof.
  destruct w; cbn [offers].
  - intros [-> H]. exact H.
  - intros (o & b & n & E & <- & _). rewrite E. apply in_map, in_elt.
  - intros (o & b & n & s & v & E & <- & _). rewrite E. apply in_map, in_elt.
  - intros (o & b & E & <- & _). rewrite E. apply in_map, in_elt.
Qed.
Print Assumptions C63_exists.
(** With the repo option no other repository is used. *)
Theorem C63_only_repo mktime k requested type repos r : restoreBackupSet mktime (Some k) requested type repos = Ok r -> srRepo r = k.
Proof.
  unfold restoreBackupSet. intros H. destruct (match requested with None => restoreTarget mktime type | Some _ => Ok GNone end) as [g | |]; cbn [bind] in H; [| discriminate | discriminate].
  induction repos as [| [j x] l IH]; [discriminate|]. cbn [filter fst] in H. destruct (Z.eqb_spec j k) as [-> | N]; [| exact (IH H)]. cbn [searchRepos] in H.
  destruct x as [[i |] | |]; cbn [bind] in H; [| exact (IH H) | discriminate | discriminate]. destruct (searchRepo requested g i) as [[s |] | |]; cbn [bind] in H; [injection H as <-; reflexivity | exact (IH H) | discriminate | discriminate].
Qed.
Print Assumptions C63_only_repo.
(** A time or lsn that cannot be read is an error before any repository is looked at. *)
Theorem C63_bad_target mktime repo repos s e : (cvtZToTime s = Err e -> restoreBackupSet mktime repo None (STime s) repos = Err EFormat) /\
  (lsnFromStr s = Err e -> restoreBackupSet mktime repo None (SLsn s) repos = Err e).
Proof. unfold restoreBackupSet. cbn [restoreTarget]. split; intros ->; reflexivity. Qed.
Print Assumptions C63_bad_target.

Definition c63Old := mkSbackup (txt "20200101-000000F") 1 100 (Some (txt "0/3000100")).
Definition c63New := mkSbackup (txt "20200102-000000F") 2 200 (Some (txt "0/5000100")).
(** A latest backup from before a stanza upgrade ends the search although another repository has a current one. *)
Theorem C63_prior_version_refuted : ~ (forall mktime repos j i label, In (j, Ok (Some i)) repos -> offers WLatest i label -> (forall k x, In (k, x) repos -> exists y, x = Ok (Some y)) ->
  exists r, restoreBackupSet mktime None None SOther repos = Ok r).
Proof.
  intros H. destruct (H (fun _ _ _ _ _ _ => 0) [(0, Ok (Some (mkSinfo [c63Old] 2 None))); (1, Ok (Some (mkSinfo [c63Old; c63New] 2 None)))] 1 (mkSinfo [c63Old; c63New] 2 None) (txt "20200102-000000F")) as (r & E).
  - right. now left.
  - exists [c63Old], c63New. cbn. auto with zarith.
  - intros k x [E | [E | []]]; injection E as _ <-; eauto.
  - vm_compute in E. discriminate.
Qed.
Print Assumptions C63_prior_version_refuted.
(** By lsn, a backup without lsn ends the search in its repository although an older one would fit. *)
Theorem C63_lsn_missing_refuted : ~ (forall l i b s v, In b (siBackups i) -> sbLsnStop b = Some s -> lsnFromStr s = Ok v -> v <= l -> exists label, offers (WLsn l) i label).
Proof.
  intros H. destruct (H 83886336 (mkSinfo [c63Old; mkSbackup (txt "20200103-000000F") 2 300 None] 2 None) c63Old (txt "0/3000100") 50331904) as (label & HO);
    [now left | reflexivity | vm_compute; reflexivity | lia |].
  apply search_some in HO. vm_compute in HO. discriminate.
Qed.
Print Assumptions C63_lsn_missing_refuted.

Example C63_nontrivial :
  asks (fun _ _ _ _ _ _ => 150) None (STime (txt "2020-01-01 12:00:00")) (WTime 150) /\ looked None [(0, Ok None); (1, Ok (Some (mkSinfo [c63Old; c63New] 2 (Some (txt "pass")))))] [(0, Ok None); (1, Ok (Some (mkSinfo [c63Old; c63New] 2 (Some (txt "pass")))))] /\
  passed (WTime 150) (0, Ok None) /\ offers (WTime 150) (mkSinfo [c63Old; c63New] 2 (Some (txt "pass"))) (txt "20200101-000000F") /\
  restoreBackupSet (fun _ _ _ _ _ _ => 150) None None (STime (txt "2020-01-01 12:00:00")) [(0, Ok None); (1, Ok (Some (mkSinfo [c63Old; c63New] 2 (Some (txt "pass")))))] =
    Ok (mkSresult 1 (Some (txt "pass")) (txt "20200101-000000F")) /\
  restoreBackupSet (fun _ _ _ _ _ _ => 0) None None (SLsn (txt "0/5000100")) [(0, Ok (Some (mkSinfo [c63Old; c63New] 2 None)))] = Ok (mkSresult 0 None (txt "20200102-000000F")).
Proof.
  split; [exact (AskLocal (fun _ _ _ _ _ _ => 150) (txt "2020-01-01 12:00:00") 2020 1 1 12 0 0 ltac:(vm_compute; reflexivity))|]. split; [reflexivity|]. split; [now left|].
  split; [| split; vm_compute; reflexivity]. exists [], c63Old, [c63New]. split; [reflexivity|]. split; [reflexivity|]. split; [cbn; lia|]. constructor; [cbn; lia | constructor].
Qed.
