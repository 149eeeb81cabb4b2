From Verif Require Import Base Str NumModel LsnModel TimeModel SetModel SetSpec.
Open Scope Z_scope.

Definition targetOf (w : want) : starget := match w with WTime t => GTime t | WLsn l => GLsn l | _ => GNone end.
Definition requestedOf (w : want) : option str := match w with WSet l => Some l | _ => None end.

Lemma lsn_not_ub s : lsnFromStr s <> UB.
Proof.
  unfold lsnFromStr. destruct (splitOn 47 s) as [| h [| l [| ? ?]]]; try discriminate.
  assert (N : forall x, cvtZToUInt64 16 x <> UB).
  { intros x. unfold cvtZToUInt64, zToUInt64Internal. destruct (strtoull 16 x) as [[v e] r]. destruct (zValid e x r); cbn [bind]; [destruct (startsMinus x); discriminate | discriminate]. }
  pose proof (N h). pose proof (N l). destruct (cvtZToUInt64 16 h); cbn [bind]; [| discriminate | congruence]. destruct (cvtZToUInt64 16 l); cbn [bind]; [discriminate | discriminate | congruence].
Qed.

Lemma forall_rev {A} (P : A -> Prop) l : Forall P (rev l) <-> Forall P l.
Proof. rewrite !Forall_forall. split; intros H x Hx; apply H; [now apply in_rev in Hx | now apply in_rev]. Qed.
Lemma rev_split {A} (l : list A) n b o : rev l = n ++ b :: o -> l = rev o ++ b :: rev n.
Proof. intros E. rewrite <- (rev_involutive l), E, rev_app_distr. cbn [rev]. now rewrite <- app_assoc. Qed.
Lemma split_rev {A} (l : list A) n b o : l = o ++ b :: n -> rev l = rev n ++ b :: rev o.
Proof. intros ->. rewrite rev_app_distr. cbn [rev]. now rewrite <- app_assoc. Qed.

(** Searching from newest to oldest *)
Lemma time_skip t n r : Forall (fun x => t <= sbStop x) n -> searchTarget (GTime t) (n ++ r) = searchTarget (GTime t) r.
Proof. induction 1 as [| b n H _ IH]; [reflexivity|]. cbn [app searchTarget]. now rewrite (proj2 (Z.ltb_ge _ _) H). Qed.
Lemma time_cases t l : Forall (fun x => t <= sbStop x) l \/ exists n b o, l = n ++ b :: o /\ sbStop b < t /\ Forall (fun x => t <= sbStop x) n.
Proof.
  induction l as [| b l IH]; [left; constructor|]. destruct (Z_lt_le_dec (sbStop b) t) as [H | H]; [right; exists [], b, l; auto|].
  destruct IH as [IH | (n & c & o & -> & H1 & H2)]; [left; now constructor | right; exists (b :: n), c, o; auto].
Qed.
Lemma lsn_skip l n r : Forall (lsnAbove l) n -> searchTarget (GLsn l) (n ++ r) = searchTarget (GLsn l) r.
Proof. induction 1 as [| b n (s & v & E1 & E2 & H) _ IH]; [reflexivity|]. cbn [app searchTarget]. rewrite E1, E2. cbn [bind]. now rewrite (proj2 (Z.leb_gt _ _) H). Qed.
Lemma lsn_cases l k : Forall (lsnAbove l) k \/ exists n b o, k = n ++ b :: o /\ Forall (lsnAbove l) n /\
  (sbLsnStop b = None \/ (exists s e, sbLsnStop b = Some s /\ lsnFromStr s = Err e) \/ exists s v, sbLsnStop b = Some s /\ lsnFromStr s = Ok v /\ v <= l).
Proof.
  induction k as [| b k IH]; [left; constructor|].
  assert (HB : lsnAbove l b \/ (sbLsnStop b = None \/ (exists s e, sbLsnStop b = Some s /\ lsnFromStr s = Err e) \/ exists s v, sbLsnStop b = Some s /\ lsnFromStr s = Ok v /\ v <= l)).
  { destruct (sbLsnStop b) as [s |] eqn:ES; [| auto]. destruct (lsnFromStr s) as [v | e |] eqn:EL; [| right; right; left; eauto | destruct (lsn_not_ub s EL)].
    destruct (Z_lt_le_dec l v) as [H | H]; [left; exists s, v; auto | right; right; right; eauto]. }
  destruct HB as [HB | HB]; [| right; exists [], b, k; auto].
  destruct IH as [IH | (n & c & o & -> & H1 & H2)]; [left; now constructor | right; exists (b :: n), c, o; auto].
Qed.

Lemma search_none w i : lacks w i -> searchRepo (requestedOf w) (targetOf w) i = Ok None.
Proof.
  unfold searchRepo. destruct (rev (siBackups i)) as [| lt rest] eqn:ER; [reflexivity|]. rewrite <- ER. destruct w as [l | t | l |]; cbn [lacks requestedOf targetOf]; intros H.
  - destruct (existsb (fun b => strEqb (sbLabel b) l) (siBackups i)) eqn:EX; [| reflexivity]. apply existsb_exists in EX. destruct EX as (b & H1 & H2). apply strEqb_eq in H2. destruct H. apply in_map_iff. eauto.
  - apply forall_rev in H. rewrite <- (app_nil_r (rev (siBackups i))), time_skip by exact H. reflexivity.
  - destruct H as (older & newer & E & HF & HO). rewrite E, rev_app_distr, lsn_skip by now apply forall_rev. destruct HO as [-> | (o & b & -> & HN)]; [reflexivity|]. rewrite rev_app_distr. cbn [rev app searchTarget]. now rewrite HN.
  - rewrite H in ER. discriminate.
Qed.
Lemma search_some w i label : offers w i label -> searchRepo (requestedOf w) (targetOf w) i = Ok (Some label).
Proof.
  unfold searchRepo. destruct w as [l | t | l |]; cbn [offers requestedOf targetOf].
  - intros [-> H]. apply in_map_iff in H. destruct H as (b & H1 & H2).
    assert (EX : existsb (fun b => strEqb (sbLabel b) l) (siBackups i) = true) by (apply existsb_exists; exists b; split; [exact H2 | rewrite H1; apply strEqb_refl]). rewrite EX.
    destruct (rev (siBackups i)) eqn:ER; [| reflexivity]. apply (f_equal (@rev _)) in ER. rewrite rev_involutive in ER. rewrite ER in H2. destruct H2.
  - intros (o & b & n & E & <- & H1 & H2). apply split_rev in E. rewrite E. destruct (rev n ++ b :: rev o) eqn:EX; [now destruct (rev n)|]. rewrite <- EX. rewrite time_skip by now apply forall_rev. cbn [searchTarget]. now rewrite (proj2 (Z.ltb_lt _ _) H1).
  - intros (o & b & n & s & v & E & <- & H1 & H2 & H3 & H4). apply split_rev in E. rewrite E. destruct (rev n ++ b :: rev o) eqn:EX; [now destruct (rev n)|]. rewrite <- EX. rewrite lsn_skip by now apply forall_rev. cbn [searchTarget].
    rewrite H1, H2. cbn [bind]. now rewrite (proj2 (Z.leb_le _ _) H3).
  - intros (o & b & E & <- & H). rewrite E, rev_app_distr. cbn [rev app]. now rewrite (proj2 (Z.ltb_ge _ _) H).
Qed.
Lemma search_err w i e : refuses w i e -> searchRepo (requestedOf w) (targetOf w) i = Err e.
Proof.
  unfold searchRepo. destruct w as [l | t | l |]; cbn [refuses requestedOf targetOf]; [intros [] | intros [] | |].
  - intros (o & b & n & s & E & H1 & H2 & H4). apply split_rev in E. rewrite E. destruct (rev n ++ b :: rev o) eqn:EX; [now destruct (rev n)|]. rewrite <- EX. rewrite lsn_skip by now apply forall_rev. cbn [searchTarget].
    rewrite H1, H2. reflexivity.
  - intros (o & b & E & H & ->). rewrite E, rev_app_distr. cbn [rev app]. now rewrite (proj2 (Z.ltb_lt _ _) H).
Qed.
Lemma search_total w i : lacks w i \/ (exists label, offers w i label) \/ exists e, refuses w i e.
Proof.
  destruct w as [l | t | l |]; cbn [lacks offers refuses].
  - destruct (in_dec str_dec l (map sbLabel (siBackups i))) as [H | H]; [right; left; eauto | auto].
  - destruct (time_cases t (rev (siBackups i))) as [H | (n & b & o & E & H1 & H2)]; [left; now apply forall_rev|]. right; left. exists (sbLabel b). apply rev_split in E.
    exists (rev o), b, (rev n). rewrite forall_rev. auto.
  - destruct (lsn_cases l (rev (siBackups i))) as [H | (n & b & o & E & H1 & H2)].
    + left. exists [], (siBackups i). rewrite forall_rev in H. auto.
    + apply rev_split in E. rewrite <- forall_rev in H1. destruct H2 as [H2 | [(s & e & H2 & H3) | (s & v & H2 & H3 & H4)]].
      * left. exists (rev o ++ [b]), (rev n). rewrite <- app_assoc. split; [exact E|]. split; [exact H1|]. right. eauto.
      * right; right. exists e, (rev o), b, (rev n), s. auto.
      * right; left. exists (sbLabel b), (rev o), b, (rev n), s, v. auto 10.
  - destruct (rev (siBackups i)) as [| b o] eqn:E.
    + left. rewrite <- (rev_involutive (siBackups i)), E. reflexivity.
    + assert (E2 : siBackups i = rev o ++ [b]) by (rewrite <- (rev_involutive (siBackups i)), E; reflexivity). right. destruct (Z_lt_le_dec (sbPgId b) (siCurrentPgId i)) as [H | H].
      * right. exists EBackupSetInvalid, (rev o), b. auto.
      * left. exists (sbLabel b), (rev o), b. auto.
Qed.

Lemma repos_skip w before r : Forall (passed w) before -> searchRepos (requestedOf w) (targetOf w) (before ++ r) = searchRepos (requestedOf w) (targetOf w) r.
Proof.
  induction 1 as [| [j x] n [H | (i & H & HL)] _ IH]; [reflexivity| |]; cbn [app searchRepos snd] in *; subst x; cbn [bind]; [exact IH|]. rewrite (search_none w i HL). exact IH.
Qed.
(** What becomes of the search *)
Inductive outcome (w : want) (l : list srepo) : res sresult -> Prop :=
| OFound before idx i after label : l = before ++ (idx, Ok (Some i)) :: after -> Forall (passed w) before -> offers w i label -> outcome w l (Ok (mkSresult idx (siCipher i) label))
| ONone : Forall (passed w) l -> outcome w l (Err EBackupSetInvalid)
| ORefuse before idx i after e : l = before ++ (idx, Ok (Some i)) :: after -> Forall (passed w) before -> refuses w i e -> outcome w l (Err e)
| OStorage before idx e after : l = before ++ (idx, Err e) :: after -> Forall (passed w) before -> outcome w l (Err e)
| OUB before idx after : l = before ++ (idx, UB) :: after -> Forall (passed w) before -> outcome w l UB.
Lemma outcome_det w l r : outcome w l r -> searchRepos (requestedOf w) (targetOf w) l = r.
Proof.
  intros [before idx i after label -> HF HO | HF | before idx i after e -> HF HO | before idx e after -> HF | before idx after -> HF].
  - rewrite repos_skip by exact HF. cbn [searchRepos bind]. now rewrite (search_some w i label HO).
  - rewrite <- (app_nil_r l), repos_skip by exact HF. reflexivity.
  - rewrite repos_skip by exact HF. cbn [searchRepos bind]. now rewrite (search_err w i e HO).
  - rewrite repos_skip by exact HF. reflexivity.
  - rewrite repos_skip by exact HF. reflexivity.
Qed.
Lemma outcome_ex w l : exists r, outcome w l r.
Proof.
  induction l as [| [j x] l IH]; [eexists; apply ONone; constructor|].
  assert (HP : passed w (j, x) -> exists r, outcome w ((j, x) :: l) r).
  { intros P. destruct IH as (r & [before idx i after label -> HF HO | HF | before idx i after e -> HF HO | before idx e after -> HF | before idx after -> HF]); eexists.
    - apply (OFound _ _ ((j, x) :: before) idx i after label); [reflexivity | now constructor | exact HO].
    - apply ONone. now constructor.
    - apply (ORefuse _ _ ((j, x) :: before) idx i after e); [reflexivity | now constructor | exact HO].
    - apply (OStorage _ _ ((j, x) :: before) idx e after); [reflexivity | now constructor].
    - apply (OUB _ _ ((j, x) :: before) idx after); [reflexivity | now constructor]. }
  destruct x as [[i |] | e |].
  - destruct (search_total w i) as [H | [(label & H) | (e & H)]].
    + apply HP. right. exists i. auto.
    + eexists. apply (OFound _ _ [] j i l label); [reflexivity | constructor | exact H].
    + eexists. apply (ORefuse _ _ [] j i l e); [reflexivity | constructor | exact H].
  - apply HP. now left.
  - eexists. apply (OStorage _ _ [] j e l); [reflexivity | constructor].
  - eexists. apply (OUB _ _ [] j l); [reflexivity | constructor].
Qed.
Lemma repos_outcome w l r : searchRepos (requestedOf w) (targetOf w) l = r <-> outcome w l r.
Proof. split; [| apply outcome_det]. intros <-. destruct (outcome_ex w l) as (r & H). now rewrite (outcome_det w l r H). Qed.

Lemma set_run mktime repo req type repos w l : asks mktime req type w -> looked repo repos l ->
  restoreBackupSet mktime repo req type repos = searchRepos (requestedOf w) (targetOf w) l.
Proof.
  intros HA HL. unfold restoreBackupSet. destruct repo; cbn [looked] in HL; subst l;
    (destruct HA as [s ty | s e E | s y m d h mi se E | s v E |]; cbn [restoreTarget]; rewrite ?E; reflexivity).
Qed.
