(** Proofs about resuming a backup: names and jobs. *)
From Verif Require Import Base Str IncrModel IncrSpec ResumeModel ResumeSpec IncrProof IncrProof3 ResumeProof.
Open Scope Z_scope.

(** ** names *)
Lemma endsWith_false_other : forall s e e', rev e <> [] -> rev e' <> [] -> hd 0 (rev e) <> hd 0 (rev e') -> strEndsWith (s ++ e) e' = false.
Proof.
  intros s e e' H1 H2 H3. destruct (strEndsWith (s ++ e) e') eqn:E; [|reflexivity]. exfalso. apply endsWith_strip in E.
  apply (f_equal (@rev Z)) in E. rewrite !rev_app_distr in E. destruct (rev e) as [|a l]; [easy|]. destruct (rev e') as [|b l']; [easy|].
  cbn in E, H3. congruence.
Qed.
Lemma endsWith_ext_other : forall s e e', In e (pgbi :: compressExts) -> In e' compressExts -> strEndsWith (s ++ e) e' = true -> e = e'.
Proof.
  intros s e e' H1 H2 E. apply endsWith_strip in E. apply (f_equal (@rev Z)) in E. rewrite !rev_app_distr in E.
  cbn in H1, H2. repeat (destruct H1 as [H1|H1]; [subst e|]); try contradiction; repeat (destruct H2 as [H2|H2]; [subst e'|]); try contradiction; cbn in E; try reflexivity; discriminate.
Qed.
Lemma extOf_ext : forall s e, In e compressExts -> compressExtOf (s ++ e) = e.
Proof.
  intros s e He. destruct (extOf_spec (s ++ e)) as [[_ H]|[H1 H2]].
  - pose proof (H e He) as H0. rewrite endsWith_app in H0. discriminate.
  - symmetry. apply (endsWith_ext_other s); [right; exact He|exact H1|exact H2].
Qed.
Lemma extOf_pgbi : forall s, compressExtOf (s ++ pgbi) = [].
Proof.
  intros s. destruct (extOf_spec (s ++ pgbi)) as [[H _]|[H1 H2]]; [exact H|]. exfalso.
  pose proof (endsWith_ext_other s pgbi _ (or_introl eq_refl) H1 H2) as E. rewrite <- E in H1. cbn in H1. intuition discriminate.
Qed.

(** The repository file of a file is found by its name unless the name has the extension of block incremental or, without compression, of a compressed file. *)
Lemma resumeName_block : forall ext name, resumeName ext (name ++ pgbi) = Some name.
Proof.
  intros ext name. unfold resumeName. rewrite extOf_pgbi. cbn [strEqb]. rewrite strEqb_refl, endsWith_app, stripEnd_app, andb_false_r. reflexivity.
Qed.
Lemma resumeName_plain : forall ext name, ext = [] \/ In ext compressExts -> strEndsWith name pgbi = false ->
  (ext = [] -> forall e, In e compressExts -> strEndsWith name e = false) -> resumeName ext (name ++ ext) = Some name.
Proof.
  intros ext name Hext Hp He. unfold resumeName.
  assert (E : compressExtOf (name ++ ext) = ext).
  { destruct Hext as [->|Hext]; [|apply extOf_ext; exact Hext]. rewrite app_nil_r. destruct (extOf_spec name) as [[H _]|[H1 H2]]; [exact H|].
    rewrite (He eq_refl _ H1) in H2. discriminate. }
  rewrite E. destruct (strEqb ext []) eqn:Ee.
  - apply strEqb_eq in Ee. subst ext. rewrite app_nil_r, Hp, strEqb_refl. reflexivity.
  - rewrite stripEnd_app, Hp, strEqb_refl. reflexivity.
Qed.

(** ** jobs *)
Section Jobs.
  Variable sha1 : list Z -> list Z.
  Variable cfg : bcfg.

  Lemma missing_fails : forall r path id f env rest, bfResume f = true -> bfDelta f = false -> r path = None ->
    backupFile sha1 cfg r path id ((f, env) :: rest) = Err EFileMissing.
  Proof. intros r path id f env rest Hr Hd Hp. unfold backupFile. cbn. unfold checkFile. rewrite Hd, Hr. cbn. rewrite Hp. reflexivity. Qed.
End Jobs.

(** ** what is kept *)
Lemma keep_spec : forall rfiles ext delta files x, NoDup (map bfName files) -> keep rfiles ext delta files x = true ->
  exists f q, In f files /\ In q rfiles /\ mayResume delta f q /\ resumeName ext x = Some (bfName f).
Proof.
  intros rfiles ext delta files x Hnd H. unfold keep in H. destruct (resumeName ext x) as [n|]; [|discriminate].
  destruct (resumable rfiles delta files n) as [q|] eqn:Eq; [|discriminate]. destruct (resumable_spec _ _ _ _ _ Eq Hnd) as [Hq Hm].
  unfold resumable in Eq. destruct (fileFind n files) as [f|] eqn:Ef; [|discriminate]. apply fileFind_some in Ef. destruct Ef as [Hf Hn].
  exists f, q. split; [exact Hf|]. split; [exact Hq|]. split; [exact (Hm f Hf Hn)|]. rewrite Hn. reflexivity.
Qed.
Lemma keep_complete : forall rfiles ext delta files x f q, NoDup (map bfName files) -> NoDup (map bfName rfiles) -> In f files -> In q rfiles ->
  mayResume delta f q -> resumeName ext x = Some (bfName f) -> keep rfiles ext delta files x = true.
Proof.
  intros rfiles ext delta files x f q H1 H2 H3 H4 H5 H6. unfold keep. rewrite H6, (resumable_complete _ _ _ f q); auto.
Qed.
