(** Property C53: resuming a backup. *)
From Coq Require Import Permutation.
From Verif Require Import Base Str IncrModel IncrSpec ResumeModel ResumeSpec IncrProof IncrProof2 IncrProof3 ResumeProof ResumeProof2.
Open Scope Z_scope.

(** C53: each file of the manifest is as before or it is resumed from a stored file of the
    resumed backup with the same name and size, and the same timestamp unless checksums are compared, and the repository file is left. *)
Theorem C53_files : forall paths rfiles ext delta tree files files' tree', NoDup (map bfName files) ->
  cleanNodes paths rfiles ext delta None tree files = (files', tree') ->
  Forall2 (fun f g => g = f \/
    exists q x, In q rfiles /\ mayResume delta f q /\ resumedAs delta f q g /\ inTree paths None tree x /\ anywhere None tree' x /\ storedName ext (bfName f) x) files files'.
Proof.
  intros paths rfiles ext delta tree files files' tree' Hnd H. destruct (clean_spec _ _ _ _ _ _ _ _ Hnd H) as [HF HL].
  clear - HF HL. induction HF as [|f g l l' Hc HF IH]; constructor; auto.
  destruct Hc as [(x & q & H1 & H2 & H3 & H4 & H5 & H6)|[-> _]]; [right|left; reflexivity].
  exists q, x. split; [exact H4|]. split; [exact H5|]. split; [exact H6|]. split; [exact H1|]. split; [apply HL; auto|apply resumeName_stored; exact H2].
Qed.
Print Assumptions C53_files.

(** Whatever is left in the repository was there, in a path of the manifest, and is stored for a file that may be resumed. *)
Theorem C53_left : forall paths rfiles ext delta tree files files' tree' x, NoDup (map bfName files) ->
  cleanNodes paths rfiles ext delta None tree files = (files', tree') -> anywhere None tree' x ->
  inTree paths None tree x /\ exists f q, In f files /\ In q rfiles /\ mayResume delta f q /\ storedName ext (bfName f) x.
Proof.
  intros paths rfiles ext delta tree files files' tree' x Hnd H Hx. destruct (clean_spec _ _ _ _ _ _ _ _ Hnd H) as [_ HL]. apply HL in Hx. destruct Hx as [H1 H2].
  split; [exact H1|]. destruct (keep_spec _ _ _ _ _ Hnd H2) as (f & q & Hf & Hq & Hm & Hn). exists f, q. split; [exact Hf|]. split; [exact Hq|]. split; [exact Hm|].
  apply resumeName_stored. exact Hn.
Qed.
Print Assumptions C53_left.

(** Nothing that may be resumed is lost: its repository file is left and the file is resumed.  Files whose own name has the extension of block
    incremental or, without compression, of a compressed file, are excepted. *)
Theorem C53_complete : forall paths rfiles ext delta tree files files' tree' f q x, NoDup (map bfName files) -> NoDup (map bfName rfiles) ->
  ext = [] \/ In ext extensions ->
  cleanNodes paths rfiles ext delta None tree files = (files', tree') ->
  In f files -> In q rfiles -> mayResume delta f q -> inTree paths None tree x ->
  x = bfName f ++ pgbi \/
  (x = bfName f ++ ext /\ (forall y, bfName f <> y ++ pgbi) /\ (ext = [] -> forall y e, In e extensions -> bfName f <> y ++ e)) ->
  anywhere None tree' x /\ exists g, In g files' /\ resumedAs delta f q g.
Proof.
  intros paths rfiles ext delta tree files files' tree' f q x Hnd Hnr Hext H Hf Hq Hm Hx Hn.
  assert (Hname : resumeName ext x = Some (bfName f)).
  { destruct Hn as [->|(-> & Hp & He)]; [apply resumeName_block|]. apply resumeName_plain; [exact Hext| |].
    - destruct (strEndsWith (bfName f) pgbi) eqn:E; [|reflexivity]. apply endsWith_strip in E. elim (Hp _ E).
    - intros E0 e He0. destruct (strEndsWith (bfName f) e) eqn:E; [|reflexivity]. apply endsWith_strip in E. elim (He E0 _ _ He0 E). }
  pose proof (keep_complete _ _ _ _ _ _ _ Hnd Hnr Hf Hq Hm Hname) as Hk.
  destruct (clean_spec _ _ _ _ _ _ _ _ Hnd H) as [HF HL]. split; [apply HL; auto|].
  pose proof (resumable_complete rfiles delta files f q Hf Hq Hnd Hnr Hm) as Hr.
  assert (HI : forall (P : bfile -> bfile -> Prop) l l', Forall2 P l l' -> In f l -> exists g, In g l' /\ P f g).
  { clear. intros P l l' HF. induction HF as [|a b l l' HP HF IH]; intros Hf; [easy|]. destruct Hf as [->|Hf]; [exists b; split; [left; reflexivity|exact HP]|].
    destruct (IH Hf) as (g & Hg & HPg). exists g. split; [right; exact Hg|exact HPg]. }
  destruct (HI _ _ _ HF Hf) as (g & Hg & Hc). exists g. split; [exact Hg|].
  destruct Hc as [(y & q' & H1 & H2 & H3 & H4 & H5 & H6)|[_ H1]]; [|rewrite (H1 x Hx Hname) in Hk; discriminate].
  assert (q' = q) as <-; [|exact H6].
  destruct H5 as [H5 _], Hm as [Hm _]. clear - Hnr H4 Hq H5 Hm. rewrite <- Hm in H5. induction rfiles as [|z l IH]; [easy|]. cbn in Hnr. inversion Hnr as [|? ? Hni Hnd']; subst.
  destruct H4 as [->|H4], Hq as [->|Hq]; auto; exfalso; apply Hni; [rewrite H5|rewrite <- H5]; apply in_map; assumption.
Qed.
Print Assumptions C53_complete.

(** The resumed files are what the proofs about backups ask for (IncrSpec.v history), and the repository file is where the job looks for it, if
    the backup stores block incremental as the interrupted backup did. *)
Theorem C53_resumed : forall sha1 cfg paths rfiles ext delta tree files files' tree', NoDup (map bfName files) -> Forall (builtFile sha1) files ->
  (forall q, In q rfiles -> bfChecksum q <> None -> bfSize q <> 0 -> negb (bfMapSize q =? 0) = (0 <? bfBlockSize q)) ->
  (bcBlock cfg = true \/ forall q, In q rfiles -> bfBlockSize q <= 0) ->
  (forall q x, In q rfiles -> bfChecksum q <> None -> inTree paths None tree x -> storedName ext (bfName q) x -> x = bfName q ++ if 0 <? bfBlockSize q then pgbi else ext) ->
  cleanNodes paths rfiles ext delta None tree files = (files', tree') ->
  Forall2 (fun f g => g = f \/ bfName g = bfName f /\ resumedFile cfg g) files files' /\
  (forall g, In g files' -> bfResume g = true -> anywhere None tree' (bfName g ++ if isBlock cfg g then pgbi else ext)).
Proof.
  intros sha1 cfg paths rfiles ext delta tree files files' tree' Hnd Hb Hmap Hblock Htree H.
  pose proof (C53_files _ _ _ _ _ _ _ _ Hnd H) as HF.
  assert (Hblk : forall q g, In q rfiles -> bfBlockSize g = bfBlockSize q -> isBlock cfg g = (0 <? bfBlockSize q)).
  { intros q g Hq E. unfold isBlock. rewrite E. destruct Hblock as [->|Hz]; [reflexivity|]. specialize (Hz q Hq). destruct (0 <? bfBlockSize q) eqn:E0; [lia|apply andb_false_r]. }
  clear Hnd H. induction HF as [|f g l l' Hc HF IH]; [split; [constructor|easy]|]. inversion Hb as [|? ? Hbf Hbl]; subst.
  destruct (IH Hbl) as [IH1 IH2]. destruct Hbf as (Hb1 & Hb2 & Hb3 & Hb4 & Hb5 & Hb6 & Hb7).
  assert (Hg : (g = f \/ bfName g = bfName f /\ resumedFile cfg g) /\ (bfResume g = true -> anywhere None tree' (bfName g ++ if isBlock cfg g then pgbi else ext))).
  { destruct Hc as [->|(q & x & Hq & Hm & Hr & Hx & Ha & Hs)]; [split; [left; reflexivity|congruence]|].
    destruct Hr as (R1 & R2 & R3 & R4 & R5 & R6 & R7 & R8 & R9 & R10 & R11 & R12 & R13 & R14 & R15 & R16). destruct Hm as (M1 & M2 & M3 & M4 & M5).
    rewrite (Hblk q g Hq R14). split.
    - right. split; [exact R1|]. unfold resumedFile. rewrite (Hblk q g Hq R14), R6, R7, R8, R2, R3, R16. repeat split; auto.
      + destruct (bfCopy f) eqn:Ec; [reflexivity|]. destruct (Hb7 eq_refl). contradiction.
      + apply Hmap; congruence.
    - intros _. rewrite R1, <- M1. rewrite <- (Htree q x Hq M4 Hx); [exact Ha|]. rewrite M1. exact Hs. }
  split; [constructor; tauto|]. intros g' [<-|Hg']; [apply Hg|apply IH2; exact Hg'].
Qed.
Print Assumptions C53_resumed.

(** A resumed file whose repository file is intact is kept: without delta, and with delta if the file has not changed. *)
Definition intact (sha1 : list Z -> list Z) (f : bfile) (b : list Z) : Prop :=
  zlen b = bfSizeRepo f /\ match bfRepoChecksum f with Some s => s = sha1 b | None => bfChecksum f = Some (sha1 b) end.
Theorem C53_intact_kept : forall sha1 cfg r path f env b, bfResume f = true -> bfReference f = None -> r path = Some b -> intact sha1 f b ->
  (bfDelta f = false \/ exists c, readDelta env f c /\ zlen c = bfSize f /\ bfChecksum f = Some (sha1 c)) ->
  exists res, backupFile sha1 cfg r path 0 [(f, env)] = Ok ([res], r) /\ brResult res = CopyChecksum /\ brName res = bfName f.
Proof.
  intros sha1 cfg r path f env b Hr Href Hp [Hl Hs] Hd.
  assert (E : sumEqb match bfRepoChecksum f with Some s => Some s | None => bfChecksum f end (sha1 b) = true).
  { destruct (bfRepoChecksum f) as [s|]; [subst s|rewrite Hs]; cbn; apply strEqb_refl. }
  unfold backupFile, checkFiles, checkFile. destruct (bfDelta f) eqn:Ed.
  - destruct Hd as [Hd|(c & (c0 & Hc0 & Hc) & Hc1 & Hc2)]; [discriminate|]. unfold pgRead. rewrite Hc0. cbn. rewrite <- Hc, <- Hc1, Z.eqb_refl.
    assert (E2 : sumEqb (bfChecksum f) (sha1 c) = true) by (rewrite Hc2; apply strEqb_refl). rewrite E2, Hr, Href. cbn. rewrite Hp, <- Hl, Z.eqb_refl, E. cbn. eexists. split; [reflexivity|]. split; reflexivity.
  - rewrite Hr. cbn. rewrite Hp, <- Hl, Z.eqb_refl, E. cbn. eexists. split; [reflexivity|]. split; reflexivity.
Qed.
Print Assumptions C53_intact_kept.
(** It is kept only then: otherwise it is copied again or has been removed. *)
Theorem C53_kept_only_intact : forall sha1 cfg r path id f env res r', backupFile sha1 cfg r path id [(f, env)] = Ok ([res], r') ->
  brResult res = CopyChecksum -> bfResume f = true /\ r' = r /\ exists b, r path = Some b /\ intact sha1 f b.
Proof.
  intros sha1 cfg r path id f env res r' H Hres. unfold backupFile in H. cbn [checkFiles] in H.
  destruct (checkFile sha1 r path f env) as [[b0 r0]| |] eqn:E; cbn in H; try discriminate.
  assert (Hb0 : brResult b0 = CopyChecksum /\ r' = r0).
  { unfold copyFile in H. destruct (brResult b0) eqn:Eb; cbn in H; try (injection H as <- <-; split; congruence).
    destruct (pgRead _ _ _ _) as [[c|]| |]; cbn in H; try discriminate; [|injection H as <- <-; discriminate].
    destruct (_ && _ && _) in H; [injection H as <- <-; discriminate|]. destruct (_ && _ && _ && _) in H; injection H as <- <-; discriminate. }
  destruct Hb0 as [Hb0 ->]. unfold checkFile in E.
  destruct (if bfDelta f then _ else _) as [[result mt]| |] eqn:Ed; cbn in E; try discriminate.
  assert (Hrc : brResult result <> CopyChecksum).
  { destruct (bfDelta f); [|injection Ed as <- <-; discriminate]. destruct (pgRead _ _ _ _) as [[c|]| |]; cbn in Ed; try discriminate; [|injection Ed as <- <-; discriminate].
    destruct (_ && _) in Ed; [|injection Ed as <- <-; discriminate]. destruct (bfReference f); injection Ed as <- <-; discriminate. }
  destruct (bfResume f); [|injection E as <- <-; contradiction].
  assert (HE : brResult result = CopySkip \/ brResult result <> CopySkip) by (destruct (brResult result); (left; reflexivity) || (right; discriminate)).
  destruct HE as [Er|Er]; [rewrite Er in E; injection E as <- <-; congruence|].
  assert (E' : (if negb (bfDelta f) || mt then
      match r path with
      | None => Err EFileMissing
      | Some b =>
          if (bfSizeRepo f =? zlen b) && sumEqb (match bfRepoChecksum f with Some s => Some s | None => bfChecksum f end) (sha1 b) then
            Ok (mkBres (bfName f) CopyChecksum false (bfSize f) (bfChecksum f) None 0 0 0, r)
          else Ok (mkBres (brName result) (brResult result) true (brCopySize result) (brChecksum result) (brRepoChecksum result) 0 0 0, r)
      end
    else Ok (result, r)) = Ok (b0, r0)).
  { destruct (brResult result); try congruence; exact E. }
  clear E. destruct (negb (bfDelta f) || mt); [|injection E' as <- <-; congruence]. destruct (r path) as [b|]; [|discriminate].
  destruct (_ && _) eqn:Ei in E'; injection E' as <- <-; cbn in Hb0; [|congruence].
  apply andb_true_iff in Ei. destruct Ei as [Ei1 Ei2]. apply Z.eqb_eq in Ei1. split; [reflexivity|]. split; [reflexivity|]. exists b. split; [reflexivity|]. split; [congruence|].
  destruct (bfRepoChecksum f); [|destruct (bfChecksum f); [|discriminate]]; cbn in Ei2; apply strEqb_eq in Ei2; congruence.
Qed.
Print Assumptions C53_kept_only_intact.

(** A backup is resumed only if it was not completed and is a full backup of the same version with the same compression. *)
Theorem C53_usable : forall hasManifest hasCopy optResume optFull new copy,
  resumeUsable hasManifest hasCopy optResume optFull new copy = true <->
  hasManifest = false /\ hasCopy = true /\ optResume = true /\ optFull = true /\
  exists c, copy = Some c /\ riVersion c = riVersion new /\ riFull c = true /\ riPrior c = riPrior new /\ riExt c = riExt new.
Proof.
  intros hm hc orr of new copy. unfold resumeUsable. rewrite !andb_true_iff, negb_true_iff. split.
  - intros ((((H1 & H2) & H3) & H4 & _) & H6). repeat (split; [assumption|]). destruct copy as [c|]; [|discriminate]. exists c.
    rewrite !andb_true_iff in H6. destruct H6 as (((A & B) & C) & D). apply strEqb_eq in A, D. apply Bool.eqb_prop in B.
    split; [reflexivity|]. split; [exact A|]. split; [congruence|]. split; [|exact D].
    destruct (riPrior c), (riPrior new); cbn in C; try discriminate; [apply strEqb_eq in C; congruence|reflexivity].
  - intros (-> & -> & -> & -> & c & -> & A & B & C & D). rewrite A, B, C, D, !strEqb_refl. repeat split.
    destruct (riPrior new); cbn; [rewrite strEqb_refl; reflexivity|reflexivity].
Qed.
Print Assumptions C53_usable.

(** ** Findings *)
(** Whatever the repository has for the files: a resumed file that is not found where the job looks makes the backup fail. *)
Theorem C53_missing_fails : forall sha1 cfg m id f env rest jobs r st, bfResume f = true -> bfDelta f = false ->
  r (jobPath cfg m id ((f, env) :: rest)) = None ->
  processJobs sha1 cfg m ((id, (f, env) :: rest) :: jobs) r st = Err EFileMissing.
Proof. intros sha1 cfg m id f env rest jobs r st H1 H2 H3. cbn [processJobs]. rewrite (missing_fails _ _ _ _ _ _ _ _ H1 H2 H3). reflexivity. Qed.
Print Assumptions C53_missing_fails.

Definition rexSha (c : list Z) : list Z := c.
Definition rexF : bfile := mkBfile [97;47;102] true false false 2 2 10 None 2 None None 0 0 0 0 0.
Definition rexQ : bfile := mkBfile [97;47;102] true false false 2 2 10 (Some [1;2]) 2 None None 0 0 0 0 0.
Definition rexG : bfile := mkBfile [97;47;102] true false true 2 2 10 (Some [1;2]) 2 None None 0 0 0 0 0.
Definition rexH : bfile := mkBfile [97;47;104] true false false 3 3 10 None 3 None None 0 0 0 0 0.
Definition rexTree : list node := [NFile manifestCopy; NPath [97] [NFile [102]; NFile [104]; NLink [108]]; NPath [98] [NFile [102]]].
Definition rexM (files : list bfile) : manifest := mkManifest [76] None [] true false true 0 None [] files.
Definition rexRepo : repo := fun p => if rpath_eq p (RFile [76] [97;47;102]) then Some [1;2] else None.
Definition rexEnv : readEnv := mkReadEnv (Some [1;2]) (Some [1;2]) true false false.
Definition rexCfg (block : bool) : bcfg := mkBcfg (fun _ _ _ c => c) (fun _ _ _ _ => 7) false block.

Example C53_nontrivial :
  cleanNodes [[97]] [rexQ] [] false None rexTree [rexF; rexH] = ([rexG; rexH], [NFile manifestCopy; NPath [97] [NFile [102]]]) /\
  processJobs rexSha (rexCfg false) (rexM [rexG]) [(0, [(rexG, rexEnv)])] rexRepo ([rexG], []) = Ok ([rexG], [], rexRepo) /\
  resumeUsable false true true true (mkResumeInfo [50] true None []) (Some (mkResumeInfo [50] true None [])) = true.
Proof. split; [|split]; vm_compute; reflexivity. Qed.

Example C53_complete_nontrivial : mayResume false rexF rexQ /\ inTree [[97]] None rexTree (bfName rexF ++ []) /\ builtFile rexSha rexF /\
  (forall y, bfName rexF <> y ++ pgbi) /\ (forall y e, In e extensions -> bfName rexF <> y ++ e).
Proof.
  split; [repeat split; try discriminate; right; reflexivity|]. split.
  - apply (it_path _ _ _ [97] [NFile [102]; NFile [104]; NLink [108]]); [right; left; reflexivity|discriminate|left; reflexivity|].
    exact (it_file [[97]] (Some [97]) [NFile [102]; NFile [104]; NLink [108]] [102] (or_introl eq_refl) ltac:(discriminate)).
  - split; [repeat split; discriminate|]. split.
    + intros y H. apply (f_equal (@rev Z)) in H. rewrite rev_app_distr in H. discriminate.
    + intros y e He H. apply (f_equal (@rev Z)) in H. rewrite rev_app_distr in H. cbn in He. repeat (destruct He as [<-|He]; [discriminate|]). exact He.
Qed.

(** C53 fails if bundling is enabled for the retry of a backup: a file that is resumed and is small enough for a bundle is looked for in the bundle,
    which does not exist, and the backup fails although the repository file is intact. *)
Theorem C53_bundle_refuted : exists paths rfiles tree f g r env id,
  cleanNodes paths rfiles [] false None tree [f] = ([g], tree) /\ mayResume false f rexQ /\ In rexQ rfiles /\
  bfResume g = true /\ r (RFile [76] (bfName g)) = Some [1;2] /\ intact rexSha g [1;2] /\ id <> 0 /\
  backupProcess rexSha (rexCfg false) (rexM [g]) [(0, [(g, env)])] r = Ok ([g], r) /\
  backupProcess rexSha (rexCfg false) (rexM [g]) [(id, [(g, env)])] r = Err EFileMissing.
Proof.
  exists [[97]], [rexQ], [NFile manifestCopy; NPath [97] [NFile [102]]], rexF, rexG, rexRepo, rexEnv, 1.
  repeat split; try (vm_compute; reflexivity); try discriminate; try (left; reflexivity). right. reflexivity.
Qed.
Print Assumptions C53_bundle_refuted.

(** C53 fails if block incremental is disabled for the retry of a backup: the file with the extension .pgbi is left and the file is resumed, but it is
    looked for without the extension. *)
Theorem C53_block_refuted : exists paths q tree f g r env,
  cleanNodes paths [q] [] false None tree [f] = ([g], tree) /\ mayResume false f q /\
  bfResume g = true /\ r (RFile [76] (bfName g ++ pgbi)) = Some [9;9;9] /\ intact rexSha g [9;9;9] /\
  backupProcess rexSha (rexCfg true) (rexM [g]) [(0, [(g, env)])] r = Ok ([g], r) /\
  backupProcess rexSha (rexCfg false) (rexM [g]) [(0, [(g, env)])] r = Err EFileMissing.
Proof.
  exists [[97]], (mkBfile [97;47;102] true false false 2 2 10 (Some [1;2]) 3 (Some [9;9;9]) None 0 0 8 6 7), [NFile manifestCopy; NPath [97] [NFile ([102] ++ pgbi)]], rexF,
    (mkBfile [97;47;102] true false true 2 2 10 (Some [1;2]) 3 (Some [9;9;9]) None 0 0 8 6 7), (fun p => if rpath_eq p (RFile [76] ([97;47;102] ++ pgbi)) then Some [9;9;9] else None), rexEnv.
  repeat split; try (vm_compute; reflexivity); try discriminate. right. reflexivity.
Qed.
Print Assumptions C53_block_refuted.
