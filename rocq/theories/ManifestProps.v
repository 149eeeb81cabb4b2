(** C55: a manifest that is saved is loaded again as it was. *)
From Verif Require Import Base Str NumSpec ArchiveIdModel ArchiveIdSpec JsonModel JsonSpec InfoSpec ManifestPackModel ManifestPackSpec ManifestModel ManifestSpec ManifestProof6 ManifestProof7.
From Coq Require Import Permutation Sorting.Sorted.
Open Scope Z_scope.

(** ** C55 *)
(** Every manifest within the ranges of its types is saved, and unless a line is longer than the buffer, the text loads as the same manifest: the
    same passphrase, backup data, options, annotations and list of references, and the same databases, targets, links, paths and files by name. *)
Theorem C55_save_load : forall sha version control bufSize sc base m fs, goodManifest control m fs -> timeOk base ->
  exists text, manifestSave sha version control m = Ok text /\
    (linesShorter bufSize text ->
     exists m' fs', manifestNewLoad sha bufSize sc base text = Ok m' /\ fileView (mnFiles m') fs' /\ sameManifest m fs m' fs').
Proof. exact save_load. Qed.
Print Assumptions C55_save_load.
(** Nothing is changed in a file that has nothing left to be done, and has only what belongs to it. *)
Theorem C55_file_kept : forall f, mfCopy f = false -> mfDelta f = false -> mfResume f = false ->
  (mfChecksumPage f = false -> mfChecksumPageError f = false /\ mfErrorList f = None) -> (mfSize f = 0 -> mfSha1 f = Some emptySha1) ->
  (mfBundleId f = 0 -> mfBundleOffset f = 0) -> (mfBlockSize f = 0 -> mfBlockChecksumSize f = 0 /\ mfBlockMapSize f = 0) -> savedFile f = f.
Proof.
  intros [n c d r p e mo s1 s2 l u g rf bi bo bs bc bm sz so sr t]. unfold savedFile.
  cbn [mfName mfCopy mfDelta mfResume mfChecksumPage mfChecksumPageError mfMode mfSha1 mfRepoSha1 mfErrorList mfUser mfGroup mfReference mfBundleId mfBundleOffset mfBlockSize mfBlockChecksumSize mfBlockMapSize mfSize mfSizeOriginal mfSizeRepo mfTimestamp].
  intros -> -> -> Hp Hs Hb Hk. destruct p; [|destruct (Hp eq_refl) as [-> ->]]; cbn [andb];
    (destruct (Z.eqb_spec sz 0) as [Ez|_]; [rewrite (Hs Ez)|]); (destruct (Z.eqb_spec bi 0) as [Eb|_]; [rewrite (Hb Eb)|]); (destruct (Z.eqb_spec bs 0) as [Ek|_]; [destruct (Hk Ek) as [-> ->]|]); reflexivity.
Qed.
Print Assumptions C55_file_kept.

(** A manifest loaded from a file without a list of references, as older versions wrote it, has its own label among them. *)
Theorem C55_own_label : forall sha bufSize sc base text m, manifestNewLoad sha bufSize sc base text = Ok m ->
  exists l, fileEntries text l /\ ((exists v, In (sBackup, kReferenceList, v) l) \/
    exists label, mbLabel (mnBackup m) = Some label /\ In label (mxReferences (msCtx (mnFiles m)))).
Proof. exact own_label. Qed.
Print Assumptions C55_own_label.

Definition exName (c : Z) : str := [112;103;95;100;97;116;97;47;c].
Definition exMFile (c ts : Z) (user : option str) : mfile :=
  mkMfile (exName c) false false false true true 384 (Some (repeat 7 20)) None (Some [91;49;93]) user (Some [113]) (Some [76]) 3 16 16384 6 77 40000 40001 333 ts.
Definition exPacks (l : list mfile) : mfiles :=
  match packRun (mkMfiles (mkMctx [[75]; [76]] [] (Some [112]) None 416) 1 []) (map OpAdd l) with Ok s => s | _ => mkMfiles (mkMctx [] [] None None 0) 0 [] end.
Definition exManifest (l : list mfile) : manifest :=
  mkManifest (Some [120]) (mkMbackup (Some [76]) (Some [75]) 10 9 20 [105;110;99;114] true false true (Some [49]) None None (Some [50]))
    (mkMpg 1 150000 18072658121562454734 202209061)
    (mkMoption true false (Some (JBool true)) (Some (JUInt 1024)) None CGz (Some (JUInt 6)) None (Some (JBool false)) false true (Some (JUInt 4)))
    (Some (JObj [([107;50], JStr [34]); ([107;49], JStr [61])]))
    [mkMdb [112] 5 12000]
    [mkMtarget pgData true [47;112] None 0 None; mkMtarget [112;103;95;116;98;108;115;112;99;47;57] false [47;116] None 9 (Some [116])]
    [mkMlink (exName 122) [47;116] (Some [112]) None]
    [mkMpath pgData 448 (Some [112]) (Some [113]); mkMpath (exName 97) 488 None (Some [113])]
    (exPacks l).
Definition exControl (v : Z) : Z := v / 100.
(** The time of a file is written without a sign and read with one: after a file that was last changed before 1970, what was saved is not loaded. *)
Theorem C55_time_before_1970_refuted : let m := exManifest [exMFile 120 (-1) (Some [112])] in
  exists text, fileView (mnFiles m) [exMFile 120 (-1) (Some [112])] /\ manifestSave (fun _ => [49]) [50] exControl m = Ok text /\
    linesShorter 4000 text /\ manifestNewLoad (fun _ => [49]) 4000 false 5 text = Err EJsonFormat.
Proof.
  cbv zeta. eexists. split; [|split; [vm_compute; reflexivity|split; [|vm_compute; reflexivity]]].
  - split; [vm_compute; reflexivity|]. intros [|[|i]] f [= <-]. vm_compute. reflexivity.
  - intros a b c E _. apply (f_equal (@length Z)) in E. rewrite !app_length in E. cbn [length] in E.  lia.
Qed.
Print Assumptions C55_time_before_1970_refuted.
(** A user named "@" is taken for the default user. *)
Theorem C55_user_at_refuted : let m := exManifest [exMFile 120 5 (Some [64])] in
  exists text m' f, fileView (mnFiles m) [exMFile 120 5 (Some [64])] /\ manifestSave (fun _ => [49]) [50] exControl m = Ok text /\
    manifestNewLoad (fun _ => [49]) 4000 false 5 text = Ok m' /\ manifestFile (mnFiles m') 0 = Ok f /\ mfUser f = Some [112].
Proof.
  cbv zeta. eexists _, _, _. split; [|split; [vm_compute; reflexivity|split; [vm_compute; reflexivity|split; [vm_compute; reflexivity|reflexivity]]]].
  split; [vm_compute; reflexivity|]. intros [|[|i]] f [= <-]. vm_compute. reflexivity.
Qed.
Print Assumptions C55_user_at_refuted.

Example C55_nontrivial : let fs := [exMFile 121 100 (Some [112]); exMFile 120 90 None] in let m := exManifest fs in
  goodManifest exControl m fs /\
  exists text m', manifestSave (fun _ => [49]) [50] exControl m = Ok text /\ manifestNewLoad (fun _ => [49]) 4000 false 5 text = Ok m' /\
    fileView (mnFiles m') [exMFile 120 90 None; exMFile 121 100 (Some [112])] /\ mnLinks m' = mnLinks m.
Proof.
  cbv zeta. split.
  - assert (N : forall n line, n <> [] -> ~ In 10 n -> ~ In 61 n -> nameOk n line) by (intros; split; [assumption|split; [assumption|now left]]).
    assert (F : forall c ts u, 97 <= c -> 0 <= ts < 1000 -> u <> Some [64] -> goodFile [[75];[76]] (exMFile c ts u)).
    { intros c ts u Hc Hts Hu. unfold goodFile. split; [apply N; [discriminate|cbn; lia|cbn; lia]|]. unfold lenOk, u64. split; [cbn; lia|].
      split; [split; [unfold lenOk; cbn; lia|split; [cbn; lia|]]|].
      { exists (JArr [JUInt 1]). split; [|vm_compute; reflexivity].
        apply (g_arr false [JUInt 1] [49]). apply (e_one false (JUInt 1) [49] [] []); [|constructor..]. apply (g_uint false [49] 1); [apply (ds_one 10 49 1); [apply (dec 1); lia|lia]|cbn; lia|lia]. }
      split; [split; [reflexivity|]; cbn [repeat]; repeat constructor; lia|]. split; [exact I|]. cbn. repeat split; try lia; try discriminate; try assumption.
      - intros r [= <-]. auto.
      - exists 2. reflexivity. }
    unfold goodManifest. cbv zeta. change (mxReferences (msCtx (mnFiles (exManifest _)))) with [[75];[76]].
    split; [split; [vm_compute; reflexivity|]; intros [|[|[|i]]] f [= <-]; vm_compute; reflexivity|].
    split; [discriminate|]. split; [constructor; [cbn; lia|constructor; [cbn; lia|constructor]]|]. split; [cbn; lia|].
    split; [unfold goodBackup; cbn; lia|].
    split; [unfold goodPg; cbn; repeat split; try lia; exists [49;53]; apply (vt_new 15); [lia|lia|]; apply (ds_snoc 10 [49] 1 53 5); [apply (ds_one 10 49 1); [apply (dec 1); lia|lia]|apply (dec 5); lia|lia]|].
    split; [unfold goodOption; cbn; repeat split; eexists; first [reflexivity|split; [reflexivity|lia]]|].
    split.
    { eexists. split; [reflexivity|]. split; [repeat constructor; cbn; intuition discriminate|].
      constructor; [|constructor; [|constructor]]; cbn [fst snd]; (split; [eexists _, _; split; [reflexivity|lia]|]); unfold jkeyText; cbn; (repeat split; try lia); eexists; reflexivity. }
    split; [constructor; [|constructor]; split; [apply N; [discriminate|cbn; lia|cbn; lia]|cbn; lia]|].
    split; [constructor; [|constructor; [|constructor]]; (split; [apply N; [discriminate|cbn; lia|cbn; lia]|cbn; split; [lia|]]); intros; congruence|].
    split; [constructor; [|constructor]; apply N; [discriminate|cbn; lia|cbn; lia]|].
    split; [constructor; [|constructor; [|constructor]]; (split; [apply N; [discriminate|cbn; lia|cbn; lia]|cbn; lia])|].
    split; [constructor; [|constructor; [|constructor]]; apply F; try lia; discriminate|].
    split; [repeat constructor; cbn; intuition discriminate|]. split; [repeat constructor; cbn; intuition discriminate|]. split; [repeat constructor; cbn; intuition discriminate|].
    split; [repeat constructor; cbn; intuition discriminate|]. split; [repeat constructor; cbn; intuition discriminate|]. split; left; reflexivity.
  - eexists _, _. split; [vm_compute; reflexivity|]. split; [vm_compute; reflexivity|]. split; [|vm_compute; reflexivity].
    split; [vm_compute; reflexivity|]. intros [|[|[|i]]] f [= <-]; vm_compute; reflexivity.
Qed.
