From Verif Require Import Base Str ConvertModel NumModel NumSpec NumProof EncodeModel EncodeProof ArchiveIdModel ArchiveIdSpec ArchiveIdProof JsonModel JsonSpec JsonProof JsonProof2 JsonProof3 JsonProof4 JsonProof8
  InfoModel InfoSpec InfoProof2 InfoProof3 ManifestPackModel ManifestPackSpec ManifestPackProof ManifestPackProof2 ManifestModel ManifestSpec ManifestProof ManifestProof2 ManifestProof3.
From Coq Require Import Permutation Sorting.Sorted.
Open Scope Z_scope.

(** * Feeding the lines *)
Lemma feed_app {D} (cb : D -> str -> str -> str -> res D) a : forall d b, feed cb d (a ++ b) = let* d := feed cb d a in feed cb d b.
Proof. induction a as [|[[s k] v] a IH]; intros d b; [reflexivity|]. cbn [app feed]. destruct (cb d s k v) as [d'|e|]; cbn [bind]; [apply IH|reflexivity|reflexivity]. Qed.
Definition tag (sec : str) (l : list (str * str)) : list (str * str * str) := map (fun q => (sec, fst q, snd q)) l.
Definition lineTexts (l : list (str * jvar)) : list (str * str) := map (fun p => (fst p, vtext (snd p))) l.
Lemma saveVars_ok l : Forall (fun p => scalarOk (snd p)) l -> saveVars l = Ok (lineTexts l).
Proof.
  unfold saveVars. induction 1 as [|[k v] l Hv Hl IH]; [reflexivity|]. cbn [mapR fst snd] in *. rewrite (fromVar_text v Hv). cbn [bind]. rewrite IH. reflexivity.
Qed.
Definition keyPlain (k : str) : bool := match k with [] => false | _ => negb (existsb (Z.eqb 10) k) && negb (existsb (Z.eqb 61) k) end.
Lemma lines_good l : Forall (fun p => scalarOk (snd p)) l -> forallb (fun p => keyPlain (fst p)) l = true -> Forall (fun q => goodKeyValue (fst q) (snd q)) (lineTexts l).
Proof.
  intros H. induction H as [|[k v] l Hv Hl IH]; intros E; [constructor|]. cbn [forallb fst] in E. apply andb_true_iff in E as [E1 E2]. constructor; [|auto]. cbn [fst snd].
  unfold keyPlain in E1. destruct k as [|c k]; [discriminate|]. apply andb_true_iff in E1 as [E1 E3]. rewrite negb_true_iff in E1, E3. apply existsb_in in E1, E3.
  apply good_key; [discriminate|exact E1|exact E3|]. now apply vtext_value.
Qed.
Lemma saveObjects_ok {A} (name : A -> str) (fields : A -> list (str * wval)) (P : A -> str -> Prop) l : Forall (fun a => exists s, jsonObject (fields a) = Ok s /\ P a s) l ->
  exists ts, saveObjects name fields l = Ok ts /\ Forall2 (fun a t => fst t = name a /\ jsonObject (fields a) = Ok (snd t) /\ P a (snd t)) l ts.
Proof.
  unfold saveObjects. induction 1 as [|a l (s & E & Hp) Hl (ts & Et & Hts)]; [exists []; split; [reflexivity|constructor]|].
  cbn [mapR]. rewrite E. cbn [bind]. rewrite Et. cbn [bind]. eexists. split; [reflexivity|]. constructor; [|exact Hts]. cbn. auto.
Qed.
Lemma objects_good {A} (name : A -> str) (fields : A -> list (str * wval)) (line : A -> str -> Prop) (Q : A -> str * str -> Prop) l ts : Forall2 Q l ts ->
  (forall a t, Q a t -> fst t = name a /\ jsonObject (fields a) = Ok (snd t) /\ valueText (snd t)) ->
  (forall a s, jsonObject (fields a) = Ok s -> line a s) -> Forall (fun a => nameOk (name a) (line a)) l ->
  Forall (fun q => goodKeyValue (fst q) (snd q)) ts.
Proof.
  intros H HQ Hl. induction H as [|a t l ts Hq H IH]; intros Hn; [constructor|]. destruct (HQ _ _ Hq) as (E & Eo & Hv). inversion Hn as [|? ? (N1 & N2 & N3) Hn']; subst.
  constructor; [|auto]. rewrite E. split; [exact N1|]. split; [exact N2|]. split; [exact Hv|]. destruct N3 as [N3|[N3 N4]]; [now left|]. right. split; [exact N3|]. apply N4, Hl, Eo.
Qed.

Definition initBackup : mbackup := mkMbackup None None 0 0 0 [] false false false None None None None.
Definition initPg : mpg := mkMpg 0 0 0 0.
Definition initOption : moption := mkMoption false false None None None CNone None None None false false None.

Ltac norm := cbv beta iota zeta delta [bind setReferences setMbLabel setMbPrior setMbCopyStart setMbStart setMbStop setMbType setMbBundle setMbBundleRaw setMbBlockIncr setMbArchiveStart setMbArchiveStop setMbLsnStart setMbLsnStop setMgId setMgVersion setMgSystemId setMgCatalog setMoArchiveCheck setMoArchiveCopy setMoStandby setMoBufferSize setMoChecksumPage setMoCompressType setMoCompressLevel setMoCompressLevelNetwork setMoDelta setMoHardLink setMoOnline setMoProcessMax setLdBackup setLdPg setLdOption setLdAnnotation setLdDbs setLdTargets setLdLinks setLdPaths setLdFiles setLdReferenceFound setLdLinkGroup setLdLinkUser setLdPathGroup setLdPathMode setLdPathUser mbLabel mbPrior mbCopyStart mbStart mbStop mbType mbBundle mbBundleRaw mbBlockIncr mbArchiveStart mbArchiveStop mbLsnStart mbLsnStop mgId mgVersion mgSystemId mgCatalog moArchiveCheck moArchiveCopy moStandby moBufferSize moChecksumPage moCompressType moCompressLevel moCompressLevelNetwork moDelta moHardLink moOnline moProcessMax ldBackup ldPg ldOption ldAnnotation ldDbs ldTargets ldLinks ldPaths ldFiles ldReferenceFound ldLinkGroup ldLinkUser ldPathGroup ldPathMode ldPathUser msCtx msBase msPacks mxReferences mxOwners mxUser mxGroup mxMode initBackup initPg initOption].
Section Feed.
Variable sc : bool.
Notation cb := (loadCallback sc).
Notation feedS sec ld l := (feed cb ld (tag sec (lineTexts l))).

Ltac oneLine := cbn [lineTexts tag map opt when fst snd feed].

(** ** backup *)
Lemma step_backup_str key (set : mbackup -> option str -> mbackup) ld o :
  (forall ld s, loadCallback sc ld sBackup key s = let* (v, _) := jsonReadStr (jsonReadNew s) in Ok (setLdBackup ld (set (ldBackup ld) v))) ->
  setLdBackup ld (set (ldBackup ld) None) = ld ->
  feedS sBackup ld (opt o (fun s => (key, JStr s))) = Ok (setLdBackup ld (set (ldBackup ld) o)).
Proof.
  intros Hc Hn. destruct o as [s|]; oneLine; [|now rewrite Hn]. rewrite Hc. destruct (reads_text jsonReadStr (JStr s) (Some s) (reads_str s) I) as [st E]. rewrite E. reflexivity.
Qed.
Lemma step_backup_bool key (set : mbackup -> bool -> mbackup) ld b :
  (forall ld s, loadCallback sc ld sBackup key s = let* (v, _) := jsonReadBool (jsonReadNew s) in Ok (setLdBackup ld (set (ldBackup ld) v))) ->
  setLdBackup ld (set (ldBackup ld) false) = ld ->
  feedS sBackup ld (when b [(key, JBool b)]) = Ok (setLdBackup ld (set (ldBackup ld) b)).
Proof.
  intros Hc Hn. destruct b; oneLine; [|now rewrite Hn]. rewrite Hc. destruct (reads_text jsonReadBool (JBool true) true (reads_bool true) I) as [st E]. rewrite E. reflexivity.
Qed.
Lemma step_backup_time key (set : mbackup -> Z -> mbackup) ld t : 0 <= t < 2 ^ 63 ->
  (forall ld s, loadCallback sc ld sBackup key s = let* (v, _) := jsonReadUInt64 (jsonReadNew s) in Ok (setLdBackup ld (set (ldBackup ld) (toTime v)))) ->
  feedS sBackup ld [(key, JInt t)] = Ok (setLdBackup ld (set (ldBackup ld) t)).
Proof.
  intros Ht Hc. oneLine. rewrite Hc. destruct (reads_text jsonReadUInt64 (JInt t) t (reads_uint64 t) Ht) as [st E]. rewrite E. cbn [bind].
  unfold toTime, two63. change (2 ^ 63) with 9223372036854775808 in Ht. replace (t <? 9223372036854775808) with true by lia. reflexivity.
Qed.

Lemma split_join l : l <> [] -> Forall (fun r => ~ In 44 r) l -> strSplit (strJoin l) = l.
Proof.
  intros Hne H. induction H as [|s l Hs Hl IH]; [congruence|]. destruct l as [|s2 l].
  - cbn [strJoin]. clear -Hs. induction s as [|c s IH]; [reflexivity|]. cbn [strSplit]. destruct (Z.eqb_spec c 44) as [E|E]; [destruct Hs; now left|]. rewrite IH; [reflexivity|]. intros Hi. apply Hs. now right.
  - specialize (IH ltac:(discriminate)). change (strJoin (s :: s2 :: l)) with (s ++ 44 :: strJoin (s2 :: l)). revert IH. generalize (strJoin (s2 :: l)). intros j IH. clear Hl Hne.
    induction s as [|c s IHs]; cbn [app strSplit]; [rewrite Z.eqb_refl, IH; reflexivity|]. destruct (Z.eqb_spec c 44) as [E|E]; [destruct Hs; now left|].
    rewrite IHs; [reflexivity|]. intros Hi. apply Hs. now right.
Qed.

Lemma tag_app sec a b : tag sec (a ++ b) = tag sec a ++ tag sec b. Proof. apply map_app. Qed.
Lemma lineTexts_app a b : lineTexts (a ++ b) = lineTexts a ++ lineTexts b. Proof. apply map_app. Qed.

Lemma then_ok sec ld a b ld1 r : feedS sec ld a = Ok ld1 -> feedS sec ld1 b = r -> feedS sec ld (a ++ b) = r.
Proof. intros E1 E2. rewrite lineTexts_app, tag_app, feed_app, E1. exact E2. Qed.
Lemma cons_ok sec ld p q b ld1 r : feedS sec ld [p] = Ok ld1 -> feedS sec ld1 (q :: b) = r -> feedS sec ld (p :: q :: b) = r.
Proof. apply (then_ok sec ld [p] (q :: b)). Qed.
Lemma step_line {A} sec key (rd : jread -> res (A * jread)) (v : jvar) (a : A) (f : mload -> A -> res mload) ld :
  (forall ld s, loadCallback sc ld sec key s = let* (v, _) := rd (jsonReadNew s) in f ld v) -> reads rd (canon v) a -> scalarOk v ->
  feedS sec ld [(key, v)] = f ld a.
Proof. intros Hc Hr Hs. oneLine. rewrite Hc. destruct (reads_text rd v a Hr Hs) as [st E]. rewrite E. cbn [bind]. destruct (f ld a); reflexivity. Qed.

Lemma feed_backup ld b refs : goodBackup b -> refs <> [] -> Forall (fun r => ~ In 44 r) refs -> ldBackup ld = initBackup ->
  feedS sBackup ld (saveBackup b refs) = Ok (setLdReferenceFound (setReferences (setLdBackup ld b) refs) true).
Proof.
  intros (T1 & T2 & T3) Hr Hc Hi. destruct ld as [lb a2 a3 a4 a5 a6 a7 a8 a9 a10 a11 a12 a13 a14 a15]. cbn in Hi. subst lb. unfold saveBackup. destruct b as [b1 b2 b3 b4 b5 b6 b7 b8 b9 b10 b11 b12 b13]. cbn [mbCopyStart mbStart mbStop] in *.
  unfold initBackup.
  eapply then_ok; [apply (step_backup_str kArchiveStart setMbArchiveStart); reflexivity|norm].
  eapply then_ok; [apply (step_backup_str kArchiveStop setMbArchiveStop); reflexivity|norm].
  eapply then_ok; [apply (step_backup_bool kBlockIncr setMbBlockIncr); reflexivity|norm].
  eapply then_ok; [apply (step_backup_bool kBundle setMbBundle); reflexivity|norm].
  eapply then_ok; [apply (step_backup_bool kBundleRaw setMbBundleRaw); reflexivity|norm].
  eapply (then_ok _ _ [_]); [eapply (step_line sBackup kLabel jsonReadStr _ b1 (fun ld v => Ok (setLdBackup ld (setMbLabel (ldBackup ld) v)))); [reflexivity|destruct b1; [apply reads_str|apply reads_null]|destruct b1; exact I]|norm].
  eapply then_ok; [apply (step_backup_str kLsnStart setMbLsnStart); reflexivity|norm].
  eapply then_ok; [apply (step_backup_str kLsnStop setMbLsnStop); reflexivity|norm].
  eapply then_ok; [apply (step_backup_str kPrior setMbPrior); reflexivity|norm].
  eapply cons_ok.
  { rewrite (step_line sBackup kReferenceList jsonReadStr _ (Some (strJoin refs)) (fun ld v => match v with Some t => Ok (setLdReferenceFound (setReferences ld (strSplit t)) true) | None => UB end)); [|reflexivity|apply reads_str|exact I].
    rewrite split_join by assumption. reflexivity. }
  norm.
  eapply cons_ok; [apply (step_backup_time kCopyStart setMbCopyStart); [exact T1|reflexivity]|norm].
  eapply cons_ok; [apply (step_backup_time kStart setMbStart); [exact T2|reflexivity]|norm].
  eapply cons_ok; [apply (step_backup_time kStop setMbStop); [exact T3|reflexivity]|norm].
  rewrite (step_line sBackup kBackupType readString _ b6 (fun ld v => Ok (setLdBackup ld (setMbType (ldBackup ld) v)))); [reflexivity|reflexivity|apply reads_string|exact I].
Qed.

(** ** backup:db and backup:option *)
Lemma feed_pg control ld g : goodPg control g -> ldPg ld = initPg -> feedS sBackupDb ld (savePg control g) = Ok (setLdPg ld g).
Proof.
  intros (H1 & H2 & H3 & H4 & H5) Hi. destruct ld as [lb a2 a3 a4 a5 a6 a7 a8 a9 a10 a11 a12 a13 a14 a15]. cbn in Hi. subst a2. unfold savePg, initPg. destruct g as [gi gv gs gc]. cbn [mgId mgVersion mgSystemId mgCatalog] in *.
  eapply cons_ok; [eapply (step_line sBackupDb kDbCatalog jsonReadUInt _ _ (fun ld v => Ok (setLdPg ld (setMgCatalog (ldPg ld) v)))); [reflexivity|apply reads_uint; cbn; lia|cbn [scalarOk]; lia]|norm].
  eapply cons_ok; [oneLine; reflexivity|].
  eapply cons_ok; [eapply (step_line sBackupDb kDbId jsonReadUInt _ _ (fun ld v => Ok (setLdPg ld (setMgId (ldPg ld) v)))); [reflexivity|apply reads_uint; cbn; lia|cbn [scalarOk]; lia]|norm].
  eapply cons_ok; [eapply (step_line sBackupDb kDbSystemId jsonReadUInt64 _ _ (fun ld v => Ok (setLdPg ld (setMgSystemId (ldPg ld) v)))); [reflexivity|apply reads_uint64|cbn [scalarOk]; lia]|norm].
  rewrite (step_line sBackupDb kDbVersion readString _ (pgVersionToStr gv) (fun ld v => let* n := pgVersionFromStr v in Ok (setLdPg ld (setMgVersion (ldPg ld) n)))); [|reflexivity|apply reads_string|exact I].
  rewrite version_roundtrip by exact H2. reflexivity.
Qed.

Lemma option_uint key set ld o : (forall ld s, loadCallback sc ld sBackupOption key s = let* (v, _) := jsonReadUInt (jsonReadNew s) in Ok (setLdOption ld (set (ldOption ld) (Some (JUInt v))))) ->
  uintVar o -> setLdOption ld (set (ldOption ld) None) = ld ->
  feedS sBackupOption ld (opt o (fun v => (key, v))) = Ok (setLdOption ld (set (ldOption ld) o)).
Proof.
  intros Hc Ho Hn. destruct o as [v|]; oneLine; [|now rewrite Hn]. destruct Ho as (z & -> & Hz). rewrite Hc.
  destruct (reads_text jsonReadUInt (JUInt z) z (reads_uint z (proj2 Hz)) ltac:(cbn [scalarOk]; lia)) as [st E]. rewrite E. reflexivity.
Qed.
Lemma option_bool key set ld o : (forall ld s, loadCallback sc ld sBackupOption key s = let* (v, _) := jsonReadBool (jsonReadNew s) in Ok (setLdOption ld (set (ldOption ld) (Some (JBool v))))) ->
  boolVar o -> setLdOption ld (set (ldOption ld) None) = ld ->
  feedS sBackupOption ld (opt o (fun v => (key, v))) = Ok (setLdOption ld (set (ldOption ld) o)).
Proof.
  intros Hc Ho Hn. destruct o as [v|]; oneLine; [|now rewrite Hn]. destruct Ho as (z & ->). rewrite Hc.
  destruct (reads_text jsonReadBool (JBool z) z (reads_bool z) I) as [st E]. rewrite E. reflexivity.
Qed.
Lemma option_var key set ld o : (forall ld s, loadCallback sc ld sBackupOption key s = let* (v, _) := jsonReadVar (jsonReadNew s) in Ok (setLdOption ld (set (ldOption ld) (match v with JNull => None | v => Some v end)))) ->
  boolVar o -> setLdOption ld (set (ldOption ld) None) = ld ->
  feedS sBackupOption ld (opt o (fun v => (key, v))) = Ok (setLdOption ld (set (ldOption ld) o)).
Proof.
  intros Hc Ho Hn. destruct o as [v|]; oneLine; [|now rewrite Hn]. destruct Ho as (z & ->). rewrite Hc.
  destruct (reads_text jsonReadVar (JBool z) (JBool z) (reads_var _) I) as [st E]. rewrite E. reflexivity.
Qed.
Lemma feed_option ld o : goodOption o -> ldOption ld = initOption -> feedS sBackupOption ld (saveOption o) = Ok (setLdOption ld o).
Proof.
  intros (H1 & H2 & H3 & H4 & H5 & H6 & H7) Hi. destruct ld as [lb a2 a3 a4 a5 a6 a7 a8 a9 a10 a11 a12 a13 a14 a15]. cbn in Hi. subst a3. unfold saveOption, initOption. destruct o as [o1 o2 o3 o4 o5 ct o7 o8 o9 o10 o11 o12].
  cbn [moStandby moBufferSize moChecksumPage moCompressLevel moCompressLevelNetwork moDelta moProcessMax] in *. cbn [app].
  eapply cons_ok; [eapply (step_line sBackupOption kOptArchiveCheck jsonReadBool _ _ (fun ld v => Ok (setLdOption ld (setMoArchiveCheck (ldOption ld) v)))); [reflexivity|apply reads_bool|exact I]|norm].
  eapply (then_ok _ _ [_]); [eapply (step_line sBackupOption kOptArchiveCopy jsonReadBool _ _ (fun ld v => Ok (setLdOption ld (setMoArchiveCopy (ldOption ld) v)))); [reflexivity|apply reads_bool|exact I]|norm].
  eapply then_ok; [apply (option_bool kOptStandby setMoStandby); [reflexivity|assumption|reflexivity]|norm].
  eapply then_ok; [apply (option_uint kOptBufferSize setMoBufferSize); [reflexivity|assumption|reflexivity]|norm].
  eapply then_ok; [apply (option_var kOptChecksumPage setMoChecksumPage); [reflexivity|assumption|reflexivity]|norm].
  eapply (then_ok _ _ [_]); [eapply (step_line sBackupOption kOptCompress jsonReadBool _ _ (fun ld v => Ok (setLdOption ld (setMoCompressType (ldOption ld) (if v : bool then CGz else CNone))))); [reflexivity|apply reads_bool|exact I]|norm].
  eapply then_ok; [apply (option_uint kOptCompressLevel setMoCompressLevel); [reflexivity|assumption|reflexivity]|norm].
  eapply then_ok; [apply (option_uint kOptCompressLevelNetwork setMoCompressLevelNetwork); [reflexivity|assumption|reflexivity]|norm].
  eapply (then_ok _ _ [_]).
  { rewrite (step_line sBackupOption kOptCompressType readString _ (compressTypeStr ct) (fun ld v => let* t := compressTypeEnum v in Ok (setLdOption ld (setMoCompressType (ldOption ld) t)))); [|reflexivity|apply reads_string|exact I].
    replace (compressTypeEnum (compressTypeStr ct)) with (@Ok ctype ct) by (now destruct ct). cbn [bind]. reflexivity. }
  norm.
  eapply then_ok; [apply (option_var kOptDelta setMoDelta); [reflexivity|assumption|reflexivity]|norm].
  eapply cons_ok; [eapply (step_line sBackupOption kOptHardlink jsonReadBool _ _ (fun ld v => Ok (setLdOption ld (setMoHardLink (ldOption ld) v)))); [reflexivity|apply reads_bool|exact I]|norm].
  eapply (then_ok _ _ [_]); [eapply (step_line sBackupOption kOptOnline jsonReadBool _ _ (fun ld v => Ok (setLdOption ld (setMoOnline (ldOption ld) v)))); [reflexivity|apply reads_bool|exact I]|norm].
  rewrite (option_uint kOptProcessMax setMoProcessMax); [reflexivity|reflexivity|assumption|reflexivity].
Qed.
End Feed.
