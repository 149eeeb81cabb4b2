From Verif Require Import Base Str ConvertModel NumModel NumSpec NumProof EncodeModel EncodeProof JsonModel JsonSpec JsonProof JsonProof2 JsonProof3 JsonProof4 JsonProof8
  InfoModel InfoSpec InfoProof2 ManifestPackModel ManifestPackSpec ManifestPackProof ManifestPackProof2 ManifestModel ManifestSpec ManifestProof.
From Coq Require Import Permutation Sorting.Sorted.
Open Scope Z_scope.

(** * Objects with a fixed list of keys *)
Definition field : Type := wval * (jvar * str).
Definition fieldList : Type := list (str * option field).
Definition pw (e : fieldList) : list (str * option wval) := map (fun p => (fst p, option_map fst (snd p))) e.
Definition pm (e : fieldList) : list (str * option (jvar * str)) := map (fun p => (fst p, option_map snd (snd p))) e.
Definition pv (e : fieldList) : list (str * option jvar) := map (fun p => (fst p, option_map (fun x => fst (snd x)) (snd p))) e.
Definition fieldOk (p : str * option field) : Prop := match snd p with Some x => fieldIs (fst x) (fst (snd x)) (snd (snd x)) | None => True end.
Definition fv (v : jvar) : field := (WVar v, (canon v, vtext v)).
Definition whenO {A} (b : bool) (a : A) : option A := if b then Some a else None.

Lemma fieldsAre_of e : Forall fieldOk e -> fieldsAre (present (pw e)) (present (pm e)).
Proof.
  induction 1 as [|[k o] e H He IH]; [constructor|]. cbn [pw pm map fst snd]. rewrite !present_cons. destruct o as [[w [v s]]|]; cbn [option_map opt app fst snd]; [|exact IH].
  constructor; [|exact IH]. split; [reflexivity|exact H].
Qed.
Lemma values_of e : values (present (pm e)) = present (pv e).
Proof.
  induction e as [|[k o] e IH]; [reflexivity|]. cbn [pm pv map fst snd]. rewrite !present_cons. unfold values in *. rewrite map_app. f_equal; [|exact IH].
  destruct o as [[w [v s]]|]; reflexivity.
Qed.
Lemma pw_keys e : map fst (pw e) = map fst e. Proof. unfold pw. rewrite map_map. reflexivity. Qed.
Lemma pv_keys e : map fst (pv e) = map fst e. Proof. unfold pv. rewrite map_map. reflexivity. Qed.

Fixpoint sortedb (l : list str) : bool := match l with [] => true | k :: r => forallb (strLtb k) r && sortedb r end.
Definition keyb (k : str) : bool :=
  negb (existsb (Z.eqb 34) k) && negb (existsb (Z.eqb 92) k) && negb (existsb (Z.eqb 10) k) && (length k <? 67)%nat &&
  match k with c :: _ => (97 <=? c) && (c <=? 122) | [] => false end.
Lemma existsb_in c l : existsb (Z.eqb c) l = false -> ~ In c l.
Proof. intros E Hi. assert (existsb (Z.eqb c) l = true) by (apply existsb_exists; exists c; split; [exact Hi|apply Z.eqb_refl]). congruence. Qed.
Lemma keyb_ok k : keyb k = true -> keyOk k /\ lowerKey k.
Proof.
  unfold keyb. rewrite !andb_true_iff, !negb_true_iff. intros ((((H1 & H2) & H3) & H4) & H5). apply existsb_in in H1, H2, H3. apply Nat.ltb_lt in H4.
  split; [split; [split; assumption|split; assumption]|]. destruct k as [|c k]; [discriminate|]. exists c, k. split; [reflexivity|lia].
Qed.
Lemma sortedb_ok l : sortedb l = true -> StronglySorted slt l.
Proof.
  induction l as [|k l IH]; [constructor|]. cbn. rewrite andb_true_iff. intros [H1 H2]. constructor; [auto|]. rewrite forallb_forall in H1. apply Forall_forall. intros x Hx.
  specialize (H1 x Hx). unfold strLtb in H1. unfold slt. destruct (strCmp k x); congruence.
Qed.
Definition keyLtb (key : str) (l : list str) : bool := forallb (fun k => match strncmpKey key k with Lt => true | _ => false end) l.
Lemma keyLtb_ok key l : keyLtb key l = true -> Forall (keyLt key) l.
Proof. unfold keyLtb. rewrite forallb_forall. intros H. apply Forall_forall. intros k Hk. specialize (H k Hk). unfold keyLt. destruct (strncmpKey key k); congruence. Qed.

Lemma object_of e l : l = present (pw e) -> Forall fieldOk e -> forallb keyb (map fst e) && sortedb (map fst e) = true ->
  exists s, jsonObject l = Ok s /\ valueText s /\ exists st, jsonReadObjectBegin (jsonReadNew s) = Ok st /\ objPos (present (pv e)) st [].
Proof.
  intros -> Hf Hk. apply andb_true_iff in Hk as [Hk Hs]. apply sortedb_ok in Hs. rewrite forallb_forall in Hk. rewrite <- values_of.
  apply object_ok; [now apply fieldsAre_of| |apply present_sorted; rewrite pw_keys; exact Hs].
  apply Forall_forall. intros [k w] Hi. cbn [fst]. apply keyb_ok, Hk. rewrite <- pw_keys. apply present_keys. now apply (in_map fst) in Hi.
Qed.
Lemma fv_ok v : scalarOk v -> fieldIs (WVar v) (canon v) (vtext v). Proof. constructor. assumption. Qed.

(** * One file *)
Definition fileE (sv : msave) (ev : jvar) (f : mfile) : fieldList :=
  let b := negb (mfBlockSize f =? 0) in
  let n := negb (mfBundleId f =? 0) in
  [(kBi, whenO b (fv (JUInt (mfBlockSize f / BLOCK_INCR_SIZE_FACTOR)))); (kBic, whenO (b && negb (mfBlockChecksumSize f =? BLOCK_INCR_CHECKSUM_SIZE_MIN)) (fv (JUInt (mfBlockChecksumSize f))));
   (kBim, whenO (b && negb (mfBlockMapSize f =? 0)) (fv (JUInt (mfBlockMapSize f))))] ++
  [(kBni, whenO n (fv (JUInt (mfBundleId f)))); (kBno, whenO (n && negb (mfBundleOffset f =? 0)) (fv (JUInt (mfBundleOffset f))))] ++
  [(kSum, if mfSize f =? 0 then None else option_map (fun s => fv (JStr (encodeHex s))) (mfSha1 f))] ++
  [(kSumPage, whenO (mfChecksumPage f) (fv (JBool (negb (mfChecksumPageError f))))); (kSumPageError, if mfChecksumPage f then option_map (fun s => (WJson s, (ev, s))) (mfErrorList f) else None)] ++
  [(kGroup, whenO (negb (ownerVarEq (manifestOwnerVar (mfGroup f)) (svGroup sv))) (fv (manifestOwnerVar (mfGroup f))))] ++
  [(kMode, whenO (negb (mfMode f =? svFileMode sv)) (fv (JStr (cvtModeToZ (mfMode f)))))] ++
  [(kRck, option_map (fun s => fv (JStr (encodeHex s))) (mfRepoSha1 f))] ++
  [(kReference, option_map (fun s => fv (JStr s)) (mfReference f))] ++
  [(kRepoSize, whenO (negb (mfSizeRepo f =? mfSize f)) (fv (JUInt (mfSizeRepo f))))] ++
  [(kSize, Some (fv (JUInt (mfSize f))))] ++
  [(kSzo, whenO (negb (mfSizeOriginal f =? mfSize f)) (fv (JUInt (mfSizeOriginal f))))] ++
  [(kTimestamp, Some (fv (JUInt (mfTimestamp f mod two64))))] ++
  [(kUser, whenO (negb (ownerVarEq (manifestOwnerVar (mfUser f)) (svUser sv))) (fv (manifestOwnerVar (mfUser f))))].
Lemma pw_app a b : pw (a ++ b) = pw a ++ pw b. Proof. apply map_app. Qed.
Lemma fileE_fields sv ev f : fileFields sv f = present (pw (fileE sv ev f)).
Proof.
  unfold fileE. cbv zeta. rewrite !pw_app, !present_app. unfold fileFields.
  repeat match goal with |- ?a ++ ?b = ?c ++ ?d => apply (f_equal2 (@app _)) end.
  all: repeat match goal with |- context [negb (?a =? ?b)] => destruct (a =? b) end; try reflexivity.
  - destruct (mfSize f =? 0), (mfSha1 f); reflexivity.
  - destruct (mfChecksumPage f), (mfErrorList f); reflexivity.
  - destruct (ownerVarEq (manifestOwnerVar (mfGroup f)) (svGroup sv)); reflexivity.
  - destruct (mfRepoSha1 f); reflexivity.
  - destruct (mfReference f); reflexivity.
  - destruct (ownerVarEq (manifestOwnerVar (mfUser f)) (svUser sv)); reflexivity.
Qed.
Definition evOf (f : mfile) (ev : jvar) : Prop := forall s, mfErrorList f = Some s -> jgram false ev s /\ jsonFromVar ev = Ok s /\ ~ In 10 s.
Lemma ev_exists f : errorsOk (mfErrorList f) -> exists ev, evOf f ev.
Proof. unfold evOf. destruct (mfErrorList f) as [s|]; cbn; [|exists JNull; discriminate]. intros (_ & H2 & v & H3 & H4). exists v. intros s' [= <-]. auto. Qed.
Lemma whenO_ok k b v : (b = true -> scalarOk v) -> fieldOk (k, whenO b (fv v)).
Proof. intros H. destruct b; cbn; [apply fi_var; auto|exact I]. Qed.
Lemma optO_ok {A} k (o : option A) g : (forall a, scalarOk (g a)) -> fieldOk (k, option_map (fun a => fv (g a)) o).
Proof. intros H. destruct o; cbn; [apply fi_var; auto|exact I]. Qed.
Lemma owner_scalar o : scalarOk (manifestOwnerVar o). Proof. destruct o; exact I. Qed.
Lemma owner_canon o : canon (manifestOwnerVar o) = manifestOwnerVar o. Proof. destruct o; reflexivity. Qed.
Lemma fileE_ok sv ev f refs : goodFile refs f -> evOf f ev -> Forall fieldOk (fileE sv ev f).
Proof.
  intros (_ & _ & _ & H4 & H5 & H6 & _ & _ & _ & G1 & G2 & G3 & G4 & G5 & G6 & G7 & G8 & G9 & G10) Hev. unfold u64 in *.
  assert (Hq : 0 <= mfBlockSize f / BLOCK_INCR_SIZE_FACTOR < 2 ^ 64).
  { unfold BLOCK_INCR_SIZE_FACTOR. split; [apply Z.div_pos; lia|]. apply Z.div_lt_upper_bound; lia. }
  unfold fileE. cbv zeta. cbn [app].
  repeat (apply Forall_cons || apply Forall_nil); try (apply whenO_ok; intros _; first [exact I|apply owner_scalar|cbn [scalarOk]; lia]); try (apply optO_ok; intros; exact I).
  - destruct (mfSize f =? 0); [exact I|]. apply optO_ok. intros; exact I.
  - destruct (mfChecksumPage f); [|exact I]. destruct (mfErrorList f) as [s|] eqn:E; [|exact I]. cbn. destruct (Hev s E) as (K1 & _ & K2). now apply fi_json.
  - apply fi_var. exact G7.
  - apply fi_var. cbn [scalarOk]. unfold two64. apply Z.mod_pos_bound. lia.
Qed.

(** The file as it is put into the list while the defaults are not known yet. *)
Definition sentinelMode : Z := two32 - 1.
Definition loadedFile (sv : msave) (f : mfile) : mfile :=
  mkMfile (mfName f) false false false (mfChecksumPage f) (mfChecksumPage f && mfChecksumPageError f) (if mfMode f =? svFileMode sv then sentinelMode else mfMode f)
    (if mfSize f =? 0 then Some sha1Zero else mfSha1 f) (mfRepoSha1 f) (if mfChecksumPage f then mfErrorList f else None)
    (if ownerVarEq (manifestOwnerVar (mfUser f)) (svUser sv) then Some sentinel else mfUser f)
    (if ownerVarEq (manifestOwnerVar (mfGroup f)) (svGroup sv) then Some sentinel else mfGroup f) (mfReference f)
    (mfBundleId f) (if mfBundleId f =? 0 then 0 else mfBundleOffset f) (mfBlockSize f)
    (if mfBlockSize f =? 0 then 0 else mfBlockChecksumSize f) (if mfBlockSize f =? 0 then 0 else mfBlockMapSize f)
    (mfSize f) (mfSizeOriginal f) (mfSizeRepo f) (mfTimestamp f).

Ltac nextKey rd a :=
  match goal with Ho : objPos (present ((?k, ?o) :: ?e)) ?st ?rest |- _ =>
    let st1 := fresh "st" in let E := fresh "E" in let H := fresh "Ho" in
    destruct (expectKey_ok rd k o a e st rest Ho ltac:(apply keyLtb_ok; reflexivity)) as (st1 & E & H); [|clear Ho; rename H into Ho; rewrite E; clear E; cbn [bind]]
  end.
Lemma eqb_orElse {A} (b : bool) (v d : A) : (b = true -> v = d) -> orElse (whenO (negb b) v) d = v.
Proof. destruct b; cbn; [intros H; symmetry; auto|reflexivity]. Qed.
Lemma whenO_reads {A} (rd : jread -> res (A * jread)) b v (a : A) : (b = true -> reads rd (canon v) a) ->
  match option_map (fun x : field => fst (snd x)) (whenO b (fv v)), whenO b a with Some v, Some x => reads rd v x | None, None => True | _, _ => False end.
Proof. destruct b; cbn; auto. Qed.
Lemma optO_reads {A B} (rd : jread -> res (A * jread)) (o : option B) (g : B -> jvar) (h : B -> A) : (forall b, o = Some b -> reads rd (canon (g b)) (h b)) ->
  match option_map (fun x : field => fst (snd x)) (option_map (fun b => fv (g b)) o), option_map h o with Some v, Some x => reads rd v x | None, None => True | _, _ => False end.
Proof. destruct o; cbn; auto. Qed.
Lemma optO_reads_id {A} (rd : jread -> res (A * jread)) (o : option A) (g : A -> jvar) : (forall b, o = Some b -> reads rd (canon (g b)) b) ->
  match option_map (fun x : field => fst (snd x)) (option_map (fun b => fv (g b)) o), o with Some v, Some x => reads rd v x | None, None => True | _, _ => False end.
Proof. destruct o; cbn; auto. Qed.
Lemma option_map_id {A} (o : option A) : option_map (fun a => a) o = o. Proof. now destruct o. Qed.
Lemma ownerVarEq_eq o v : ownerVarEq (manifestOwnerVar o) (manifestOwnerVar v) = true -> o = v.
Proof. destruct o as [a|], v as [b|]; cbn; try discriminate; auto. intros E. apply strEqb_eq in E. now subst. Qed.

Definition midLoad (ld : mload) : Prop :=
  mxUser (msCtx (ldFiles ld)) = Some sentinel /\ mxGroup (msCtx (ldFiles ld)) = Some sentinel /\ mxMode (msCtx (ldFiles ld)) = sentinelMode /\ ldReferenceFound ld = true.

Lemma load_file sc sv f refs : goodFile refs f ->
  exists s, jsonObject (fileFields sv f) = Ok s /\ valueText s /\
    forall ld, midLoad ld -> loadFile sc ld (mfName f) s = (let* files := manifestFileAdd (ldFiles ld) (loadedFile sv f) in Ok (setLdFiles ld files)).
Proof.
  intros Hg. pose proof Hg as (_ & _ & He & H4 & H5 & H6 & _ & _ & _ & G1 & G2 & G3 & G4 & G5 & G6 & G7 & G8 & G9 & G10). unfold u64 in *.
  destruct (ev_exists f He) as [ev Hev].
  destruct (object_of (fileE sv ev f) _ (fileE_fields sv ev f) (fileE_ok sv ev f refs Hg Hev) eq_refl) as (s & Es & Hv & st & Eb & Ho).
  exists s. split; [exact Es|]. split; [exact Hv|]. intros ld (M1 & M2 & M3 & M4). unfold loadFile. rewrite Eb. cbn [bind]. cbv zeta.
  unfold fileE in Ho. cbv zeta in Ho. cbn [app pv map fst snd] in Ho.
  (* block incremental *)
  nextKey jsonReadUInt64 (whenO (negb (mfBlockSize f =? 0)) (mfBlockSize f / BLOCK_INCR_SIZE_FACTOR)). { apply whenO_reads. intros _. apply reads_uint64. }
  match type of Ho with objPos (present (_ :: _ :: ?e)) ?st0 _ =>
    assert (K : exists st', (if isSome (whenO (negb (mfBlockSize f =? 0)) (mfBlockSize f / BLOCK_INCR_SIZE_FACTOR)) then
        let* (bic, st) := expectKey st0 kBic jsonReadUInt64 in
        let* (bim, st) := expectKey st kBim jsonReadUInt64 in
        Ok (orElse bic BLOCK_INCR_CHECKSUM_SIZE_MIN, orElse bim 0, st)
      else Ok (0, 0, st0)) = Ok (if mfBlockSize f =? 0 then 0 else mfBlockChecksumSize f, if mfBlockSize f =? 0 then 0 else mfBlockMapSize f, st')
      /\ objPos (present e) st' []) end.
  { destruct (mfBlockSize f =? 0); cbn [negb andb whenO option_map isSome] in *; [eexists; split; [reflexivity|exact Ho]|].
    nextKey jsonReadUInt64 (whenO (negb (mfBlockChecksumSize f =? BLOCK_INCR_CHECKSUM_SIZE_MIN)) (mfBlockChecksumSize f)). { apply whenO_reads. intros _. apply reads_uint64. }
    nextKey jsonReadUInt64 (whenO (negb (mfBlockMapSize f =? 0)) (mfBlockMapSize f)). { apply whenO_reads. intros _. apply reads_uint64. }
    eexists. split; [|exact Ho]. rewrite !eqb_orElse; [reflexivity|lia|lia]. }
  destruct K as (st1 & E1 & Ho1). rewrite E1. clear E1 Ho. cbn [bind]. rename Ho1 into Ho.
  (* bundle *)
  nextKey jsonReadUInt64 (whenO (negb (mfBundleId f =? 0)) (mfBundleId f)). { apply whenO_reads. intros _. apply reads_uint64. }
  match type of Ho with objPos (present (_ :: ?e)) ?st2 _ =>
    assert (K : exists st' bno, (if isSome (whenO (negb (mfBundleId f =? 0)) (mfBundleId f)) then expectKey st2 kBno jsonReadUInt64 else Ok (None, st2)) = Ok (bno, st')
      /\ orElse bno 0 = (if mfBundleId f =? 0 then 0 else mfBundleOffset f) /\ objPos (present e) st' []) end.
  { destruct (mfBundleId f =? 0); cbn [negb andb whenO option_map isSome] in *; [eexists _, None; split; [reflexivity|]; split; [reflexivity|exact Ho]|].
    match type of Ho with objPos (present (_ :: ?e)) _ _ => destruct (expectKey_ok jsonReadUInt64 kBno _ (whenO (negb (mfBundleOffset f =? 0)) (mfBundleOffset f)) e _ _ Ho ltac:(apply keyLtb_ok; reflexivity)) as (st3 & E3 & Ho3) end.
    { apply whenO_reads. intros _. apply reads_uint64. }
    eexists _, _. split; [exact E3|]. split; [|exact Ho3]. apply eqb_orElse. lia. }
  destruct K as (st3 & bno & E1 & Eb3 & Ho1). rewrite E1. clear E1 Ho. cbn [bind]. rename Ho1 into Ho.
  (* checksum *)
  nextKey (readSha1 sc) (if mfSize f =? 0 then None else mfSha1 f).
  { destruct (mfSize f =? 0); [exact I|]. apply optO_reads_id. intros b E. rewrite E in H4. destruct H4. now apply reads_sha1. }
  nextKey jsonReadBool (whenO (mfChecksumPage f) (negb (mfChecksumPageError f))). { apply whenO_reads. intros _. apply reads_bool. }
  match type of Ho with objPos (present (_ :: ?e)) ?st _ =>
    assert (K : exists st', (if isSome (whenO (mfChecksumPage f) (negb (mfChecksumPageError f))) then expectKey st kSumPageError readJson else Ok (None, st)) = Ok (if mfChecksumPage f then mfErrorList f else None, st')
      /\ objPos (present e) st' []) end.
  { destruct (mfChecksumPage f); cbn [negb andb whenO option_map isSome] in *; [|eexists; split; [reflexivity|exact Ho]].
    match type of Ho with objPos (present (_ :: ?e)) _ _ => destruct (expectKey_ok readJson kSumPageError _ (mfErrorList f) e _ _ Ho ltac:(apply keyLtb_ok; reflexivity)) as (st9 & E9 & Ho9) end.
    { destruct (mfErrorList f) as [t|] eqn:Et; [|exact I]. cbn. apply reads_json. now destruct (Hev t Et) as (_ & ? & _). }
    eexists. split; [exact E9|exact Ho9]. }
  destruct K as (st6 & E1 & Ho1). rewrite E1. clear E1 Ho. cbn [bind]. rename Ho1 into Ho.
  nextKey readOwner (whenO (negb (ownerVarEq (manifestOwnerVar (mfGroup f)) (svGroup sv))) (mfGroup f)). { apply whenO_reads. intros _. rewrite owner_canon. apply reads_owner. }
  nextKey readMode (whenO (negb (mfMode f =? svFileMode sv)) (mfMode f)). { apply whenO_reads. intros _. apply reads_mode. lia. }
  nextKey (readSha1 sc) (mfRepoSha1 f).
  { apply optO_reads_id. intros b E. rewrite E in H5. destruct H5. now apply reads_sha1. }
  nextKey readString (mfReference f). { apply optO_reads_id. intros b _. apply reads_string. }
  nextKey jsonReadUInt64 (whenO (negb (mfSizeRepo f =? mfSize f)) (mfSizeRepo f)). { apply whenO_reads. intros _. apply reads_uint64. }
  nextKey jsonReadUInt64 (Some (mfSize f)). { apply reads_uint64. }
  nextKey jsonReadUInt64 (whenO (negb (mfSizeOriginal f =? mfSize f)) (mfSizeOriginal f)). { apply whenO_reads. intros _. apply reads_uint64. }
  assert (Et : mfTimestamp f mod two64 = mfTimestamp f) by (unfold two64; apply Z.mod_small; lia). rewrite Et in Ho.
  nextKey jsonReadInt64 (Some (mfTimestamp f)). { apply reads_int64. lia. }
  nextKey readOwner (whenO (negb (ownerVarEq (manifestOwnerVar (mfUser f)) (svUser sv))) (mfUser f)). { apply whenO_reads. intros _. rewrite owner_canon. apply reads_owner. }
  rewrite M4. replace (match mfReference f with Some _ => _ | None => _ end) with (msCtx (ldFiles ld)) by (now destruct (mfReference f)).
  replace (mkMfiles (msCtx (ldFiles ld)) (msBase (ldFiles ld)) (msPacks (ldFiles ld))) with (ldFiles ld) by (now destruct (ldFiles ld)).
  rewrite M1, M2, M3. unfold loadedFile. rewrite Eb3. rewrite (eqb_orElse (mfBundleId f =? 0)), (eqb_orElse (mfSizeOriginal f =? mfSize f)), (eqb_orElse (mfSizeRepo f =? mfSize f)) by lia.
  assert (Q : orElse (whenO (negb (mfBlockSize f =? 0)) (mfBlockSize f / BLOCK_INCR_SIZE_FACTOR)) 0 * BLOCK_INCR_SIZE_FACTOR mod two64 = mfBlockSize f).
  { unfold BLOCK_INCR_SIZE_FACTOR, two64. destruct G4 as [q Q]. rewrite Q in *. rewrite Z.div_mul by lia. rewrite eqb_orElse by lia. apply Z.mod_small. lia. }
  rewrite Q. clear Q. set (add := manifestFileAdd). destruct (mfChecksumPage f); cbn [isSome whenO negb andb orElse]; [rewrite negb_involutive|];
    destruct (mfMode f =? svFileMode sv), (ownerVarEq (manifestOwnerVar (mfUser f)) (svUser sv)), (ownerVarEq (manifestOwnerVar (mfGroup f)) (svGroup sv)), (mfSize f =? 0); reflexivity.
Qed.
