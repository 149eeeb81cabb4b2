(** Properties of the check for WAL at the end of a backup (C75). *)
From Coq Require Import Permutation Sorting String.
From Verif Require Import Base Str ConvertModel EncodeModel EncodeSpec LsnModel LsnSpec LsnProof RegNameModel SpoolModel PushModel PushSpec WaitModel BuildModel FindModel FindSpec FindProof FindProof2.
Open Scope Z_scope.
Open Scope list_scope.

Section Check.
Variable dir : nat -> str -> list str.
Variable now : nat -> Z.
Variable present : ctype -> bool.
Variables (fuel range : nat) (b : bdata) (s1 s2 : str) (start stop : Z) (n : nat).
Hypothesis On : bdCheck b = true.
Hypothesis Tl : goodTimeline (bdTimeline b).
Hypothesis Sz : goodSize (bdSize b).
Hypothesis L1 : lsnFromStr s1 = Ok start.
Hypothesis L2 : lsnFromStr s2 = Ok stop.
Hypothesis Rg : 0 <= start <= stop /\ stop < 2 ^ 64 /\ (Z.to_nat (stop / bdSize b - start / bdSize b) <= range)%nat.
Hypothesis To : 10 <= bdTimeout b < 2 ^ 63.

Lemma C75_lemma r n' : archiveCheckCopy dir now fuel range present b s1 s2 n = (r, n') -> exists segs, (forall w, In w segs <-> exists x, start <= x <= stop /\ segmentIs (bdTimeline b) (bdSize b) x w) /\ Forall seg24 segs /\
  let single := (List.length segs =? 1)%nat in
  match r with
  | Ok (fs, cs) => map fst fs = segs /\ (forall seg file, In (seg, file) fs -> located dir single n' seg file) /\ (if bdCopy b then Forall2 (fun sf c => copied b (fst sf) (snd sf) c) fs cs else cs = [])
  | Err e => exists seg, In seg segs /\
      ((e = EArchiveDuplicate /\ exists j, (j < n')%nat /\ twoFiles (dir j (firstn 16 seg)) seg) \/
       (e = EArchiveTimeout /\ exists i j, n' = (j + 2)%nat /\ (n <= i < j)%nat /\ noFile (dir j (firstn 16 seg)) seg /\ bdTimeout b <= (now (S j) - now i) mod 2 ^ 64) \/
       (bdCopy b = true /\ exists file, located dir single n' seg file /\
          ((e = EFormat /\ exists sum, segmentFile seg sum file /\ ~ wfHex sum) \/ (e = EOptionInvalidValue /\ exists c, c <> CNone /\ present c = false /\ (c = ctypeFromName file \/ c = bdCompress b)))))
  | UB => (forall i, now i < now (S i)) -> (forall i j, now i - now j < 2 ^ 64) -> Z.of_nat fuel < bdTimeout b + 3
  end.
Proof.
  intros E. unfold archiveCheckCopy in E. rewrite On, L1, L2 in E. destruct Rg as (R1 & R2 & R3).
  destruct (range_exact (bdTimeline b) (bdSize b) start stop range Tl Sz R1 R2 R3) as (segs & Es & So & Hs). rewrite Es in E. exists segs. split; [exact Hs|].
  assert (F24 : Forall seg24 segs) by (rewrite Forall_forall; intros w Hw; apply Hs in Hw; destruct Hw as (x & _ & Hx); eapply segment_24; eauto). split; [exact F24|].
  exact (proj2 (check_all dir now present fuel b segs (finderNew (List.length segs =? 1)%nat (bdTimeout b)) [] n r n' F24 So I (or_introl eq_refl) To E)).
Qed.

(** C75.  If the check passes, every byte of WAL from the start to the stop of the backup is in a segment that was seen in the archive. *)
Theorem C75_covered : forall fs cs n', archiveCheckCopy dir now fuel range present b s1 s2 n = (Ok (fs, cs), n') -> forall x, start <= x <= stop ->
  exists seg file j, segmentIs (bdTimeline b) (bdSize b) x seg /\ In (seg, file) fs /\ (j < n')%nat /\ fileOf seg file /\ In file (dir j (firstn 16 seg)).
Proof.
  intros fs cs n' E x Hx. destruct (C75_lemma _ _ E) as (segs & Hs & F24 & M & Lo & _).
  assert (Q := segment_exact (bdTimeline b) (bdSize b) x Tl Sz ltac:(unfold two64; change (2 ^ 64) with 18446744073709551616 in *; lia)). assert (I1 : In (lsnToWalSegment (bdTimeline b) x (bdSize b)) segs) by (apply Hs; eauto).
  rewrite <- M in I1. apply in_map_iff in I1. destruct I1 as ((seg & file) & Eq & I1). cbn [fst] in Eq. subst seg. destruct (Lo _ _ I1) as (j & J1 & J2 & J3 & _).
  eexists _, file, j. split; [exact Q|]. auto.
Qed.
(** C75.  Nothing else is looked for, and each segment once. *)
Theorem C75_exact : forall fs cs n', archiveCheckCopy dir now fuel range present b s1 s2 n = (Ok (fs, cs), n') ->
  forall seg file, In (seg, file) fs -> exists x, start <= x <= stop /\ segmentIs (bdTimeline b) (bdSize b) x seg.
Proof. intros fs cs n' E seg file I1. destruct (C75_lemma _ _ E) as (segs & Hs & F24 & M & _). apply Hs. rewrite <- M. apply in_map_iff. exists (seg, file). auto. Qed.
(** C75, partial: the file found is the only one of the segment in the directory, if only one segment is looked for or the directory has no other files with such a name. *)
Theorem C75_only_partial : forall fs cs n', archiveCheckCopy dir now fuel range present b s1 s2 n = (Ok (fs, cs), n') -> forall seg file, In (seg, file) fs ->
  exists j, (j < n')%nat /\ In file (dir j (firstn 16 seg)) /\ (List.length fs = 1%nat \/ clean (dir j (firstn 16 seg)) seg -> oneFile (dir j (firstn 16 seg)) seg file).
Proof.
  intros fs cs n' E seg file I1. destruct (C75_lemma _ _ E) as (segs & Hs & F24 & M & Lo & _). destruct (Lo _ _ I1) as (j & J1 & J2 & J3 & J4). exists j. split; [exact J1|]. split; [exact J3|].
  intros H. apply J4. destruct H as [H|H]; [left|now right]. apply Nat.eqb_eq. rewrite <- M, map_length. exact H.
Qed.
(** C75.  A duplicate is reported only if there is one. *)
Theorem C75_duplicate : forall n', archiveCheckCopy dir now fuel range present b s1 s2 n = (Err EArchiveDuplicate, n') ->
  exists seg x j, start <= x <= stop /\ segmentIs (bdTimeline b) (bdSize b) x seg /\ (j < n')%nat /\ twoFiles (dir j (firstn 16 seg)) seg.
Proof.
  intros n' E. destruct (C75_lemma _ _ E) as (segs & Hs & F24 & seg & I1 & H). apply Hs in I1. destruct I1 as (x & Hx & Sx).
  destruct H as [(_ & j & J1 & J2)|[(H & _)|(_ & file & _ & [(H & _)|(H & _)])]]; try discriminate. exists seg, x, j. auto.
Qed.
(** C75.  It times out only if a segment was not there at the last look, just before the clock said that the time is over. *)
Theorem C75_timeout : forall n', archiveCheckCopy dir now fuel range present b s1 s2 n = (Err EArchiveTimeout, n') ->
  exists seg x i j, start <= x <= stop /\ segmentIs (bdTimeline b) (bdSize b) x seg /\ (n <= i < j)%nat /\ n' = (j + 2)%nat /\ noFile (dir j (firstn 16 seg)) seg /\ bdTimeout b <= (now (S j) - now i) mod 2 ^ 64.
Proof.
  intros n' E. destruct (C75_lemma _ _ E) as (segs & Hs & F24 & seg & I1 & H). apply Hs in I1. destruct I1 as (x & Hx & Sx).
  destruct H as [(H & _)|[(_ & i & j & J1 & J2 & J3 & J4)|(_ & file & _ & [(H & _)|(H & _)])]]; try discriminate. exists seg, x, i, j. auto 10.
Qed.
(** C75.  It fails in no other way, except to copy a file whose name has no checksum or has a type that the program was not built with. *)
Theorem C75_errors : forall e n', archiveCheckCopy dir now fuel range present b s1 s2 n = (Err e, n') -> e <> EArchiveDuplicate -> e <> EArchiveTimeout ->
  bdCopy b = true /\ exists seg x j file, start <= x <= stop /\ segmentIs (bdTimeline b) (bdSize b) x seg /\ (j < n')%nat /\ In file (dir j (firstn 16 seg)) /\ fileOf seg file /\
    ((e = EFormat /\ exists sum, segmentFile seg sum file /\ ~ wfHex sum) \/ (e = EOptionInvalidValue /\ exists c, c <> CNone /\ present c = false /\ (c = ctypeFromName file \/ c = bdCompress b))).
Proof.
  intros e n' E N1 N2. destruct (C75_lemma _ _ E) as (segs & Hs & F24 & seg & I1 & H). apply Hs in I1. destruct I1 as (x & Hx & Sx).
  destruct H as [(H & _)|[(H & _)|(C & file & (j & J1 & J2 & J3 & _) & H)]]; [congruence|congruence|]. split; [exact C|]. exists seg, x, j, file. auto 10.
Qed.
(** C75.  It ends, and without undefined behavior, if the clock goes on. *)
Theorem C75_ends : (forall i, now i < now (S i)) -> (forall i j, now i - now j < 2 ^ 64) -> bdTimeout b + 3 <= Z.of_nat fuel -> fst (archiveCheckCopy dir now fuel range present b s1 s2 n) <> UB.
Proof.
  intros Mono Small Fu. destruct (archiveCheckCopy dir now fuel range present b s1 s2 n) as [r n'] eqn:E. cbn [fst]. intros ->. destruct (C75_lemma _ _ E) as (segs & Hs & F24 & H). specialize (H Mono Small). lia.
Qed.
(** C75.  The check passes if the clock goes on and each segment is there once at any time, with a checksum in its name and a type that the program was built with. *)
Theorem C75_passes : (forall i, now i < now (S i)) -> (forall i j, now i - now j < 2 ^ 64) -> bdTimeout b + 3 <= Z.of_nat fuel ->
  (forall x seg j, start <= x <= stop -> segmentIs (bdTimeline b) (bdSize b) x seg -> NoDup (dir j (firstn 16 seg)) /\ exists file, oneFile (dir j (firstn 16 seg)) seg file) ->
  (bdCopy b = true -> forall x seg j file, start <= x <= stop -> segmentIs (bdTimeline b) (bdSize b) x seg -> In file (dir j (firstn 16 seg)) -> fileOf seg file ->
     (forall sum, segmentFile seg sum file -> wfHex sum) /\ forall c, c <> CNone -> c = ctypeFromName file \/ c = bdCompress b -> present c = true) ->
  exists fs cs n', archiveCheckCopy dir now fuel range present b s1 s2 n = (Ok (fs, cs), n').
Proof.
  intros Mono Small Fu One Cp. destruct (archiveCheckCopy dir now fuel range present b s1 s2 n) as [r n'] eqn:E. destruct (C75_lemma _ _ E) as (segs & Hs & F24 & H). destruct r as [[fs cs]|e|]; [eauto| |].
  - exfalso. destruct H as (seg & I1 & H). apply Hs in I1. destruct I1 as (x & Hx & Sx). destruct H as [(_ & j & J1 & a & c & r & P & Fa & Fc)|[(_ & i & j & J1 & J2 & J3 & J4)|(C & file & (j & J1 & J2 & J3 & _) & H)]].
    + destruct (One x seg j Hx Sx) as (Nd & file & _ & _ & U). assert (a = file) by (apply U; [eapply Permutation_in; [apply Permutation_sym; exact P|now left]|exact Fa]).
      assert (c = file) by (apply U; [eapply Permutation_in; [apply Permutation_sym; exact P|right; now left]|exact Fc]). subst a c. apply (Permutation_NoDup P) in Nd. inversion Nd as [|? ? X _]; subst. apply X. now left.
    + destruct (One x seg j Hx Sx) as (_ & file & Ff & If & _). exact (J3 file If Ff).
    + destruct (Cp C x seg j file Hx Sx J3 J2) as (W1 & W2). destruct H as [(_ & sum & H2 & H3)|(_ & c & N & P & T)]; [now apply H3, W1|]. rewrite (W2 c N T) in P. discriminate.
  - exfalso. specialize (H Mono Small). lia.
Qed.
(** C75.  Each segment is copied once to the backup, in the manifest with its name, its size and the checksum that is in the name of the file. *)
Theorem C75_copies : forall fs cs n', bdCopy b = true -> archiveCheckCopy dir now fuel range present b s1 s2 n = (Ok (fs, cs), n') ->
  Forall2 (fun sf c => exists sum, sum40 sum /\ segmentFile (fst sf) sum (snd sf) /\ wfHex sum /\ wcFrom c = snd sf /\ wcName c = txt "pg_data/" ++ pgWalPath (bdVersion b) ++ 47 :: fst sf /\
     wcTo c = bdLabel b ++ 47 :: wcName c ++ ctypeExt (bdCompress b) /\ wcSize c = bdSize b /\ wcTimestamp c = bdTimestamp b /\ wcUser c = bdUser b /\ wcGroup c = bdGroup b /\
     wcMode c = Z.land (bdMode b) 420 /\ wcChecksum c = hexPairs sum) fs cs.
Proof.
  intros fs cs n' C E. destruct (C75_lemma _ _ E) as (segs & Hs & F24 & M & Lo & H). rewrite C in H. clear - H. induction H as [|[seg file] c fs cs (sum & fl & Q1 & Q2 & Q3 & -> & _) H IH]; constructor; [|exact IH].
  exists sum. cbn [fst snd wcFrom wcName wcTo wcSize wcTimestamp wcUser wcGroup wcMode wcChecksum] in *. auto 20.
Qed.

(** C75.  What is stored in the backup is the WAL of the archive file, compressed and encrypted as the backup is. *)
Variables (comp decomp : ctype -> list Z -> list Z) (decryptArchive encryptBackup : list Z -> list Z).
Definition packed (c : ctype) (d : list Z) : list Z := match c with CNone => d | c => comp c d end.
Definition applyFilter (d : list Z) (f : filt) : list Z := match f with FDecrypt => decryptArchive d | FDecompress c => decomp c d | FCompress c => comp c d | FEncrypt => encryptBackup d end.
Theorem C75_content : (forall c d, decomp c (comp c d) = d) -> forall fs cs n', bdCopy b = true -> archiveCheckCopy dir now fuel range present b s1 s2 n = (Ok (fs, cs), n') ->
  Forall2 (fun sf c => forall ext wal stored, (exists sum ct, sum40 sum /\ ext = ctypeExt ct /\ snd sf = fst sf ++ 45 :: sum ++ ext /\ decryptArchive stored = packed ct wal) ->
    fold_left applyFilter (wcFilters c) stored = encryptBackup (packed (bdCompress b) wal)) fs cs.
Proof.
  intros Inv fs cs n' C E. destruct (C75_lemma _ _ E) as (segs & Hs & F24 & M & Lo & H). rewrite C in H. clear - H Inv. induction H as [|[seg file] c fs cs (sum & fl & Q1 & Q2 & Q3 & -> & Q4) H IH]; constructor; [|exact IH].
  cbn [fst snd wcFilters] in *. intros ext wal stored (sum' & ct & S' & -> & Ef & D).
  assert (T : ctypeFromName file = ct). { rewrite Ef. replace (seg ++ 45 :: sum' ++ ctypeExt ct) with ((seg ++ [45]) ++ sum' ++ ctypeExt ct) by (rewrite <- app_assoc; reflexivity). now apply from_name. }
  rewrite T in Q4. rewrite Q4. cbn [fold_left applyFilter]. rewrite fold_left_app. cbn [fold_left applyFilter]. f_equal. rewrite D.
  destruct ct, (bdCompress b); cbn [ctypeEqb app fold_left applyFilter packed]; rewrite ?Inv; reflexivity.
Qed.
End Check.
Print Assumptions C75_covered.
Print Assumptions C75_exact.
Print Assumptions C75_only_partial.
Print Assumptions C75_duplicate.
Print Assumptions C75_timeout.
Print Assumptions C75_errors.
Print Assumptions C75_ends.
Print Assumptions C75_passes.
Print Assumptions C75_copies.
Print Assumptions C75_content.

(** C75.  Without the check nothing is looked for. *)
Theorem C75_off : forall dir now fuel range present b s1 s2 n, bdCheck b = false -> archiveCheckCopy dir now fuel range present b s1 s2 n = (Ok ([], []), n).
Proof. intros. unfold archiveCheckCopy. now rewrite H. Qed.
Print Assumptions C75_off.

Definition sumA : str := repeat 97 40.
Definition sumB : str := repeat 98 40.
Definition seg1 : str := txt "000000010000000000000001".
Definition seg2 : str := txt "000000010000000000000002".
Definition bd1 (copy : bool) : bdata := mkBdata true copy 60000 CGz 1 16777216 160000 (txt "20260101-000000F") 1767225600 448 None None.
Definition dup1 : list str := [seg1 ++ 45 :: sumA ++ txt ".gz"; seg1 ++ 45 :: sumA ++ txt ".gz.pgbackrest.tmp"; seg1 ++ 45 :: sumB ++ txt ".gz"; seg2 ++ 45 :: sumA ++ txt ".gz"].
(** C75.  A duplicate is not seen if a temporary file sorts between the two and more than one segment is looked for. *)
Theorem C75_duplicate_refuted : ~ (forall dir now fuel range present b s1 s2 n fs cs n' seg file, archiveCheckCopy dir now fuel range present b s1 s2 n = (Ok (fs, cs), n') -> In (seg, file) fs ->
  exists j, (j < n')%nat /\ In file (dir j (firstn 16 seg)) /\ ~ twoFiles (dir j (firstn 16 seg)) seg).
Proof.
  intros H. set (dir := fun (_ : nat) (_ : str) => dup1).
  assert (E : archiveCheckCopy dir (fun _ => 0) 0 1 (fun _ => true) (bd1 false) (txt "0/1000028") (txt "0/2000100") 0 = (Ok ([(seg1, seg1 ++ 45 :: sumA ++ txt ".gz"); (seg2, seg2 ++ 45 :: sumA ++ txt ".gz")], []), 3%nat)) by (vm_compute; reflexivity).
  destruct (H _ _ _ _ _ _ _ _ _ _ _ _ seg1 (seg1 ++ 45 :: sumA ++ txt ".gz") E (or_introl eq_refl)) as (j & _ & _ & N). apply N. unfold dir.
  assert (S1 : seg24 seg1) by (split; [reflexivity|]; repeat (constructor; [vm_compute; split; discriminate|]); constructor).
  exists (seg1 ++ 45 :: sumA ++ txt ".gz"), (seg1 ++ 45 :: sumB ++ txt ".gz"), [seg1 ++ 45 :: sumA ++ txt ".gz.pgbackrest.tmp"; seg2 ++ 45 :: sumA ++ txt ".gz"].
  split; [unfold dup1; apply perm_skip, perm_swap|]. split.
  - exists sumA. split; [split; [reflexivity|repeat (constructor; [vm_compute; split; discriminate|]); constructor]|]. exists seg1, (txt ".gz"). split; [exact S1|]. split; [right; left; reflexivity|]. left. auto.
  - exists sumB. split; [split; [reflexivity|repeat (constructor; [vm_compute; split; discriminate|]); constructor]|]. exists seg1, (txt ".gz"). split; [exact S1|]. split; [right; left; reflexivity|]. left. auto.
Qed.
Print Assumptions C75_duplicate_refuted.
Example C75_nontrivial : let dir := fun (_ : nat) (_ : str) => [seg2 ++ 45 :: sumA ++ txt ".gz"; seg1 ++ 45 :: sumB] in
  goodTimeline (bdTimeline (bd1 true)) /\ goodSize (bdSize (bd1 true)) /\
  exists c1 c2, archiveCheckCopy dir (fun _ => 0) 0 1 (fun _ => true) (bd1 true) (txt "0/1000028") (txt "0/2000100") 0 =
    (Ok ([(seg1, seg1 ++ 45 :: sumB); (seg2, seg2 ++ 45 :: sumA ++ txt ".gz")], [c1; c2]), 3%nat) /\
    wcFilters c1 = [FDecrypt; FCompress CGz; FEncrypt] /\ wcFilters c2 = [FDecrypt; FEncrypt] /\ wcChecksum c1 = repeat 187 20 /\ wcTo c2 = txt "20260101-000000F/pg_data/pg_wal/000000010000000000000002.gz".
Proof.
  cbv zeta. split; [unfold goodTimeline; cbn; lia|]. split; [split; [cbn; lia|exists 256; reflexivity]|]. eexists _, _. split; [vm_compute; reflexivity|]. vm_compute. auto.
Qed.
