(** C85: reading ranges of several files as one. *)
From Verif Require Import Base Str RegNameModel MultiModel MultiSpec MultiProof MultiProof2 MultiProof3.
From Coq Require Import String List.
Open Scope Z_scope. Open Scope list_scope.

(** Whatever the size of the buffers, the gap read over and the number of files opened ahead, what is read is the start of the ranges one after another, and
    all of them at the end. *)
Theorem C85_bytes content readOver queueMax adds sched out eof : (0 < queueMax)%nat -> Forall fits adds -> oneVersion adds ->
  readRanges content readOver queueMax adds sched = Ok (out, eof) ->
  exists rest, concat (map (meant content) adds) = out ++ rest /\ (eof = true -> rest = []).
Proof.
  intros QM F OV H. unfold readRanges in H. destruct (addAll_spec content readOver queueMax adds [] _ (added_nil content) F OV I) as (_ & A & _).
  destruct (addAll content readOver queueMax _ adds) as [m| |]; cbn [bind] in H; try discriminate. destruct (A _ eq_refl) as (AD & _).
  destruct (opened_spec content queueMax _ _ QM AD) as (_ & _ & O). destruct (fill content queueMax false m) as [m2| |]; cbn [bind] in H; try discriminate. destruct (O _ eq_refl) as (OK & RM & _).
  destruct (reads_spec content queueMax sched QM m2 OK) as (_ & _ & _ & R). destruct (R _ _ H) as (X & _). now rewrite RM in X.
Qed.
Print Assumptions C85_bytes.
(** The end is reached: with enough reads all is read. *)
Theorem C85_end content readOver queueMax adds : (0 < queueMax)%nat -> Forall fits adds -> oneVersion adds -> inOrder adds -> Forall (fun a => content (aFile a) (aVer a) <> None) adds ->
  exists enough, forall sched, Forall (fun x => (0 < fst (fst x))%nat) sched -> (enough <= List.length sched)%nat ->
    readRanges content readOver queueMax adds sched = Ok (concat (map (meant content) adds), true).
Proof.
  intros QM F OV IO T. unfold readRanges. destruct (addAll_spec content readOver queueMax adds [] _ (added_nil content) F OV I) as (U & A & ER).
  destruct (addAll content readOver queueMax _ adds) as [m|e|]; [|destruct (ER _ eq_refl) as [(_ & N)|(_ & N)]; contradiction|congruence]. destruct (A _ eq_refl) as (AD & _). cbn [bind].
  destruct (opened_spec content queueMax _ _ QM AD) as (U2 & E2 & O). destruct (fill content queueMax false m) as [m2|e|]; [|destruct (E2 _ eq_refl); contradiction|congruence]. destruct (O _ eq_refl) as (OK & RM & P). cbn [bind].
  exists (total (pairs content (mReqs m2) (mQueue m2))). intros sched S L. destruct (reads_spec content queueMax sched QM m2 OK) as (_ & _ & PR & R). destruct (PR (P T)) as ([out eof] & X). rewrite X. destruct (R _ _ X) as ((rest & RR & RN) & LI).
  assert (eof = true) as -> by auto. cbn [app] in RM. now rewrite RM, RN, app_nil_r in RR by reflexivity; subst out.
Qed.
Print Assumptions C85_end.
(** The errors: ranges of a file that are not in order or have no limit are refused, and a file may be missing; nothing else. *)
Theorem C85_errors content readOver queueMax adds sched : (0 < queueMax)%nat -> Forall fits adds -> oneVersion adds ->
  match readRanges content readOver queueMax adds sched with
  | Ok _ => inOrder adds
  | Err e => e = EAssert /\ ~ inOrder adds \/ e = EFileMissing /\ exists a, In a adds /\ content (aFile a) (aVer a) = None
  | UB => False
  end.
Proof.
  intros QM F OV. assert (EX : ~ Forall (there content) adds -> exists a, In a adds /\ content (aFile a) (aVer a) = None).
  { intros N. destruct (Forall_Exists_dec (there content)) with (l := adds) as [Y|Y]; [intros a; unfold there; destruct (content (aFile a) (aVer a)); [now left|right; congruence]|contradiction|].
    apply Exists_exists in Y as (a & I1 & I2). exists a. split; [assumption|]. unfold there in I2. destruct (content _ _); [|reflexivity]. destruct I2. discriminate. }
  unfold readRanges. destruct (addAll_spec content readOver queueMax adds [] _ (added_nil content) F OV I) as (U & A & ER).
  destruct (addAll content readOver queueMax _ adds) as [m|e|]; cbn [bind]; [|destruct (ER _ eq_refl) as [(-> & N)|(-> & N)]; [now left|right; split; [reflexivity|now apply EX]]|congruence]. destruct (A _ eq_refl) as (AD & IO).
  destruct (opened_spec content queueMax _ _ QM AD) as (U2 & E2 & O). destruct (fill content queueMax false m) as [m2|e|]; cbn [bind]; [|destruct (E2 _ eq_refl) as (-> & N); right; split; [reflexivity|now apply EX]|congruence]. destruct (O _ eq_refl) as (OK & RM & P).
  destruct (reads_spec content queueMax sched QM m2 OK) as (RU & RE & RP & _). destruct (reads content queueMax m2 sched) as [r|e|]; [exact IO| |congruence].
  right. split; [now apply RE|]. apply EX. intros T. destruct (RP (P T)) as (r & X). discriminate.
Qed.
Print Assumptions C85_errors.
(** With two versions of a file next to each other the bytes of the second are read from the first. *)
Theorem C85_versions_refuted : exists content adds sched out, Forall fits adds /\ inOrder adds /\ Forall (fun a => content (aFile a) (aVer a) <> None) adds /\
  readRanges content 0 1 adds sched = Ok (out, true) /\ out <> concat (map (meant content) adds).
Proof.
  exists (fun _ v => match v with None => Some [1; 2; 3; 4] | Some _ => Some [5; 6; 7; 8] end), [mkAdd (txt "f") 0 (Some 2) None; mkAdd (txt "f") 2 (Some 2) (Some (txt "v"))], [(9%nat, false, false)], [1; 2; 3; 4].
  split; [repeat constructor; cbn; lia|]. split; [cbn; split; [intros _; exists 2, 2; repeat split; lia|exact I]|]. split; [repeat constructor; discriminate|]. split; [vm_compute; reflexivity|vm_compute; discriminate].
Qed.
Print Assumptions C85_versions_refuted.
(** A file that ends before its range does is no error, and the next range follows at once. *)
Theorem C85_short_refuted : exists content adds sched out, Forall fits adds /\ inOrder adds /\ oneVersion adds /\ Forall (fun a => content (aFile a) (aVer a) <> None) adds /\
  readRanges content 0 1 adds sched = Ok (out, true) /\ Z.of_nat (List.length out) < fold_right (fun a n => match aLim a with Some l => l + n | None => n end) 0 adds.
Proof.
  exists (fun f _ => if strEqb f (txt "f") then Some [1; 2] else Some [3; 4; 5; 6]), [mkAdd (txt "f") 0 (Some 4) None; mkAdd (txt "g") 1 (Some 2) None], [(9%nat, false, false); (9%nat, false, false)], [1; 2; 4; 5].
  split; [repeat constructor; cbn; lia|]. split; [cbn; split; [intros E; vm_compute in E; discriminate|exact I]|]. split; [cbn; split; [intros E; reflexivity|exact I]|]. split; [repeat constructor; vm_compute; discriminate|]. split; [vm_compute; reflexivity|vm_compute; reflexivity].
Qed.
Print Assumptions C85_short_refuted.

(** Three ranges of a file, one after a gap that is read over, and one of another file, in small buffers. *)
Example C85_nontrivial :
  let content := fun f (_ : option str) => if strEqb f (txt "f") then Some [0; 1; 2; 3; 4; 5; 6; 7; 8; 9] else if strEqb f (txt "g") then Some [20; 21; 22] else None in
  let adds := [mkAdd (txt "f") 1 (Some 2) None; mkAdd (txt "f") 3 (Some 1) None; mkAdd (txt "f") 6 (Some 3) None; mkAdd (txt "g") 1 None None] in
  (Forall fits adds /\ oneVersion adds /\ inOrder adds /\ Forall (fun a => content (aFile a) (aVer a) <> None) adds) /\
  readRanges content 4 2 adds [(2%nat, true, false); (2%nat, true, false); (2%nat, false, true); (2%nat, true, false); (5%nat, true, true); (5%nat, true, true)] = Ok ([1; 2; 3; 6; 7; 8; 21; 22], true) /\
  readRanges content 0 1 adds [(3%nat, false, false)] = Ok ([1; 2; 3], false) /\
  readRanges content 0 1 [mkAdd (txt "f") 3 (Some 2) None; mkAdd (txt "f") 4 (Some 2) None] [] = Err EAssert /\
  readRanges content 0 1 [mkAdd (txt "h") 3 (Some 2) None] [] = Err EFileMissing.
Proof.
  cbv zeta. split; [|repeat split; vm_compute; reflexivity]. split; [repeat constructor; cbn; lia|]. split; [cbn; repeat split; auto|]. split; [|repeat constructor; vm_compute; discriminate].
  cbn [inOrder aFile aLim aOff]. split; [intros _; exists 2, 1; repeat split; lia|]. split; [intros _; exists 1, 3; repeat split; lia|]. split; [intros E; vm_compute in E; discriminate|exact I].
Qed.
