(** Concrete storages and schedules for the verify command. *)
From Coq Require Import String Sorting.Permutation.
From Verif Require Import Base Str NumModel LsnModel RegNameModel EncodeModel ResumeModel VerifyModel VerifySpec VerifyProof6 VerifyProof8.
Open Scope Z_scope.
Open Scope list_scope.

Definition exSum : str := repeat 97 40.
Definition exWal (n : Z) : str := walName 1 0 n ++ 45 :: exSum.
Definition exPath : str := firstn 16 (walName 1 0 0).
Definition exId1 : str := txt "9.4-1".
Definition exId2 : str := txt "11-2".
(** 1, 2, a gap, 4; 5 is there twice; 2 is corrupt *)
Definition exFiles : list str := [exWal 2; exWal 1; exWal 4; exWal 5; exWal 5 ++ txt ".gz"].
Definition exFull : str := txt "20190101-000000F".
Definition exDiff : str := txt "20190101-000000F_20190102-000000D".
Definition exGone : str := txt "20190103-000000F".
Definition exFile (name : string) (r : option str) (bundle : Z) : vfile := mkVfile (txt name) 8 r bundle 0 8 None [1; 2] false.
Definition exMan (l : list vfile) : vman := mkVman l true [] (1, 2, 3) [] None.
(** The full backup has [a] and [b], the other one refers to both and has [c] *)
Definition exMains (bundle : Z) (label : str) : res vman :=
  if strEqb label exFull then Ok (exMan [exFile "a" None bundle; exFile "b" None bundle])
  else if strEqb label exDiff then Ok (exMan [exFile "a" (Some exFull) bundle; exFile "b" (Some exFull) bundle; exFile "c" None 0])
  else Err EFileMissing.
Definition exWorld (bundle : Z) : vworld := mkVworld (fun id => if strEqb id exId2 then [exPath] else []) (fun id _ => if strEqb id exId2 then exFiles else []) (fun _ => Ok 16777216) (exMains bundle) (fun _ => Err EFileMissing) [(1, 2, 3)].
Definition ends (x s : str) : bool := strEqb x (skipn (length s - length x) s).
(** The segment 2 and the file [b] are corrupt *)
Definition exCheck (j : vjob) : res vres := if ends (exWal 2) (vjPath j) || ends (txt "/b") (vjPath j) then Ok VChecksum else Ok VOk.
Definition exStart (labels : list str) (ids : list str) : vdata := verifyStart labels labels ids [exId1; exId2] None.

Lemma ex_proper n : 0 <= n < 256 -> properSeg (walName 1 0 n).
Proof. intros H. exists 1, 0, n. repeat split; lia. Qed.
Lemma notIn47 (s : str) : forallb (fun c => negb (c =? 47)) s = true -> ~ In 47 s.
Proof. intros H F. rewrite forallb_forall in H. specialize (H 47 F). discriminate. Qed.
Lemma ex_good bundle labels ids : ids = [] \/ ids = [exId1; exId2] -> labels = [exDiff; exFull] \/ labels = [exDiff; exGone; exFull] -> good (exWorld bundle) (exStart labels ids).
Proof.
  intros HI HL. split; [| split; [| split]].
  - assert (E : vdIds (exStart labels ids) = ids) by (unfold exStart, verifyStart; destruct (setBackupCheckArchive _ _ _ _); reflexivity). rewrite E. destruct HI as [-> | ->]; [split; [constructor | split; [intros a b [] | intros id []]]|].
    split; [repeat constructor; cbn; intuition discriminate|]. split.
    + intros a b [<- | [<- | []]] [<- | [<- | []]]; split; intros X; try reflexivity; vm_compute in X; discriminate.
    + intros id Hid. split; [destruct Hid as [<- | [<- | []]]; apply notIn47; reflexivity|]. cbn [vwPaths exWorld]. destruct (strEqb id exId2) eqn:EI; [| split; [constructor | intros p []]]. split; [repeat constructor; intros []|]. intros p [<- | []]. split; [apply notIn47; reflexivity|]. cbn [vwFiles exWorld]. rewrite EI. split.
      * intros f Hf. cbn [exFiles In] in Hf. destruct Hf as [<- | [<- | [<- | [<- | [<- | []]]]]]; split; try reflexivity; [apply (ex_proper 2) | apply (ex_proper 1) | apply (ex_proper 4) | apply (ex_proper 5) | apply (ex_proper 5)]; lia.
      * intros f Hf. cbn [exFiles In] in Hf. destruct Hf as [<- | [<- | [<- | [<- | [<- | []]]]]]; apply notIn47; reflexivity.
  - intros f n E. injection E as <-. discriminate.
  - destruct HL as [-> | ->], HI as [-> | ->]; (split; [vm_compute; repeat constructor; cbn; intuition discriminate | vm_compute vdBackups; intros x Hx; cbn [In] in Hx; repeat (destruct Hx as [<- | Hx]; [apply notIn47; reflexivity|]); destruct Hx]).
  - destruct HI as [-> | ->]; [| unfold exStart, verifyStart]; repeat split; cbn; congruence || reflexivity.
Qed.
(** A WAL file whose name is accepted by the expression that lists WAL files, with a checksum that is not hex *)
Definition badName : str := walName 1 0 1 ++ 45 :: 58 :: repeat 97 39.
Definition badNameWorld : vworld := mkVworld (fun _ => [exPath]) (fun _ _ => [badName]) (fun _ => Ok 16777216) (fun _ => Err EFileMissing) (fun _ => Err EFileMissing) [].
Definition badHeaderWorld : vworld := mkVworld (fun _ => [exPath]) (fun _ _ => exFiles) (fun _ => Err EFormat) (exMains 0) (fun _ => Err EFileMissing) [(1, 2, 3)].
