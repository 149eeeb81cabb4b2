(** C24: labels of new backups. *)
From Verif Require Import Base Str ExpireModel HistExpireModel LabelModel LabelSpec LabelProof.
Open Scope Z_scope.

(** The label of a new full backup is a full label for this or the next second, and sorts after every label in the repository and in its history. *)
Theorem C24_full : forall (format : Z -> str) ts dirs hist l, (forall n, isDT (format n)) -> historyOk hist -> newestUsed hist ->
  labelCreate format BFull [] ts dirs hist = Ok l ->
  (l = format ts ++ [70] \/ l = format (ts + 1) ++ [70]) /\ isFull l /\ (forall x, isLabel x -> In x dirs \/ inHistory hist x -> slt x l).
Proof. intros format ts dirs hist l HF HO HN H. split; [exact (create_which format ts dirs hist BFull [] l H)|exact (full_create format ts dirs hist l HF HO HN H)]. Qed.
Print Assumptions C24_full.

(** The label of a differential or incremental backup belongs to the set of its prior's full backup, is of this or the next second, sorts after every
    label of the set in the repository and is not in the repository.  When the set's year is the newest of the history it sorts after the labels of the
    set in the history too. *)
Theorem C24_dependent_partial : forall (format : Z -> str) ts dirs hist t prior f l, (forall n, isDT (format n)) -> t <> BFull -> isFull f ->
  prior = f \/ isDep f prior -> historyOk hist -> labelCreate format t prior ts dirs hist = Ok l ->
  (exists n, (n = ts \/ n = ts + 1) /\ l = f ++ 95 :: format n ++ [match t with BDiff => 68 | _ => 73 end]) /\ isDep f l /\
  (forall x, isDep f x -> In x dirs -> slt x l) /\ ~ In l dirs /\
  ((forall h, In h hist -> yearName (hyName h) -> sle (hyName h) (firstn 4 f)) -> forall x, isDep f x -> inHistory hist x -> slt x l).
Proof.
  intros format ts dirs hist t prior f l HF Ht F HP HO H.
  assert (EP : firstn 16 prior = f). { destruct HP as [->|(d & c & _ & _ & ->)]; [apply firstn_all2; rewrite (full_len f F); lia|]. rewrite firstn_app, (full_len f F), firstn_all2 by (rewrite (full_len f F); lia). apply app_nil_r. }
  split; [|exact (dep_create format ts dirs hist t prior f l HF Ht F EP HO H)].
  destruct (create_which format ts dirs hist t prior l H) as [-> | ->]; [exists ts|exists (ts + 1)]; (split; [auto|]); destruct t; try congruence; cbn [labelFormat]; now rewrite EP.
Qed.
Print Assumptions C24_dependent_partial.

(** It fails with a clock error only, and exactly when neither second gives a later label. *)
Theorem C24_full_error : forall (format : Z -> str) ts dirs hist, NoDup (map hyName hist) ->
  ((exists k, labelCreate format BFull [] ts dirs hist = Err k) <->
   exists x, isLabel x /\ (In x dirs \/ exists h, newest hist h /\ inYear h x) /\ sle (format ts ++ [70]) x /\ sle (format (ts + 1) ++ [70]) x) /\
  (forall k, labelCreate format BFull [] ts dirs hist = Err k -> k = EClock).
Proof. intros format ts dirs hist ND. split; [exact (full_error format ts dirs hist ND)|intros k; apply create_kind]. Qed.
Print Assumptions C24_full_error.
Theorem C24_dependent_error : forall (format : Z -> str) ts dirs hist t prior f, t <> BFull -> isFull f -> prior = f \/ isDep f prior -> NoDup (map hyName hist) ->
  let label n := f ++ 95 :: format n ++ [match t with BDiff => 68 | _ => 73 end] in
  ((exists k, labelCreate format t prior ts dirs hist = Err k) <->
   exists x, isDep f x /\ (In x dirs \/ exists h, newest hist h /\ inYear h x) /\ sle (label ts) x /\ sle (label (ts + 1)) x) /\
  (forall k, labelCreate format t prior ts dirs hist = Err k -> k = EClock).
Proof.
  intros format ts dirs hist t prior f Ht F HP ND label.
  assert (EP : firstn 16 prior = f). { destruct HP as [->|(d & c & _ & _ & ->)]; [apply firstn_all2; rewrite (full_len f F); lia|]. rewrite firstn_app, (full_len f F), firstn_all2 by (rewrite (full_len f F); lia). apply app_nil_r. }
  split; [exact (dep_error format ts dirs hist t prior f Ht F EP ND)|intros k; apply create_kind].
Qed.
Print Assumptions C24_dependent_error.

(** Cases: local time is a fixed day with seconds counted on. *)
Definition fmt0 (n : Z) : str := [50;48;50;52;48;49;48;53;45;48;48;48;48;48] ++ [48 + Z.max 0 (Z.min 9 n)].
Example C24_fmt : forall n, isDT (fmt0 n).
Proof. intros n. exists [50;48;50;52;48;49;48;53], [48;48;48;48;48;48 + Z.max 0 (Z.min 9 n)]. unfold fmt0. repeat split; try (repeat constructor; unfold digit; lia). Qed.
(* 20230101-000000F and 20240101-000000F *)
Definition f23 : str := [50;48;50;51;48;49;48;49;45;48;48;48;48;48;48;70].
Definition f24 : str := [50;48;50;52;48;49;48;49;45;48;48;48;48;48;48;70].
Definition y23 : str := [50;48;50;51]. Definition y24 : str := [50;48;50;52].
Lemma f23_full : isFull f23. Proof. apply full_spec. reflexivity. Qed.
Lemma f24_full : isFull f24. Proof. apply full_spec. reflexivity. Qed.

(** A differential backup of a set of an older year repeats a label of the history: the clock went back after the first one was expired, and only the
    newest year of the history is read. *)
Theorem C24_old_year_refuted : exists (format : Z -> str) ts dirs hist t prior l, (forall n, isDT (format n)) /\ historyOk hist /\ newestUsed hist /\ t <> BFull /\ isFull prior /\ In prior dirs /\
  labelCreate format t prior ts dirs hist = Ok l /\ inHistory hist l.
Proof.
  pose (l := f23 ++ 95 :: fmt0 5 ++ [68]).
  exists fmt0, 5, [f23], [mkHistYear y23 [f23 ++ manifestExt; l ++ manifestExt]; mkHistYear y24 [f24 ++ manifestExt]], BDiff, f23, l.
  split; [exact C24_fmt|]. split.
  { split; [cbn; repeat constructor; cbn; intuition discriminate|]. intros h x Hh Lx Ix. assert (Y : forall y, isYear y = true -> yearName y) by (intros y; apply year_spec).
    unfold inYear in Ix. destruct Hh as [<-|[<-|[]]]; cbn [hyFiles hyName] in *; (split; [apply Y; reflexivity|]).
    - destruct Ix as [E|[E|[]]]; apply app_inv_tail in E; subst x; reflexivity.
    - destruct Ix as [E|[]]; apply app_inv_tail in E; subst x; reflexivity. }
  split. { intros h (Hh & _ & M). destruct Hh as [<-|[<-|[]]].
    - exists f23. split; [left; exact f23_full|]. now left.
    - exists f24. split; [left; exact f24_full|]. now left. }
  split; [discriminate|]. split; [exact f23_full|]. split; [now left|]. split; [vm_compute; reflexivity|].
  exists (mkHistYear y23 [f23 ++ manifestExt; l ++ manifestExt]). split; [now left|]. right. now left.
Qed.
Print Assumptions C24_old_year_refuted.

Example C24_nontrivial :
  (* the second after, as this second is taken *)
  labelCreate fmt0 BFull [] 3 [fmt0 3 ++ [70]; f23] [mkHistYear y23 [f23 ++ manifestExt]] = Ok (fmt0 4 ++ [70]) /\
  (* the history counts *)
  labelCreate fmt0 BFull [] 3 [f23] [mkHistYear y24 [fmt0 3 ++ [70] ++ manifestExt]; mkHistYear y23 [f23 ++ manifestExt]] = Ok (fmt0 4 ++ [70]) /\
  labelCreate fmt0 BFull [] 3 [f23] [mkHistYear y24 [fmt0 4 ++ [70] ++ manifestExt]; mkHistYear y23 [f23 ++ manifestExt]] = Err EClock /\
  (* a dependent backup counts for full backups, and is after its full *)
  labelCreate fmt0 BFull [] 3 [fmt0 3 ++ [70]; fmt0 3 ++ [70;95] ++ fmt0 5 ++ [73]] [] = Ok (fmt0 4 ++ [70]) /\
  (* sets are apart *)
  labelCreate fmt0 BIncr f23 5 [f23; fmt0 7 ++ [70]] [] = Ok (f23 ++ 95 :: fmt0 5 ++ [73]) /\
  labelCreate fmt0 BDiff (f23 ++ 95 :: fmt0 5 ++ [73]) 5 [f23; f23 ++ 95 :: fmt0 5 ++ [73]] [] = Ok (f23 ++ 95 :: fmt0 6 ++ [68]).
Proof. vm_compute. repeat split; reflexivity. Qed.
Example C24_nontrivial_hyp : let hist := [mkHistYear y24 [f24 ++ manifestExt]; mkHistYear y23 [f23 ++ manifestExt]] in historyOk hist /\ newestUsed hist /\ NoDup (map hyName hist).
Proof.
  cbv zeta. assert (ND : NoDup (map hyName [mkHistYear y24 [f24 ++ manifestExt]; mkHistYear y23 [f23 ++ manifestExt]])) by (cbn; repeat constructor; cbn; intuition discriminate).
  split; [split; [exact ND|]|split; [|exact ND]].
  - intros h x [<-|[<-|[]]] _ [E|[]]; cbn [hyName] in *; apply app_inv_tail in E; subst x; (split; [apply year_spec; reflexivity|reflexivity]).
  - intros h ([<-|[<-|[]]] & _); [exists f24|exists f23]; (split; [left; apply full_spec; reflexivity|now left]).
Qed.
