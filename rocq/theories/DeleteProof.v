From Verif Require Import Base Str RegNameModel ControlModel ControlProof DeleteModel DeleteSpec.
From Coq Require Import String List.
Open Scope Z_scope. Open Scope list_scope.

Lemma dir_set s t x d : dirOf s (setDir t x d) = match s, t with SArchive, SArchive | SBackup, SBackup => x | _, _ => dirOf s d end.
Proof. destruct s, t; reflexivity. Qed.
Lemma stop_set t x d : dStop (setDir t x d) = dStop d.
Proof. destruct t; reflexivity. Qed.
Lemma has_step d x s n : has (doStep d x) s n <-> has d s n /\ x <> RmEntry s n /\ x <> RmDir s.
Proof.
  unfold has. destruct x as [t m|t|]; cbn [doStep].
  - destruct (dirOf t d) as [l|] eqn:E.
    + rewrite dir_set. split.
      * intros (l' & D & I). destruct s, t; try (injection D as <-; apply remove_in in I as (I & N); split; [eauto|split; [congruence|discriminate]]);
          (split; [eauto|split; discriminate]).
      * intros ((l' & D & I) & N & _). destruct s, t; try (exists l'; split; assumption);
          (rewrite E in D; injection D as <-; eexists; split; [reflexivity|]; apply remove_in; split; [exact I|intros ->; now apply N]).
    + split; [|now intros (H & _)]. intros (l & D & I). split; [eauto|]. split; [|discriminate]. intros X. injection X as -> ->. congruence.
  - rewrite dir_set. split.
    + intros (l & D & I). destruct s, t; try discriminate D; (split; [eauto|split; discriminate]).
    + intros ((l & D & I) & _ & N). destruct s, t; try (now destruct N); exists l; split; assumption.
  - split; [intros (l & D & I); split; [exists l; destruct s; auto|split; discriminate]|intros ((l & D & I) & _); exists l; destruct s; auto].
Qed.
Lemma has_steps xs : forall d s n, has (doSteps d xs) s n <-> has d s n /\ ~ In (RmEntry s n) xs /\ ~ In (RmDir s) xs.
Proof.
  induction xs as [|x xs IH]; intros d s n; cbn [doSteps fold_left]; [split; [intros H; repeat split; auto|now intros (H & _)]|].
  change (fold_left doStep xs (doStep d x)) with (doSteps (doStep d x) xs). rewrite IH, has_step. cbn [In]. tauto.
Qed.
Lemma none_step d x s : dirOf s (doStep d x) = None <-> dirOf s d = None \/ x = RmDir s.
Proof.
  destruct x as [t m|t|]; cbn [doStep].
  - destruct (dirOf t d) as [l|] eqn:E; [rewrite dir_set|].
    + split; [destruct s, t; intros H; try discriminate; now left|]. intros [H|H]; [|discriminate]. destruct s, t; congruence.
    + split; [now left|intros [H|H]; [exact H|discriminate]].
  - rewrite dir_set. split; [destruct s, t; intros H; auto|]. intros [H|H]; [destruct s, t; auto|injection H as ->; destruct s; reflexivity].
  - split; [intros H; left; destruct s; exact H|intros [H|H]; [destruct s; exact H|discriminate]].
Qed.
Lemma none_steps xs : forall d s, dirOf s (doSteps d xs) = None <-> dirOf s d = None \/ In (RmDir s) xs.
Proof.
  induction xs as [|x xs IH]; intros d s; cbn [doSteps fold_left]; [split; [now left|intros [H|[]]; exact H]|].
  change (fold_left doStep xs (doStep d x)) with (doSteps (doStep d x) xs). rewrite IH, none_step. cbn [In]. tauto.
Qed.
Lemma step_eq_dec (a b : step) : {a = b} + {a <> b}.
Proof. decide equality; try (apply list_eq_dec, Z.eq_dec); decide equality. Qed.
Lemma stop_steps xs : forall d, (In RmStop xs -> dStop (doSteps d xs) = false) /\ (~ In RmStop xs -> dStop (doSteps d xs) = dStop d).
Proof.
  induction xs as [|x xs IH]; intros d; cbn [doSteps fold_left]; [split; [intros []|reflexivity]|].
  change (fold_left doStep xs (doStep d x)) with (doSteps (doStep d x) xs). destruct (IH (doStep d x)) as (A & B).
  assert (S : x <> RmStop -> dStop (doStep d x) = dStop d). { destruct x as [t m|t|]; cbn; [destruct (dirOf t d); [now rewrite stop_set|reflexivity]|now rewrite stop_set|congruence]. }
  destruct (in_dec step_eq_dec RmStop xs) as [I|N].
  - split; [intros _; now apply A|]. intros N. exfalso. apply N. now right.
  - split.
    + intros [->|I]; [|contradiction]. now rewrite (B N).
    + intros N2. rewrite (B N). apply S. intros ->. apply N2. now left.
Qed.

Lemma content_iff d : (notEmpty (dArchive d) || notEmpty (dBackup d) = true) <-> content d.
Proof.
  unfold content, has. rewrite orb_true_iff. split.
  - intros [H|H]; [exists SArchive|exists SBackup]; cbn; [destruct (dArchive d) as [[|x l]|]|destruct (dBackup d) as [[|x l]|]]; try discriminate; exists x; eexists; (split; [reflexivity|now left]).
  - intros ([] & n & l & D & I); cbn in D; rewrite D; [left|right]; destruct l; try destruct I; reflexivity.
Qed.
Definition steps (d : dstate) : list step := rmInfo SArchive d ++ rmInfo SBackup d ++ rmPath SArchive d ++ rmPath SBackup d ++ [RmStop].
Lemma delete_res f r d :
  cmdStanzaDelete f r d = Ok [] /\ gone d \/
  ~ gone d /\ content d /\ dStop d = false /\ cmdStanzaDelete f r d = Err EFileMissing \/
  ~ gone d /\ content d /\ dStop d = true /\ f = false /\ r = true /\ cmdStanzaDelete f r d = Err EPgRunning \/
  ~ gone d /\ (content d -> dStop d = true /\ (f = true \/ r = false)) /\ cmdStanzaDelete f r d = Ok (steps d).
Proof.
  unfold gone. destruct (dArchive d) eqn:A, (dBackup d) eqn:B.
  4: left; unfold cmdStanzaDelete; rewrite A, B; auto.
  all: right; assert (G : ~ (dArchive d = None /\ dBackup d = None)) by (intros (X & Y); congruence); rewrite A, B in G;
    pose proof (content_iff d) as C; unfold cmdStanzaDelete; rewrite A, B in *; fold (steps d);
    destruct (_ || _) eqn:E; cbn [bind]; [assert (K : content d) by now apply C|assert (K : ~ content d) by (intros X; apply C in X; congruence)];
    try (right; right; split; [exact G|split; [contradiction|reflexivity]]);
    destruct (dStop d); cbn [negb bind]; [|left; repeat split; auto];
    destruct f, r; cbn; try (right; right; split; [exact G|split; [auto|reflexivity]]); right; left; repeat split; auto.
Qed.

Lemma in_info s d x : In x (rmInfo s d) -> exists n, isInfo s n /\ x = RmEntry s n.
Proof. unfold rmInfo. destruct (notEmpty _); [|intros []]. intros [<-|[<-|[]]]; eexists; (split; [|reflexivity]); unfold isInfo; destruct s; auto. Qed.
Lemma info_in s d n : isInfo s n -> has d s n -> In (RmEntry s n) (rmInfo s d).
Proof.
  intros I (l & D & H). unfold rmInfo. rewrite D. destruct l; [destruct H|]. cbn [notEmpty]. unfold isInfo in I. destruct s; destruct I as [->| ->]; [now left|right; now left|now left|right; now left].
Qed.
Lemma path_dir s d : dirOf s d <> None -> In (RmDir s) (rmPath s d).
Proof. unfold rmPath. destruct (dirOf s d); [intros _; apply in_or_app; right; now left|congruence]. Qed.
Lemma in_path s d x : In x (rmPath s d) -> x = RmDir s \/ exists n, x = RmEntry s n /\ has d s n.
Proof.
  unfold rmPath, has. destruct (dirOf s d) as [l|]; [|intros []]. intros H. apply in_app_or in H as [H|[<-|[]]]; [right|now left]. apply in_map_iff in H as (n & <- & I). exists n. split; [reflexivity|eauto].
Qed.
Lemma stop_last d k : In RmStop (firstn k (steps d)) -> firstn k (steps d) = steps d.
Proof.
  unfold steps. intros H. set (p := rmInfo SArchive d ++ rmInfo SBackup d ++ rmPath SArchive d ++ rmPath SBackup d) in *.
  assert (E : rmInfo SArchive d ++ rmInfo SBackup d ++ rmPath SArchive d ++ rmPath SBackup d ++ [RmStop] = p ++ [RmStop]) by (unfold p; rewrite <- !app_assoc; reflexivity). rewrite E in *.
  assert (N : ~ In RmStop p).
  { unfold p. rewrite !in_app_iff. intros [I|[I|[I|I]]]; [apply in_info in I as (n & _ & X)|apply in_info in I as (n & _ & X)|apply in_path in I as [X|(n & X & _)]|apply in_path in I as [X|(n & X & _)]]; discriminate. }
  clearbody p. clear E. destruct (Nat.le_gt_cases k (List.length p)) as [L|L].
  - exfalso. rewrite firstn_app in H. replace (k - List.length p)%nat with 0%nat in H by lia. rewrite firstn_O, app_nil_r in H. apply N. rewrite <- (firstn_skipn k p). apply in_or_app. now left.
  - apply firstn_all2. rewrite app_length. cbn. lia.
Qed.
Lemma steps_done d : gone (doSteps d (steps d)) /\ dStop (doSteps d (steps d)) = false.
Proof.
  split.
  - split; [apply (none_steps (steps d) d SArchive)|apply (none_steps (steps d) d SBackup)].
    + destruct (dirOf SArchive d) eqn:E; [right|now left]. unfold steps. rewrite !in_app_iff. right. right. left. apply path_dir. congruence.
    + destruct (dirOf SBackup d) eqn:E; [right|now left]. unfold steps. rewrite !in_app_iff. right. right. right. left. apply path_dir. congruence.
  - apply stop_steps. unfold steps. rewrite !in_app_iff. right. right. right. right. now left.
Qed.
Lemma steps_cut d k s n : has d s n -> ~ isInfo s n -> ~ has (doSteps d (firstn k (steps d))) s n -> forall t m, isInfo t m -> ~ has (doSteps d (firstn k (steps d))) t m.
Proof.
  intros H N G t m I X. apply has_steps in X as (X & X1 & X2). unfold steps in *. rewrite !app_assoc in *. set (A := rmInfo SArchive d ++ rmInfo SBackup d) in *.
  rewrite <- !app_assoc in *. set (B := rmPath SArchive d ++ rmPath SBackup d ++ [RmStop]) in *. rewrite firstn_app in *.
  destruct (Nat.le_gt_cases k (List.length A)) as [L|L].
  - apply G. apply has_steps. split; [exact H|]. replace (k - List.length A)%nat with 0%nat by lia. rewrite firstn_O, app_nil_r.
    assert (Q : forall x, In x (firstn k A) -> exists u v, isInfo u v /\ x = RmEntry u v).
    { intros x Y. assert (Y' : In x A) by (rewrite <- (firstn_skipn k A); apply in_or_app; now left). unfold A in Y'. apply in_app_or in Y' as [Y'|Y']; apply in_info in Y' as (v & V & ->); eauto. }
    split; intros Y; apply Q in Y as (u & v & V & E); [injection E as -> ->; contradiction|discriminate].
  - apply X1. apply in_or_app. left. rewrite firstn_all2 by lia. unfold A. apply in_or_app. destruct t; [left|right]; now apply info_in.
Qed.
