(** Optional rules: the state machine gives the rule of each kind *)
From Coq Require Import Lia Sorting.Sorted.
From Verif Require Import Base Str OptNameModel OptLoadModel OptSizeModel OptValueModel OptValueSpec.
Open Scope Z_scope.
Open Scope list_scope.

Definition look (l : list orule) (k : Z) : option orule := find (fun r => kind r =? k) l.
Definition groupRules (groups : list rgroup) (cmd : nat) : list orule := match findGroup groups cmd with Some l => l | None => [] end.

Lemma findGroup_spec groups cmd : match findGroup groups cmd with
  | Some l => exists a g b, groups = a ++ g :: b /\ Forall (fun g => ~ appliesTo cmd g) a /\ appliesTo cmd g /\ l = snd g
  | None => Forall (fun g => ~ appliesTo cmd g) groups
  end.
Proof.
  induction groups as [|[[cmds|] l] r IH]; cbn [findGroup]; [constructor| |exists [], (None, l), r; repeat split; constructor].
  destruct (existsb _ cmds) eqn:E.
  - exists [], (Some cmds, l), r. repeat split; [constructor|]. apply existsb_exists in E. destruct E as (x & H & Q). apply Nat.eqb_eq in Q. subst x. exact H.
  - assert (N : ~ appliesTo cmd (Some cmds, l)) by (intros H; cbn in H; assert (existsb (fun c => (c =? cmd)%nat) cmds = true) by (apply existsb_exists; exists cmd; split; [exact H|apply Nat.eqb_refl]); congruence).
    destruct (findGroup r cmd) as [l'|]; [|constructor; assumption]. destruct IH as (a & g & b & -> & F & A & ->). exists ((Some cmds, l) :: a), g, b. repeat split; [constructor; assumption|exact A].
Qed.
Lemma rulesFor_iff groups cmd l : rulesFor groups cmd l <-> l = groupRules groups cmd.
Proof.
  pose proof (findGroup_spec groups cmd) as F. unfold groupRules. split.
  - intros [(a & g & b & E & Fa & A & ->)|[Fa ->]].
    + clear F. subst groups. induction Fa as [|h a H Fa IH]; cbn [app findGroup].
      * destruct g as [[cmds|] l]; [|reflexivity]. cbn in A. replace (existsb _ cmds) with true; [reflexivity|]. symmetry. apply existsb_exists. exists cmd. split; [exact A|apply Nat.eqb_refl].
      * destruct h as [[cmds|] l]; [|exfalso; apply H; exact I]. destruct (existsb _ cmds) eqn:E; [|exact IH]. exfalso. apply H. apply existsb_exists in E. destruct E as (x & Hx & Q). apply Nat.eqb_eq in Q. subst x. exact Hx.
    + destruct (findGroup groups cmd) as [l|]; [|reflexivity]. destruct F as (a & g & b & -> & _ & A & _). apply Forall_app in Fa. destruct Fa as [_ Fa]. inversion Fa as [|x y H _]. exfalso. exact (H A).
  - intros ->. destruct (findGroup groups cmd) as [l|]; [left; exact F|right; split; [exact F|reflexivity]].
Qed.

Lemma look_in l r : ordered l -> In r l -> look l (kind r) = Some r.
Proof.
  intros S. induction S as [|x l S IH F]; intros H; [destruct H|]. unfold look. cbn [find]. destruct (Z.eqb_spec (kind x) (kind r)) as [E|N].
  - destruct H as [->|H]; [reflexivity|]. rewrite Forall_forall in F. specialize (F r H). lia.
  - destruct H as [->|H]; [congruence|]. exact (IH H).
Qed.
Lemma look_some l k r : look l k = Some r -> In r l /\ kind r = k.
Proof. intros H. apply find_some in H. destruct H as [H1 H2]. apply Z.eqb_eq in H2. auto. Qed.
Lemma look_none l k : look l k = None -> forall r, In r l -> kind r <> k.
Proof. intros H r I E. pose proof (find_none _ _ H r I) as Q. cbn in Q. apply Z.eqb_neq in Q. congruence. Qed.

(** After the question for kind [k] the rules of higher kinds are all there *)
Definition stAt (groups : list rgroup) (cmd : nat) (st : rstate) (k : Z) : Prop :=
  let l := groupRules groups cmd in
  match st with
  | RStart => k = 0
  | RDone => forall r, In r l -> kind r <= k
  | RRest l' => exists a, l = a ++ l' /\ (forall r, In r a -> kind r <= k) /\ (forall r, In r l' -> k < kind r)
  end.
Lemma nextRule_spec k' : forall l', ordered l' -> let '(st, a) := nextRule l' k' in
  a = look l' k' /\ match st with RDone => forall r, In r l' -> kind r <= k' | RStart => False | RRest l2 => exists b, l' = b ++ l2 /\ (forall r, In r b -> kind r <= k') /\ (forall r, In r l2 -> k' < kind r) end.
Proof.
  induction 1 as [|x l' S IH F]; cbn [nextRule]; [split; [reflexivity|intros r []]|]. rewrite Forall_forall in F. destruct (Z.eqb_spec (kind x) k') as [E|N].
  - split; [unfold look; cbn [find]; rewrite E, Z.eqb_refl; reflexivity|]. exists [x]. split; [reflexivity|]. split; [intros r [<-|[]]; lia|]. intros r Hr. specialize (F r Hr). lia.
  - destruct (Z.ltb_spec k' (kind x)) as [L|L].
    + split; [|exists []; split; [reflexivity|]; split; [intros r []|intros r [<-|Hr]; [lia|specialize (F r Hr); lia]]].
      unfold look. symmetry. destruct (find _ _) as [r|] eqn:Q; [|reflexivity]. apply find_some in Q. destruct Q as [[->|Q1] Q2]; apply Z.eqb_eq in Q2; [congruence|specialize (F r Q1); lia].
    + destruct (nextRule l' k') as [st a]. destruct IH as [I1 I2]. split; [rewrite I1; unfold look; cbn [find]; replace (kind x =? k') with false by (symmetry; apply Z.eqb_neq; exact N); reflexivity|].
      destruct st as [|l2|]; [exact I2| |intros r [<-|Hr]; [lia|apply I2; exact Hr]]. destruct I2 as (b & -> & Q1 & Q2). exists (x :: b). split; [reflexivity|]. split; [|exact Q2]. intros r [<-|Hr]; [lia|apply Q1; exact Hr].
Qed.
Lemma kind_pos r : 1 <= kind r <= 6.
Proof. destruct r; cbn; lia. Qed.
Lemma ordered_app a b : ordered (a ++ b) -> ordered b.
Proof. induction a as [|x a IH]; [exact (fun H => H)|]. intros H. inversion H; subst. apply IH. assumption. Qed.
Lemma look_app a b k : (forall r, In r a -> kind r <> k) -> look (a ++ b) k = look b k.
Proof. intros H. unfold look. induction a as [|x a IH]; [reflexivity|]. cbn [app find]. replace (kind x =? k) with false by (symmetry; apply Z.eqb_neq; apply H; left; reflexivity). apply IH. intros r Hr. apply H. right. exact Hr. Qed.
Lemma ask_spec groups cmd st k k' : ordered (groupRules groups cmd) -> 0 <= k -> k < k' -> stAt groups cmd st k ->
  let '(st', a) := ask groups cmd st k' in a = look (groupRules groups cmd) k' /\ stAt groups cmd st' k'.
Proof.
  intros O K0 K S. unfold ask. destruct st as [|l'|]; cbn [stAt] in S.
  - unfold groupRules, stAt in *. unfold groupRules in *. destruct (findGroup groups cmd) as [l|]; [|split; [reflexivity|intros r []]]. pose proof (nextRule_spec k' l O) as N. destruct (nextRule l k') as [st a]. destruct N as [N1 N2]. split; [exact N1|]. destruct st; [contradiction|exact N2|exact N2].
  - destruct S as (a & E & A & B). assert (O' : ordered l') by (apply (ordered_app a); rewrite <- E; exact O). pose proof (nextRule_spec k' l' O') as N. destruct (nextRule l' k') as [st x]. destruct N as [N1 N2].
    split; [rewrite N1, E; symmetry; apply look_app; intros r Hr; specialize (A r Hr); lia|]. unfold stAt. rewrite E. destruct st as [|l2|]; [contradiction| |].
    + destruct N2 as (b & -> & Q1 & Q2). exists (a ++ b). split; [rewrite app_assoc; reflexivity|]. split; [|exact Q2]. intros r Hr. apply in_app_or in Hr. destruct Hr as [Hr|Hr]; [specialize (A r Hr); lia|apply Q1; exact Hr].
    + intros r Hr. apply in_app_or in Hr. destruct Hr as [Hr|Hr]; [specialize (A r Hr); lia|apply N2; exact Hr].
  - split; [|intros r Hr; specialize (S r Hr); lia]. symmetry. destruct (look _ k') as [r|] eqn:E; [|reflexivity]. apply look_some in E. destruct E as [E1 E2]. specialize (S r E1). lia.
Qed.

(** A list of questions, one higher than the other *)
Fixpoint answers (groups : list rgroup) (cmd : nat) (st : rstate) (ks : list Z) : list (option orule) := match ks with [] => [] | k :: r => let '(st, a) := ask groups cmd st k in a :: answers groups cmd st r end.
Lemma answers_spec groups cmd ks : ordered (groupRules groups cmd) -> forall st k, 0 <= k -> stAt groups cmd st k -> StronglySorted Z.lt (k :: ks) -> answers groups cmd st ks = map (look (groupRules groups cmd)) ks.
Proof.
  intros O. induction ks as [|k' ks IH]; intros st k K S T; [reflexivity|]. cbn [answers map]. inversion T as [|x y T1 T2]; subst. inversion T2 as [|x y T3 T4]; subst. pose proof (ask_spec groups cmd st k k' O K T3 S) as A. destruct (ask groups cmd st k') as [st' a]. destruct A as [-> A]. f_equal.
  apply (IH st' k'); [lia|exact A|exact T1].
Qed.

(** * Dependencies *)
Lemma grouped_spec rules o : grouped rules o = true <-> inAGroup rules o.
Proof.
  unfold grouped, inAGroup. destruct (nth_error rules o) as [r|]; [|split; [discriminate|intros (r & g & H & _); discriminate H]]. destruct (rGroup r) as [g|] eqn:E; split.
  - intros _. exists r, g. auto.
  - reflexivity.
  - discriminate.
  - intros (r' & g & [= <-] & H). congruence.
Qed.
Lemma valueAt_spec rules c d idx dv : valueAt rules c d idx dv <-> confValue c d (if grouped rules d then idx else 0%nat) = Ok dv.
Proof.
  unfold valueAt, confValue. split.
  - intros (row & i & -> & E & [[G ->]|[G ->]]).
    + apply grouped_spec in G. rewrite G, E. reflexivity.
    + destruct (grouped rules d) eqn:Q; [exfalso; apply G; apply grouped_spec; exact Q|]. rewrite E. reflexivity.
  - destruct (confGet c d) as [row|]; [|discriminate]. destruct (nth_error row _) as [v|] eqn:E; [|discriminate]. intros [= <-]. exists row, (if grouped rules d then idx else 0%nat). split; [reflexivity|]. split; [exact E|].
    destruct (grouped rules d) eqn:Q; [left; split; [apply grouped_spec; exact Q|reflexivity]|right; split; [intros G; apply grouped_spec in G; congruence|reflexivity]].
Qed.
Lemma depMatch_bool v : forall l m, (forall x, In x l -> exists b, x = DepBool b) -> let '(ok, m') := depMatch v l m in m' = m /\ (ok = true <-> exists b, In (DepBool b) l /\ b = match cvValue v with VBool x => x | _ => false end).
Proof.
  induction l as [|x l IH]; intros m H; cbn [depMatch]; [split; [reflexivity|split; [discriminate|intros (b & [] & _)]]|]. destruct (H x (or_introl eq_refl)) as (b & ->). destruct (Bool.eqb _ _) eqn:E.
  - split; [reflexivity|]. split; [intros _|reflexivity]. apply Bool.eqb_prop in E. exists b. split; [left; reflexivity|exact E].
  - specialize (IH m (fun x Hx => H x (or_intror Hx))). destruct (depMatch v l m) as [ok m']. destruct IH as [-> IH]. split; [reflexivity|]. rewrite IH. split; [intros (b' & H1 & H2); exists b'; split; [right; exact H1|exact H2]|].
    intros (b' & [H1|H1] & H2); [|exists b'; split; assumption]. injection H1 as ->. rewrite <- H2, Bool.eqb_reflx in E. discriminate.
Qed.
Lemma depMatch_text v : forall l m, (forall x, In x l -> exists s, x = DepText s) -> let '(ok, m') := depMatch v l m in (ok = true -> exists s, In (DepText s) l /\ cvDisplay v = Some s /\ m' = s) /\ ((exists s, In (DepText s) l /\ cvDisplay v = Some s) -> ok = true).
Proof.
  induction l as [|x l IH]; intros m H; cbn [depMatch]; [split; [discriminate|intros (b & [] & _)]|]. destruct (H x (or_introl eq_refl)) as (s & ->). destruct (match cvDisplay v with Some d => strEqb s d | None => false end) eqn:E.
  - destruct (cvDisplay v) as [d|] eqn:D; [|discriminate]. apply strEqb_eq in E. subst d. split; [intros _; exists s; split; [left; reflexivity|auto]|reflexivity].
  - specialize (IH s (fun x Hx => H x (or_intror Hx))). destruct (depMatch v l s) as [ok m']. destruct IH as [I1 I2]. split.
    + intros Q. destruct (I1 Q) as (s' & H1 & H2 & H3). exists s'. split; [right; exact H1|auto].
    + intros (s' & [H1|H1] & H2); [|apply I2; exists s'; auto]. injection H1 as ->. rewrite H2, strEqb_refl in E. discriminate.
Qed.
Lemma depend_spec first dv vals : oneType vals -> let '(ok, m) := depend dv vals first in if ok then depMet first dv vals m /\ (forall m', depMet first dv vals m' -> m' = m) else forall m', ~ depMet first dv vals m'.
Proof.
  intros T. unfold depend, depMet. destruct (cvSet dv) eqn:S; [|intros m' [H _]; congruence]. destruct vals as [|x vals].
  - split; [split; [reflexivity|left; auto]|]. intros m' [_ [[_ ->]|[(b & [] & _)|(s & [] & _)]]]. reflexivity.
  - set (l := x :: vals) in *. assert (NE : l <> []) by discriminate. clearbody l. destruct T as [T|T].
    + pose proof (depMatch_bool dv l first T) as D. destruct (depMatch dv l first) as [ok m]. destruct D as [-> D]. destruct ok.
      * destruct (proj1 D eq_refl) as (b & H1 & H2). split; [split; [reflexivity|right; left; exists b; auto]|]. intros m' [_ [[N _]|[(b' & _ & _ & ->)|(s & H & _)]]]; [congruence|reflexivity|destruct (T _ H); discriminate].
      * intros m' [_ [[N _]|[(b' & H1' & H2' & _)|(s & H & _)]]]; [congruence| |destruct (T _ H); discriminate]. assert (false = true) by (apply D; exists b'; auto). discriminate.
    + pose proof (depMatch_text dv l first T) as D. destruct (depMatch dv l first) as [ok m]. destruct D as [D1 D2]. destruct ok.
      * destruct (D1 eq_refl) as (s & H1 & H2 & ->). split; [split; [reflexivity|right; right; exists s; auto]|]. intros m' [_ [[N _]|[(b' & H & _)|(s' & H1' & H2' & ->)]]]; [congruence|destruct (T _ H); discriminate|congruence].
      * intros m' [_ [[N _]|[(b' & H & _)|(s & H1' & H2' & _)]]]; [congruence|destruct (T _ H); discriminate|]. assert (false = true) by (apply D2; exists s; auto). discriminate.
Qed.
