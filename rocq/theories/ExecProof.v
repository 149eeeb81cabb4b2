From Verif Require Import Base Str RegNameModel ExecModel ExecSpec.
From Coq Require Import String List.
Open Scope Z_scope. Open Scope list_scope.

Lemma barred_iff o : negb (eValid o) || eSecure o || eCipher o = true <-> barred o.
Proof. unfold barred. destruct (eValid o), (eSecure o), (eCipher o); cbn; split; intros H; auto; try discriminate; destruct H as [H|[H|H]]; discriminate. Qed.
Lemma replaced_none rp n : replaced rp n = None <-> forall x, ~ In (n, x) rp.
Proof.
  induction rp as [|(k, v) r IH]; cbn; [split; [intros _ x []|reflexivity]|]. destruct (strEqb k n) eqn:E.
  - apply strEqb_eq in E as ->. split; [discriminate|]. intros H. destruct (H v). now left.
  - rewrite IH. split; intros H x; [intros [X|X]; [injection X as -> ->; rewrite strEqb_refl in E; discriminate|now apply (H x)]|intros X; apply (H x); now right].
Qed.
Lemma replaced_some rp n v : NoDup (map fst rp) -> replaced rp n = Some v <-> In (n, v) rp.
Proof.
  induction rp as [|(k, w) r IH]; cbn; intros ND; [split; [discriminate|intros []]|]. inversion ND as [|? ? N ND']; subst. destruct (strEqb k n) eqn:E.
  - apply strEqb_eq in E as ->. split; [intros H; injection H as ->; now left|]. intros [H|H]; [congruence|]. exfalso. apply N. apply in_map_iff. exists (n, v). auto.
  - rewrite IH by assumption. split; [now right|]. intros [H|H]; [injection H as -> ->; rewrite strEqb_refl in E; discriminate|exact H].
Qed.

(** The value that execOne passes *)
Definition passed (rp : list (str * option value)) (local : bool) (o : eopt) : option value :=
  match replaced rp (eName o) with
  | Some v => v
  | None => if eHere o then (if eNegate o then (if negb local || isParam (eSource o) then Some (VBool false) else None)
            else match eSource o with SrcDefault => None | SrcParam => eValue o | SrcConfig => if local then None else eValue o end) else None
  end.
Lemma passed_iff rp local o v : NoDup (map fst rp) -> passed rp local o = Some v <-> passes rp local o v.
Proof.
  intros ND. unfold passed. destruct (replaced rp (eName o)) as [w|] eqn:R.
  - apply (replaced_some _ _ _ ND) in R as I. split.
    + intros ->. now constructor.
    + intros H. inversion H as [x P|N|x N]; subst; [|destruct (N _ I)|destruct (N _ I)]. apply (replaced_some _ _ _ ND) in P. congruence.
  - pose proof (proj1 (replaced_none _ _) R) as N. split.
    + destruct (eHere o) eqn:H; [|discriminate]. destruct (eNegate o) eqn:G.
      * destruct local, (eSource o) eqn:S; cbn; intros X; try discriminate; injection X as <-; apply passNegate; auto.
      * destruct (eSource o) eqn:S; [discriminate| |]; intros X; [apply passValue; auto|]. destruct local; [discriminate|]. apply passValue; auto.
    + intros P. inversion P as [x I|_ H G L|x _ H G V L]; subst; [destruct (N _ I)| |].
      * rewrite H, G. destruct L as [-> | ->]; cbn; [reflexivity|]. now rewrite orb_true_r.
      * rewrite H, G. destruct L as [(-> & ->)| ->]; exact V.
Qed.
Definition render (quote : bool) (n : str) (v : value) : list str :=
  match v with VBool b => [txt "--" ++ (if b then [] else txt "no-") ++ n] | _ => map (fun t => txt "--" ++ n ++ txt "=" ++ quoted quote t) (texts v) end.
Definition resets (rp : list (str * option value)) (o : eopt) : bool :=
  match replaced rp (eName o) with
  | Some _ => false
  | None => eHere o && eReset o && negb (eNegate o) && (isDefault (eSource o) || match eValue o with None => true | _ => false end)
  end.
Lemma resets_iff rp o : resets rp o = true <-> toReset rp o.
Proof.
  unfold resets, toReset. rewrite <- replaced_none. destruct (replaced rp (eName o)); [split; [discriminate|intros (X & _); discriminate]|]. split.
  - intros H. apply andb_prop in H as (H & S). apply andb_prop in H as (H & G). apply andb_prop in H as (H & R). apply negb_true_iff in G. repeat split; auto.
    destruct (eSource o); auto; destruct (eValue o); cbn in S; auto; discriminate.
  - intros (_ & -> & -> & -> & [-> | ->]); cbn; [reflexivity|apply orb_true_r].
Qed.
Lemma one_eq rp local quote o : ~ barred o ->
  execOne rp local quote o = match passed rp local o with Some v => render quote (eName o) v | None => if resets rp o then [txt "--reset-" ++ eName o] else [] end.
Proof.
  intros B. unfold execOne. destruct (negb (eValid o) || eSecure o || eCipher o) eqn:E; [destruct B; now apply barred_iff|]. unfold passed, resets.
  destruct (replaced rp (eName o)) as [[v|]|]; [|reflexivity|].
  - rewrite orb_true_r. reflexivity.
  - destruct (eHere o), (eNegate o), (eReset o), (eSource o), local, (eValue o) as [[]|]; reflexivity.
Qed.

(** * Reading *)
Lemma strip_app p s : strip p (p ++ s) = Some s.
Proof. unfold strip. rewrite firstn_app, Nat.sub_diag, firstn_all, firstn_O, app_nil_r, strEqb_refl. rewrite skipn_app, skipn_all, Nat.sub_diag. reflexivity. Qed.
Lemma cutEq_app n v : ~ In 61 n -> cutEq (n ++ 61 :: v) = (n, Some v).
Proof. induction n as [|c n IH]; intros N; cbn; [reflexivity|]. destruct (Z.eqb_spec c 61); [destruct N; now left|]. rewrite IH; [reflexivity|]. intros I. apply N. now right. Qed.
Lemma cutEq_none n : ~ In 61 n -> cutEq n = (n, None).
Proof. induction n as [|c n IH]; intros N; cbn; [reflexivity|]. destruct (Z.eqb_spec c 61); [destruct N; now left|]. rewrite IH; [reflexivity|]. intros I. apply N. now right. Qed.
Lemma read_set n v : optName n -> readArg (txt "--" ++ n ++ txt "=" ++ v) = Some (ASet n v).
Proof. intros (N & _). unfold readArg. rewrite strip_app. change (txt "=" ++ v) with (61 :: v). now rewrite cutEq_app. Qed.
Lemma read_true n : optName n -> readArg (txt "--" ++ n) = Some (ABool n true).
Proof. intros (N & R & G). unfold readArg. rewrite strip_app, cutEq_none by exact N. now rewrite R, G. Qed.
Lemma read_false n : optName n -> readArg (txt "--" ++ txt "no-" ++ n) = Some (ABool n false).
Proof.
  intros (N & R & G). unfold readArg. rewrite strip_app, cutEq_none.
  - assert (S : strip (txt "reset-") (txt "no-" ++ n) = None) by (unfold strip; reflexivity). rewrite S. now rewrite strip_app.
  - intros I. apply in_app_or in I as [I|I]; [cbn in I; intuition discriminate|auto].
Qed.
Lemma read_reset n : optName n -> readArg (txt "--reset-" ++ n) = Some (AReset n).
Proof.
  intros (N & _). change (txt "--reset-" ++ n) with (txt "--" ++ txt "reset-" ++ n). unfold readArg. rewrite strip_app, cutEq_none; [now rewrite strip_app|].
  intros I. apply in_app_or in I as [I|I]; [cbn in I; intuition discriminate|auto].
Qed.
Lemma render_read n v : optName n -> map readArg (render false n v) = map Some (actsOf n v).
Proof.
  intros N. destruct v as [b|kv|l|t]; cbn [render actsOf texts]; unfold quoted; cbn [andb].
  - destruct b; cbn [map app]; [now rewrite read_true|now rewrite read_false].
  - rewrite !map_map. apply map_ext. intros (k, v). now rewrite read_set.
  - rewrite !map_map. apply map_ext. intros v. now rewrite read_set.
  - cbn [map]. now rewrite read_set.
Qed.
Lemma one_wants rp local o : NoDup (map fst rp) -> optName (eName o) -> exists acts, wants rp local o acts /\ map readArg (execOne rp local false o) = map Some acts.
Proof.
  intros ND N. destruct (negb (eValid o) || eSecure o || eCipher o) eqn:E.
  - exists []. split; [apply wantBarred; now apply barred_iff|]. unfold execOne. now rewrite E.
  - assert (B : ~ barred o) by (intros B; apply barred_iff in B; congruence). rewrite (one_eq _ _ _ _ B). destruct (passed rp local o) as [v|] eqn:P.
    + exists (actsOf (eName o) v). split; [apply wantValue; [exact B|now apply passed_iff]|now apply render_read].
    + destruct (resets rp o) eqn:R.
      * exists [AReset (eName o)]. split; [apply wantReset; [exact B|now apply resets_iff]|]. cbn [map]. now rewrite read_reset.
      * exists []. split; [apply wantNone; [exact B| |]|reflexivity]; [intros v V; apply passed_iff in V; [congruence|exact ND]|intros T; apply resets_iff in T; congruence].
Qed.

(** * The shell *)
Definition plainC (c : Z) : Prop := c <> 32 /\ c <> 34 /\ special c = false.
Lemma shell_word s : forall w r, Forall plainC s -> shell (ShWord w) (s ++ r) = shell (ShWord (rev s ++ w)) r.
Proof.
  induction s as [|c s IH]; intros w r P; [reflexivity|]. inversion P as [|? ? (A & B & C) P']; subst. cbn [app shell]. destruct (Z.eqb_spec c 32); [contradiction|]. destruct (Z.eqb_spec c 34); [contradiction|]. rewrite C, IH by assumption.
  cbn [rev]. now rewrite <- app_assoc.
Qed.
Lemma shell_quote s : forall w r, ~ In 34 s -> (forall c, In c s -> specialQ c = false) -> shell (ShQuote w) (s ++ 34 :: r) = shell (ShWord (rev s ++ w)) r.
Proof.
  induction s as [|c s IH]; intros w r N P; [reflexivity|]. cbn [app shell]. destruct (Z.eqb_spec c 34) as [->|]; [destruct N; now left|]. rewrite (P c) by now left. rewrite IH.
  - cbn [rev]. now rewrite <- app_assoc.
  - intros I. apply N. now right.
  - intros x I. apply P. now right.
Qed.
(** [a] is read as the word [w], whatever follows *)
Definition readsAs (a w : str) : Prop := forall r, shell ShNone (a ++ r) = shell (ShWord (rev w)) r.
Lemma join_reads l : forall ws, Forall2 readsAs l ws -> l <> [] -> shell ShNone (joinSp l) = Some ws.
Proof.
  induction l as [|a l IH]; intros ws F N; [congruence|]. inversion F as [|? w ? ws' R F']; subst. destruct l as [|b l].
  - inversion F'; subst. cbn [joinSp]. rewrite <- (app_nil_r a), (R []). cbn. now rewrite rev_involutive.
  - change (joinSp (a :: b :: l)) with (a ++ 32 :: joinSp (b :: l)). rewrite (R _). cbn [shell]. change (32 =? 32) with true. cbv iota. rewrite (IH ws' F') by discriminate. now rewrite rev_involutive.
Qed.
Lemma name_plain n : shellName n -> Forall plainC n.
Proof. intros (_ & A & B & C). apply Forall_forall. intros c I. repeat split; [intros ->; auto|intros ->; auto|now apply C]. Qed.
Lemma plain_reads s : s <> [] -> Forall plainC s -> readsAs s s.
Proof.
  intros N P r. destruct s as [|c s]; [congruence|]. inversion P as [|? ? (A & B & C) P']; subst. cbn [app shell]. destruct (Z.eqb_spec c 32); [contradiction|]. destruct (Z.eqb_spec c 34); [contradiction|]. rewrite C, shell_word by assumption. reflexivity.
Qed.
Lemma lit_plain (l : str) : forallb (fun c => negb (c =? 32) && negb (c =? 34) && negb (special c)) l = true -> Forall plainC l.
Proof.
  intros H. apply Forall_forall. intros c I. rewrite forallb_forall in H. specialize (H c I). apply andb_prop in H as (H & S). apply andb_prop in H as (A & B). apply negb_true_iff in A, B, S. apply Z.eqb_neq in A, B. repeat split; assumption.
Qed.
Lemma set_reads n t : shellName n -> shellSafe t -> readsAs (txt "--" ++ n ++ txt "=" ++ quoted true t) (txt "--" ++ n ++ txt "=" ++ t).
Proof.
  intros N (Q & S & P). unfold quoted. cbn [andb]. destruct (existsb (Z.eqb 32) t) eqn:E.
  - intros r. assert (PL : Forall plainC (txt "--" ++ n ++ txt "=")) by (apply Forall_app; split; [now apply lit_plain|apply Forall_app; split; [now apply name_plain|now apply lit_plain]]).
    assert (X : (txt "--" ++ n ++ txt "=" ++ txt """" ++ t ++ txt """") ++ r = (txt "--" ++ n ++ txt "=") ++ 34 :: (t ++ 34 :: r)) by (rewrite <- !app_assoc; reflexivity). rewrite X.
    assert (NE : txt "--" ++ n ++ txt "=" <> []) by discriminate. rewrite (plain_reads _ NE PL). cbn [shell]. change (34 =? 32) with false. change (34 =? 34) with true. cbv iota. rewrite shell_quote by assumption. f_equal. f_equal.
    rewrite <- rev_app_distr. f_equal. rewrite <- !app_assoc. reflexivity.
  - apply plain_reads; [discriminate|]. assert (NS : ~ In 32 t) by (intros I; assert (existsb (Z.eqb 32) t = true) by (apply existsb_exists; exists 32; auto); congruence).
    apply Forall_app; split; [now apply lit_plain|apply Forall_app; split; [now apply name_plain|apply Forall_app; split; [now apply lit_plain|]]].
    apply Forall_forall. intros c I. repeat split; [intros ->; auto|intros ->; auto|now apply P].
Qed.
Lemma render_reads n v : shellName n -> (forall t, In t (texts v) -> shellSafe t) -> Forall2 readsAs (render true n v) (render false n v).
Proof.
  intros N S. assert (PN := name_plain _ N).
  assert (L : forall l, (forall t, In t l -> shellSafe t) -> Forall2 readsAs (map (fun t => txt "--" ++ n ++ txt "=" ++ quoted true t) l) (map (fun t => txt "--" ++ n ++ txt "=" ++ quoted false t) l)).
  { induction l as [|t l IH]; intros H; cbn [map]; constructor; [apply set_reads; [exact N|apply H; now left]|apply IH; intros x I; apply H; now right]. }
  destruct v as [b|kv|l|t]; cbn [render]; try (apply L; exact S). constructor; [|constructor]. apply plain_reads; [discriminate|].
  apply Forall_app; split; [now apply lit_plain|apply Forall_app; split; [destruct b; now apply lit_plain|exact PN]].
Qed.
Lemma one_reads rp local o : shellName (eName o) -> (forall v t, passed rp local o = Some v -> In t (texts v) -> shellSafe t) -> Forall2 readsAs (execOne rp local true o) (execOne rp local false o).
Proof.
  intros N S. destruct (negb (eValid o) || eSecure o || eCipher o) eqn:E; [unfold execOne; rewrite E; constructor|].
  assert (B : ~ barred o) by (intros B; apply barred_iff in B; congruence). rewrite !(one_eq _ _ _ _ B). destruct (passed rp local o) as [v|] eqn:P; [apply render_reads; [exact N|intros t; now apply (S v t)]|].
  destruct (resets rp o); constructor; [|constructor]. apply plain_reads; [discriminate|]. apply Forall_app; split; [now apply lit_plain|now apply name_plain].
Qed.
