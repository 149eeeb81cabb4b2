(** C84: the command line of another process passes on the options. *)
From Verif Require Import Base Str RegNameModel ExecModel ExecSpec ExecProof.
From Coq Require Import String List.
Open Scope Z_scope. Open Scope list_scope.

(** Not quoted, the arguments are read as exactly what is wanted of each option, in order; the command is last. *)
Theorem C84_args rp local opts command : NoDup (map fst rp) -> Forall (fun o => optName (eName o)) opts ->
  exists acts args, Forall2 (wants rp local) opts acts /\ cfgExecParam rp local false opts command = args ++ [command] /\ map readArg args = map Some (concat acts).
Proof.
  intros ND N. unfold cfgExecParam. cut (exists acts, Forall2 (wants rp local) opts acts /\ map readArg (flat_map (execOne rp local false) opts) = map Some (concat acts)).
  { intros (acts & W & R). exists acts. eexists. split; [exact W|]. split; [reflexivity|exact R]. }
  induction N as [|o opts N NS IH]; [exists []; split; [constructor|reflexivity]|]. destruct IH as (acts & W & R). destruct (one_wants rp local o ND N) as (a & WA & RA).
  exists (a :: acts). split; [now constructor|]. cbn [flat_map concat]. now rewrite !map_app, RA, R.
Qed.
Print Assumptions C84_args.
(** What is wanted is determined. *)
Theorem C84_one rp local o a b : NoDup (map fst rp) -> wants rp local o a -> wants rp local o b -> a = b.
Proof.
  intros ND A B.
  assert (PF : forall v w, passes rp local o v -> passes rp local o w -> v = w) by (intros v w P Q; apply (passed_iff _ _ _ _ ND) in P; apply (passed_iff _ _ _ _ ND) in Q; congruence).
  assert (PR : forall v, passes rp local o v -> ~ toReset rp o).
  { intros v P (N & H & R & G & S). inversion P as [x I|_ _ G2 _|x _ _ _ V L]; subst; [destruct (N _ I)|congruence|]. destruct S as [S|S]; [|congruence]. rewrite S in L. destruct L as [(_ & L)|L]; discriminate. }
  inversion A as [B1|v N1 P1|N1 T1|N1 Q1 T1]; inversion B as [B2|w N2 P2|N2 T2|N2 Q2 T2]; subst; try contradiction; try reflexivity; try (now destruct (PR _ P1)); try (now destruct (PR _ P2)); try (now destruct (Q1 _ P2)); try (now destruct (Q2 _ P1)).
  now rewrite (PF _ _ P1 P2).
Qed.
Print Assumptions C84_one.
(** No argument names an option that is secure, not valid there, or the cipher type. *)
Theorem C84_secure rp local opts command : NoDup (map fst rp) -> Forall (fun o => optName (eName o)) opts -> forall args, cfgExecParam rp local false opts command = args ++ [command] ->
  forall a, In a args -> exists o act, In o opts /\ eSecure o = false /\ eValid o = true /\ eCipher o = false /\ readArg a = Some act /\
    match act with AReset n => n = eName o | ABool n _ => n = eName o | ASet n _ => n = eName o end.
Proof.
  intros ND N args E a I. unfold cfgExecParam in E. apply app_inj_tail in E as (<- & _). apply in_flat_map in I as (o & O & I). rewrite Forall_forall in N.
  destruct (one_wants rp local o ND (N o O)) as (acts & W & R). assert (J : In (readArg a) (map Some acts)) by (rewrite <- R; now apply in_map). apply in_map_iff in J as (x & X & J).
  exists o, x. split; [exact O|].
  assert (B : ~ barred o) by (inversion W; subst; auto; destruct J). unfold barred in B. destruct (eSecure o), (eValid o), (eCipher o); try (exfalso; apply B; auto; fail). repeat (split; [auto|]).
  inversion W as [B2|v N2 P2|N2 T2|N2 Q2 T2]; subst; try (now destruct J).
  - destruct v as [b|kv|l|t]; cbn [actsOf] in J; [destruct J as [<-|[]]; reflexivity|apply in_map_iff in J as (? & <- & _); reflexivity|apply in_map_iff in J as (? & <- & _); reflexivity|destruct J as [<-|[]]; reflexivity].
  - destruct J as [<-|[]]. reflexivity.
Qed.
Print Assumptions C84_secure.
(** Quoted and joined by spaces, the shell reads the same arguments, if each value passed is one that the shell leaves alone. *)
Theorem C84_shell rp local opts command : NoDup (map fst rp) -> Forall (fun o => shellName (eName o)) opts -> shellName command ->
  (forall o v t, In o opts -> passes rp local o v -> In t (texts v) -> shellSafe t) ->
  shell ShNone (joinSp (cfgExecParam rp local true opts command)) = Some (cfgExecParam rp local false opts command).
Proof.
  intros ND N C S. apply join_reads; [|unfold cfgExecParam; destruct (flat_map _ _); discriminate]. unfold cfgExecParam. apply Forall2_app; [|constructor; [|constructor]].
  - clear C command. induction opts as [|o opts IH]; [constructor|]. inversion N as [|? ? N1 N2]; subst. cbn [flat_map]. apply Forall2_app.
    + apply one_reads; [exact N1|]. intros v t P I. apply (S o v t); [now left|now apply passed_iff|exact I].
    + apply IH; [exact N2|]. intros o' v t O. apply S. now right.
  - apply plain_reads; [apply C|now apply name_plain].
Qed.
Print Assumptions C84_shell.
(** Other values are not passed on: one with a double quote and spaces gives the other process an option that was never set, and one without spaces is not quoted at all, so the shell does not read it as a word. *)
Definition exOpt (t : str) : eopt := mkEopt (txt "pg1-path") true false false true false false SrcParam (Some (VOne t)).
Theorem C84_shell_refuted :
  (exists t, shell ShNone (joinSp (cfgExecParam [] false true [exOpt t] (txt "backup:remote"))) = Some [txt "--pg1-path=a"; txt "--repo1-path=b"; txt "c"; txt "backup:remote"]) /\
  (exists t, shell ShNone (joinSp (cfgExecParam [] false true [exOpt t] (txt "backup:remote"))) = None /\ ~ In 32 t /\ ~ In 34 t).
Proof.
  split; [exists (txt "a"" --repo1-path=b ""c"); reflexivity|]. exists (txt "a;b"). split; [reflexivity|]. split; cbn; intuition discriminate.
Qed.
Print Assumptions C84_shell_refuted.
Definition exOpts : list eopt :=
  [mkEopt (txt "compress") true false false true true false SrcParam (Some (VBool false));
   mkEopt (txt "db-include") true false false true false false SrcConfig (Some (VLst [txt "a"; txt "b c"]));
   mkEopt (txt "pg1-path") true false false true false true SrcDefault None;
   mkEopt (txt "repo1-cipher-pass") true true false true false false SrcConfig (Some (VOne (txt "x")));
   mkEopt (txt "repo1-path") true false false false false false SrcDefault None;
   mkEopt (txt "tablespace-map") true false false true false false SrcParam (Some (VKv [(txt "1", txt "/a=b")]))].
Example C84_nontrivial :
  cfgExecParam [(txt "repo1-path", Some (VOne (txt "/r")))] false true exOpts (txt "restore:remote") =
    [txt "--no-compress"; txt "--db-include=a"; txt "--db-include=""b c"""; txt "--reset-pg1-path"; txt "--repo1-path=/r"; txt "--tablespace-map=1=/a=b"; txt "restore:remote"] /\
  cfgExecParam [] true false exOpts (txt "restore:local") = [txt "--no-compress"; txt "--reset-pg1-path"; txt "--tablespace-map=1=/a=b"; txt "restore:local"] /\
  Forall (fun o => optName (eName o)) exOpts /\ Forall (fun o => shellName (eName o)) exOpts /\ shellSafe (txt "b c") /\ NoDup (map fst [(txt "repo1-path", Some (VOne (txt "/r")))]).
Proof.
  split; [reflexivity|]. split; [reflexivity|]. split; [|split; [|split]].
  - repeat constructor; cbn; intuition discriminate.
  - repeat constructor; try discriminate; try (cbn; intuition discriminate); intros c I; repeat (destruct I as [<-|I]; [reflexivity|]); destruct I.
  - repeat split; try (cbn; intuition discriminate); intros; repeat match goal with I : In _ _ |- _ => destruct I as [<-|I]; [reflexivity|] end; try contradiction.
  - repeat constructor. intros [].
Qed.
