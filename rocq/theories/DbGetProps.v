(** C88: finding the primary and a standby. *)
From Verif Require Import Base DbGetModel DbGetSpec DbGetProof.

(** The clusters found are the right ones. *)
Theorem C88_right primaryOnly primaryRequired standbyRequired clusters r :
  dbGet primaryOnly primaryRequired standbyRequired clusters = Ok r <-> right primaryOnly primaryRequired standbyRequired clusters r.
Proof.
  unfold dbGet. pose proof (loop_spec primaryOnly clusters [] (mkFound None None)) as L. cbn [length app] in L. assert (S0 : so primaryOnly [] (mkFound None None)).
  { split; cbn; [intros [|i]; discriminate|]. destruct primaryOnly; [reflexivity|]. intros [|i]; discriminate. }
  specialize (L S0). destruct (dbLoop primaryOnly 0 clusters (mkFound None None)) as [x|e|]; [| |contradiction]; cbn [bind].
  - unfold right. split.
    + intros H. assert (x = r /\ (primaryRequired = true -> fPrimary x <> None) /\ (standbyRequired = true -> fStandby x <> None)) as (<- & A & B).
      { destruct (fPrimary x), (fStandby x), primaryRequired, standbyRequired; cbn in H; try discriminate; injection H as <-; repeat split; discriminate. }
      destruct L. repeat split; assumption.
    + intros (P & S & A & B). assert (x = r) as -> by (apply (so_det primaryOnly clusters); [assumption|now split]).
      destruct (fPrimary r) as [p|]; [|destruct primaryRequired; [now destruct (A eq_refl)|]]; (destruct (fStandby r) as [s|]; [|destruct standbyRequired; [now destruct (B eq_refl)|]]); reflexivity.
  - split; [discriminate|]. intros (P & _). destruct L as (_ & i & j & N & I & J). exfalso. destruct (fPrimary r) as [p|]; [|exact (P i I)]. apply N. apply P in I as ->. apply P in J as ->. reflexivity.
Qed.
Print Assumptions C88_right.
(** It fails just if there are two primaries, a primary is required and there is none, or a standby is required and there is none. *)
Theorem C88_fails primaryOnly primaryRequired standbyRequired clusters : (primaryOnly = true -> standbyRequired = false) ->
  (dbGet primaryOnly primaryRequired standbyRequired clusters = Err EOther <->
   (exists i j, i <> j /\ isPrimary clusters i /\ isPrimary clusters j) \/ (primaryRequired = true /\ forall i, ~ isPrimary clusters i) \/ (standbyRequired = true /\ forall i, ~ isStandby clusters i)) /\
  dbGet primaryOnly primaryRequired standbyRequired clusters <> UB.
Proof.
  intros PO. unfold dbGet. pose proof (loop_spec primaryOnly clusters [] (mkFound None None)) as L. cbn [length app] in L. assert (S0 : so primaryOnly [] (mkFound None None)).
  { split; cbn; [intros [|i]; discriminate|]. destruct primaryOnly; [reflexivity|]. intros [|i]; discriminate. }
  specialize (L S0). destruct (dbLoop primaryOnly 0 clusters (mkFound None None)) as [x|e|]; [| |contradiction]; cbn [bind].
  - destruct L as (P & S). split.
    + split.
      * intros H. destruct (fPrimary x) as [p|]; [|destruct primaryRequired; [right; left; now split|]]; cbn in H; (destruct (fStandby x) as [s|] eqn:FS; [discriminate|]); (destruct standbyRequired; [|discriminate]); right; right; (split; [reflexivity|]); (destruct primaryOnly; [discriminate (PO eq_refl)|exact S]).
      * intros [(i & j & N & I & J)|[(-> & N)|(-> & N)]].
        -- exfalso. destruct (fPrimary x) as [p|]; [|exact (P i I)]. apply N. apply P in I as ->. apply P in J as ->. reflexivity.
        -- destruct (fPrimary x) as [p|]; [|reflexivity]. destruct (N p). now apply P.
        -- destruct primaryOnly; [discriminate (PO eq_refl)|]. destruct (fStandby x) as [s|]; [destruct (N s); apply S|]. now destruct (_ && _).
    + destruct (_ && _); [discriminate|]. destruct (_ && _); discriminate.
  - destruct L as (-> & L). split; [|discriminate]. split; [intros _; now left|reflexivity].
Qed.
Print Assumptions C88_fails.
(** One that can not be connected to, two standbys and a primary. *)
Example C88_nontrivial :
  dbGet false true true [None; Some true; Some false; Some true] = Ok (mkFound (Some 2%nat) (Some 1%nat)) /\ dbGet true true false [Some true; Some false] = Ok (mkFound (Some 1%nat) None) /\
  dbGet false true false [Some false; None; Some false] = Err EOther /\ dbGet false true false [Some true; None] = Err EOther /\ dbGet false false false [Some true; None] = Ok (mkFound None (Some 0%nat)) /\ dbGet false true true [Some false; None] = Err EOther.
Proof. repeat split. Qed.
