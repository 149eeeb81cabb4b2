(** Which backup a repository has for a restore. *)
From Verif Require Import Base Str LsnModel TimeModel SetModel.
Open Scope Z_scope.

(** What is asked for *)
Inductive want := WSet (label : str) | WTime (t : Z) | WLsn (l : Z) | WLatest.
(** The options ask for it: a set is taken as it is, a time by C47 and an lsn by C11 *)
Inductive asks (mktime : Z -> Z -> Z -> Z -> Z -> Z -> Z) : option str -> stype -> want -> Prop :=
| AskSet l type : asks mktime (Some l) type (WSet l)
| AskEpoch s e : cvtZToTime s = Ok (TEpoch e) -> asks mktime None (STime s) (WTime e)
| AskLocal s y m d h mi se : cvtZToTime s = Ok (TLocal y m d h mi se) -> asks mktime None (STime s) (WTime (mktime y m d h mi se))
| AskLsn s l : lsnFromStr s = Ok l -> asks mktime None (SLsn s) (WLsn l)
| AskLatest : asks mktime None SOther WLatest.

Definition lsnAbove (l : Z) (b : sbackup) : Prop := exists s v, sbLsnStop b = Some s /\ lsnFromStr s = Ok v /\ l < v.
(** The repository has this backup for it: the newest one that ended before the time, or at the lsn or before it, or the newest one at all *)
Definition offers (w : want) (i : sinfo) (label : str) : Prop :=
  match w with
  | WSet l => label = l /\ In l (map sbLabel (siBackups i))
  | WTime t => exists older b newer, siBackups i = older ++ b :: newer /\ sbLabel b = label /\ sbStop b < t /\ Forall (fun x => t <= sbStop x) newer
  | WLsn l => exists older b newer s v, siBackups i = older ++ b :: newer /\ sbLabel b = label /\ sbLsnStop b = Some s /\ lsnFromStr s = Ok v /\ v <= l /\ Forall (lsnAbove l) newer
  | WLatest => exists older b, siBackups i = older ++ [b] /\ sbLabel b = label /\ siCurrentPgId i <= sbPgId b
  end.
(** It has none.  By lsn, a backup without one ends the search in a repository. *)
Definition lacks (w : want) (i : sinfo) : Prop :=
  match w with
  | WSet l => ~ In l (map sbLabel (siBackups i))
  | WTime t => Forall (fun x => t <= sbStop x) (siBackups i)
  | WLsn l => exists older newer, siBackups i = older ++ newer /\ Forall (lsnAbove l) newer /\ (older = [] \/ exists o b, older = o ++ [b] /\ sbLsnStop b = None)
  | WLatest => siBackups i = []
  end.
(** It ends the search with an error *)
Definition refuses (w : want) (i : sinfo) (e : errkind) : Prop :=
  match w with
  | WLatest => exists older b, siBackups i = older ++ [b] /\ sbPgId b < siCurrentPgId i /\ e = EBackupSetInvalid
  | WLsn l => exists older b newer s, siBackups i = older ++ b :: newer /\ sbLsnStop b = Some s /\ lsnFromStr s = Err e /\ Forall (lsnAbove l) newer
  | _ => False
  end.
(** A repository that is passed over: backup.info could not be loaded or there is nothing for it *)
Definition passed (w : want) (r : srepo) : Prop := snd r = Ok None \/ exists i, snd r = Ok (Some i) /\ lacks w i.
(** The repositories that are looked at *)
Definition looked (repo : option Z) (repos : list srepo) (l : list srepo) : Prop :=
  match repo with None => l = repos | Some i => l = filter (fun r => fst r =? i) repos end.
