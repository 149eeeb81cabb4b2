(** Lock files as a transition system of any number of processes.  Models src/common/lock.c lockAcquire, lockRead, lockWrite and lockRelease for one
    lock file name.

    One step is one system call on the lock file.  A file (inode) lives on while it is open, also when the name is gone.  An flock() belongs to the
    one descriptor a process has open.  Simplifications: reading gives the exec id written or nothing; the creation of a missing lock path and
    its retry, other errors of open(), the JSON text and the progress fields are left out.  Rewriting by the holder (lockWrite for progress)
    keeps the exec id. *)
From Verif Require Import Base.
Open Scope nat_scope.

(** Where a process is. *)
Inductive pc :=
| Idle                       (* no lock, no descriptor *)
| Opened (i : nat)           (* lock.c:191 done, before flock *)
| Blocked (i : nat)          (* flock failed, lock.c:206-233 *)
| Locked (i : nat)           (* flock done, before lock.c:279 lockWrite *)
| Held (i : nat)             (* lockAcquire returned true with a descriptor *)
| HeldExec                   (* lockAcquire returned true with LOCK_ON_EXEC_ID *)
| Closing (i : nat)          (* lockRelease: file removed, before close *)
| ROpened (i : nat)          (* lockRead: lock.c:317 done *)
| RHas (i : nat)             (* lockRead: flock done, status unlocked *)
| RNo (i : nat)              (* lockRead: flock failed *)
| RClosing (i : nat) (has : bool).  (* lockRead: file removed, before close *)

Record lst := mkLst {
  link : option nat;                    (* the file of the lock file name *)
  next : nat;                           (* files from here on do not exist *)
  content : nat -> option Z;            (* exec id written *)
  owner : nat -> option nat;            (* process with the flock *)
  pcs : nat -> pc }.

Definition upd {A} (f : nat -> A) (k : nat) (v : A) : nat -> A := fun x => if x =? k then v else f x.
Definition setPc (s : lst) (p : nat) (c : pc) : lst := mkLst (link s) (next s) (content s) (owner s) (upd (pcs s) p c).
Definition setOwner (s : lst) (i : nat) (o : option nat) : lst := mkLst (link s) (next s) (content s) (upd (owner s) i o) (pcs s).
Definition setContent (s : lst) (i : nat) (e : option Z) : lst := mkLst (link s) (next s) (upd (content s) i e) (owner s) (pcs s).
Definition setLink (s : lst) (l : option nat) : lst := mkLst l (next s) (content s) (owner s) (pcs s).

Inductive act :=
| AOpen (p : nat) | AFlock (p : nat) | ARead (p : nat) | AWrite (p : nat) | AUnlink (p : nat) | AClose (p : nat)
| AROpen (p : nat) | ARFlock (p : nat) | ARUnlink (p : nat) | ARClose (p : nat)
| ADie (p : nat).

Definition init : lst := mkLst None 0 (fun _ => None) (fun _ => None) (fun _ => Idle).

Section Lock.
  Variable execOf : nat -> Z.           (* exec id of a process *)

  (** The file whose flock a process has. *)
  Definition flockOf (c : pc) : option nat :=
    match c with Locked i | Held i | Closing i | RHas i | RClosing i true => Some i | _ => None end.
  (** close(): the flock goes with the descriptor *)
  Definition closeFd (s : lst) (p : nat) : lst :=
    setPc (match flockOf (pcs s p) with Some i => setOwner s i None | None => s end) p Idle.

  (** None: the step is not possible *)
  Definition step (s : lst) (a : act) : option lst :=
    match a with
    | AOpen p => (* lock.c:191 O_RDWR | O_CREAT *)
        match pcs s p with
        | Idle => match link s with
                  | Some i => Some (setPc s p (Opened i))
                  | None => Some (mkLst (Some (next s)) (S (next s)) (content s) (owner s) (upd (pcs s) p (Opened (next s))))
                  end
        | _ => None
        end
    | AFlock p => (* lock.c:206 LOCK_EX | LOCK_NB *)
        match pcs s p with
        | Opened i => match owner s i with
                      | None => Some (setPc (setOwner s i (Some p)) p (Locked i))
                      | Some _ => Some (setPc s p (Blocked i))
                      end
        | _ => None
        end
    | ARead p => (* lock.c:212-239 *)
        match pcs s p with
        | Blocked i => Some (setPc s p (match content s i with Some e => if Z.eqb e (execOf p) then HeldExec else Idle | None => Idle end))
        | _ => None
        end
    | AWrite p => (* lock.c:277-279 *)
        match pcs s p with Locked i => Some (setPc (setContent s i (Some (execOf p))) p (Held i)) | _ => None end
    | AUnlink p => (* lock.c:449-450: removes the name, whatever file it has *)
        match pcs s p with Held i => Some (setPc (setLink s None) p (Closing i)) | HeldExec => Some (setPc s p Idle) | _ => None end
    | AClose p => (* lock.c:451 *)
        match pcs s p with Closing i => Some (closeFd s p) | _ => None end
    | AROpen p => (* lock.c:317 O_RDONLY *)
        match pcs s p with Idle => match link s with Some i => Some (setPc s p (ROpened i)) | None => Some s end | _ => None end
    | ARFlock p => (* lock.c:324 *)
        match pcs s p with
        | ROpened i => match owner s i with
                       | None => Some (setPc (setOwner s i (Some p)) p (RHas i))
                       | Some _ => Some (setPc s p (RNo i))
                       end
        | _ => None
        end
    | ARUnlink p => (* lock.c:347-348 *)
        match pcs s p with
        | RHas i => Some (setPc (setLink s None) p (RClosing i true))
        | RNo i => Some (setPc (setLink s None) p (RClosing i false))
        | _ => None
        end
    | ARClose p => (* lock.c:351 *)
        match pcs s p with RHas _ | RNo _ | RClosing _ _ => Some (closeFd s p) | _ => None end
    | ADie p => (* the process ends: descriptors are closed, nothing is removed *)
        Some (closeFd s p)
    end.
  Fixpoint run (s : lst) (l : list act) : option lst :=
    match l with [] => Some s | a :: r => match step s a with Some s' => run s' r | None => None end end.
End Lock.
