(** The output folders of executions: the name (logic/sim.py:48-59), mkdir (sim.py:61-62, custom_batchrunner.py:62-64), and the sequence file that both use. *)
From Coq Require Import ZArith List Bool String.
From Verif Require Import Num Py Batch.
Import ListNotations.

(** str(seq_id) + '-' + execution_id; [id] is the one given by the user, or the generated one, or the batch run id *)
Definition folder_name (seq_id : Z) (id : string) : string := String.append (str_int seq_id) (String.append "-" id).

(** What an execution does to the disk before it writes into its folder: the three accesses to the sequence file, then mkdir(parents=True), which is atomic and raises
    FileExistsError if the folder exists.  Identifiers are taken to be plain names: with a slash in it an identifier would name a folder within a folder. *)
Inductive disk_event := OnSeq (e : seq_event) | Makes (i : nat).
Definition actor (e : disk_event) : nat := match e with OnSeq (Reads i) | OnSeq (Truncates i) | OnSeq (Writes i) | Makes i => i end.
(** the sequence file and the numbers in memory; the folders within output/; the folders that the executions made; the exceptions that ended executions *)
Record disk := mkDisk { d_seq : seq_state; d_folders : list string; d_made : dict string; d_raised : dict exn }.
(** [id i]: the identifier of execution i.  An execution that has raised does nothing any more. *)
Definition disk_step (id : nat -> string) (d : disk) (e : disk_event) : disk :=
  match get (d_raised d) (actor e) with
  | Some _ => d
  | None =>
      match e with
      | OnSeq ev => match seq_step (d_seq d) ev with
                    | Ok st => mkDisk st (d_folders d) (d_made d) (d_raised d)
                    | Err x => mkDisk (d_seq d) (d_folders d) (d_made d) (set (d_raised d) (actor e) x)
                    end
      | Makes i => match get (snd (d_seq d)) i with
                   | None => mkDisk (d_seq d) (d_folders d) (d_made d) (set (d_raised d) i UnboundLocalError)
                   | Some n => let f := folder_name n (id i) in
                               if existsb (String.eqb f) (d_folders d) then mkDisk (d_seq d) (d_folders d) (d_made d) (set (d_raised d) i FileExistsError)
                               else mkDisk (d_seq d) (f :: d_folders d) (set (d_made d) i f) (d_raised d)
                   end
      end
  end.
Definition disk_run (id : nat -> string) (d : disk) (l : list disk_event) : disk := fold_left (disk_step id) l d.
