(** SpecCommands.v - specification side: what a command line of rbxfile-dcomp
    and rbxfile-dump means: [INPUT] [OUTPUT]. *)
From Verif Require Import Base Commands.

(** The arguments that are left after flags: the commands have none. *)
Inductive command_line : list bytes -> list bytes -> Prop :=
| line_none : command_line [] []
| line_plain p rest : hd_error p <> Some x2d \/ p = str "-" -> command_line (p :: rest) (p :: rest)
| line_dashes rest : command_line (str "--" :: rest) rest.
(** Where the input is, and what it holds: stdin if unspecified or "-". *)
Inductive input_of (o : os) (fs : fsys) (stdin : bytes) : list bytes -> option nat -> bytes -> Prop :=
| input_none : input_of o fs stdin [] None stdin
| input_dash rest : input_of o fs stdin (str "-" :: rest) None stdin
| input_file p rest i : p <> str "-" -> may_open o p = true -> f_at fs p = Some i -> input_of o fs stdin (p :: rest) (Some i) (f_data fs i).
(** Where the output goes: stdout, or the file a path leads to. *)
Inductive output_of (o : os) (fs : fsys) : list bytes -> option (path * nat) -> Prop :=
| output_none rest : length rest <= 1 -> output_of o fs rest None
| output_dash p rest : output_of o fs (p :: str "-" :: rest) None
| output_file p q rest i : q <> str "-" -> may_create o q = true -> f_at fs q = Some i -> output_of o fs (p :: q :: rest) (Some (q, i))
| output_new p q rest : q <> str "-" -> may_create o q = true -> f_at fs q = None -> output_of o fs (p :: q :: rest) (Some (q, f_new o q)).
(** Files that are the same but for the one at [q], which is file i. *)
Definition only_changed (fs : fsys) (q : path) (i : nat) (fs' : fsys) : Prop :=
  f_at fs' q = Some i /\ (forall p, p <> q -> f_at fs' p = f_at fs p) /\ (forall j, j <> i -> f_data fs' j = f_data fs j).
(** What a command leaves behind: [out] in its output and nothing else. *)
Definition leaves (fs : fsys) (dst : option (path * nat)) (out : bytes) (e : ended) : Prop :=
  match dst with
  | None => e_stdout e = out /\ e_fs e = fs
  | Some (q, i) => e_stdout e = [] /\ f_data (e_fs e) i = out /\ only_changed fs q i (e_fs e)
  end.
Definition untouched (fs : fsys) (e : ended) : Prop := e_stdout e = [] /\ e_fs e = fs.
