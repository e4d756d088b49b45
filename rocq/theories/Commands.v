(** Commands.v - model of the main functions of /repo/cmd/rbxfile-dcomp/main.go
    and /repo/cmd/rbxfile-dump/main.go, and of the same lines of
    /repo/cmd/rbxfile-stat/main.go: arguments, files, exit status.

    The work between reading and writing is a function from the bytes of the
    input to what is written, printed, and whether it crashes.  All three read
    their input to the end before they write.  Simplification: reading and
    writing an open file, Sync and Close do not fail. *)
From Verif Require Import Base RbxlValues RbxlModel RbxlFile RbxlDump RbxlPartial StatCmd.
Local Notation string := String.string.

(** ** Go's flag.Parse, without any defined flag, as all three call it
    (dcomp/main.go:31, dump/main.go:31, stat/main.go:188).  Only the first
    argument matters: every flag ends the program. *)
Inductive parsed := Rest (args : list bytes) | Help | BadFlag.
Fixpoint upto_eq (s : bytes) : bytes :=
  match s with [] => [] | c :: s => if Byte.eqb c x3d then [] else c :: upto_eq s end.
Definition flag_parse (args : list bytes) : parsed :=
  match args with
  | [] => Rest []
  | s :: rest =>
      match s with
      | c :: (d :: tl) as name =>
          if negb (Byte.eqb c x2d) then Rest args
          else
            let name := if Byte.eqb d x2d then tl else d :: tl in
            match name with
            | [] => Rest rest                                     (* -- *)
            | e :: tl =>
                if Byte.eqb e x2d || Byte.eqb e x3d then BadFlag  (* bad flag syntax *)
                else
                  let name := e :: upto_eq tl in
                  if bytes_eqb name (str "help") || bytes_eqb name (str "h") then Help else BadFlag
            end
      | _ => Rest args
      end
  end.

(** ** Files.  A path leads to a file; different paths can lead to the same
    one (links).  os.Open fails when there is none; os.Create empties the file
    that is there, or makes the new file [f_new path]; either may be refused. *)
Definition path := bytes.
Record fsys := Fs { f_at : path -> option nat; f_data : nat -> bytes }.
Record os := Os { may_open : path -> bool; may_create : path -> bool; f_new : path -> nat }.
Definition os_Open (o : os) (fs : fsys) (p : path) : option nat := if may_open o p then f_at fs p else None.
Definition set_data (fs : fsys) (i : nat) (b : bytes) : fsys :=
  Fs (f_at fs) (fun j => if (j =? i)%nat then b else f_data fs j).
Definition os_Create (o : os) (fs : fsys) (p : path) : option (fsys * nat) :=
  if may_create o p then
    match f_at fs p with
    | Some i => Some (set_data fs i [], i)
    | None => let i := f_new o p in
        Some (set_data (Fs (fun q => if bytes_eqb q p then Some i else f_at fs q) (f_data fs)) i [], i)
    end
  else None.
(** New files are new. *)
Definition os_ok (o : os) (fs : fsys) : Prop := forall p q, f_at fs q <> Some (f_new o p).

(** ** main: dcomp/main.go:26-64, dump/main.go:26-63, stat/main.go:183-234 *)
Definition note := printed (list warning + err).
Inductive line := LUsage | LFlag | LOpen (p : path) | LCreate (p : path) | LNote (n : note).
Record work := Work { w_out : bytes; w_notes : list note; w_crash : bool }.
Record ended := Ended { e_fs : fsys; e_stdout : bytes; e_stderr : list line; e_status : N }.

Definition is_dash (p : path) : bool := bytes_eqb p [x2d].
Definition main (o : os) (job : bytes -> work) (args : list bytes) (stdin : bytes) (fs : fsys) : ended :=
  match flag_parse args with
  | Help => Ended fs [] [LUsage] 0
  | BadFlag => Ended fs [] [LFlag; LUsage] 2
  | Rest args =>
      let source :=                                     (* :33-41; None: not opened *)
        match args with
        | p :: _ => if is_dash p then Some None else match os_Open o fs p with Some i => Some (Some i) | None => None end
        | [] => Some None
        end in
      match source with
      | None => Ended fs [] [LOpen (hd [] args)] 0
      | Some source =>
          let target :=                                 (* :42-57 *)
            match args with
            | _ :: p :: _ => if is_dash p then Some (fs, None) else match os_Create o fs p with Some (fs, i) => Some (fs, Some i) | None => None end
            | _ => Some (fs, None)
            end in
          match target with
          | None => Ended fs [] [LCreate (nth 1 args [])] 0
          | Some (fs, target) =>
              let w := job (match source with Some i => f_data fs i | None => stdin end) in
              let fs' := match target with Some i => set_data fs i (f_data fs i ++ w_out w) | None => fs end in
              Ended fs' (match target with Some _ => [] | None => w_out w end) (map LNote (w_notes w)) (if w_crash w then 2 else 0)%N
          end
      end
  end.

(** warns.Return(): nil for no warnings *)
Definition some_warns (ws : list warning) : option (list warning + err) :=
  match ws with [] => None | _ => Some (inl ws) end.
(** dcomp/main.go:57-63; a crash is a chunk whose compressed length is within
    four of 2^32 (C17) *)
Definition dcomp_job (lz : lz4) (input : bytes) : work :=
  match decompress lz false input with
  | OK (ws, b) => Work b (report "warning: " "error: " (some_warns ws) None) false
  | Err (e, ws) => Work [] (report "warning: " "error: " (some_warns ws) (Some (inr e))) false
  | _ => Work [] [] true
  end.
(** dump/main.go:56-62; [partly] stands for what was flushed before a panic. *)
Definition dump_job (de : denv) (lz : lz4) (spare : nat -> nat) (partly : bytes -> bytes) (input : bytes) : work :=
  match Dump de lz spare false input with
  | OK (ws, b) => Work b (report "warning: " "error: " (some_warns ws) None) false
  | Err (e, ws) => Work [] (report "warning: " "error: " (some_warns ws) (Some (inr e))) false
  | _ => Work (partly input) [] true
  end.
