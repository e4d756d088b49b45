(** Errors.v - model of /repo/errors/errors.go.  An error is nil ([None]), a
    list of errors, or any other error, seen only through its message. *)
From Verif Require Import Base.
Local Notation string := String.string.

Inductive error :=
| Single (msg : bytes)
| Errors (l : list (option error)).

(** errors.go:60-67 Errors.Append *)
Fixpoint errors_append (errs : list (option error)) (es : list (option error)) : list (option error) :=
  match es with
  | [] => errs
  | None :: es => errors_append errs es
  | Some e :: es => errors_append (errs ++ [Some e]) es
  end.
(** errors.go:71-76 Errors.Return *)
Definition errors_return (errs : list (option error)) : option error :=
  match errs with [] => None | _ => Some (Errors errs) end.
(** errors.go:81-98 Union: the loop, then Return *)
Definition drop_nil (l : list (option error)) : list (option error) :=
  fold_left (fun acc e => match e with Some _ => acc ++ [e] | None => acc end) l [].
Fixpoint union_loop (e : list (option error)) (errs : list (option error)) : list (option error) :=
  match errs with
  | [] => e
  | None :: errs => union_loop e errs
  | Some (Errors l) :: errs => union_loop (e ++ drop_nil l) errs
  | Some (Single m) :: errs => union_loop (e ++ [Some (Single m)]) errs
  end.
Definition Union (errs : list (option error)) : option error := errors_return (union_loop [] errs).

(** strings.ReplaceAll(msg, "\n", "\n\t") *)
Definition indent (msg : bytes) : bytes :=
  flat_map (fun c => if Byte.eqb c x0a then [x0a; x09] else [c]) msg.
(** errors.go:33-50 Errors.Error.  A nil element's Error call panics. *)
Fixpoint error_message (e : error) : outcome Empty_set bytes :=
  match e with
  | Single m => OK m
  | Errors l =>
      match l with
      | [] => OK (str "no errors")
      | [None] => Panic
      | [Some e] => error_message e
      | l =>
          m <- (fix go (l : list (option error)) : outcome Empty_set bytes :=
             match l with
             | [] => OK []
             | None :: _ => Panic
             | Some e :: l =>
                 m <- error_message e ;; r <- go l ;; OK (x0a :: x09 :: indent m ++ r)
             end) l ;;
          OK (str "multiple errors:" ++ m)
      end
  end.
