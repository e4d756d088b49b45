(** SpecErrors.v - specification side for error lists. *)
From Verif Require Import Base Errors.

(** The non-nil errors of an argument, lists flattened one level. *)
Definition non_nil (l : list (option error)) : list (option error) :=
  filter (fun e => match e with Some _ => true | None => false end) l.
Definition parts (e : option error) : list (option error) :=
  match e with
  | None => []
  | Some (Errors l) => non_nil l
  | Some e => [Some e]
  end.
(** Lines of a text. *)
Fixpoint lines_from (cur : bytes) (s : bytes) : list bytes :=
  match s with
  | [] => [rev cur]
  | c :: s => if Byte.eqb c x0a then rev cur :: lines_from [] s else lines_from (c :: cur) s
  end.
Definition lines (s : bytes) : list bytes := lines_from [] s.
(** No nil anywhere inside. *)
Inductive no_nil : error -> Prop :=
| nn_single m : no_nil (Single m)
| nn_errors l : (forall x, In x l -> exists e, x = Some e /\ no_nil e) -> no_nil (Errors l).
