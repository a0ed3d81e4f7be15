(** How the Python binding reads the judger's output.  JSON and UTF-8 are those of
    the specifications; json.loads also gives up on very deep nesting, which is
    not modelled. *)
From Coq Require Import List.
From Verif.Base Require Import CInt CStr.
From Verif.Model Require Import Config Argtable Main Messages Python.
From Verif.Spec Require Import Json Utf8.
Import ListNotations.

Inductive outcome : Type := Returns (v : json) | Raises.    (* Raises: ValueError or a subclass of it *)

(** bindings/Python/_judger/__init__.py:82-85, given what the judger wrote: an exception if
    there is anything on standard error, or if standard output is not UTF-8 or
    not JSON; otherwise the JSON value (with integers as they are written). *)
Inductive decodes (out err : str) : outcome -> Prop :=
| decodes_error : err <> [] -> decodes out err Raises
| decodes_value v : err = [] -> utf8 out -> json_text true out v -> decodes out err (Returns v)
| decodes_bad : err = [] -> ~ (utf8 out /\ exists v, json_text true out v) -> decodes out err Raises.

(** bindings/Python/_judger/__init__.py:29-85 as a whole.  [run] is the result of
    the judger's run(), [own] what else is written to the judger's standard output
    before it reports (by the program), [err] what is written to standard error.
    If the judger's behaviour is undefined, anything may be returned: no rule. *)
Inductive python_run (posix : bool) (run : config -> result) (own err : str) (vars : locals) : outcome -> Prop :=
| python_value_error : command vars = None -> python_run posix run own err vars Raises
| python_judged argv a text o :
    command vars = Some argv -> does posix argv (Val a) -> printed run a = Val text -> decodes (own ++ text) err o ->
    python_run posix run own err vars o.
