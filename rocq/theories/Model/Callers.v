(** The Python and the Node function run() in a world: bindings/Python/_judger/__init__.py:29-85 and
    bindings/NodeJS/judger.cc:107-201 around the judger of Model/Judger.v.  [own] is what the processes that
    were started wrote to the judger's standard output before it reported, [err] what was written to its
    standard error; if nothing is run, nothing is written before the report. *)
From Coq Require Import ZArith Bool List Ascii String.
From Verif.Base Require Import CInt CStr.
From Verif.Model Require Import Config Judger Python PythonDecode NodeBinding.
Import ListNotations.
Open Scope list_scope.

(** bindings/Python/_judger/__init__.py:29-85: ValueError, or what is decoded.  (No rule if the judger's behaviour is undefined.) *)
Inductive python_calls (W : world) (own err : str) (vars : locals) : history -> outcome -> Prop :=
| python_refuses : command vars = None -> python_calls W own err vars NothingRun Raises
| python_starts argv h t st o :
    command vars = Some argv -> judger W argv h (Prints t st) -> (h = NothingRun -> own = []) ->
    decodes (own ++ t) err o -> python_calls W own err vars h o.

(** bindings/NodeJS/judger.cc:107-201: an exception ([None]), a crash of the binding, or what is decoded. *)
Inductive node_calls (W : world) (own : str) (obj : string -> jsval) : history -> option node_out -> Prop :=
| node_refuses : node_command obj = NThrows -> node_calls W own obj NothingRun None
| node_crashes : node_command obj = NUndef -> node_calls W own obj NothingRun (Some NodeUndefined)
| node_starts cmd argv h t st o :
    node_command obj = NVal cmd -> shell cmd = Some [argv] -> hd_error argv = Some (lit "/usr/lib/judger/libjudger.so") ->
    judger W argv h (Prints t st) -> (h = NothingRun -> own = []) ->
    node_decodes (own ++ t) o -> node_calls W own obj h (Some o).
