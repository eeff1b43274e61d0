(** Which frames an error records: distilled tracebacks and call stacks
    (slash/utils/traceback_utils.py:30-112), the faked full traceback of
    handling_exceptions (slash/exception_handling.py:83-130 with
    slash/utils/traceback_proxy.py:154-181) and the ways an error is made.

    A call stack is the list of its frames, the outermost first; a function of
    slash that looks at the stack adds its own frame first.  Not modelled: the
    variables and source lines of a frame, PyPy. *)

From Coq Require Import List Bool Arith ZArith Ascii String.
From Verif Require Import Str.
Import ListNotations.
Local Open Scope list_scope.

(** a frame: the __name__ of its globals if it has one, its function, its line;
    slash/utils/traceback_utils.py:76-88 and :136-141 *)
Record frame := mkFrame { f_module : option str; f_func : str; f_line : nat }.

(** _MUTED_LOCATIONS; slash/utils/traceback_utils.py:91-104 *)
Definition muted_locations : list (str * str) :=
  [(lit "slash.core.function_test", lit "run"); (lit "slash.core.test", lit "run");
   (lit "slash.exception_handling", lit "handling_exceptions");
   (lit "slash.core.fixtures.fixture_store", lit "call_with_fixtures");
   (lit "slash.frontend.main", lit "__main__"); (lit "slash.frontend.main", lit "main");
   (lit "slash.frontend.main", lit "main_entry_point"); (lit "slash.frontend.slash_run", lit "slash_run");
   (lit "slash.runner", lit "run_tests"); (lit "slash.runner", lit "_run_single_test");
   (lit "slash.core.cleanup_manager", lit "call_cleanups"); (lit "slash.core.cleanup_manager", lit "__call__")].

(** _is_frame_muted; slash/utils/traceback_utils.py:69-88 *)
Definition is_muted (f : frame) : bool :=
  match f_module f with
  | None => false
  | Some m => existsb (fun l => str_eqb (fst l) m && str_eqb (snd l) (f_func f)) muted_locations
  end.

(** _is_frame_and_below_muted; slash/utils/traceback_utils.py:107-112 *)
Definition and_below_muted (f : frame) : bool :=
  match f_module f with Some m => str_eqb m (lit "slash.assertions") | None => false end.

(** _distill_frames; slash/utils/traceback_utils.py:44-56 *)
Fixpoint distill_frames (fs : list frame) : list frame :=
  match fs with
  | [] => []
  | f :: fs =>
      if and_below_muted f then []
      else if is_muted f then distill_frames fs
      else f :: distill_frames fs
  end.

(** [l[:n]]; a Python operation, no code of /repo: a negative [n] counts from the end *)
Definition slice_to {A} (l : list A) (n : Z) : list A :=
  if (n <? 0)%Z then firstn (Z.to_nat (Z.of_nat (List.length l) + n)) l else firstn (Z.to_nat n) l.

(** distill_traceback; slash/utils/traceback_utils.py:30-34 *)
Definition distill_traceback (tb : list frame) (correction : nat) : list frame :=
  let frames := if Nat.eqb correction 0 then tb else slice_to tb (Z.of_nat (List.length tb) - Z.of_nat correction) in
  distill_frames frames.

(** a frame of slash itself; plumbing of the model, no code of its own *)
Definition own (m f : string) : frame := mkFrame (Some (lit m)) (lit f) 0.

(** _get_sys_trace_frames: all but the outermost frame; slash/utils/traceback_utils.py:66-67 *)
Definition get_sys_trace_frames (st : list frame) : list frame :=
  tl (st ++ [own "slash.utils.traceback_utils" "_get_sys_trace_frames"]).

(** distill_call_stack; slash/utils/traceback_utils.py:37-41 *)
Definition distill_call_stack (st : list frame) (correction : nat) : list frame :=
  let frames := get_sys_trace_frames (st ++ [own "slash.utils.traceback_utils" "distill_call_stack"]) in
  let frames :=
    if Nat.eqb correction 0 then frames
    else slice_to frames (Z.of_nat (List.length frames) - Z.of_nat correction + 1) in
  distill_frames frames.

(** the traceback of an error without an exception; slash/core/error.py:24 and :46-47 *)
Definition error_init (st : list frame) (correction : nat) : list frame :=
  distill_call_stack (st ++ [own "slash.core.error" "__init__"]) (correction + 4).

(** Result._add_error; slash/core/result.py:224-231 *)
Definition result_add_error' (st : list frame) (correction : nat) : list frame :=
  error_init (st ++ [own "slash.core.result" "_add_error"]) (correction + 1).

(** Result.add_error, Result.add_failure; slash/core/result.py:205-218 *)
Definition result_add_error (st : list frame) (correction : nat) : list frame :=
  result_add_error' (st ++ [own "slash.core.result" "add_error"]) (correction + 1).

(** slash.add_error, slash.add_failure; slash/utils/__init__.py:42-64 *)
Definition add_error (st : list frame) (correction : nat) : list frame :=
  result_add_error (st ++ [own "slash.utils" "add_error"]) (correction + 1).

(** create_traceback_proxy without a traceback: the frames of the stack but the
    [correction + 1] innermost (None: no frame is left, IndexError);
    slash/utils/traceback_proxy.py:172-181 *)
Definition create_traceback_proxy (st : list frame) (correction : nat) : option (list frame) :=
  let st := st ++ [own "slash.utils.traceback_proxy" "create_traceback_proxy"] in
  match firstn (List.length st - (correction + 1)) st with [] => None | fs => Some fs end.

(** the fake tracebacks made when handling_exceptions is called; slash/exception_handling.py:83-90 *)
Definition fake_tbs (st : list frame) : option (list frame) :=
  create_traceback_proxy (st ++ [own "slash.exception_handling" "handling_exceptions"]) 2.

(** the traceback an exception is handled with: the fake one joined to its own;
    [st]: the stack when handling_exceptions was called, [tb]: the frames of the
    exception's traceback; slash/exception_handling.py:125-130 *)
Definition handled_traceback (st tb : list frame) : list frame :=
  match fake_tbs st with Some fs => fs ++ tb | None => tb end.

(** the traceback of the error made for an exception (with the correction marked
    on the exception); slash/core/error.py:40-45 *)
Definition exception_frames (st tb : list frame) (correction : nat) : list frame :=
  distill_traceback (handled_traceback st tb) correction.

(** DistilledTraceback.cause; slash/utils/traceback_utils.py:124-127 *)
Definition cause (fs : list frame) : option frame := match rev fs with f :: _ => Some f | [] => None end.

(** Error.filename, lineno and func_name read an attribute of the cause (None:
    AttributeError); slash/core/error.py:110-127 *)
Definition lineno (fs : list frame) : option nat := option_map f_line (cause fs).

(** where an exception of loading a file is reported to be; slash/loader.py:278-281
    (None: IndexError) *)
Definition extract_tb (tb : list frame) (correction : nat) : option frame := nth_error (rev tb) correction.

(** the frames of slash when a parameter without a value is found, called by
    slash.parametrize; slash/core/fixtures/parameters.py:22-43, :98-109, :203-206 and :218-225 *)
Definition parametrize_frames : list frame :=
  [own "slash.core.fixtures.parameters" "decorator"; own "slash.core.fixtures.parameters" "add_options";
   own "slash.core.fixtures.parameters" "_normalize_values"; own "slash.core.fixtures.parameters" "_normalize_single_value"].

(** the same, called by slash.parameters.iterate; slash/core/fixtures/parameters.py:48-54 *)
Definition iterate_frames : list frame := own "slash.core.fixtures.parameters" "decorator" :: parametrize_frames.

(** the correction marked on that exception; slash/core/fixtures/parameters.py:222-224 *)
Definition no_value_correction : nat := 4.

(** ErrorHandler.emit adds an error for a record of the error level: the frames of
    the logging library and of the handler stand between the code that logs and
    add_error; slash/log.py:29-31 *)
Definition emit (st library : list frame) : list frame := add_error (st ++ library ++ [own "slash.log" "emit"]) 0.
