(** The messages of the exceptions, /repo/src/exceptions.h and /repo/src/exceptions.cc. *)
From Coq Require Import ZArith List Bool Ascii String.
From Verif.Model Require Import Base Strings Lines Compose.
Import ListNotations.
Local Open Scope Z_scope.

(** saw.empty() ? "an empty string" : saw, exceptions.cc 35 and 44. *)
Definition saw_text (saw : str) : str := if is_nil saw then lit "an empty string" else saw.

(** The string given to runtime_error by SubripError::SubripError, exceptions.cc 34-40. *)
Definition subrip_error_message (line_number : Z) (saw expecting : str) : str :=
  compose (lit "Error in SubRip file line %1: saw %2 when expecting %3") [print_int line_number; saw_text saw; expecting].
(** WebVTTError::WebVTTError, exceptions.cc 43-48. *)
Definition webvtt_error_message (saw expecting : str) : str :=
  lit "Error in WebVTT file: saw " ++ saw_text saw ++ lit " when expecting " ++ expecting.
(** ProgrammingError::ProgrammingError, exceptions.cc 27-31. *)
Definition programming_error_message (file : str) (line : Z) : str :=
  compose (lit "Programming error at %1:%2") [file; print_int line].

(** The message of an exception, exceptions.h 33-132.  None for ProgrammingError, whose file and line the model does not
    keep (see above), and for exceptions that are not the library's. *)
Definition message (e : exn) : option str :=
  match e with
  | EUnknownFrameRate => Some (lit "unknown frame rate")
  | EXml m | EStl m | ESsa m => Some m
  | ESubrip n saw expecting _ => Some (subrip_error_message n saw expecting)
  | EWebVtt saw expecting _ => Some (webvtt_error_message saw expecting)
  | EWebVttHeader => Some (lit "No WEBVTT header found")
  | EProgramming | EBadLexicalCast | EOutOfRange => None
  end.
(** std::runtime_error::what (): a C string. *)
Definition what (e : exn) : option str := option_map c_string (message e).
