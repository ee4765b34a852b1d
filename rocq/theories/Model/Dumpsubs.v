(** The program dumpsubs, /repo/tools/dumpsubs.cc. *)
From Coq Require Import ZArith List Bool Ascii String.
From Verif.Model Require Import Base Strings Types Iso6937 StlBinReader Collect Factory Dump.
Import ListNotations.
Local Open Scope Z_scope.

(** How the program ends: its exit status, standard output and standard error.  What getopt_long itself writes about
    options it does not know is left out. *)
Record exit : Type := mkExit { e_status : Z; e_out : str; e_err : str }.

(** One argument as getopt_long (argc, argv, "h", { help, no_argument }) sees it.  Library code, modelled from its
    documentation: long options may be shortened, short options may be combined, options that are not known are
    reported and then ignored by main. *)
Inductive argument : Type := Operand | EndOfOptions | HelpOption | OtherOption.
(** Which of these an argument is, for the option string and long options of dumpsubs.cc 46-52. *)
Definition argument_kind (a : str) : argument :=
  match a with
  | "-"%char :: "-"%char :: [] => EndOfOptions
  | "-"%char :: "-"%char :: name => if starts_with (lit "help") name then HelpOption else OtherOption
  | "-"%char :: c :: t => if existsb (Ascii.eqb "h"%char) (c :: t) then HelpOption else OtherOption
  | _ => Operand
  end.
(** The loop of dumpsubs.cc 46-63: None if -h was found, otherwise the arguments from optind onwards. *)
Fixpoint operands (args : list str) : option (list str) :=
  match args with
  | [] => Some []
  | a :: t =>
      match argument_kind a with
      | Operand => option_map (cons a) (operands t)
      | EndOfOptions => Some t
      | HelpOption => None
      | OtherOption => operands t
      end
  end.

(** help, dumpsubs.cc 36-40. *)
Definition help (n : str) : str := lit "Syntax: " ++ n ++ lit " <file>" ++ nl.

(** main, dumpsubs.cc 42-84, for a program called [name] with arguments [args].  [files] gives the content of the files
    that exist; files that exist and cannot be opened are not modelled, nor is what has been written when an exception
    ends the program. *)
Definition dumpsubs (sort : sorter) (files : str -> option str) (name : str) (args : list str) : st exit :=
  match operands args with
  | None => st_ret (Ok (mkExit 0 [] (help name)))
  | Some [path] =>
      match files path with
      | None => st_ret (Ok (mkExit 1 [] (name ++ lit ": file " ++ path ++ lit " not found." ++ nl)))
      | Some content =>
          let$ reader := reader_factory path (Some content) in
          match reader with
          | None => st_ret (Ok (mkExit 1 [] (name ++ lit ": could not read subtitle file " ++ path ++ nl)))
          | Some r => st_ret (let* out := dump sort (rd_metadata r) (rd_subtitles r) in Ok (mkExit 0 (factory_output path (Some content) ++ out) []))
          end
      end
  | Some _ => st_ret (Ok (mkExit 1 [] (help name)))
  end.
