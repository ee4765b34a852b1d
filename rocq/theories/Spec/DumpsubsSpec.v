(** The arguments of the program dumpsubs. *)
From Coq Require Import ZArith List Bool Ascii String.
From Verif.Model Require Import Base.
From Verif.Spec Require Import LinesSpec.
Import ListNotations.

Definition is_option (a : str) : Prop := exists c t, a = "-"%char :: c :: t.
(** -h, alone or among other letters; --help, or an abbreviation. *)
Definition help_option (a : str) : Prop :=
  (exists c t, a = "-"%char :: c :: t /\ c <> "-"%char /\ In "h"%char (c :: t)) \/
  (exists n, a = lit "--" ++ n /\ n <> [] /\ begins_with n (lit "help")).
(** The files named by the arguments.  Options may come before, between and after them, but not after an argument [--]. *)
Inductive named_files : list str -> list str -> Prop :=
| no_more : named_files [] []
| a_file a l fs : ~ is_option a -> named_files l fs -> named_files (a :: l) (a :: fs)
| no_file a l fs : is_option a -> a <> lit "--" -> ~ help_option a -> named_files l fs -> named_files (a :: l) fs
| only_files fs : named_files (lit "--" :: fs) fs.
(** There is an option that asks for help. *)
Inductive help_wanted : list str -> Prop :=
| help_here a l : help_option a -> help_wanted (a :: l)
| help_later a l : a <> lit "--" -> help_wanted l -> help_wanted (a :: l).
