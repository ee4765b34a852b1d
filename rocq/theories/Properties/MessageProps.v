(** C93-C95: metadata, messages and the program dumpsubs.  Statements only; proofs are in theories/Proofs. *)
From Coq Require Import ZArith Lia Bool List Ascii String.
From Verif.Model Require Import Base Strings Types Iso6937 StlBinReader Collect Factory Dump Dumpsubs Exceptions.
From Verif.Spec Require Import Outcome TextSpec LinesSpec Iso6937Spec StlFileSpec SubripSpec FactorySpec DumpSpec StlSamples MetadataSpec MessageSpec DumpsubsSpec WarningSpec.
From Verif.Proofs Require Import StlReadProofs FactoryProofs MetadataProofs MessageProofs DumpsubsProofs.
Import ListNotations.
Local Open Scope Z_scope.
Local Notation length := List.length.

(** C93.  metadata() gives what the header says. *)
Theorem C93_metadata : forall h input g subs, snd (stl_binary_read input (after h)) = Ok (g, subs) ->
  exists head rest, input = head ++ rest /\ length head = 1024%nat /\ metadata_of head (stl_metadata g).
Proof. exact file_metadata. Qed.
Print Assumptions C93_metadata.
Example C93_case : returns (snd (stl_binary_read (sample_header "00001" "23" ++ sample_block 3 0 sample_text) (after []))).
Proof. eexists. vm_compute. reflexivity. Qed.

(** C94.  The messages of exceptions. *)
Theorem C94_subrip : forall n saw expecting ctx,
  exists m s, subrip_message n saw expecting m /\ up_to_nul m s /\ what (ESubrip n saw expecting ctx) = Some s.
Proof. exact what_subrip. Qed.
Print Assumptions C94_subrip.
Theorem C94_webvtt : forall saw expecting ctx,
  exists m s, webvtt_message saw expecting m /\ up_to_nul m s /\ what (EWebVtt saw expecting ctx) = Some s.
Proof. exact what_webvtt. Qed.
Print Assumptions C94_webvtt.
Theorem C94_others : forall m, exists s, up_to_nul m s /\ what (EXml m) = Some s /\ what (EStl m) = Some s /\ what (ESsa m) = Some s.
Proof. exact what_others. Qed.
Print Assumptions C94_others.
Theorem C94_fixed : what EUnknownFrameRate = Some (lit "unknown frame rate") /\ what EWebVttHeader = Some (lit "No WEBVTT header found").
Proof. split; reflexivity. Qed.
Print Assumptions C94_fixed.
Theorem C94_assertions : forall file line, file <> [] -> assertion_message file line (programming_error_message file line).
Proof. exact assertion_said. Qed.
Print Assumptions C94_assertions.
Example C94_case : what (ESubrip 7 (lit "%2") (lit "x") []) = Some (lit "Error in SubRip file line 7: saw %2 when expecting x").
Proof. reflexivity. Qed.

(** C95.  The program dumpsubs: its arguments are either a request for help or name files, *)
Theorem C95_arguments : forall args,
  (help_wanted args /\ forall fs, ~ named_files args fs) \/
  (~ help_wanted args /\ exists fs, named_files args fs /\ forall gs, named_files args gs -> gs = fs).
Proof. exact files_or_help. Qed.
Print Assumptions C95_arguments.
Theorem C95_help : forall sort files name args t, help_wanted args ->
  dumpsubs sort files name args t = (t, Ok (mkExit 0 [] (lit "Syntax: " ++ name ++ lit " <file>" ++ [lf]))).
Proof. exact program_help. Qed.
Print Assumptions C95_help.
(** there must be one file, *)
Theorem C95_one_file : forall sort files name args fs t, named_files args fs -> length fs <> 1%nat ->
  dumpsubs sort files name args t = (t, Ok (mkExit 1 [] (lit "Syntax: " ++ name ++ lit " <file>" ++ [lf]))).
Proof. exact program_usage. Qed.
Print Assumptions C95_one_file.
(** which exists, *)
Theorem C95_missing : forall sort files name args path t, named_files args [path] -> files path = None ->
  dumpsubs sort files name args t = (t, Ok (mkExit 1 [] (name ++ lit ": file " ++ path ++ lit " not found." ++ [lf]))).
Proof. exact program_missing. Qed.
Print Assumptions C95_missing.
(** has a name that can be read, *)
Theorem C95_unreadable : forall sort files name args path content t, named_files args [path] -> files path = Some content ->
  ~ named path (lit "stl") -> ~ named path (lit "srt") ->
  dumpsubs sort files name args t = (t, Ok (mkExit 1 [] (name ++ lit ": could not read subtitle file " ++ path ++ [lf]))).
Proof. exact program_unreadable. Qed.
Print Assumptions C95_unreadable.
Example C95_unreadable_case : named_files [lit "-x"; lit "a.txt"] [lit "a.txt"] /\ ~ named (lit "a.txt") (lit "stl") /\ ~ named (lit "a.txt") (lit "srt").
Proof. rewrite <- operands_some, <- FactoryProofs.stl_ext, <- FactoryProofs.srt_ext. split; [vm_compute; reflexivity|]. split; vm_compute; discriminate. Qed.
(** and whose metadata and subtitles are then written, after the warnings of C96; *)
Theorem C95_shows : forall sort files name args path content t t' r us, named_files args [path] -> files path = Some content ->
  reader_factory path (Some content) t = (t', Ok (Some r)) -> collect sort (rd_subtitles r) = Ok us ->
  exists w s, opening_text path content w /\ dump_text (rd_metadata r) us s /\ dumpsubs sort files name args t = (t', Ok (mkExit 0 (w ++ s) [])).
Proof. exact program_shows. Qed.
Print Assumptions C95_shows.
(** exceptions of the readers and of collect() are not caught. *)
Theorem C95_fails : forall sort files name args path content t t' e, named_files args [path] -> files path = Some content ->
  (reader_factory path (Some content) t = (t', Throw e) \/
   exists r, reader_factory path (Some content) t = (t', Ok (Some r)) /\ collect sort (rd_subtitles r) = Throw e) ->
  dumpsubs sort files name args t = (t', Throw e).
Proof. exact program_fails. Qed.
Print Assumptions C95_fails.
Example C95_case : named_files [lit "-x"; lit "a.srt"; lit "--"; lit "-h"] [lit "a.srt"; lit "-h"] /\ help_wanted [lit "a"; lit "-xh"] /\
  help_wanted [lit "--he"] /\ ~ help_wanted [lit "--helper"; lit "--"; lit "-h"].
Proof. rewrite <- operands_some, <- !operands_none. vm_compute. repeat split; discriminate. Qed.
