(** The command: cmd/main.go. Flags, logging, timings, profiling and the benchmark file are
    left out; the data file and the index file are given by their contents. *)
From Verif Require Import Base Varint Store PageFile RefValue Node LinkedPage BPTree Meta IndexFile Json Jsonl Csv.

Section Cmd.
Variables (unquote : bytes -> bytes) (to_float num : bytes -> option bytes) (grams : bytes -> Z -> res (list (bytes * Z * Z))).
(** -jsonl or -csv: cmd/main.go:88-98 *)
Inductive handler := HJsonl | HCsv.
(** Format() of the handler: pkg/handlers/jsonl.go:22-24, pkg/handlers/csv.go:25-27 *)
Definition format_of (h : handler) : Z := match h with HJsonl => 0 | HCsv => 1 end.
(** IndexFile.Synchronize: pkg/appendable/index_file.go:192-194. [hdrs] are the search headers of
    the index file (index_file.go:65, 82); the CSV handler does not use them. *)
Definition synchronize (h : handler) (hdrs : list bytes) (tree : lp) (df : bytes) : M st unit :=
  match h with
  | HJsonl => jsonl_sync unquote to_float grams hdrs tree df
  | HCsv => csv_sync num tree df
  end.
(** one run with the -s options [hdrs] on the data file [df]: cmd/main.go:102-128 (NewIndexFile
    creates the page file: pkg/appendable/index_file.go:34). An error makes the command panic. *)
Definition command (h : handler) (hdrs : list bytes) (df : bytes) : M st unit :=
  new_page_file ;;;
  tree <- new_index_file (format_of h) ;;
  synchronize h hdrs tree df.
(** ... on an index file that contains [F]; a file that does not exist is created empty
    (os.O_CREATE, cmd/main.go:102; pkg/mmap/mmap.go:56-62, 34-48). The result: did it
    succeed, and what the index file contains afterwards. *)
Definition run_command (h : handler) (hdrs : list bytes) (df F : bytes) : res unit * bytes :=
  let r := command h hdrs df (open_rws KMmap F) in (fst r, file (snd r)).
End Cmd.
