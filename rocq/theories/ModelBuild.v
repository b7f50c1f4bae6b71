(** ModelBuild.v: build.rs, the build script.

    The world outside the script is a record of how it answers: the cargo feature, the environment
    variables, and whether creating the file, fetching the URL and writing succeed.  A run is the list of
    what the script does to that world, in order, and how it ends. *)
From Coq Require Import String.
From Verif Require Import Base ModelCard ModelExamples.
Local Open Scope string_scope.
Local Open Scope list_scope.

(** build.rs:4-6 [URL] *)
Definition URL : rstring :=
  lit "https://raw.githubusercontent.com/deus-x-mackina/poker-lookup-table/8e22032a6280eb790a13cc16b26efe4e16d1f43a/codegen.txt".

(** What [reqwest::blocking::get] gives: no response, or a response with some HTTP status whose body
    can be read or not. *)
Inductive fetched :=
| NoResponse
| Response (status : Z) (body : option (list N)).

Record environment := mk_environment {
  static_lookup : bool;                   (* [cfg!(feature = "static_lookup")] *)
  docs_rs : option rstring;               (* [env::var("DOCS_RS")], [None] for an error *)
  out_dir : option rstring;               (* [env::var("OUT_DIR")], [None] for an error *)
  can_create : rstring -> bool;           (* does [File::create] of this path succeed *)
  web : rstring -> fetched;               (* the answer to a request for this URL *)
  written : list N -> option (list N)     (* [None]: [write_all] succeeds; [Some w]: it fails after [w] *)
}.

Inductive action :=
| Create (path : rstring)                 (* the file now exists and is empty *)
| Get (url : rstring)
| Write (path : rstring) (bytes : list N). (* appended to the file *)

Inductive ending :=
| BuildOk
| BuildErr      (* [main] returns [Err]: cargo reports it and stops *)
| BuildPanic.   (* the [panic!] about the internet connection *)

(** [PathBuf::join] of a relative name, on Unix *)
Definition path_join (dir name : rstring) : rstring :=
  match rev dir with
  | [] => name
  | 47%N :: _ => dir ++ name
  | _ => dir ++ lit "/" ++ name
  end.

(** build.rs:8-33 [main] *)
Definition build_main (w : environment) : list action * ending :=
  if negb (static_lookup w) then ([], BuildOk)
  else
    let docsrs := match docs_rs w with Some v => v | None => [] end in
    if str_eqb docsrs (lit "1") then ([], BuildOk)
    else
      match out_dir w with
      | None => ([], BuildErr)
      | Some dir =>
          let path := path_join dir (lit "codegen.rs") in
          if can_create w path then
            match web w URL with
            | NoResponse => ([Create path; Get URL], BuildPanic)
            | Response _ None => ([Create path; Get URL], BuildErr)
            | Response _ (Some bytes) =>
                match written w bytes with
                | None => ([Create path; Get URL; Write path bytes], BuildOk)
                | Some part => ([Create path; Get URL; Write path part], BuildErr)
                end
            end
          else ([], BuildErr)
      end.
