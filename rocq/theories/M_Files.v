(** Model of opening and inlining bodies and scripts: dataset.go:295-333 (OpenBodyFile), readme.go:75-114, 123-134,
    viz.go:56-75, 99-114, 123-134, transform.go:69-109 (InlineScriptFile, OpenScriptFile, OpenRenderedFile).
    The readme, viz and transform versions differ only in the name of the in-memory file.
    Simplification: an open file is its name, the bytes still to be read and the error reading ends with, if any. *)
From Verif Require Import Base M_Doc.

Record sfile := mkFile { f_name : bytes; f_data : bytes; f_fail : option err }.
(** ioutil.ReadAll: data, error, and the file afterwards *)
Definition read_all (f : sfile) : bytes * option err * sfile := (f_data f, f_fail f, mkFile (f_name f) [] (f_fail f)).

(** qfs.PathResolver: nil, or a Get method returning a file (or nil) and an error (or nil) *)
Notation resolver := (option (bytes -> option sfile * option err)).
Definition err_inline_body : err := EMsg "dataset body is inlined".
Definition err_no_resolver : err := EMsg "no resolver available to fetch path".

(** The fields of a readme, viz or transform the methods use *)
Record script := mkSrc { s_text : bytes; s_path : bytes; s_file : option sfile }.
(** OpenScriptFile; [mem] is readme.md, template.html or transform.star *)
Definition open_script (mem : bytes) (res : resolver) (s : script) : script * option err :=
  match s_text s with
  | _ :: _ => (mkSrc (s_text s) (s_path s) (Some (mkFile mem (s_text s) None)), None)
  | [] =>
      match s_path s with
      | [] => (s, None)
      | p => match res with
             | None => (s, Some err_no_resolver)
             | Some get => let '(f, e) := get p in (mkSrc (s_text s) (s_path s) f, e)
             end
      end
  end.
(** InlineScriptFile *)
Definition inline_script (mem : bytes) (res : resolver) (s : script) : script * option err :=
  match res with
  | None => (s, None)
  | Some _ =>
      match open_script mem res s with
      | (s1, Some e) => (s1, Some e)
      | (s1, None) =>
          match s_file s1 with
          | None => (s1, None)
          | Some f => let '(d, e, f') := read_all f in
                      match e with
                      | Some e => (mkSrc (s_text s1) (s_path s1) (Some f'), Some e)
                      | None => (mkSrc d [] (Some f'), None)
                      end
          end
      end
  end.
(** OpenRenderedFile (readme.go:123-134, viz.go:123-134): path and rendered file *)
Definition open_rendered (res : resolver) (path : bytes) (f : option sfile) : option sfile * option err :=
  match path with
  | [] => (f, None)
  | _ => match res with None => (f, Some err_no_resolver) | Some get => get path end
  end.

(** The fields of a dataset OpenBodyFile uses *)
Record body := mkBody { b_inline : jdoc; b_bytes : option bytes; b_path : bytes; b_file : option sfile }.
Definition open_body (res : resolver) (b : body) : body * option err :=
  match b_inline b with
  | JNull =>
      match b_bytes b with
      | Some d => let name := match b_path b with [] => bs "body" | p => p end in
                  (mkBody (b_inline b) (b_bytes b) (b_path b) (Some (mkFile name d None)), None)
      | None =>
          match b_path b with
          | [] => (b, None)
          | p => match res with
                 | None => (b, Some err_no_resolver)
                 | Some get => let '(f, e) := get p in
                     (mkBody (b_inline b) (b_bytes b) (b_path b) f, option_map (fun e => EWrap "opening dataset.bodyPath" 0 e) e)
                 end
          end
      end
  | _ => (b, Some err_inline_body)
  end.
