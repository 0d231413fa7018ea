(** parser.go and the file output of the generators. *)

From Coq Require Import String Ascii List NArith ZArith Bool.
From Verif Require Import GoStr GoPath Base Utils GenGo GenC GenJava GenRust GenTS World Handlers.
Import ListNotations.
Local Open Scope string_scope.

(** parser.go:24-53.  FileDir is not a field: Parse sets it from FilePath
    before anything reads it (parser.go:65).  The shared maps are in [World].
    [o_ps] holds ProtoTree and the per-document fields as they are before the
    call. *)
Record Options : Type := mkO {
  o_file : string;
  o_input : string;
  o_output : string;
  o_extract : bool;
  o_lang : string;
  o_package : string;
  o_ps : PState
}.

Definition o_dir (o : Options) : string := dir (o_file o).

Section Parser.
Context {E : Env}.

(** The loop at the start of every Gen function, e.g. genGo.go:62-69: the
    counter starts empty and the entries are processed in order. *)
Definition run_entries (entry : list proto -> GState -> proto -> GState) (pt : list proto) : GState :=
  fold_left (entry pt) pt g_init.

(** genC.go:39-56, genJava.go:34-64, genRust.go:98-121, genTypeScript.go:30-48 *)
Definition gen_plain (entry : list proto -> GState -> proto -> GState) (source : GState -> string)
    (ext : string) (file : string) (pt : list proto) (w : World) : out unit :=
  let g := run_entries entry pt in
  let w := set_count (g_count g) w in
  let path := file_with_extension file ext in
  match create_write path (source g) w with
  | None => Fail (ECreate path) w
  | Some w => Ret tt w
  end.

(** genGo.go:61-96 GenGo *)
Definition gen_go (pkg file : string) (pt : list proto) (w : World) : out unit :=
  let g := run_entries go_entry pt in
  let w := set_count (g_count g) w in
  let path := file_with_extension file ".go" in
  match env_gofmt (go_source pkg g) with
  | Some formatted =>
      match create_write path formatted w with
      | None => Fail (ECreate path) w
      | Some w => Ret tt w
      end
  | None =>
      match create_write path (go_fallback pkg g) w with
      | None => Fail (ECreate path) w
      | Some w => Fail EGofmt w
      end
  end.

(** parser.go:146-149: the method "Gen" ++ ToTitle(Lang) of CodeGenerator; no
    such method: nothing happens *)
Definition generate (lang pkg file : string) (pt : list proto) (w : World) : out unit :=
  let m := to_title lang in
  if String.eqb m "Go" then gen_go pkg file pt w
  else if String.eqb m "C" then gen_plain c_entry c_source ".h" file pt w
  else if String.eqb m "Java" then gen_plain java_entry (java_source pkg) ".java" file pt w
  else if String.eqb m "Rust" then gen_plain rust_entry rust_source ".rs" file pt w
  else if String.eqb m "TypeScript" then gen_plain ts_entry ts_source ".ts" file pt w
  else Ret tt w.

(** parser.go:134 *)
Definition output_path (o : Options) : string :=
  join2 (o_output o) (trim_prefix (o_file o) (o_input o)).

(** parser.go:81-82 and 132-133 *)
Definition register (o : Options) (tree : list proto) (w : World) : World :=
  set_parsed (add_key (o_file o) (w_plist w)) (put (o_file o) tree (w_pmap w)) w.

(** parser.go:182-193, 209-220, 230-241: the Options of a nested parser
    (InputDir and Package are left empty) *)
Definition nested (o : Options) (file : string) (extract : bool) : Options :=
  mkO file "" (o_output o) extract (o_lang o) "" p_init.

Section Body.
(** The recursive calls of Parse, and the budget of the include loop. *)
Variable rec : Options -> World -> out PState.
Variable fuel : nat.

(** parser.go:181-200.  [initial]: the keys present when the loop starts, which
    Go guarantees to visit; keys added during the loop may or may not be
    visited; no key is visited twice.  The oracle picks the next key, or (once
    every initial key was visited) the end of the loop.  A nested error makes
    GetValueType return the present value and a nil error: [inr]. *)
Fixpoint include_loop (n : nat) (o : Options) (name : string) (initial visited : list string)
    (vt : string) (w : World) : out (string + string) :=
  match n with
  | O => Crash NoFuel w
  | S n' =>
      let cands := filter (fun k => negb (in_set k visited)) (w_inc w) in
      let must := existsb (fun k => negb (in_set k visited)) initial in
      let total := length cands + (if must then 0 else 1) in
      match nth_error cands (Nat.modulo (env_choose (w_tick w)) total) with
      | None => Ret (inl vt) w
      | Some k =>
          let w := set_tick (S (w_tick w)) w in
          match rec (nested o (join2 (o_dir o) k) true) w with
          | Crash c w => Crash c w
          | Fail _ w => Ret (inr vt) w
          | Ret p w =>
              let t := get_base name (freeze p) in
              include_loop n' o name initial (k :: visited)
                (if String.eqb t name then vt else t) w
          end
      end
  end.

(** parser.go:156-247 GetValueType *)
Definition get_value_type (o : Options) (value : string) (tree : list proto) (w : World)
  : out string :=
  let name := trim_ns_prefix value in
  match get_build_in_type name (o_lang o) with
  | Some t => Ret t w
  | None =>
      let base := get_base name tree in
      if negb (String.eqb base name) && negb (String.eqb base "") then Ret base w
      else if o_extract o then Ret base w
      else
        (* schema.go:44-46 parseNS *)
        let loc := get0 (get0 (get_ns_prefix value) (w_lns w)) (w_nsl w) in
        if is_valid_url loc then Ret base w
        else
          let file := join2 (o_dir o) loc in
          match stat file w with
          | SNotExist | SErr => Fail (EStat file) w
          | SDir =>
              bind (include_loop fuel o name (w_inc w) [] "" w)
                (fun r w =>
                   match r with
                   | inr vt => Ret vt w
                   | inl vt => Ret (if String.eqb vt "" then name else vt) w
                   end)
          | SFile _ =>
              (* parser.go:230-246 *)
              let again (found : string) (w : World) : out string :=
                match rec (nested o file true) w with
                | Crash c w => Crash c w
                | Fail _ w => Ret found w
                | Ret p w => Ret (get_base name (freeze p)) w
                end in
              let resolve (dep : list proto) (w : World) : out string :=
                let t := get_base name dep in
                if negb (String.eqb t name) && negb (String.eqb t "") then Ret t w
                else again t w in
              match get file (w_pmap w) with
              | Some dep => resolve dep w
              | None =>
                  match rec (nested o file false) w with
                  | Crash c w => Crash c w
                  | Fail _ w => Ret base w
                  | Ret p w => resolve (freeze p) w
                  end
              end
          end
  end.

(** parser.go:131-151: registration, output directory, generation *)
Definition finish (o : Options) (p : PState) (w : World) : out PState :=
  if o_extract o then Ret p w
  else
    let w := register o (freeze p) w in
    let path := output_path o in
    let '(w, ok) := prepare_output_dir (dir path) w in
    if ok then bind (generate (o_lang o) (o_package o) path (freeze p) w) (fun _ w => Ret p w)
    else Crash Exit1 w.

(** parser.go:64-152 Parse.  The file content is taken when the file is
    opened. *)
Definition parse_body (o : Options) (w : World) : out PState :=
  match stat (o_file o) w with
  | SNotExist | SErr => Fail (EStat (o_file o)) w
  | SDir => Ret (o_ps o) w
  | SFile bytes =>
      if env_open_fail (o_file o) then Fail (EOpen (o_file o)) w
      else
        let w := if o_extract o then w else register o (freeze (o_ps o)) w in
        bind (run_tokens (get_value_type o) (env_tokens bytes) p_init w) (finish o)
  end.

End Body.

(** Parse with nesting depth at most [d] and at most [fuel] include visits per
    loop; running out is [Crash NoFuel], shown not to happen in C16. *)
Fixpoint parse (d fuel : nat) (o : Options) (w : World) : out PState :=
  match d with
  | O => Crash NoFuel w
  | S d' => parse_body (parse d' fuel) fuel o w
  end.

End Parser.
