(** Making a context: data files (env.rs), rules (rule.rs:118-195), form changers
    (kana_form_changer.rs:121-160, ascii_form_changer.rs:18-57), the constructors and set_rule
    (lib.rs:1462-1551).
    Simplifications: TOML parsing is a parameter that yields the tables; which directory the xdg
    crate finds for the rules is a parameter. *)
From Verif Require Import Str Keys Modes KanaBuilder FormChanger DictTypes Dictionary CState Context DefaultRule.

(** What is at a path: [Unreadable] stands for files that cannot be opened or are not UTF-8. *)
Inductive node := Directory | Text (s : str) | Unreadable.
Definition files := str -> option node.
Definition path_exists (f : files) (p : str) : bool := match f p with Some _ => true | None => false end.
(** File::open and read_to_string *)
Definition read_text (f : files) (p : str) : option str :=
  match f p with Some (Text s) => Some s | _ => None end.
(** Path::push: an absolute path replaces *)
Definition path_push (base p : str) : str :=
  match p with
  | c :: _ => if N.eqb c 47 then p
              else if is_nil base || is_suffixb (U "/") base then base ++ p else base ++ U "/" ++ p
  | [] => if is_nil base || is_suffixb (U "/") base then base else base ++ U "/"
  end.

(** the environment variables, None when not set (or not Unicode) *)
Record environment := mkEnv { v_home : option str; v_data_home : option str; v_data_dirs : option str }.
(** env.rs:20-50 *)
Definition in_dir (d p : str) : str := d ++ U "/" ++ p.
Definition search_path (e : environment) (f : files) (p : str) : option str :=
  let first :=
    match v_data_home e with
    | Some d => if path_exists f (in_dir d p) then Some (in_dir d p) else None
    | None => match v_home e with
              | Some h => if path_exists f (in_dir (h ++ U "/.local/share") p)
                          then Some (in_dir (h ++ U "/.local/share") p) else None
              | None => None
              end
    end in
  match first with
  | Some r => Some r
  | None =>
      let dirs := split_on 58 (match v_data_dirs e with Some s => s | None => U "/usr/local/share/:/usr/share/" end) in
      match find (fun d => path_exists f (in_dir d p)) dirs with
      | Some d => Some (in_dir d p)
      | None => None
      end
  end.

(** rule.rs:10-14, 30-91: the tables of a rule file; 16-28: those of metadata.toml *)
Definition rule_table := (list (str * (str * str)) * list row_src)%type.
Record meta_entry := mkMeta { e_name : str; e_description : str; e_path : str }.
Definition metadata := list (str * meta_entry).
(** DeserializeFromStr of keys and instructions: an error ends the loading, a panic is a panic *)
Fixpoint read_instrs (l : list str) : res (option (list instr)) :=
  match l with
  | [] => Ok (Some [])
  | s :: r => rbind (instr_from_str s) (fun o =>
              match o with
              | None => Ok None
              | Some i => rmap (option_map (cons i)) (read_instrs r)
              end)
  end.
Fixpoint read_rows (x : xkb) (l : list row_src) : res (option (list (cmode * imode * keyev * list instr))) :=
  match l with
  | [] => Ok (Some [])
  | (c, i, k, is_) :: r =>
      rbind (key_from_str x k) (fun pk =>
      match pk with
      | PErr => Ok None
      | PKey k => rbind (read_instrs is_) (fun o =>
                  match o with
                  | None => Ok None
                  | Some is_ => rmap (option_map (cons (c, i, k, is_))) (read_rows x r)
                  end)
      end)
  end.
(** a later row for the same key replaces an earlier one (HashMap) *)
Definition read_rule (x : xkb) (t : rule_table) : res (option rule) :=
  rmap (option_map (fun rows => mkRule (fst t) (command_of_rows (rev rows)))) (read_rows x (snd t)).

Section Setup.
Variable X : xkb.
(** toml::from_str at the four types *)
Variable toml_rule : str -> option rule_table.
Variable toml_metadata : str -> option metadata.
Variable toml_kana : str -> option kana_form.
Variable toml_ascii : str -> option (list str * list str).

(** rule.rs:126-131 *)
Definition load_rule_file (f : files) (p : str) : res (option rule) :=
  match read_text f p with
  | None => Ok None
  | Some s => match toml_rule s with None => Ok None | Some t => read_rule X t end
  end.
(** rule.rs:144-175; [rules] is the directory the xdg crate found *)
Definition load_metadata (f : files) (rules : option str) : option (str * metadata) :=
  match rules with
  | None => None
  | Some d => match read_text f (path_push d (U "metadata.toml")) with
              | None => None
              | Some s => option_map (fun m => (d, m)) (toml_metadata s)
              end
  end.
(** rule.rs:178-195 *)
Definition load_rule (f : files) (m : str * metadata) (id : str) : res (option rule) :=
  match assoc_str id (snd m) with
  | None => Ok None
  | Some e => load_rule_file f (path_push (path_push (fst m) (e_path e)) (U "rule.toml"))
  end.
(** kana_form_changer.rs:121-140: [expect] *)
Definition default_kana_changer (e : environment) (f : files) : res kana_form :=
  let parse s := match toml_kana s with Some kf => Ok kf | None => Panic PanicExpect end in
  match search_path e f (U "libcskk/rule/kana_form.toml") with
  | None => parse []
  | Some p => match read_text f p with Some s => parse s | None => Panic PanicExpect end
  end.
(** ascii_form_changer.rs:19-57 *)
Definition default_ascii_changer (e : environment) (f : files) : res ascii_map :=
  let parse s := match toml_ascii s with
                 | Some (h, z) => Ok (ascii_form_map h z)
                 | None => Panic PanicExpect
                 end in
  match search_path e f (U "libcskk/rule/ascii_form.toml") with
  | None => parse []
  | Some p => match read_text f p with Some s => parse s | None => Panic PanicExpect end
  end.
(** lib.rs:1489-1510; [Ok None] is Err *)
Definition context_new (e : environment) (f : files) (rules : option str) (ds : list nat)
           (i : imode) (c : cmode) : res (option ctx) :=
  match load_metadata f rules with
  | None => Ok None
  | Some m =>
      rbind (load_rule f m (U "default")) (fun o =>
      match o with
      | None => Ok None
      | Some r => rbind (default_kana_changer e f) (fun kf =>
                  rmap (fun am => Some (ctx_new X r kf am ds i c)) (default_ascii_changer e f))
      end)
  end.
(** lib.rs:1533-1551 *)
Definition context_new_empty (e : environment) (f : files) (ds : list nat) (i : imode) (c : cmode) : res ctx :=
  rbind (default_kana_changer e f) (fun kf =>
  rmap (fun am => ctx_new_empty kf am ds i c) (default_ascii_changer e f)).
(** lib.rs:1515-1525 *)
Definition context_new_with_empty_fallback (e : environment) (f : files) (rules : option str) (ds : list nat)
           (i : imode) (c : cmode) : res ctx :=
  rbind (context_new e f rules ds i c) (fun o =>
  match o with
  | Some x => Ok x
  | None => context_new_empty e f ds i c
  end).
(** lib.rs:1462-1466, 1480-1486; false is Err *)
Definition set_rule (f : files) (rules : option str) (id : str) (w : world) : res (bool * world) :=
  match load_metadata f rules with
  | None => Ok (false, w)
  | Some m =>
      rbind (load_rule f m id) (fun o =>
      match o with
      | None => Ok (false, w)
      | Some r => rmap (fun '(_, w') => (true, w')) (exec X true (OSetRule r) w)
      end)
  end.
End Setup.
