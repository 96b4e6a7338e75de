(** Concrete worlds for witnesses and non-vacuity examples: the shipped default rule and
    small dictionaries. *)
From Verif Require Import Str Keys Modes KanaBuilder FormChanger DictTypes Parser Lru
  Dictionary CState Context DefaultRule.

(** key sequences in the notation of the tests, e.g. A i space *)
Definition dkeys (s : str) : list keyev :=
  match deserialize_seq ascii_xkb s with Ok (Some l) => l | _ => [] end.
Definition demo_ctx (ids : list nat) : ctx :=
  ctx_new ascii_xkb default_rule default_kana_form default_ascii_map ids Hiragana Direct.
Definition demo (ds : list dict) : world := mkW ds (demo_ctx (seq 0 (length ds))).
Definition user_dict (lines : list str) : dict := mkDict true (DUser (load_lines lines) false).
Definition static_dict (lines : list str) : dict := mkDict true (DStatic (load_lines lines)).
Definition typed (dbg : bool) (s : str) (w : world) : res (list out * world) :=
  run ascii_xkb dbg (map OKey (dkeys s)) w.
Definition dic_small : list str := Eval vm_compute in
  [U ";; okuri-ari entries."; U "かk /書/掛/"; U "おくr /送/[る/贈/]/";
   U ";; okuri-nasi entries."; U "あい /愛;love/哀/相/"; U "かな /仮名/";
   U "だい# /第#1/第#3/"; U "#こ /#2個/#4子/"].
(** what the user sees: preedit, polled text, composition mode *)
Definition seen (r : res (list out * world)) : option (str * option str * cmode) :=
  match r with
  | Ok (_, w) =>
      Some (get_preedit ascii_xkb (w_ctx w),
            match poll_output w with Ok (t, _) => t | Panic _ => None end,
            match x_stack (w_ctx w) with s :: _ => s_cmode s | [] => Register end)
  | Panic _ => None
  end.

(** Reading off facts about a computed run without normalising the whole world. *)
Lemma run_case {A B} (r : res (A * world)) (f : world -> B) (v : B) :
  rmap (fun x => f (snd x)) r = Ok v -> exists outs w, r = Ok (outs, w) /\ f w = v.
Proof. destruct r as [[a w]|]; cbn; [|discriminate]. intros [= <-]. eauto. Qed.
