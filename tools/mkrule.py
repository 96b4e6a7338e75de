#!/usr/bin/env python3
"""Generates rocq/theories/DefaultRule.v from the toml files of /repo/assets.
Only the data is transcribed; key names and instruction names are parsed in Coq by the model
of the parsers (Keys.v, Modes.v)."""
import tomllib
A='/repo/assets/'
def q(s):
    return '(U "' + s.replace('"','""') + '")'
def lst(xs, f, ind):
    return '[' + (';\n'+' '*ind).join(f(x) for x in xs) + ']'
out=[]
w=out.append
w('''(** GENERATED by tools/mkrule.py from /repo/assets/rules/default/rule.toml,
    /repo/assets/rules/azik/rule.toml, /repo/assets/rule/kana_form.toml and
    /repo/assets/rule/ascii_form.toml.  Do not edit. *)
From Verif Require Import Str Keys Modes KanaBuilder FormChanger.

(** The texts of a rule file (rule.rs:10-14 and 30-91): a row is a composition mode, an input
    mode, a key text and the instruction texts. *)
Definition row_src := (cmode * imode * str * list str)%type.
Fixpoint parse_instrs (l : list str) : option (list instr) :=
  match l with
  | [] => Some []
  | s :: r => match instr_from_str s, parse_instrs r with
              | Ok (Some i), Some is_ => Some (i :: is_)
              | _, _ => None
              end
  end.
Definition parse_row (x : xkb) (r : row_src) : option (cmode * imode * keyev * list instr) :=
  let '(c, i, k, l) := r in
  match key_from_str x k, parse_instrs l with
  | Ok (PKey k), Some is_ => Some (c, i, k, is_)
  | _, _ => None
  end.
Fixpoint parse_rows (x : xkb) (l : list row_src) : option (list (cmode * imode * keyev * list instr)) :=
  match l with
  | [] => Some []
  | r :: rs => match parse_row x r, parse_rows x rs with
               | Some a, Some b => Some (a :: b)
               | _, _ => None
               end
  end.
Definition command_of_rows (l : list (cmode * imode * keyev * list instr)) : command_rule :=
  fun c i => flat_map (fun '(c', i', k, is_) =>
                if cmode_eqb c c' && imode_eqb i i' then [(k, is_)] else []) l.
''')
CM={'direct':'Direct','pre_composition':'PreComposition','pre_compisition_okurigana':'PreCompositionOkurigana','abbreviation':'Abbreviation','composition_selection':'CompositionSelection','completion':'Completion'}
IM={'hiragana':'Hiragana','katakana':'Katakana','hankakukatakana':'HankakuKatakana','zenkaku':'Zenkaku','ascii':'Ascii'}
def rule(name,path):
    d=tomllib.load(open(A+path,'rb'))
    w(f'(** /repo/assets/{path}, section conversion *)')
    w(f'Definition {name}_conversion : list (str * (str * str)) :=\n  Eval vm_compute in\n  '+lst(list(d['conversion'].items()), lambda kv: f'({q(kv[0])}, ({q(kv[1][0])}, {q(kv[1][1])}))',3)+'.')
    rows=[]
    for c in CM:
        for i in d.get(c,{}):
            for k,v in d[c][i].items():
                rows.append((CM[c],IM[i],k,v))
    w(f'(** /repo/assets/{path}, the command sections *)')
    w(f'Definition {name}_rows_src : list row_src :=\n  Eval vm_compute in\n  '+lst(rows, lambda r: f'({r[0]}, {r[1]}, {q(r[2])}, ['+'; '.join(q(x) for x in r[3])+'])',3)+'.')
    w(f'''Definition {name}_rows : list (cmode * imode * keyev * list instr) :=
  Eval vm_compute in match parse_rows ascii_xkb {name}_rows_src with Some l => l | None => [] end.
Example {name}_rows_parse : parse_rows ascii_xkb {name}_rows_src = Some {name}_rows.
Proof. vm_compute. reflexivity. Qed.
Definition {name}_rule : rule := mkRule {name}_conversion (command_of_rows {name}_rows).
''')
rule('default','rules/default/rule.toml')
rule('azik','rules/azik/rule.toml')
k=tomllib.load(open(A+'rule/kana_form.toml','rb'))
for t in ('katakana','jisx0201'):
    w(f'(** /repo/assets/rule/kana_form.toml, section {t} *)')
    w(f'Definition default_{t} : list (str * str) :=\n  Eval vm_compute in\n  '+lst(list(k[t].items()), lambda kv: f'({q(kv[0])}, {q(kv[1])})',3)+'.')
w('Definition default_kana_form : kana_form := mkKF default_katakana default_jisx0201.')
a=tomllib.load(open(A+'rule/ascii_form.toml','rb'))
w('(** /repo/assets/rule/ascii_form.toml *)')
for t in ('hankaku','zenkaku'):
    w(f'Definition default_{t} : list str :=\n  Eval vm_compute in\n  '+lst(a[t], q,3)+'.')
w('Definition default_ascii_map : ascii_map :=\n  Eval vm_compute in ascii_form_map default_hankaku default_zenkaku.')
open('/verif/rocq/theories/DefaultRule.v','w').write('\n'.join(out)+'\n')
