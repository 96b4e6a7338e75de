#!/usr/bin/env python3
"""Transcribes the integration tests of /repo/tests (transition_check calls) into Coq Examples
run against the model.  They validate the transcription of the code; they are tests."""
import re,glob,os
T='/repo/tests/'
def q(s): return '(U "'+s.replace('"','""')+'")'
dicts={}
def dname(path):
    b=os.path.basename(path); n='dic_'+re.sub(r'\W','_',b)
    enc='euc-jp' if b=='SKK-JISYO.S' else 'utf-8'
    dicts[n]=(path,open('/repo/'+path,'rb').read().decode(enc))
    return n
tests=[];skipped=[]
for f in [T+'tests.rs',T+'abbreviation.rs',T+'completion.rs']+sorted(glob.glob(T+'libskk_compatibility/*.rs'))+sorted(glob.glob(T+'rule_specific/*.rs')):
    src=open(f).read()
    src=re.sub(r'^\s*//.*$','',src,flags=re.M)
    for m in re.finditer(r'(?:#\[ignore\]\s*)?#\[test\]\s*(?:#\[[^\]]*\]\s*)*(?:pub )?fn (\w+)\(\) \{(.*?)\n\}',src,flags=re.S):
        name,body=m.groups()
        if '#[ignore' in m.group(0) or '#[should_panic' in m.group(0): skipped.append(os.path.basename(f)[:-3]+'_'+name); continue
        full=os.path.basename(f)[:-3]+'_'+name
        body0=body
        ds={}; rule='default'; order=None
        b=body
        b=b.replace('init_test_logger();','')
        b=re.sub(r'let temppath = make_temp_file\(\)\.unwrap\(\);','',b)
        b=re.sub(r'let (\w+) = temppath\.to_str\(\)\.unwrap\(\);','',b)
        def dd(mm):
            v,kind,path,comp=mm.group(1),mm.group(2),mm.group(3),mm.group(4)
            txt='[]' if not path.startswith('"') else dname(path.strip('"'))
            ds[v]=(kind,txt,comp); return ''
        b=re.sub(r'let (\w+)\s*=\s*CskkDictionary::new_(static|user)_dict\(\s*("[^"]*"|\w+),\s*"[^"]*",\s*(true|false),?\s*\)\s*\.unwrap\(\);',dd,b)
        ok=True
        mm=re.search(r'let mut context\s*=\s*(.*?);',b,flags=re.S)
        if not mm: skipped.append(full); continue
        c=mm.group(1); b=b.replace(mm.group(0),'')
        if c.strip()=='default_test_context()' or c.strip()=='azik_test_context()':
            order=[('static',dname('tests/data/dictionaries/SKK-JISYO.S'),'true')]
            if c.startswith('azik'): rule='azik'
        else:
            m2=re.match(r'test_context_with_dictionaries\(vec!\[(.*)\]\)$',c.strip(),flags=re.S)
            if not m2: skipped.append(full); continue
            vs=re.findall(r'Arc::new\((\w+)\)',m2.group(1)); 
            try: order=[ds[v] for v in vs]
            except KeyError: skipped.append(full); continue
        steps=[]
        pat=re.compile(r'\s*(?:transition_check\(\s*&mut context,\s*CompositionMode::(\w+),\s*InputMode::(\w+),\s*"((?:[^"\\]|\\.)*)",\s*"((?:[^"\\]|\\.)*)",\s*"((?:[^"\\]|\\.)*)",\s*InputMode::(\w+),?\s*\);?|(skk_context_reset_rs\(&mut context\);)|skk_context_set_auto_start_henkan_keywords_rs\(&mut context, vec!\[(.*?)\]\);)',re.S)
        pos=0
        while b[pos:].strip():
            p=pat.match(b,pos)
            if not p: ok=False;break
            pos=p.end()
            if p.group(7): steps.append('TReset')
            elif p.group(8) is not None: steps.append('TAuto ['+'; '.join(q(x) for x in re.findall(r'"([^"]*)"',p.group(8)))+']')
            else:
                cm,im,k,pre,out,im2=p.groups()[:6]
                steps.append(f'TCheck {cm} {im} {q(k)} {q(pre)} {q(out)} {im2}')
        if not ok: skipped.append(full+' @ '+b[pos:pos+60].strip().replace('\n',' ')); continue
        tests.append((full,rule,order,steps))
o=[]
w=o.append
w('''(** GENERATED by tools/mktests.py from /repo/tests/*.rs: the integration tests of the project
    run against the model (tests of the transcription, not proofs of properties).
    Not transcribed: '''+', '.join(s.split(' @')[0] for s in skipped)+'''. *)
From Verif Require Import Str Keys Modes KanaBuilder FormChanger DictTypes Parser Lru
  Dictionary CState Context DefaultRule.
''')
for n,(path,t) in dicts.items():
    w(f'(** /repo/{path} *)')
    ls=t.split('\n')
    if ls[-1]=='': ls.pop()
    ch=[ls[i:i+100] for i in range(0,len(ls),100)]
    for i,c in enumerate(ch):
        w(f'Definition {n}_{i} : list str := Eval vm_compute in [\n  '+';\n  '.join(q(x) for x in c)+'].')
    w(f'Definition {n} : dents := Eval vm_compute in load_lines ('+' ++ '.join(f'{n}_{i}' for i in range(len(ch)))+').')
w('''
Inductive tstep :=
| TReset | TAuto (l : list str)
| TCheck (c : cmode) (i : imode) (keys preedit output : str) (i' : imode).
Fixpoint tkeys (dbg : bool) (ks : list keyev) (w : world) : option world :=
  match ks with
  | [] => Some w
  | k :: r => match process_key_event ascii_xkb dbg k w with
              | Ok (_, w') => tkeys dbg r w'
              | Panic _ => None
              end
  end.
(** tests/utils/mod.rs:13-41 *)
Definition tstep_ok (dbg : bool) (s : tstep) (w : world) : option world :=
  match s with
  | TReset => match exec ascii_xkb dbg OReset w with Ok (_, w') => Some w' | Panic _ => None end
  | TAuto l => match exec ascii_xkb dbg (OSetAutoStart l) w with Ok (_, w') => Some w' | Panic _ => None end
  | TCheck c i keys pre out i' =>
      match run ascii_xkb dbg [OSetCompositionMode c; OSetInputMode i] w, deserialize_seq ascii_xkb keys with
      | Ok (_, w1), Ok (Some ks) =>
          match tkeys dbg ks w1 with
          | Some w2 =>
              match poll_output w2 with
              | Ok (o, w3) =>
                  match x_stack (w_ctx w3) with
                  | st :: _ =>
                      if str_eqb (odef o) out && str_eqb (get_preedit ascii_xkb (w_ctx w3)) pre
                         && imode_eqb (s_imode st) i'
                      then Some w3 else None
                  | [] => None
                  end
              | Panic _ => None
              end
          | None => None
          end
      | _, _ => None
      end
  end.
Fixpoint tsteps_ok (dbg : bool) (l : list tstep) (w : world) : bool :=
  match l with
  | [] => true
  | s :: r => match tstep_ok dbg s w with Some w' => tsteps_ok dbg r w' | None => false end
  end.
Definition tworld (r : rule) (ds : list dict) : world :=
  mkW ds (ctx_new ascii_xkb r default_kana_form default_ascii_map (seq 0 (length ds)) Hiragana Direct).
''')
for name,rule,order,steps in tests:
    dl=[]
    for kind,txt,comp in order:
        e='dents_empty' if txt=='[]' else txt
        dl.append(f'mkDict {comp} ('+(f'DStatic {e}' if kind=='static' else f'DUser {e} false')+')')
    w(f'Example t_{name} : tsteps_ok true [\n  '+';\n  '.join(steps)+f'] (tworld {rule}_rule ['+'; '.join(dl)+']) = true.\nProof. vm_compute. reflexivity. Qed.')
open('/verif/rocq/theories/ModelTests.v','w').write('\n'.join(o)+'\n')
print(len(tests),'tests',sum(len(t[3]) for t in tests),'steps; skipped:');print('\n'.join(skipped))
