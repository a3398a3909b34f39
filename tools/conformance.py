"""Generates rocq/theories/Conformance.v: the scenarios of some of the
project's own tests (/repo/tests/testN.c, array ev[]) as scripts of the model,
and what testN.ans says they print.  Tests of the model, not claims."""
import re,sys
R='/repo/tests/'
TESTS=[36,45,46,47,48,49,50,51,72,80,81]
def bl(s): return '['+';'.join(str(ord(c)) for c in s)+']'
out=[]
for t in TESTS:
    src=open(R+f'test{t}.c').read(); ans=open(R+f'test{t}.ans').read().split('\n')
    NM=int(re.search(r'#define NMSG (\d+)',src).group(1))
    rs=re.search(r'ring_sz = (\d+);',src); rs=int(rs.group(1))
    ini=re.search(r'shr_init\(ring, ring_sz, ([^,)]*), NMSG\)',src).group(1)
    ini=re.sub(r'/\*.*?\*/','',ini)
    flags=' '.join(ini.replace('|',' ').split()).split()
    body=src[src.index('ev[] = {'):]; body=body[:body.index('};')]
    body=re.sub(r'/\*.*?\*/','',body)
    evs=re.findall(r'\{\s*([WRF]),\s*(\w+)\s*\}',body)
    cmds=[];obs=[];cl={};n=0;seq={k:ord('a') for k in 'WRF'};p=0;pid={'W':7,'R':8,'F':9}
    dead=set()
    for who,op in evs:
        if who in dead: continue
        if op!='do_open' and who not in cl: dead.add(who); continue  # shr_close(NULL)
        # locate the line announcing the op
        while p<len(ans) and ans[p]!=f'{who.lower()}: {op}': p+=1
        assert p<len(ans),(t,who,op)
        p+=1
        if op=='do_open':
            cmds.append(f'Open {"WR" if who=="W" else "RDN"} {pid[who]}'); cl[who]=n; n+=1
        elif op=='do_close': cmds+= [f'Call {cl[who]} CClose',f'Run {cl[who]}']
        elif op=='do_exit': pass
        elif op=='do_stat':
            assert ans[p] in ('stat: 0','w: stat: 0'),ans[p]
            m=re.match(r'(?:w: )?bw (\d+), br (\d+), mw (\d+), mr (\d+), md (\d+), bd (\d+), bn (\d+), bu (\d+), mu (\d+)',ans[p+1]); assert m; p+=2
            cmds+=[f'Call {cl[who]} (CStat None)',f'Run {cl[who]}']; obs.append('OStat '+' '.join(m.groups()))
        elif op=='do_farm_stat':
            m=re.match(r'drops: (\d+)',ans[p]); assert m; p+=1
            cmds.append(f'Call {cl[who]} (CFarmStat false)'); obs.append(f'ODrops {m.group(1)}')
        elif op=='do_read_one':
            l=ans[p]; p+=1
            cmds+=[f'Call {cl[who]} (CRead (zeros 37) 1)',f'Run {cl[who]}']
            obs.append('ONoData' if l=='shr_read: no data' else ('OErr' if l=='shr_read: error' else 'OGot '+bl(l)))
        elif re.match(r'do_write_one(_\db)?$',op):
            k=int(op[-2]) if op.endswith('b') else 1
            m=chr(seq[who])*k; assert ans[p]==f'w: wrote seq {m}',(t,ans[p],m); p+=1; seq[who]+=1
            cmds+=[f'Call {cl[who]} (CWrite [{bl(m)}])',f'Run {cl[who]}']; obs.append(f'OPut {k}')
        elif op=='do_write_20b':
            m=''.join(chr(seq[who]+i) for i in range(20)); assert ans[p]==f'w: wrote {m}',(t,ans[p],m); p+=1; seq[who]+=1
            cmds+=[f'Call {cl[who]} (CWrite [{bl(m)}])',f'Run {cl[who]}']; obs.append('OPut 20')
        else: raise Exception((t,op))
    fl=flags[0]
    for f in flags[1:]: fl=f'(Z.lor {fl} {f})'
    out.append(f'''(** tests/test{t}.c, tests/test{t}.ans *)
Definition script{t} : list cmd := [{"; ".join(cmds)}].
Definition answer{t} : list obs := [{"; ".join(obs)}].
Example test{t} : observe (ring_for {rs} {fl} {NM}) script{t} = Some answer{t}.
Proof. vm_compute. reflexivity. Qed.
''')
hdr='''(** * Conformance: scenarios of the project's own tests run in the model.
    Generated by tools/conformance.py from /repo/tests.  These are tests of the
    model against the outputs its authors recorded, not claims. *)
From Verif Require Import Witness.

(** what the test programs print *)
Inductive obs :=
| OGot (m : bytes) | ONoData | OErr                          (* shr_read *)
| OPut (n : Z)                                               (* shr_write *)
| OStat (bw br mw mr md bd bn bu mu : Z)                     (* shr_stat *)
| ODrops (n : Z).                                            (* shr_farm_stat *)
Definition obs_of (e : event) : list obs :=
  match e with
  | ERet _ (RetRead v buf _) => [if v =? 0 then ONoData else if v <? 0 then OErr else OGot (firstn (Z.to_nat v) buf)]
  | ERet _ (RetWrite _ v) => [OPut v]
  | ERet _ (RetStat _ _ (Some so)) =>
      let s := so_stat so in
      [OStat (st_bw s) (st_br s) (st_mw s) (st_mr s) (st_md s) (st_bd s) (so_bn so) (so_bu so) (so_mu so)]
  | ERet _ (RetFarm _ d) => [ODrops d]
  | _ => []
  end.
Definition ring_for (sz flags max : Z) : world := world0 (new_ring sz flags max []) (new_size sz flags max []).
Definition observe (w : world) (s : list cmd) : option (list obs) :=
  match play w s with Some (_, evs) => Some (flat_map obs_of evs) | None => None end.

'''
open(sys.argv[1],'w').write(hdr+'\n'.join(out))
