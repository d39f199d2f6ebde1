import argparse,random,sys,io,contextlib,subprocess
def T(c):
    def f(s):
        if c!='CStr' and 'bad' in s: raise ValueError
        return (c,s)
    return f
class P(argparse.ArgumentParser): pass
def lay(p,kb=True,l=True):
    if l: p.add_argument('-l','--layout')
    if kb: p.add_argument('-k','--keyboard',default='ibmpc105')
def analyze():
    p=P(prog='x'); lay(p); sub=p.add_subparsers()
    for n,f in [('pretty','pretty'),('combine','combine'),('letterfreq','letterfreq')]:
        sub.add_parser(n).set_defaults(func=f)
    sp=sub.add_parser('triadfreq')
    sp.add_argument('-c','--cutoff',type=T('CFloat'),default=('K','0.5'),help='Only include the top x% of all triads')
    sp.add_argument('-r','--reverse',action='store_true'); sp.add_argument('-s','--sort',choices={'weight','effort','combined'},default='weight')
    sp.add_argument('-n','--limit',type=T('CInt'),default=('K','0')); sp.set_defaults(func='triadfreq')
    for n,f in [('triadeffortdata','triadEffortData'),('triadeffortplot','triadEffortPlot'),('keyheatmap','keyHeatmap'),('layoutstats','layoutstats'),('latinime','latinImeDict')]:
        sub.add_parser(n).set_defaults(func=f)
    sp=sub.add_parser('corpusstats'); sp.add_argument('metadata',type=T('CFile')); sp.set_defaults(func='corpusStats')
    return p
def render():
    p=P(prog='x'); lay(p); sub=p.add_subparsers()
    sp=sub.add_parser('svg'); sp.add_argument('-s','--style',default=('K','data/render-svg.css'),type=T('CFile')); sp.add_argument('--heatmap',type=T('CYaml')); sp.set_defaults(func='renderSvg')
    for n in ['xmodmap','keyman','ask']: sub.add_parser(n).set_defaults(func='render'+n.capitalize())
    sub.add_parser('winkbd').set_defaults(func='renderWinKbd')
    for n in ['keylayout','klavaro']: sub.add_parser(n).set_defaults(func='render'+n.capitalize())
    p.add_argument('output'); return p
def report():
    p=P(prog='x'); p.add_argument('-c','--corpus',nargs='+'); p.add_argument('-l','--layoutstats',nargs='+'); return p
def imp():
    p=P(prog='x'); p.add_argument('input'); sub=p.add_subparsers(); sub.add_parser('klc',help='x').set_defaults(func='importKlc'); return p
def optimize():
    p=P(prog='x'); lay(p)
    p.add_argument('--triad-limit',dest='triadLimit',type=T('CInt'),default=('K','0'))
    p.add_argument('-n','--steps',type=T('CInt'),default=('K','10000')); p.add_argument('-r','--randomize',action='store_true')
    p.add_argument('-p','--pin',default=[],type=T('CPin')); p.add_argument('-m','--model',choices=['mod01','salvo'],default='mod01')
    p.add_argument('-s','--mutate',type=T('CMutation'),default=[],action='append'); return p
F="aljazeera bbcarabic text json epub tei2 opensubtitles lines xml file tar mediawikimarkdown brotli".split()
def write():
    p=P(prog='x'); p.add_argument('--benchmark',action='store_true'); p.add_argument('-j','--jobs',default=('K','cpu_count ()'),type=T('CInt')); lay(p,l=False)
    p.add_argument('-v','--verbose',action='store_true'); p.add_argument('layout'); p.add_argument('filter',choices=F,nargs='+'); return p
def extract():
    p=P(prog='x'); p.add_argument('file'); return p
progs=dict(analyze=analyze,render=render,report=report,**{'import':imp},optimize=optimize,write=write,extract=extract)
words=dict(analyze='pretty combine triadfreq corpusstats keyheatmap latinime -c --cutoff -r --reverse -s --sort weight effort -n 3 --lim -l -k --layout --keyboard -rs -rn3 -rsweight -r=1 -s=effort'.split(),
 render='svg svg svg xmodmap klavaro -s --style --heatmap --heatmap=x -l -k -lfoo --layout=y --style=bad --heat'.split(),
 report='-c -l -c -l --corpus --layoutstats --corpus=x -lx -cl --l'.split(),
 **{'import':'klc klc x'.split()},
 optimize='-l -k --triad-limit --triad 5 -n -r -p -m -s --mutate --model=mod01 salvo mod01 -rn -rn5 -rp -rr -rrm=salvo -r- -r=x --ran --r -rx --randomize=1 --m -mmod01 --randomize='.split(),
 write=('--benchmark -j -k -v -vj4 -vk -vv -vx --ver --b=1 -j4 --jobs=2'.split()+F+['file','text']),
 extract=['x'])
common=['x','ar-lulua','--','-','-5','-.5','-1.','','-h','--help','bad','a b','-a b','--foo','-z','--h','--k','--l','--','x','-hx','-rh','-vh','=','-=','--=','---']
def cs(s): return '"'+s.replace('"','""')+'"'
def val(d,v):
    if v is None: return 'VNone'
    if isinstance(v,bool): return 'VBool '+('true' if v else 'false')
    if isinstance(v,list): return 'VList ['+';'.join(val(d,x) for x in v)+']'
    if isinstance(v,tuple): return f'VConst {cs(v[1])}' if v[0]=='K' else f'VConv {v[0]} {cs(v[1])}'
    if d=='func': return f'VConst {cs(v)}'
    return f'VConv CStr {cs(v)}'
def run(p,args):
    o=io.StringIO()
    with contextlib.redirect_stdout(o),contextlib.redirect_stderr(o):
        try: ns=p.parse_args(args)
        except SystemExit as e: return 'X Usage' if e.code==2 else 'X Help'
        except TypeError: return 'X FormatError'
    return 'N '+';'.join(f'({cs(k)},{val(k,v)})' for k,v in sorted(vars(ns).items()))
rnd=random.Random(int(sys.argv[1])); N=int(sys.argv[2])
ok=0
f=open('T.v','w')
f.write('''From Verif Require Import Base ArgModel.
From Coq Require Import Ascii.
Open Scope string_scope. Open Scope list_scope.
Definition acc (c : conv) (s : string) : bool := negb (match index 0 "bad" s with Some _ => true | None => false end).
Definition getall (ns : namespace) (want : list (string*value)) := map (fun kv => (fst kv, dget ns (fst kv))) want.
Definition exit_eqb (a b : exit) := match a,b with Usage,Usage|Help,Help|FormatError,FormatError => true | _,_ => false end.
Definition conv_eqb (a b : conv) := match a,b with CStr,CStr|CInt,CInt|CFloat,CFloat|CFile,CFile|CYaml,CYaml|CPin,CPin|CMutation,CMutation => true | _,_ => false end.
Fixpoint veqb (a b : value) {struct a} := match a,b with
 | VNone,VNone => true | VBool x,VBool y => Bool.eqb x y | VConst x,VConst y => String.eqb x y | VConv c x,VConv d y => conv_eqb c d && String.eqb x y
 | VList l,VList m => (fix go l m := match l,m with [],[] => true | x::l',y::m' => veqb x y && go l' m' | _,_ => false end) l m
 | _,_ => false end.
Definition chkE (pr : program) (a : list string) (e : exit) := match parse_args acc pr a with Exit e' => exit_eqb e e' | _ => false end.
Definition chkN (pr : program) (a : list string) (n : list (string*value)) := match parse_args acc pr a with Done m => Nat.eqb (List.length n) (List.length m) && forallb (fun kv => match dget m (fst kv) with Some v => veqb v (snd kv) | None => false end) n | _ => false end.
Definition tests : list (nat * bool) := [
''')
L=[];stat={}
for i in range(N):
    n=rnd.choice(list(progs)); p=progs[n]()
    k=rnd.choice([0,1,2,3,3,4,4,5,6]); args=[]
    if rnd.random()<.4 and n in('render','analyze'): args=[rnd.choice(words[n][:4])]
    args+=[rnd.choice(words[n]) if rnd.random()<.7 else rnd.choice(common) for _ in range(k)]
    if rnd.random()<.5: args=[a for a in args if a in words[n] or not a.startswith('-')]
    if n=='write' and rnd.random()<.5: args=['x']+args
    if n=='render' and rnd.random()<.5: args=args+['o']
    r=run(p,args); stat[(n,r[0]+r[2] if r[0]=='X' else 'N')]=stat.get((n,r[0]+r[2] if r[0]=='X' else 'N'),0)+1
    a='['+';'.join(map(cs,args))+']'
    L.append((args,n,r))
    f.write(f'({i}, '+(f'chkE {n}_program {a} {r[2:]}' if r[0]=='X' else f'chkN {n}_program {a} [{r[2:]}]')+')'+(';\n' if i<N-1 else '].\n'))
f.write('Eval vm_compute in map fst (filter (fun x => negb (snd x)) tests).\n'); f.close()
print(stat)
out=subprocess.run('coqc -Q /verif/rocq/theories Verif T.v',shell=True,capture_output=True,text=True); print(out.stdout[:300],out.stderr[:800])
import re
for i in re.findall(r'\d+',out.stdout)[:6]: print(L[int(i)])
