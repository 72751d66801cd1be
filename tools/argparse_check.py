import argparse,random,sys,io,contextlib
random.seed(int(sys.argv[1]))
def mk():
    P=argparse.ArgumentParser(prog="pyzeal")
    P.add_argument("--version",action="version",version="x")
    P.add_argument("-t","--test",action="store_true")
    sp=P.add_subparsers(title="a",help="b",parser_class=argparse.ArgumentParser)
    v=sp.add_parser("view"); v.add_argument("-p","--print",action="store_true")
    c=sp.add_parser("change")
    c.add_argument("--container",dest="container",choices=["rounding"])
    c.add_argument("--algorithm",choices=["newton_grid","simple_argument","simple_argument_newton","associated_polynomial"])
    c.add_argument("--estimator",choices=["summation","quadrature"])
    c.add_argument("--log-level",choices=["debug","info","warning","error","critical"])
    c.add_argument("--verbose",choices=["true","True","false","False"])
    c.add_argument("--precision",nargs=2,type=int)
    p=sp.add_parser("plugin")
    p.add_argument("-l","--list",action="store_true"); p.add_argument("-m","--modules",action="store_true")
    p.add_argument("--install"); p.add_argument("--uninstall")
    return P
words={"top":["-t","--test","--te","--t=","-tt","-th","-t=","--version","-h","--","-x","foo","-","", "--=","--vers","-thx","-tx","-t=h","-t-"],
 "view":["-p","--print","--pr","-pp","-ph","-px","--p=1","--","-h","-t","x","","-3","-p=","--=x","-pp=3","--x y"],
 "change":["--container","--cont","rounding","--container=rounding","--c=","--algorithm","newton_grid","simple_argument","--a=newton_grid","--log-level","--log_level","--l","debug","--verbose","true","--v=False","--precision","--p","3","-4","5","-6.5"," 7 ","-7 ","x","--precision=3","--help","--he","--","-3\n","-.5","-5.","-a b","--c d"],
 "plugin":["-l","-m","-lm","-ml","-lmh","-llx","-lm=","-l-m","--list","--l","--install","--in","x","--install=","--install=-x","--in=--","--uninstall","--u=f","--un","y","-","-3","-x y","-l y","--","-h","","--li=","--=","--x y","-lm y"]}
def run(a):
    P=mk()
    with contextlib.redirect_stdout(io.StringIO()),contextlib.redirect_stderr(io.StringIO()):
        try: ns=P.parse_args(list(a)); return ("P",list(vars(ns).items()))
        except SystemExit as e: return ("E",e.code)
def t(s): return "["+";".join(f"{ord(c)}%N" for c in s)+"]"
def val(v):
    if v is None: return "NoneV"
    if v is True or v is False: return f"(BoolV {str(v).lower()})"
    if isinstance(v,str): return f"(TextV {t(v)})"
    return f"(IntsV [{';'.join('(%d)%%Z'%x for x in v)}])"
cases=[];ok=0
for i in range(1500):
    a=[]
    for _ in range(random.choice([0,0,0,0,1,1,2])): a.append(random.choice(words["top"]))
    s=random.choice(["view","change","plugin","plugin","change"])
    if random.random()<0.95: a.append(s)
    for _ in range(random.choice([0,1,1,2,2,3,3,4,5])): a.append(random.choice(words[s]))
    r=run(a); cases.append((a,r)); ok+= r[0]=="P"
ints={}
for a,_ in cases:
    for w in a:
        try: ints[w]=int(w)
        except ValueError: pass
print(ok,sum(r==("E",0) for _,r in cases),file=sys.stderr)
print("From Verif Require Import PyBase Json_Model Settings_Model Cli_Model Main_Model Argparse_Model.\nOpen Scope list_scope.")
print("Definition io (w : text) : option Z := match find (fun p => text_eqb w (fst p)) ["+";".join(f"({t(w)},({v})%Z)" for w,v in ints.items())+"] with Some p => Some (snd p) | None => None end.")
print("Definition cases : list (list text * parse) := [")
print(";\n".join("(["+";".join(t(w) for w in a)+"],"+(f"Exits {r[1]}" if r[0]=="E" else "Parsed ["+";".join(f'("{k}"%string,{val(v)})' for k,v in r[1])+"]")+")" for a,r in cases))
print("].")
print("""Definition veq (a b : value) := match a, b with NoneV, NoneV => true | BoolV x, BoolV y => Bool.eqb x y | TextV x, TextV y => text_eqb x y | IntsV [x;y], IntsV [u;v] => (Z.eqb x u && Z.eqb y v)%bool | _,_ => false end.
Fixpoint neq (a b : namespace) := match a, b with [], [] => true | (k,v)::a', (k',v')::b' => (String.eqb k k' && veq v v' && neq a' b')%bool | _, _ => false end.
Definition peq a b := match a, b with Exits x, Exits y => Z.eqb x y | Parsed a, Parsed b => neq a b | _, _ => false end.
Goal filter (fun c => negb (peq (parse_args io (fun _ => false) (fst c)) (snd c))) cases = []. vm_compute. reflexivity. Qed.""")
