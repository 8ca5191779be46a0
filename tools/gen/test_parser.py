import sys
def q(s):
    return 'S2 "' + s.replace('"','""') + '"'
def lst(xs): return '[' + '; '.join(xs) + ']'
def ql(xs): return lst([q(x) for x in xs])
out=[]; w=out.append
w(r'''(** The library's own unit tests of the converter and the parser (test/*.cpp), replayed on the model.  Tests, not proofs. *)
From Verif Require Import Base Setup Splitter Extract Converter Reader Parser SplitApi ConvProofs ParserApi SessionApi.

(** ** A concrete floating point type: decimal numbers with an optional point, in millionths. *)
Fixpoint take_digits (s : str) : str * str :=
  match s with
  | x :: s' => match digit_of x with Some _ => let '(a, b) := take_digits s' in (x :: a, b) | None => ([], s) end
  | [] => ([], [])
  end.
Definition number (s : str) : Z := fold_left (fun a x => match digit_of x with Some k => a * 10 + k | None => a end)%Z s 0%Z.
Definition decimals (s : str) : option (Z * nat) :=
  let '(neg, s1) := match s with x :: s' => if Ascii.eqb x "-"%char then ((-1)%Z, s') else (1%Z, s) | [] => (1%Z, s) end in
  let '(a, r) := take_digits s1 in
  let '(b, r') := match r with x :: r1 => if Ascii.eqb x "."%char then take_digits r1 else ([], r) | [] => ([], r) end in
  match a ++ b with
  | [] => None
  | _ => Some ((neg * (number a * 1000000 + number (firstn 6 (b ++ S2 "000000"))))%Z, length s - length r')
  end.
Definition Int := TInt (mkIty true 32).
Definition U8 := TWrap (mkIty false 8).
Definition Dbl := TFloat decimals.
Definition i32 (z : Z) := mkCst (mkIty true 32) z.

(** Decidable equality of what is observed. *)
Fixpoint val_eqb (a b : val) {struct a} : bool :=
  match a, b with
  | VInt x, VInt y | VFloat x, VFloat y | VUser x, VUser y => Z.eqb x y
  | VBool x, VBool y => Bool.eqb x y
  | VChar x, VChar y => Ascii.eqb x y
  | VStr x, VStr y | VView x, VView y => str_eqb x y
  | VOpt None, VOpt None => true
  | VOpt (Some x), VOpt (Some y) => val_eqb x y
  | VVar i x, VVar j y => Nat.eqb i j && val_eqb x y
  | _, _ => false
  end.
Fixpoint list_eqb {A} (f : A -> A -> bool) (a b : list A) : bool :=
  match a, b with
  | [], [] => true
  | x :: a', y :: b' => f x y && list_eqb f a' b'
  | _, _ => false
  end.
Definition opt_eqb {A} (f : A -> A -> bool) (a b : option A) : bool :=
  match a, b with None, None => true | Some x, Some y => f x y | _, _ => false end.
Definition str_list_eqb := list_eqb str_eqb.

(** ** test_converter.cpp *)
Definition conv (os : list opt) (d line : str) (es : list elem) : cobs :=
  match setup os with
  | Some c => convert_obs c d conv_init line [] es
  | None => CCrash
  end.
Definition values (vs : list val) (o : cobs) : bool := match o with CValues xs => list_eqb (opt_eqb val_eqb) (map Some vs) xs | _ => false end.
(** Valid with these values, also with throw_on_error. *)
Definition ok os d line es vs : bool := values vs (conv os d line es) && values vs (conv (OThrowOnError :: os) d line es).
(** Not valid; a message with string_error; an exception with throw_on_error. *)
Definition bad os d line es : bool :=
  match conv os d line es with CErr _ => true | _ => false end &&
  match conv (OStringError :: os) d line es with CErr (_ :: _) => true | _ => false end &&
  match conv (OThrowOnError :: os) d line es with CThrown (_ :: _) => true | _ => false end.
''')
k=[0]
def ex(name,e,cite):
    k[0]+=1
    w('(** %s *)\nExample %s_%d : %s = true.\nProof. vm_cast_no_check (eq_refl true). Qed.'%(cite,name,k[0],e))
V={'i':'VInt %s','d':'VFloat %s','s':'VStr (%s)','v':'VView (%s)','c':'VChar "%s"%%char'}
def val(x):
    if isinstance(x,int): return 'VInt %d'%x
    if isinstance(x,float): return 'VFloat %d'%round(x*1000000)
    if isinstance(x,str): return 'VStr (%s)'%q(x)
    t,a=x
    if t=='c': return 'VChar "%s"%%char'%a
    if t=='v': return 'VView (%s)'%q(a)
    if t=='o': return 'VOpt None' if a is None else 'VOpt (Some (%s))'%val(a)
    if t[0]=='var': return 'VVar %d (%s)'%(t[1],val(a))
def vals(xs): return lst(['('+val(x)+')%Z' for x in xs])
def conj(xs): return '\n  ('+ ' &&\n   '.join(xs)+')'
def T(t): return {'void':'EVoid','double':'EVal Dbl','string':'EVal TString','view':'EVal TView','char':'EVal TChar','int':'EVal Int'}.get(t,t)
def okc(os,d,line,es,vs): return 'ok %s (%s) (%s) %s %s'%(lst(os),q(d),q(line),lst([T(e) for e in es]),vals(vs))
def badc(os,d,line,es): return 'bad %s (%s) (%s) %s'%(lst(os),q(d),q(line),lst([T(e) for e in es]))
for ty in ['Int','U8']:
    t='EVal '+ty; o='EVal (TOpt %s)'%ty; vr='EVal (TVar [%s; Dbl])'%ty
    ex('valid',conj([okc([],',','5',[t],[5]),okc([],',','5,junk',[t,'void'],[5]),okc([],',','junk,5',['void',t],[5]),
      okc([],'\n','5\njunk\njunk',[t,'void','void'],[5]),okc([],' ','junk 5 junk',['void',t,'void'],[5]),okc([],'\t','junk\tjunk\t5',['void','void',t],[5]),
      okc([],'\t','junk\tjunk\t5',['void','void',o],[('o',5)]),okc([],',','5,6.6,junk',[t,'double','void'],[5,6.6]),okc([],',','5,junk,6.6',[t,'void','double'],[5,6.6]),
      okc([],';','junk;5;6.6',['void',t,'double'],[5,6.6]),okc([],';','junk;5;6.6',['void',o,'double'],[('o',5),6.6]),okc([],';','junk;5.4;6.6',['void',o,'double'],[('o',None),6.6]),
      okc([],';','junk;5;6.6',['void',vr,'double'],[(('var',0),5),6.6]),okc([],';','junk;5.5;6.6',['void',vr,'double'],[(('var',1),5.5),6.6]),
      okc([],';','junk;s1;6.6;s2',['void','view','double','view'],[('v','s1'),6.6,('v','s2')])]),'test_converter.cpp:49-273')
    ex('invalid',conj([badc([],',','',[t]),badc([],'','1',[t]),badc([],'','10',[t]),badc([],',','',[t,'void']),badc([],',',',junk',[t,'void']),badc([],',','junk,',['void',t]),badc([],',','x',[t]),
      badc([],',','x',[t,'void']),badc([],',','x,junk',[t,'void']),badc([],',','junk,x',['void',t]),badc([],';','junk;.5.5;6',['void',vr,'double'])]),'test_converter.cpp:275-332')
    def R(r): return 'ERes %s (%s)'%(ty,r)
    def ax(*z): return R('RAx '+lst(['i32 %d'%x for x in z]))
    def nx(*z): return R('RNx '+lst(['i32 %d'%x for x in z]))
    def ir(a,b): return R('RIr (i32 %d) (i32 %d)'%(a,b))
    def oor(a,b): return R('ROor (i32 %d) (i32 %d)'%(a,b))
    def cmp_(n,a): return R('R%s (i32 %d)'%(n,a))
    ex('restr',conj([badc([],',','0',[ax(0)]),badc([],',','1',[ax(0,1,2)]),badc([],',','junk,c,1',['void','char',ax(0,1,2)]),badc([],',','1,c',[ax(1),'char']),
      okc([],',','3',[ax(1)],[3]),okc([],',','c,3',['char',ax(1)],[('c','c'),3]),okc([],',','3,c',[ax(1),'char'],[3,('c','c')]),
      badc([],',','3',[nx(1)]),badc([],',','c,3',['char',nx(1,2,69)]),badc([],',','3,c',[nx(1),'char']),okc([],',','3',[nx(3)],[3]),okc([],',','2',[nx(0,1,2)],[2]),
      okc([],',','c,junk,1',['char','void',nx(0,1,2)],[('c','c'),1]),okc([],',','1,c',[nx(1),'char'],[1,('c','c')]),
      badc([],',','3',[ir(0,2)]),badc([],',','c,3',['char',ir(4,69)]),badc([],',','3,c',[ir(1,2),'char']),okc([],',','3',[ir(1,5)],[3]),okc([],',','2',[ir(0,2)],[2]),
      okc([],',','c,junk,1',['char','void',ir(0,1)],[('c','c'),1]),okc([],',','1,c',[ir(1,20),'char'],[1,('c','c')]),
      badc([],',','3',[oor(1,5)]),badc([],',','2',[oor(0,2)]),badc([],',','c,1,junk',['char',oor(0,1),'void']),badc([],',','1,c',[oor(1,20),'char']),okc([],',','3',[oor(0,2)],[3]),
      okc([],',','c,junk,3',['char','void',oor(4,69)],[('c','c'),3]),okc([],',','3,c',[oor(1,2),'char'],[3,('c','c')]),
      badc([],',','3',[cmp_('Lt',3)]),badc([],',','3',[cmp_('Lt',2)]),badc([],',','3',[cmp_('Gt',3)]),badc([],',','3',[cmp_('Gt',4)]),badc([],',','3',[cmp_('Lte',2)]),badc([],',','3',[cmp_('Gte',4)]),
      okc([],',','3',[cmp_('Lt',4)],[3]),okc([],',','3',[cmp_('Gt',2)],[3]),okc([],',','3',[cmp_('Lte',4)],[3]),okc([],',','3',[cmp_('Lte',3)],[3]),okc([],',','3',[cmp_('Gte',2)],[3]),okc([],',','3',[cmp_('Gte',3)],[3])]),
      'test_converter.cpp:334-583, 653-763')
ne='ERes TString RNe'
ex('ne',conj([badc([],',','',[ne]),badc([],',','3,',['int',ne]),badc([],',',',3',[ne,'int']),badc([],',','junk,,3',['void',ne,'int']),okc([],',','s',[ne],['s']),
  okc([],',','1,s',['EVal (TOpt Int)',ne],[('o',1),'s'])]),'test_converter.cpp:599-651')
def ch(c): return '""""%char' if c=='"' else '"%s"%%char'%c
Q='OQuote '+ch('"'); E='OEscape ['+ch('\\')+']'; TRM='OTrim ['+ch(' ')+']'
ex('spacing',conj([okc([],',','"just","some","strings"',['string']*3,['"just"','"some"','"strings"']),
  okc([Q],',','"just",some,"12.3","a"',['string','string','double','char'],['just','some',12.3,('c','a')]),
  okc([TRM],',','    just  ,  some   ,  12.3 ,a     ',['string','string','double','char'],['just','some',12.3,('c','a')]),
  okc([E],',','ju\\,st,strings',['string','string'],['ju,st','strings']),
  okc([E,TRM,Q],',','  ju\\,st  ,  "so,me"  ,   12.34     ,   "str""ings"',['string','string','double','string'],['ju,st','so,me',12.34,'str"ings'])]),'test_converter.cpp:778-879')
ssds=['string','string','double','string']
ex('split_errors',conj([badc([E,TRM,Q],',','  "just  , some ,   "12.3","a"  ',['string','string','double','char']),badc([E,TRM,Q],',','  ju\\,st  ,  "so,me"  ,   12.34     ,   "str""ings',ssds),
  badc([E,TRM,Q],',','just,some,2,strings\\',ssds),badc([E,TRM,Q],',','just,some,2,"strings\\',ssds),badc([E,TRM,Q],',','just,some,2,"strings\\"',ssds)]),'test_converter.cpp:881-997')
w(r'''
(** ** test_parser1_*.cpp *)

(** Every source (file, file through the portable line reader, memory) in every error mode. *)
Definition cap2 (n need : nat) : nat := Nat.max need 120.
Definition open (c : cfg) (kind : nat) (d data : str) : option prs :=
  match (match kind with
         | 0 => parser_file c cap2 (S2 "f.csv") d false (Some data)
         | 1 => parser_file c cap2 (S2 "f.csv") d true (Some data)
         | _ => parser_buffer c cap2 d (Some data) (length data)
         end) with
  | Ok _ p => Some p
  | _ => None
  end.
(** The options of the header splitter: without multiline (parser.hpp:35-36). *)
Definition no_multiline (os : list opt) : list opt := filter (fun o => match o with OMultiline _ _ => false | _ => true end) os.
Definition everywhere (os : list opt) (d data : str) (f : cfg -> cfg -> prs -> bool) : bool :=
  forallb (fun m =>
    match setup (m ++ os), setup (no_multiline (m ++ os)) with
    | Some c, Some hc => forallb (fun kind => match open c kind d data with Some p => f c hc p | None => false end) [0; 1; 2]
    | _, _ => false
    end) [[]; [OStringError]; [OThrowOnError]].
(** while (!p.eof()) get_next<es...>(): values, or none for an error or an exception. *)
Fixpoint drain (fuel : nat) (c : cfg) (es : list elem) (p : prs) : option (list (option (list val))) :=
  match fuel with
  | 0 => None
  | S f =>
      if p_eof p then Some []
      else
        let o := get_next c cap2 es p in
        match get_obs c o with
        | GCrash => None
        | GValues vs => option_map (cons (Some vs)) (drain f c es (after p o))
        | _ => option_map (cons None) (drain f c es (after p o))
        end
  end.
Definition row_eqb := opt_eqb (list_eqb val_eqb).
Definition drains (os : list opt) (data : str) (es : list elem) (rows : list (option (list val))) : bool :=
  everywhere os (S2 ",") data (fun c _ p => opt_eqb (list_eqb row_eqb) (drain 100 c es p) (Some rows)).
(** The values of the valid rows, and how many were not. *)
Definition drains_to (os : list opt) (data : str) (es : list elem) (rows : list (list val)) (errors : nat) : bool :=
  everywhere os (S2 ",") data (fun c _ p =>
    match drain 100 c es p with
    | Some l => list_eqb (list_eqb val_eqb) (flat_map (fun o => match o with Some r => [r] | None => [] end) l) rows
                && Nat.eqb (length (filter (fun o => match o with None => true | _ => false end) l)) errors
    | None => false
    end).
Definition isd := [EVal Int; EVal Dbl; EVal TString].
(** Calls and a check of each reply (errors are not distinguished from exceptions). *)
Inductive want := WValues (vs : list val) | WBad | WBool (b : bool) | WText (s : str) | WNames (l : list str) | WDone
  | WTry (vs : list (option (list val))) (valid : bool) | WAny.
Definition meets (wt : want) (y : reply) : bool :=
  match wt, y with
  | WValues vs, YGet (GValues vs') => list_eqb val_eqb vs vs'
  | WBad, YGet (GError _) | WBad, YGet (GThrown _) | WBad, YError _ | WBad, YThrown _ => true
  | WBool b, YBool b' => Bool.eqb b b'
  | WText s, YText s' => str_eqb s s'
  | WNames l, YNames l' => str_list_eqb l l'
  | WDone, YDone => true
  | WTry vs v, YTry vs' _ v' => list_eqb row_eqb vs vs' && Bool.eqb v v'
  | WAny, YCrash => false
  | WAny, _ => true
  | _, _ => false
  end.
Definition session (os : list opt) (data : str) (s : list (call * want)) : bool :=
  everywhere os (S2 ",") data (fun c hc p => list_eqb (fun y wt => meets wt y) (replies c hc cap2 p (map fst s)) [] || 
    forallb (fun x => meets (fst x) (snd x)) (combine (map snd s) (replies c hc cap2 p (map fst s))) && Nat.eqb (length s) (length (replies c hc cap2 p (map fst s)))).
''')
# fix: simpler session
out[-1]=out[-1].replace(r'''list_eqb (fun y wt => meets wt y) (replies c hc cap2 p (map fst s)) [] || 
    forallb''','''
    forallb''')
eol=["\n","\r\n"]
def write(rows,header=None,last=True):
    s=''
    if header: s+=','.join(header)+'\n'
    for i,r in enumerate(rows):
        s+=r
        if last or i+1<len(rows): s+=eol[i%2]
    return s
def X(i,d,s): return '%d,%f,%s'%(i,d,s)
data=[(1,2,'x'),(3,4,'y'),(5,6,'z'),(7,8,'u'),(9,10,'v'),(11,12,'w')]
def rv(i,d,s): return vals([i,float(d),s])
def some(xs): return lst(['Some '+x for x in xs])
cs=write([X(*r) for r in data])
ex('various','drains [] (%s) isd %s'%(q(cs),some([rv(*r) for r in data])),'test_parser1_1.cpp:121-235')
ex('various','drains_to [] (%s) [ERes Int (RAx [i32 3]); EVal Dbl; EVal TString] %s 1'%(q(cs),lst([rv(*r) for r in data if r[0]!=3])),'test_parser1_1.cpp:283-327')
ex('various','drains_to [] (%s) [ERes Int (RNx [i32 3]); EVal Dbl; EVal TString] %s 5'%(q(cs),lst([rv(3,4,'y')])),'test_parser1_1.cpp:329-368')
ex('various','drains [] [] isd []','test_parser1_1.cpp:370-392')
ex('various','session [] (%s) %s'%(q(cs),lst(['(CIgnore, WBool true)']+['(CGet isd, WValues %s)'%rv(*r) for r in data[1:]])),'test_parser1_1.cpp:162-195')
# position/line
Y=[("1","21","x"),("321","4","y"),("54","6","zz"),("7","876","uuuu"),("910","10","v"),("10","321","ww")]
ys=write([','.join(r) for r in Y])
pos=[];acc=0
for i,r in enumerate(Y):
    acc+=len(','.join(r))+len(eol[i%2]); pos.append(acc)
w(r'''Fixpoint lines_positions (n : nat) (c : cfg) (p : prs) : list (nat * Z * bool) :=
  (p_line p, p_position p, p_eof p) ::
  match n with 0 => [] | S n' => lines_positions n' c (after p (get_next c cap2 [EVal TString; EVal TString; EVal TString] p)) end.''')
exp=['(0, 0%Z, false)']+['(%d, %d%%Z, %s)'%(i+1,pos[i],'true' if i==5 else 'false') for i in range(6)]
ex('position','''everywhere [] (S2 ",") (%s) (fun c _ p =>
  list_eqb (fun a b => Nat.eqb (fst (fst a)) (fst (fst b)) && (Z.eqb (snd (fst a)) (snd (fst b)) || snd a) && Bool.eqb (snd a) (snd b)) (lines_positions 6 c p) %s)'''%(q(ys),lst(exp)),'test_parser1_1.cpp:64-119; the position after the last row is not checked there')
# composite (string_error)
lines=["10,a,11.1","10,20,11.1","junk","10,11.1","1,11.1,a","junk","10,junk","11,junk","10,11.1,c","10,20","10,22.2,f"]
cd=''.join(l+'\n' for l in lines)
def els(*ts): return lst([T(t) for t in ts])
def tr(ts,cb,links,want): return '(CTry %s (%s) %s, WTry %s %s)'%(els(*ts),cb,lst(links),lst(want[0]),want[1])
def el(ts,cb='CbNone'): return 'LElse %s (%s)'%(els(*ts),cb)
N='None'
def sv(*xs): return 'Some '+vals(xs)
F='CbCheck 9 (fun _ => false)'
st=('int','double','char');tt=('double','char','double');opt='EVal (TOpt Int)';var='EVal (TVar [Int; TString])'
calls=[
 tr(('int','int','double'),'CbVoid 1',[el(st,'CbVoid 1'),el(('int','char','double')),'LOnError 1',el(tt,'CbVoid 1')],([N,N,sv(10,('c','a'),11.1),N],'true')),
 tr(('int','int','double'),'CbVoid 1',['LOnError 1',el(st,'CbVoid 1'),'LOnError 1',el(tt,'CbVoid 1'),'LOnError 1',el(('int','char','double'))],([sv(10,20,11.1),N,N,N],'true')),
 tr(st,'CbVoid 1',['LOnError 1',el(('int','char','char')),el(st),el(tt),el(('int','char','double'))],([N]*5,'false')),
 tr(('int','double'),'CbVoid 1',[el(('int','double'),'CbVoid 1')],([sv(10,11.1),N],'true')),
 tr(('int','double'),'CbVoid 1',[el(st,'CbVoid 1')],([N,sv(1,11.1,('c','a'))],'true')),
 tr(('int','int','double'),'CbVoid 1',[el(st),el(st),el(tt),el(('int','double')),'LOnError 1','LOnError 2'],([N]*5,'false')),
 tr(('int',opt),'CbNone',['LOnError 1','LOnError 2',el(('int','string')),'LOnError 1'],([sv(10,('o',None)),N],'true')),
 tr(('int',var),'CbNone',['LOnError 1',el(('int','string')),'LOnError 1'],([sv(11,(('var',1),'junk')),N],'true')),
 tr(st,'CbNone',[el(('int',))],([sv(10,11.1,('c','c')),N],'true')),
 tr(('int','int'),F,[el(('int','double'),F),el(('int','int')),el(('int','int'))],([N,N,sv(10,20),N],'true')),
 tr(st,F,[el(('int','double'),F),el(st),el(('int','int'))],([N,N,sv(10,22.2,('c','f')),N],'true')),
]
w(r'''Definition session_string (os : list opt) (data : str) (s : list (call * want)) : bool :=
  match setup (OStringError :: os), setup (OStringError :: no_multiline os) with
  | Some c, Some hc => forallb (fun kind => match open c kind (S2 ",") data with
      | Some p => forallb (fun x => meets (fst x) (snd x)) (combine (map snd s) (replies c hc cap2 p (map fst s)))
                  && p_eof (later c hc cap2 p (map fst s))
      | None => false end) [0; 1; 2]
  | _, _ => false
  end.''')
ex('composite','session_string [] (%s)\n  %s'%(q(cd),'['+';\n   '.join(calls)+']'),'test_parser1_1.cpp:412-652')
# no newline at eof
for n in [0,1,2,100,113,114,115,116,117,118,126,127,128,129,230]:
    r=[(1,2,'X'*n),(3,4,'Y'*((n*7)%200))]
    ex('no_newline','drains [] (%s) isd %s'%(q(write(['%d,%d,%s'%x for x in r],None,False)),some([rv(*x) for x in r])),'test_parser1_1.cpp:654-703')
# multiline
ML='OMultiline 0 true'
d2=[(1,2,'"x\r\nx\nx"'),(3,4,'"y\ny\r\ny"'),(5,6,'"z\nz"'),(7,8,'"u"""'),(9,10,'v'),(11,12,'"w\n"')]
e2=[(1,2,'x\r\nx\nx'),(3,4,'y\ny\r\ny'),(5,6,'z\nz'),(7,8,'u"'),(9,10,'v'),(11,12,'w\n')]
ex('quote_multiline','drains %s (%s) isd %s'%(lst([ML,Q]),q(write([X(*r) for r in d2])),some([rv(*r) for r in e2])),'test_parser1_2.cpp:111-156')
d3=[(1,2,'x\\\nx\\\r\nx'),(5,6,'z\\\nz\\\nz'),(7,8,'u'),(3,4,'y\\\ny\\\ny'),(9,10,'v\\\\'),(11,12,'w\\\n')]
e3=[(1,2,'x\nx\r\nx'),(5,6,'z\nz\nz'),(7,8,'u'),(3,4,'y\ny\ny'),(9,10,'v\\'),(11,12,'w\n')]
ex('escape_multiline','drains %s (%s) isd %s'%(lst([ML,E]),q(write([X(*r) for r in d3])),some([rv(*r) for r in e3])),'test_parser1_2.cpp:163-206')
d4='1,2,"just\\\n\nstrings"\n3,4,"just\r\nsome\\\r\n\n\\\nstrings"\n5,6,"just\\\n\\\r\n\r\n\nstrings\n7,8,"just strings"\n9,10,just strings\n'
ex('quote_escape_multiline','drains_to %s (%s) isd %s 1'%(lst([ML,E,Q]),q(d4),lst([rv(1,2,'just\n\nstrings'),rv(3,4,'just\r\nsome\r\n\n\nstrings'),rv(9,10,'just strings')])),'test_parser1_2.cpp:208-265')
d5='1,2,"just\n\nstrings"\n3,4,"ju\n\r\n\nnk"\n5,6,just\\\n\\\r\nstrings\n7,8,ju\\\n\\\n\\\nnk\n99,100,"\n\n\n\n\n9,10,"just\\\n\nstrings"\n11,12,"ju\\\n|\n\n\n\n\nk"\n13,14,"ju\\\n\\\n15,16"\\\n\\\\\n\nnk"\n17,18,"ju\\\n\\\n\\\n\\\\\n\nnk"\n19,20,just strings\n'
ex('multiline_restricted','drains_to %s (%s) isd %s 20'%(lst(['OMultiline 2 true',Q,E]),q(d5),lst([rv(1,2,'just\n\nstrings'),rv(5,6,'just\n\r\nstrings'),rv(9,10,'just\n\nstrings'),rv(19,20,'just strings')])),'test_parser1_3.cpp:3-67')
w(r'''(** The first [bad_line] rows are fine, the next one is an error. *)
Definition unterminated (oss : list (list opt)) (lines : list str) (bad_line : nat) : bool :=
  forallb (fun os => everywhere os (S2 ",") (flat_map (fun l => l ++ [LF]) lines) (fun c _ p =>
    match drain 100 c isd p with
    | Some l => match skipn bad_line l with None :: _ => forallb (fun o => match o with Some _ => true | None => false end) (firstn bad_line l) | _ => false end
    | None => false
    end)) oss.
Definition ml3 := OMultiline 3 true.
Definition esc := OEscape ["\"%char].
Definition quo := OQuote """"%char.''')
both='[[ml3; esc]; [ml3; esc; quo]]'; qboth='[[ml3; esc; quo]; [ml3; quo]]'; qe='[[ml3; esc; quo]]'
def ut(groups,tests):
    return ['unterminated %s %s %d'%(groups,ql(l),b) for l,b in tests]
U=ut(both,[(["1,2,just\\"],0),(["1,2,just\\","9,8,second"],0),(["9,8,first","1,2,just\\"],1),(["9,8,first","1,2,just\\","3,4,third"],1),(["9,8,first","1,2,just\\\nstrings\\","3,4,th\\\nird"],1),(["9,8,first","3,4,second","1,2,just\\"],2),(["9,8,\\first","3,4,second","1,2,jus\\t\\"],2),
 (["1,2,\\\n\\\n\\\n\\\njust"],0),(["9,8,first","1,2,\\\n\\\n\\\n\\\njust"],1),(["9,8,fi\\\nrs\\\nt","1,2,\\\n\\\n\\\n\\\njust"],1),(["9,8,first","1,2,\\\n\\\n\\\n\\\njust","4,3,third"],1)])
U+=ut(qboth,[(['1,2,"just'],0),(['1,2,"just','9,8,second'],0),(['9,8,first','1,2,"just'],1),(['9,8,first','1,2,"just','3,4,th\\,ird'],1),(['9,8,first','3,4,second','1,2,"just'],2),(['9,8,"first"','"3",4,"sec,ond"','1,2,"ju""st'],2),
 (['1,2,"\n\n\n\n\njust"'],0),(['9,8,first','1,2,"\n\n\n\n\njust"'],1),(['9,8,"fir\nst"','1,2,"\n\n\n\n\njust"'],1)])
U+=ut(qe,[(['1,2,"just\\'],0),(['1,2,"just\\\n\\'],0),(['1,2,"just\n\\'],0),(['9,8,first','1,2,"just\n\\'],1),(['9,8,first','1,2,"just\n\\','4,3,thrid'],1),(['9,8,f\\\nirst','1,2,"just\n\\','4,3,thrid'],1),(['9,8,"f\ni\nrst"','1,2,"just\n\\','4,3,thrid'],1),
 (['1,2,"\\\n\n\\\n\\\n\\\njust'],0),(['9,8,first','1,2,"\\\n\n\\\n\\\n\\\njust'],1),(['9,8,fi\\\nrst','1,2,"\\\n\n\\\n\\\n\\\njust'],1),(['9,8,"fi\nrst"','1,2,"\\\n\n\\\n\\\n\\\njust'],1),(['9,8,"fi\nr\\\nst"','1,2,"\\\n\n\\\n\\\n\\\njust'],1)])
ex('unterminated',conj(U),'test_parser1_3.cpp:69-314')
# headers
H=["Int","Double","String"]
hd=write([X(*r) for r in data],H)
def use(*f): return 'CUse '+ql(f)
ex('header','session [] (%s) %s'%(q(hd),lst(['(CHeader, WNames %s)'%ql(H),'(CRaw, WText (S2 "Int,Double,String"))','(%s, WDone)'%use('Int','Double'),'(CHeader, WNames %s)'%ql(H),'(CGet [EVal Int; EVal Dbl], WValues %s)'%vals([1,2.0]),
  '(%s, WDone)'%use('Double','Int'),'(CGet [EVal Dbl; EVal Int], WValues %s)'%vals([4.0,3]),'(%s, WDone)'%use('String'),'(CGet [EVal TString], WValues %s)'%vals(['z']),'(%s, WDone)'%use('String','Int','Double'),'(CGet [EVal TString; EVal Int; EVal Dbl], WValues %s)'%vals(['u',7,8.0])])),'test_parser1_4.cpp:85-128')
import itertools
kind={'String':('EVal TString',2),'Int':('EVal Int',0),'Double':('EVal Dbl',1)}
for n in (1,2,3):
    tests=[]
    for perm in itertools.permutations(['String','Int','Double'],n):
        s=['(CField (S2 "Unknown"), WBool false)','(%s, WDone)'%use(*perm),'(CHeader, WNames %s)'%ql(H)]
        for r in data:
            row=[r[0],float(r[1]),r[2]]
            s.append('(CGet %s, WValues %s)'%(lst([kind[f][0] for f in perm]),vals([row[kind[f][1]] for f in perm])))
        tests.append('session [] (%s) %s'%(q(hd),lst(s)))
    ex('fields',conj(tests),'test_parser1_4.cpp:10-44, 152-167')
def invalid(lines,fields):
    d=''.join(l+'\n' for l in lines)
    hnames=lines[0].split(',') if lines else ['']
    chk='(CHeader, WNames %s)'%ql(hnames)
    ts=['session [] (%s) %s'%(q(d),lst(['(CUse [], WBad)',chk])),'session [] (%s) %s'%(q(d),lst(['(CUse [S2 "Unknown"], WBad)',chk]))]
    if fields:
        ts.append('session [] (%s) %s'%(q(d),lst(['(%s, WBad)'%use(fields[0],fields[0]),chk])))
        okh=len(set(hnames))==len(hnames)
        ts.append('session [] (%s) %s'%(q(d),lst([chk,'(%s, %s)'%(use(fields[0]),'WDone' if okh else 'WAny'),'(CGet [EVal TString; EVal TString], WBad)' if okh else chk,chk])))
        ts.append('session [] (%s) %s'%(q(d),lst([chk,'(%s, %s)'%(use(*fields),'WDone' if len(set(fields))==len(fields) else 'WBad'),chk])))
    return ts
IV=[]
for l,f in [([],[]),(["Int"],["Int"]),(["Int","1"],["Int"]),(["Int","1","2"],["Int"]),(["Int,String"],["Int","String"]),(["Int,String","1,hi"],["Int","String"]),
 (["Int,String,Double","1,hi,2.34","2,hello,3.45"],["Int","String","Double"]),(["Int,Int,Int"],["Int","Int","Int"]),(["Int,Int,Int","1,2,3"],["Int","Int","Int"]),(["Int,String,Int","1,hi,3"],["Int","String","Int"])]:
    IV+=invalid(l,f)
ex('invalid_fields',conj(IV),'test_parser1_4.cpp:170-281')
hr='Int,String,Double\n1,line1,2.34\n2,line2\n3,line3,67.8\n4,line4,67.8,9\n5,line5,9.10\nsix,line6,10.11\n'
def rows_with(fs,types,exp):
    s=['(%s, WDone)'%use(*fs)]
    for e in exp: s.append('(CGet %s, %s)'%(lst(types),'WBad' if e is None else 'WValues '+vals(e)))
    s.append('(CHeader, WNames %s)'%ql(["Int","String","Double"]))
    return 'session [] (%s) %s'%(q(hr),lst(s))
ex('rows_with_header',conj([rows_with(["Int","String","Double"],['EVal Int','EVal TString','EVal Dbl'],[[1,'line1',2.34],None,[3,'line3',67.8],None,[5,'line5',9.10],None]),
 rows_with(["Double","Int"],['EVal Dbl','EVal Int'],[[2.34,1],None,[67.8,3],None,[9.10,5],None]),
 rows_with(["String","Double"],['EVal TString','EVal Dbl'],[['line1',2.34],None,['line3',67.8],None,['line5',9.10],['line6',10.11]])]),'test_parser1_4.cpp:283-400')
EF=['session [] (%s) %s'%(q('\n1\n'),lst(['(CHeader, WNames [[]])','(CRaw, WText [])'])),
 'session [] (%s) %s'%(q(',,\n1,2,3\n'),lst(['(CHeader, WNames [[]; []; []])','(CRaw, WText (S2 ",,"))','(CField (S2 "Int"), WBad)','(%s, WBad)'%use('Int')]))]
combos=[["Int0"],["Int1"],[""],["","Int0"],["Int0","Int1"],["Int1",""],["Int0","","Int1"],["","Int1","Int0"]]
for h in (["Int0","Int1",""],["","Int0","Int1"],["Int0","","Int1"]):
    EF.append('session [] (%s) %s'%(q(','.join(h)+'\n1,2,3\n'),lst(['(CHeader, WNames %s)'%ql(h),'(CRaw, WText (%s))'%q(','.join(h))]+['(CField (%s), WBool true)'%q(f) for f in ["Int0","Int1",""]]+['(%s, WDone)'%use(*cmb) for cmb in combos])))
ex('empty_fields',conj(EF),'test_parser1_5.cpp:3-132')
UH=[]
for os in ['[quo]','[quo; OMultiline 0 true]','[quo; esc]','[quo; esc; OMultiline 0 true]']:
    UH.append('session %s (%s) %s'%(os,q('"Int\n1\n'),lst(['(CHeader, WBad)','(CRaw, WText (%s))'%q('"Int'),'(CField (S2 "Int"), WBad)','(%s, WBad)'%use('Int')])))
for os in ['[esc]','[esc; OMultiline 0 true]','[esc; quo]','[esc; quo; OMultiline 0 true]']:
    UH.append('session %s (%s) %s'%(os,q('Int\\\n1\n'),lst(['(CHeader, WBad)','(CRaw, WText (%s))'%q('Int\\'),'(CField (S2 "Int"), WBad)','(%s, WBad)'%use('Int')])))
ex('unterminated_header',conj(UH),'test_parser1_5.cpp:134-215')
IE=[]
Emp=None
for rows in [[(1,2,'x'),(3,4,'y'),(9,10,'v'),(11,12,'w')],[Emp,(3,4,'y'),(9,10,'v'),(11,12,'w')],[(1,2,'x'),(3,4,'y'),(9,10,'v'),Emp],[(1,2,'x'),Emp,(9,10,'v'),(11,12,'w')],[Emp,Emp,(9,10,'v'),(11,12,'w')],[Emp,(3,4,'y'),(9,10,'v'),Emp],[(1,2,'x'),(3,4,'y'),Emp,Emp],[Emp,(3,4,'y'),Emp,Emp],[Emp]*4,[(1,2,'x'),Emp,Emp,Emp],[Emp,Emp,Emp,(11,12,'w')],[Emp],[]]:
    d=write([X(*r) if r else '' for r in rows])
    IE.append('drains [OIgnoreEmpty] (%s) isd %s'%(q(d),some([rv(*r) for r in rows if r])))
    IE.append('drains [] (%s) isd %s'%(q(d),lst([('Some '+rv(*r)) if r else 'None' for r in rows])))
ex('ignore_empty',conj(IE),'test_parser1_5.cpp:217-301')
open('/verif/rocq/theories/TestParser.v','w').write('\n'.join(out)+'\n')
