def q(s):
    return 'S2 "' + s.replace('"','""') + '"'
def lst(xs): return '[' + '; '.join(xs) + ']'
def ql(xs): return lst([q(x) for x in xs])
out=[]
w=out.append
w(r'''(** The library's own unit tests (test/*.cpp), replayed on the model.  Tests, not proofs: they tie the model to behaviour its
    authors check by running the code. *)
From Verif Require Import Base Setup Splitter Extract Converter Reader Parser SplitApi ConvProofs ParserApi SessionApi.

(** ** test_splitter.cpp *)

(** spaced, spaced_left, spaced_right, combinations (test_splitter.cpp:60-134, test_helpers.hpp:162-181). *)
Definition spaced1 (s : str) (input : list str) : list str :=
  input ++ flat_map (fun i => [s ++ i ++ s; i ++ s; s ++ i; s ++ s ++ i; s ++ s ++ i ++ s ++ s; i ++ s ++ s]) input.
Definition spaced2 (s1 s2 : str) (input : list str) : list str :=
  input ++ flat_map (fun i => [s1 ++ i ++ s2; s2 ++ i ++ s1; s2 ++ s2 ++ s1 ++ s1 ++ i; i ++ s1 ++ s2 ++ s1 ++ s2;
                               s1 ++ s1 ++ s1 ++ i ++ s2 ++ s2 ++ s2; s2 ++ s2 ++ s2 ++ i ++ s1 ++ s1 ++ s1]) input.
Definition spaced_left (s : str) (input : list str) : list str :=
  input ++ flat_map (fun i => [i; s ++ i; s ++ s ++ i; s ++ s ++ s ++ i]) input.
Definition spaced_right (s : str) (input : list str) : list str :=
  input ++ flat_map (fun i => [i; i ++ s; i ++ s ++ s; i ++ s ++ s ++ s]) input.
(** Lines of [n + 1] fields with the columns expected. *)
Fixpoint lines_of (d : str) (cases : list (str * str)) (n : nat) : list (str * list str) :=
  match n with
  | 0 => map (fun p => (fst p, [snd p])) cases
  | S n' => flat_map (fun p => map (fun q => (fst p ++ d ++ fst q, snd p :: snd q)) (lines_of d cases n')) cases
  end.
Fixpoint strs_eqb (a b : list str) : bool :=
  match a, b with
  | [], [] => true
  | x :: a', y :: b' => str_eqb x y && strs_eqb a' b'
  | _, _ => false
  end.
Definition splits_to (os : list opt) (d line : str) (cols : list str) : bool :=
  match setup os with
  | Some c => match split_obs c sp_init d line [] with SFields l => strs_eqb l cols | _ => false end
  | None => false
  end.
(** test_combinations (test_splitter.cpp:154-190), lines of one and two fields; also with throw_on_error. *)
Definition check (n : nat) (os : list opt) (matches : list (list str * str)) (delims : list str) : bool :=
  let cases := flat_map (fun p => map (fun i => (i, snd p)) (fst p)) matches in
  forallb (fun d => forallb (fun p => splits_to os d (fst p) (snd p) && splits_to (OThrowOnError :: os) d (fst p) (snd p))
                            (flat_map (lines_of d cases) (seq 0 n))) delims.
Definition sp1 := S2 " ".  Definition tab := ["009"%char].  Definition nl := [LF].
''')
def match(ms): return lst(['(%s, %s)'%(c if isinstance(c,str) else ql(c), q(e)) for c,e in ms])
names=[0]
def test(n, os, ms, delims, cite):
    names[0]+=1
    w('(** %s *)\nExample splitter_%d : check %d %s\n  %s\n  %s = true.\nProof. vm_cast_no_check (eq_refl true). Qed.'%(cite,names[0],n,lst(os),match(ms).replace('); (',');\n   ('),lst([d if d in('tab','nl') else q(d) for d in delims])))
Q="OQuote \"\"\"\"%char"; 
def ch(c): return '"009"%char' if c=='\t' else ('""""%char' if c=='"' else '"%s"%%char'%c)
def ESC(*cs): return 'OEscape '+lst([ch(c) for c in cs])
def TR(*cs): return 'OTrim '+lst([ch(c) for c in cs])
def TL(*cs): return 'OTrimLeft '+lst([ch(c) for c in cs])
def TRR(*cs): return 'OTrimRight '+lst([ch(c) for c in cs])
def QT(c): return 'OQuote '+ch(c)
dl=[",", "::", " ", "tab", "nl"]; dl2=[",", "::", "tab", "nl"]
w('Section Raw.')
test(2,[], [(["x"],"x"),(['"'],'"'),([""],""),(["\n"],"\n"),(['""'],'""'),(['" \\ "'],'" \\ "'),(["     "],"     ")],[",",";","tab","::"],'test_splitter.cpp:192-200')
c1=['""""'];c2=['"x""x"','x"x'];c3=['""',''];c4=['"x"','x'];c5=['""""""'];c6=['"\\"','\\'];c7=['"xxxxxxxxxx"','xxxxxxxxxx']
test(2,[QT('"')],[(c1,'"'),(c2,'x"x'),(c3,''),(c4,'x'),(c5,'""'),(c6,'\\'),(c7,'xxxxxxxxxx')],dl,'test_splitter.cpp:202-218')
test(2,[QT('"')],[(c1,'"'),(c3,''),(['","'],','),(['"x,"'],'x,'),(['",x"'],',x'),(['"x,x"'],'x,x'),(['",,"'],',,')],[','],'test_splitter.cpp:220-230')
test(2,[QT('"')],[(c1,'"'),(c3,''),(['"::"'],'::'),(['"x::"'],'x::'),(['"::x"'],'::x'),(['"x::x"'],'x::x'),(['"::::"'],'::::')],['::'],'test_splitter.cpp:232-243')
def s1(x,s='sp1'): return '(spaced1 %s %s)'%(s,ql(x))
def s2(x): return '(spaced2 sp1 tab %s)'%ql(x)
a1,a2,a3,a4=s1(['x']),s1(['yy']),s1(['y y']),s1([''])
test(2,[TR(' ')],[(a1,'x'),(a2,'yy'),(a3,'y y'),(a4,'')],dl2,'test_splitter.cpp:246-261')
test(2,[TR(' ','\t')],[(a1,'x'),(a2,'yy'),(a3,'y y'),(a4,''),(s1(['z'],'tab'),'z'),(s2(['ab']),'ab'),(s2(['a\tb']),'a\tb'),(s2(['a \t b']),'a \t b')],[',','::','nl'],'test_splitter.cpp:263-273')
e1=['x','\\x'];e2=['xx','\\xx','x\\x','\\x\\x'];e3=['\\\\']
test(2,[ESC('\\')],[(e1,'x'),(e2,'xx'),(e3,'\\')],dl,'test_splitter.cpp:276-286')
test(2,[ESC('\\','#')],[(e1,'x'),(e2,'xx'),(e3,'\\'),(['\\,'],','),(['x#,'],'x,'),(['#,x'],',x'),(['x\\,x'],'x,x')],[','],'test_splitter.cpp:288-298')
test(2,[ESC('\\')],[(e1,'x'),(e2,'xx'),(e3,'\\'),(['\\:\\:'],'::'),(['x\\::x'],'x::x')],['::'],'test_splitter.cpp:300-311')
test(2,[QT('"'),TR(' ')],[(s1(c1),'"'),(s1(c2),'x"x'),(s1(c3),''),(s1(c4),'x'),(s1(c5),'""'),(s1(c6),'\\'),(s1(c7),'xxxxxxxxxx')],dl2,'test_splitter.cpp:314-331')
test(2,[QT('"'),TR(' ','\t')],[(s1(c1),'"'),(s1(c3),''),(s2(['","']),','),(s2(['"x,"']),'x,'),(s2(['",x"']),',x'),(s2(['"x,x"']),'x,x'),(s2(['",,"']),',,')],[','],'test_splitter.cpp:333-344')
b1=['"\\""','\\"','""""'];b2=['"x\\"x"','x\\"x','x"x','"x""x"'];b3=['""',''];b4=['"x"','x'];b5=['"\\"\\""','""""""','"\\""""','"""\\""'];b6=['"\\\\"','\\\\'];b7=c7
test(2,[QT('"'),ESC('\\')],[(b1,'"'),(b2,'x"x'),(b3,''),(b4,'x'),(b5,'""'),(b6,'\\'),(b7,'xxxxxxxxxx')],dl,'test_splitter.cpp:347-365')
g8=["'xxxxxxxxxx'",'xxxxxxxxxx'];g9=["''",''];g10=["'#\\'",'#\\'];g11=["'#''","#'","''''"];g12=["'##'",'##']
test(2,[QT("'"),ESC('#')],[(g8,'xxxxxxxxxx'),(g9,''),(g10,'\\'),(g11,"'"),(g12,'#')],dl,'test_splitter.cpp:367-379')
h13=['"x,x"','x\\,x','x#,x','"x\\,x"','"x#,x"','"x#,x"'];h14=['"#\\\\#"','#\\\\#','\\\\##','"\\\\##"']
test(2,[QT('"'),ESC('\\','#')],[(b1,'"'),(b2,'x"x'),(b3,''),(h13,'x,x'),(h14,'\\#')],[','],'test_splitter.cpp:381-393')
test(2,[ESC('\\'),TR(' ')],[(s1(['\\ x\\ ','\\ \\x\\ ']),' x '),(s1(e1),'x'),(s1(e3),'\\')],dl2,'test_splitter.cpp:396-406')
test(2,[ESC('\\','#'),TR(' ')],[(s1(e1),'x'),(s1(e3),'\\'),(s1(['\\,']),','),(s1(['#,x']),',x'),(s1(['x\\,x']),'x,x')],[','],'test_splitter.cpp:408-419')
test(2,[ESC('\\'),TR(' ','\t')],[(s1(e1),'x'),(s1(e3),'\\'),(s2(['\\:\\:']),'::'),(s2(['x\\::x']),'x::x')],['::'],'test_splitter.cpp:421-430')
test(2,[QT('"'),ESC('\\'),TR(' ')],[(s1(b1),'"'),(s1(b2),'x"x'),(s1(b3),''),(s1(b5),'""'),(s1(b6),'\\'),(s1(b7),'xxxxxxxxxx')],['::','nl'],'test_splitter.cpp:433-452')
test(2,[QT("'"),ESC('#'),TR(' ','\t')],[(s2(g8),'xxxxxxxxxx'),(s2(g9),''),(s2(g10),'\\'),(s2(g11),"'"),(s2(g12),'#')],[','],'test_splitter.cpp:454-467')
test(2,[QT('"'),ESC('\\','#'),TR(' ','\t')],[(s1(b1),'"'),(s1(b2),'x"x'),(s1(b3),''),(s2(h13),'x,x'),(s2(h14),'\\#')],[','],'test_splitter.cpp:469-484')
def sl(x,s): return '(spaced_left (S2 "%s") %s)'%(s,ql(x))
def sr(x,s): return '(spaced_right (S2 "%s") %s)'%(s,ql(x))
test(2,[TL(' ')],[(sl(['x '],' '),'x '),(sl(['yy '],' '),'yy '),(sl(['y y '],' '),'y y '),(sl([''],' '),'')],dl2,'test_splitter.cpp:1130-1146')
test(2,[TL(' ','\t')],[(sl(['z '],'\t'),'z '),(sl(['ab\t '],' \t'),'ab\t '),(sl(['a\tb '],' \t'),'a\tb '),(sl(['a \t b '],' \t'),'a \t b ')],[',','::','nl'],'test_splitter.cpp:1148-1158')
test(2,[TRR(' ')],[(sr([' x'],' '),' x'),(sr([' yy'],' '),' yy'),(sr([' y y'],' '),' y y'),(sr([''],' '),'')],dl2,'test_splitter.cpp:1161-1177')
test(2,[TRR(' ','\t')],[(sr([' z'],'\t'),' z'),(sr(['\t ab'],' \t'),'\t ab'),(sr(['\ta\tb'],' \t'),'\ta\tb'),(sr([' \t a \t b'],' \t'),' \t a \t b')],[',','::','nl'],'test_splitter.cpp:1179-1190')
test(2,[TL('_'),TRR('-')],[(sr(['-x'],'-'),'-x'),(sl(['yy_'],'_'),'yy_'),(sr(['-y y'],'-'),'-y y'),(sl([''],'-'),''),(sl([''],'_'),''),(["___---","_-","______-"],'')],dl2,'test_splitter.cpp:1193-1210')
test(2,[QT('"'),ESC('\\'),TL('_'),TRR('-')],[(sl(b1,'_'),'"'),(sl(b2,'_'),'x"x'),(sl(b3,'_'),''),(sr(b5,'-'),'""'),(sr(b6,'-'),'\\'),(sr(b7,'-'),'xxxxxxxxxx')],['::','nl'],'test_splitter.cpp:1212-1235')
w('End Raw.')
w(r'''
(** split, then resplit with more text.  As in the tests the text is a std::string: appended to after removing the last
    size_shifted() characters (append) -- the bytes the splitter moved are kept. *)
Definition run_split (c : cfg) (d line : str) : res (sp * list (option ascii)) unit := sp_split c 0 d (sp_init, map Some line ++ [Some NUL]).
Definition append (c : cfg) (shifted : bool) (d text : str) (o : res (sp * list (option ascii)) unit) : res (sp * list (option ascii)) unit :=
  match o with
  | Ok _ (s, m) =>
      let used := length m - 1 - (if shifted then s_esc s else 0) in
      let m' := firstn used m ++ map Some text ++ [Some NUL] in
      sp_resplit c 0 (length m' - 1) d (s, m')
  | r => r
  end.
Definition resplits (os : list opt) (line : str) (more : list (bool * str)) (cols : list str) : bool :=
  forallb (fun os' =>
    match setup os' with
    | Some c =>
        match fold_left (fun o p => append c (fst p) (S2 ",") (snd p) o) more (run_split c (S2 ",") line) with
        | Ok _ (s, m) => match observe c (Ok tt (s, m)) with SFields l => strs_eqb l cols && negb (s_uq s) | _ => false end
        | _ => false
        end
    | None => false
    end) [os; OThrowOnError :: os].
''')
rn=[0]
def rtest(os,line,more,cols,cite):
    rn[0]+=1
    w('(** %s *)\nExample resplit_%d : resplits %s (%s)\n  %s\n  %s = true.\nProof. vm_cast_no_check (eq_refl true). Qed.'%(cite,rn[0],lst(os),q(line),lst(['(%s, %s)'%('true' if o else 'false',q(t)) for o,t in more]),ql(cols)))
QE=[QT('"'),'OMultiline 0 true',ESC('\\')]; QM=[QT('"'),'OMultiline 0 true']
rtest(QE,'"x',[(1,'a\\x'),(1,'"')],['xax'],'test_splitter.cpp:556-583, 812-842')
rtest(QM,'"just',[(0,'",strings')],['just','strings'],'test_splitter.cpp:585-596')
rtest(QM,'just,some,"random',[(0,'",strings')],['just','some','random','strings'],'test_splitter.cpp:598-611')
rtest(QM,'"just","some","ran""',[(1,',dom","strings"')],['just','some','ran",dom','strings'],'test_splitter.cpp:613-627')
rtest(QM,'"just","some","ran',[(0,',dom'),(0,'",strings')],['just','some','ran,dom','strings'],'test_splitter.cpp:629-653')
rtest(QE,'"just\\"some","ra',[(0,'n,dom",str\\"ings')],['just"some','ran,dom','str"ings'],'test_splitter.cpp:655-672')
rtest(QE,'3,4,"just0\\\n1\\\n22\\\n33333x\\\n4',[(1,'\nx5strings"')],['3','4','just0\n1\n22\n33333x\n4\nx5strings'],'test_splitter.cpp:674-696')
rtest(QE,'"just\\"some","ra""',[(1,'n,dom",str\\"ings')],['just"some','ra"n,dom','str"ings'],'test_splitter.cpp:697-715')
rtest(QE,'"just\\"some","r\\a\\a\\\\\\a\\"',[(1,'n,dom",str\\"ings')],['just"some','raa\\a"n,dom','str"ings'],'test_splitter.cpp:717-735')
rtest([QT('"'),TR(' '),'OMultiline 0 true'],'  "just" ,some,  "ra ',[(0,' n,dom"  , strings   ')],['just','some','ra  n,dom','strings'],'test_splitter.cpp:737-754')
rtest([QT('"'),TR(' '),ESC('\\'),'OMultiline 0 true'],'  "ju\\"st" ,some,  "ra \\"',[(1,' n,dom"  , strings   ')],['ju"st','some','ra " n,dom','strings'],'test_splitter.cpp:756-777')
w(r'''
(** test_invalid_splits (test_splitter.cpp:1044-1090): not valid, and unterminated_quote() as given. *)
Definition invalid (os : list opt) (d line : str) (uq : bool) : bool :=
  match setup os with
  | Some c =>
      match run_split c d line with
      | Ok _ (s, _) => negb (sp_valid c s) && Bool.eqb (s_uq s) uq &&
          match c_mode c with EString => match s_err s with Some (_ :: _) => true | _ => false end | _ => true end
      | Throw m (s, _) => Bool.eqb (s_uq s) uq && match m with [] => false | _ => true end
      | _ => false
      end
  | None => false
  end.''')
base=[QT('"'),TR(' '),ESC('\\')]
for i,(d,l,u) in enumerate([('','some,random,strings','false'),(',','some,"random,"strings"','false'),(',','some,random,strings\\','false'),(',','some,random,"strings\\','false'),(',','some,random,"strings','true')]):
    w('Example invalid_%d : forallb (fun o => invalid (o ++ %s) (%s) (%s) %s) [[]; [OStringError]; [OThrowOnError]] = true.\nProof. vm_cast_no_check (eq_refl true). Qed.'%(i+1,lst(base),q(d),q(l),u))
open('/verif/rocq/theories/TestSplitter.v','w').write('\n'.join(out)+'\n')
