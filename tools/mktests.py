#!/usr/bin/env python3
"""Generates rocq/theories/ParseTests.v: every unit test of protox-parse/src/parse/tests.rs (against
its insta snapshot) and of protox-parse/src/tests.rs (assert_eq! and snapshots) as an Example about
the model.  Tests of the reading of the code, not proofs.   usage: mktests.py > ParseTests.v"""
import re,sys,os
R='/repo/protox-parse/src/'
# ---------- Rust debug format ----------
class Tok: pass
def lex(s):
    toks=[];i=0
    while i<len(s):
        c=s[i]
        if c.isspace(): i+=1; continue
        if c=='"':
            j=i+1;buf=''
            while s[j]!='"':
                if s[j]=='\\':
                    e=s[j+1]
                    if e=='u':
                        k=s.index('}',j); buf+=chr(int(s[j+3:k],16)); j=k+1; continue
                    if e=='\n':
                        j+=2
                        while s[j].isspace(): j+=1
                        continue
                    buf+={'n':'\n','t':'\t','r':'\r','0':'\0','\\':'\\','"':'"',"'":"'"}[e]; j+=2
                else: buf+=s[j]; j+=1
            toks.append(('str',buf)); i=j+1; continue
        m=re.match(r'-?\d+\.\.-?\d+',s[i:])
        if m: toks.append(('span',m.group())); i+=m.end(); continue
        m=re.match(r'-?(\d+(\.\d+)?(e-?\d+)?|inf|NaN)',s[i:])
        if m and not re.match(r'inf\w|NaN\w',s[i:]): toks.append(('num',m.group())); i+=m.end(); continue
        m=re.match(r'(?:r#)?[A-Za-z_]\w*',s[i:])
        if m: toks.append(('id',m.group())); i+=m.end(); continue
        toks.append((c,c)); i+=1
    return toks
class P:
    def __init__(s,t): s.t=t; s.i=0
    def pk(s): return s.t[s.i] if s.i<len(s.t) else (None,None)
    def nx(s): x=s.t[s.i]; s.i+=1; return x
    def val(s):
        k,v=s.nx()
        if k in('str','span','num'): return (k,v)
        if k=='[':
            r=[]
            while s.pk()[0]!=']':
                r.append(s.val())
                if s.pk()[0]==',': s.nx()
            s.nx(); return ('list',r)
        if k=='(':
            r=[]
            while s.pk()[0]!=')':
                r.append(s.val())
                if s.pk()[0]==',': s.nx()
            s.nx(); return ('tup',None,r)
        assert k=='id',(k,v)
        if s.pk()[0]=='(':
            x=s.val(); return ('tup',v,x[2])
        if s.pk()[0]=='{':
            s.nx(); d={}
            while s.pk()[0]!='}':
                n=s.nx()[1]; assert s.nx()[0]==':'
                d[n]=s.val()
                if s.pk()[0]==',': s.nx()
            s.nx(); return ('rec',v,d)
        return ('unit',v)
# ---------- to Coq ----------
def by(s): 
    s=s.encode() if isinstance(s,str) else s
    return '['+';'.join(map(str,s))+']'
def span(v): a,c=v[1].split('..'); return f'({a},{c})'
def lst(f): return lambda v: '['+'; '.join(f(x) for x in v[1])+']'
def opt(f): return lambda v: 'None' if v==('unit','None') else f'(Some {f(v[2][0])})'
def st(v): assert v[0]=='str',v; return by(v[1])
def bl(v): return v[1]
def comments(v):
    d=v[2]; return '{|ac_detached:=%s;ac_leading:=%s;ac_trailing:=%s|}'%(lst(st)(d['leading_detached_comments']),opt(st)(d['leading_comment']),opt(st)(d['trailing_comment']))
def ident(v): return '{|id_val:=%s;id_span:=%s|}'%(st(v[2]['value']),span(v[2]['span']))
def fident(v): return lst(ident)(v[2]['parts'])
def tname(v): return '{|tn_dot:=%s;tn_name:=%s|}'%(opt(span)(v[2]['leading_dot']),fident(v[2]['name']))
def num(v): return v[1]
def aint(v): return '{|i_neg:=%s;i_val:=%s;i_span:=%s|}'%(bl(v[2]['negative']),num(v[2]['value']),span(v[2]['span']))
def flt(v):
    t=v[2]['value'][1]; neg=t.startswith('-'); t=t.lstrip('-')
    return '{|fl_neg:=%s;fl_text:=%s;fl_span:=%s|}'%('true' if neg else 'false',by(t),span(v[2]['span']))
def unesc_disp(s):
    # the Debug of ast::String shows the escaped Display text
    out=b'';i=0
    while i<len(s):
        if s[i]=='\\':
            e=s[i+1]
            if e.isdigit(): out+=bytes([int(s[i+1:i+4],8)]); i+=4
            else: out+={'t':b'\t','n':b'\n','r':b'\r','\\':b'\\',"'":b"'",'"':b'"'}[e]; i+=2
        else: out+=s[i].encode(); i+=1
    return out
def astr(v): return '{|st_val:=%s;st_span:=%s|}'%(by(unesc_disp(v[2]['value'][1])),span(v[2]['span']))
def oval(v):
    if v[0]=='rec': d=v[2]; return f"(OVIdent {bl(d['negative'])} {ident(d['ident'])} {span(d['span'])})"
    n,a=v[1],v[2]
    if n=='Int': return f'(OVInt {aint(a[0])})'
    if n=='Float': return f'(OVFloat {flt(a[0])})'
    if n=='String': return f'(OVString {astr(a[0])})'
    if n=='Aggregate': return f'(OVAggregate {st(a[0])} {span(a[1])})'
    raise Exception(n)
def npart(v):
    if v[1]=='Ident': return f'(ONIdent {ident(v[2][0])})'
    return f'(ONExtension {tname(v[2][0])} {span(v[2][1])})'
def obody(v): return '{|ob_name:=%s;ob_value:=%s|}'%(lst(npart)(v[2]['name']),oval(v[2]['value']))
def option(v): d=v[2]; return '{|op_body:=%s;op_comments:=%s;op_span:=%s|}'%(obody(d['body']),comments(d['comments']),span(d['span']))
def olist(v): d=v[2]; return '{|ol_options:=%s;ol_span:=%s|}'%(lst(obody)(d['options']),span(d['span']))
def imp(v):
    d=v[2]; k=d['kind']
    kk='None' if k==('unit','None') else '(Some (I%s,%s))'%(k[2][0][2][0][1],span(k[2][0][2][1]))
    return '{|im_kind:=%s;im_value:=%s;im_value_span:=%s;im_comments:=%s;im_span:=%s|}'%(kk,st(d['value']),span(d['value_span']),comments(d['comments']),span(d['span']))
def pkg(v): d=v[2]; return '{|pk_name:=%s;pk_comments:=%s;pk_span:=%s|}'%(fident(d['name']),comments(d['comments']),span(d['span']))
def ty(v):
    if v[0]=='unit': return 'Ty'+v[1]
    return f'(TyNamed {tname(v[2][0])})'
def rend(v):
    if v[0]=='unit': return 'RENone'
    return f'(REInt {aint(v[2][0])})' if v[1]=='Int' else f'(REMax {span(v[2][0])})'
def rng(v): return '{|rr_start:=%s;rr_end:=%s|}'%(aint(v[2]['start']),rend(v[2]['end']))
def reserved(v):
    d=v[2]; k=d['kind']; kk=f'(RKRanges {lst(rng)(k[2][0])})' if k[1]=='Ranges' else f'(RKNames {lst(ident)(k[2][0])})'
    return '{|rs_kind:=%s;rs_comments:=%s;rs_span:=%s|}'%(kk,comments(d['comments']),span(d['span']))
def exts(v): d=v[2]; return '{|ex_ranges:=%s;ex_options:=%s;ex_comments:=%s;ex_span:=%s|}'%(lst(rng)(d['ranges']),opt(olist)(d['options']),comments(d['comments']),span(d['span']))
def evalue(v): d=v[2]; return '{|ev_name:=%s;ev_number:=%s;ev_options:=%s;ev_comments:=%s;ev_span:=%s|}'%(ident(d['name']),aint(d['number']),opt(olist)(d['options']),comments(d['comments']),span(d['span']))
def enum(v): d=v[2]; return '{|en_name:=%s;en_options:=%s;en_values:=%s;en_reserved:=%s;en_comments:=%s;en_span:=%s|}'%(ident(d['name']),lst(option)(d['options']),lst(evalue)(d['values']),lst(reserved)(d['reserved']),comments(d['comments']),span(d['span']))
def method(v): d=v[2]; return '{|me_name:=%s;me_input:=%s;me_output:=%s;me_options:=%s;me_client:=%s;me_server:=%s;me_comments:=%s;me_span:=%s|}'%(ident(d['name']),tname(d['input_ty']),tname(d['output_ty']),lst(option)(d['options']),opt(span)(d['client_streaming']),opt(span)(d['server_streaming']),comments(d['comments']),span(d['span']))
def service(v): d=v[2]; return '{|sv_name:=%s;sv_options:=%s;sv_methods:=%s;sv_comments:=%s;sv_span:=%s|}'%(ident(d['name']),lst(option)(d['options']),lst(method)(d['methods']),comments(d['comments']),span(d['span']))
def kind(v):
    d=v[2]
    if v[1]=='Normal': return f"(FKNormal {ty(d['ty'])} {span(d['ty_span'])})"
    if v[1]=='Group': return f"(FKGroup {span(d['ty_span'])} {body(d['body'])})"
    return f"(FKMap {span(d['ty_span'])} {ty(d['key_ty'])} {span(d['key_ty_span'])} {ty(d['value_ty'])} {span(d['value_ty_span'])})"
def label(v): return '(L%s,%s)'%(v[2][0][1],span(v[2][1]))
def field(v): d=v[2]; return '{|fd_label:=%s;fd_name:=%s;fd_kind:=%s;fd_number:=%s;fd_options:=%s;fd_comments:=%s;fd_span:=%s|}'%(opt(label)(d['label']),ident(d['name']),kind(d['kind']),aint(d['number']),opt(olist)(d['options']),comments(d['comments']),span(d['span']))
def message(v): d=v[2]; return '{|ms_name:=%s;ms_body:=%s;ms_comments:=%s;ms_span:=%s|}'%(ident(d['name']),body(d['body']),comments(d['comments']),span(d['span']))
def extend(v): d=v[2]; return '{|et_extendee:=%s;et_fields:=%s;et_comments:=%s;et_span:=%s|}'%(tname(d['extendee']),lst(field)(d['fields']),comments(d['comments']),span(d['span']))
def oneof(v): d=v[2]; return '{|oo_name:=%s;oo_options:=%s;oo_fields:=%s;oo_comments:=%s;oo_span:=%s|}'%(ident(d['name']),lst(option)(d['options']),lst(field)(d['fields']),comments(d['comments']),span(d['span']))
def mitem(v): return '(MI%s %s)'%(v[1],{'Field':field,'Enum':enum,'Message':message,'Extend':extend,'Oneof':oneof}[v[1]](v[2][0]))
def body(v): d=v[2]; return '(Body %s %s %s %s)'%(lst(mitem)(d['items']),lst(exts)(d['extensions']),lst(option)(d['options']),lst(reserved)(d['reserved']))
def fitem(v): return '(FI%s %s)'%(v[1],{'Service':service,'Enum':enum,'Message':message,'Extend':extend}[v[1]](v[2][0]))
def pairc(v): return f'({span(v[2][0])},{comments(v[2][1])})'
def file(v): d=v[2]; return '{|fi_span:=%s;fi_syntax:=%s;fi_syntax_span:=%s;fi_package:=%s;fi_imports:=%s;fi_options:=%s;fi_items:=%s|}'%(span(d['span']),d['syntax'][1],opt(pairc)(d['syntax_span']),opt(pkg)(d['package']),lst(imp)(d['imports']),lst(option)(d['options']),lst(fitem)(d['items']))
ERR={'UnexpectedToken':['expected','found','span'],'UnexpectedEof':['expected'],
 'InvalidDefault':['kind','span'],'InvalidExtendFieldKind':['kind','span'],'InvalidOneofFieldKind':['kind','span'],
 'ValueInvalidType':['expected','actual','span'],'IntegerValueOutOfRange':['expected','actual','min','max','span'],
 'DuplicatePackage':['first','second'],'UnknownSyntax':['syntax','span']}
def err(v):
    if v[0]=='unit': return v[1]
    return v[1]+' '+' '.join(st(v[2][o]) if v[2][o][0]=='str' else span(v[2][o]) for o in ERR.get(v[1],['span']))
errs=lst(err)
# descriptors
def z(v): return f'({v[1]})%Z'
def dbl(v):
    t=v[1]; return '(%s,%s)'%('true' if t[0]=='-' else 'false',by(t.lstrip('-')))
def uopt(v):
    d=v[2]
    return '{|uo_name:=%s;uo_identifier:=%s;uo_positive:=%s;uo_negative:=%s;uo_double:=%s;uo_string:=%s;uo_aggregate:=%s|}'%(
      lst(lambda p:'(%s,%s)'%(st(p[2]['name_part']),bl(p[2]['is_extension'])))(d['name']),opt(st)(d['identifier_value']),opt(num)(d['positive_int_value']),
      opt(z)(d['negative_int_value']),opt(dbl)(d['double_value']),opt(lambda x:'['+';'.join(y[1] for y in x[1])+']')(d['string_value']),opt(st)(d['aggregate_value']))
def opts(v):
    for k,x in v[2].items(): assert k in('uninterpreted_option',) or x==('unit','None') or x==('list',[]),(k,x)
    return lst(uopt)(v[2]['uninterpreted_option'])
def mopts(v):
    for k,x in v[2].items(): assert k in('uninterpreted_option','map_entry') or x==('unit','None'),(k,x)
    return '{|mo_map_entry:=%s;mo_uninterpreted:=%s|}'%(opt(bl)(v[2]['map_entry']),lst(uopt)(v[2]['uninterpreted_option']))
LAB={'Optional':'LabOptional','Required':'LabRequired','Repeated':'LabRepeated'}
def fdesc(v):
    d=v[2]
    return '{|f_name:=%s;f_number:=%s;f_label:=%s;f_type:=%s;f_type_name:=%s;f_extendee:=%s;f_default:=%s;f_oneof_index:=%s;f_json_name:=%s;f_options:=%s;f_proto3_optional:=%s|}'%(
     opt(st)(d['name']),opt(z)(d['number']),opt(lambda x:LAB[x[1]])(d['label']),opt(lambda x:'FT'+x[1])(d['type']) if 'type' in d else opt(lambda x:'FT'+x[1])(d['r#type']),opt(st)(d['type_name']),
     opt(st)(d['extendee']),opt(st)(d['default_value']),opt(z)(d['oneof_index']),opt(st)(d['json_name']),opt(opts)(d['options']),opt(bl)(d['proto3_optional']))
def rrange(v): d=v[2]; return '{|r_start:=%s;r_end:=%s|}'%(opt(z)(d['start']),opt(z)(d['end']))
def xrange_(v): d=v[2]; return '{|x_start:=%s;x_end:=%s;x_options:=%s|}'%(opt(z)(d['start']),opt(z)(d['end']),opt(opts)(d['options']))
def vdesc(v): d=v[2]; return '{|v_name:=%s;v_number:=%s;v_options:=%s|}'%(opt(st)(d['name']),opt(z)(d['number']),opt(opts)(d['options']))
def edesc(v): d=v[2]; return '{|e_name:=%s;e_value:=%s;e_options:=%s;e_reserved_range:=%s;e_reserved_name:=%s|}'%(opt(st)(d['name']),lst(vdesc)(d['value']),opt(opts)(d['options']),lst(rrange)(d['reserved_range']),lst(st)(d['reserved_name']))
def odesc(v): d=v[2]; return '{|o_name:=%s;o_options:=%s|}'%(opt(st)(d['name']),opt(opts)(d['options']))
def mdesc(v):
    d=v[2]; return '(MsgDesc %s %s %s %s %s %s %s %s %s %s)'%(opt(st)(d['name']),lst(fdesc)(d['field']),lst(fdesc)(d['extension']),lst(mdesc)(d['nested_type']),lst(edesc)(d['enum_type']),lst(xrange_)(d['extension_range']),lst(odesc)(d['oneof_decl']),opt(mopts)(d['options']),lst(rrange)(d['reserved_range']),lst(st)(d['reserved_name']))
def loc(v): d=v[2]; return '{|loc_path:=%s;loc_span:=%s;loc_leading:=%s;loc_trailing:=%s;loc_detached:=%s|}'%(lst(z)(d['path']),lst(z)(d['span']),opt(st)(d['leading_comments']),opt(st)(d['trailing_comments']),lst(st)(d['leading_detached_comments']))
def fd(v):
    d=v[2]; assert d['service']==('list',[])
    return '{|d_name:=%s;d_package:=%s;d_dependency:=%s;d_public:=%s;d_weak:=%s;d_message:=%s;d_enum:=%s;d_service:=[];d_extension:=%s;d_options:=%s;d_source_info:=%s;d_syntax:=%s|}'%(
      opt(st)(d['name']),opt(st)(d['package']),lst(st)(d['dependency']),lst(z)(d['public_dependency']),lst(z)(d['weak_dependency']),lst(mdesc)(d['message_type']),lst(edesc)(d['enum_type']),lst(fdesc)(d['extension']),opt(opts)(d['options']),opt(lambda s:lst(loc)(s[2]['location']))(d['source_code_info']),opt(st)(d['syntax']))
# ---------- sources ----------
LIT=r'(r#".*?"#|r"[^"]*"|"(?:[^"\\]|\\.)*")'
def unq(l):
    if l.startswith('r#"'): return l[3:-2]
    if l.startswith('r"'): return l[2:-1]
    s=re.sub(r'\\\n\s*','',l[1:-1])
    return re.sub(r'\\(.)',lambda m:{'n':'\n','t':'\t','r':'\r','\\':'\\','"':'"',"'":"'"}[m.group(1)],s,flags=re.S)
def snap(p):
    s=open(p).read(); i=s.index('---',3); return P(lex(s[i+3:])).val()
print('''(** GENERATED by tools/mktests.py from the unit tests and insta snapshots of
    protox-parse (parse/tests.rs, tests.rs). These are tests of the reading of the
    code, not proofs of properties. Doubles are compared by the text in the
    snapshot where it equals the source text. *)
From Verif Require Import Base Utf8 Errors Lex Ast Comments Parse Lines Descriptor Generate ParseApi.

Definition sgn (neg : bool) (t : bytes) : bytes := (if neg then b "-" else []) ++ t.
(* enough of Rust's printing of doubles for these tests *)
Definition expand (t : bytes) : bytes :=
  if bytes_eqb t (b "9e6") then b "9000000"
  else if bytes_eqb t (b "9e22") then b "90000000000000000000000" else t.
Definition disp (neg : bool) (t : bytes) : bytes :=
  sgn neg (if existsb (N.eqb 46) t then t else t ++ b ".0").
Definition kt : cfg :=
  {| munch_ideal := false; f64_display := disp; f64_to_string := fun neg t => sgn neg (expand t) |}.

(** The [case!] macro of parse/tests.rs:5-15. *)
Definition case_ {A} (m : P A) (src : bytes) : option (A + list perr) :=
  match m (p_init src) with
  | POk a s => match l_errs (p_lex s) with
               | [] => if l_assert (p_lex s) then None else Some (inl a)
               | es => if l_assert (p_lex s) then None else Some (inr es) end
  | PErr s => if l_assert (p_lex s) then None else Some (inr (l_errs (p_lex s)))
  | _ => None
  end.
Definition fuel_ : nat := 20%nat.
Definition tp_parse_option := parse_option kt.
Definition tp_parse_text_format_message := parse_text_format_message kt.
Definition tp_parse_enum := parse_enum kt.
Definition tp_parse_service := parse_service kt.
Definition tp_parse_package := parse_package kt.
Definition tp_parse_import := parse_import kt.
Definition tp_parse_extend := parse_extend kt (parse_message_body kt fuel_).
Definition tp_parse_reserved := parse_reserved kt.
Definition tp_parse_field := parse_field kt (parse_message_body kt fuel_).
Definition tp_parse_message := parse_message kt (parse_message_body kt fuel_).
Definition tp_parse_oneof := parse_oneof kt (parse_message_body kt fuel_).

Definition full (src : bytes) : option (file_desc + list perr) :=
  match parse kt loc_sort (b "test.proto") src with
  | Done (inl d, false) => Some (inl d)
  | Done (inr e, false) => Some (inr (pe_all e))
  | _ => None
  end.
''')
CONV={'parse_option':option,'parse_text_format_message':st,'parse_enum':enum,'parse_service':service,'parse_package':pkg,'parse_import':imp,'parse_extend':extend,'parse_reserved':reserved,'parse_field':field,'parse_message':message,'parse_oneof':oneof,'parse_file':file}
t=open(R+'parse/tests.rs').read()
skipped=[]
only=set(sys.argv[1:])
n=0
for fn in re.split(r'#\[test\]',t)[1:]:
    name=re.search(r'fn (\w+)',fn).group(1); i=0
    for m in re.finditer(r'case!\((\w+)\(\s*'+LIT+r'\s*\)\)',fn,re.S):
        i+=1; src=unq(m.group(2)); f=m.group(1)
        p=R+f'parse/snapshots/protox_parse__parse__tests__{name}'+(f'-{i}' if i>1 else '')+'.snap'
        v=snap(p); nm=f'p_{name}_{i}'
        if v[1]=='Ok': rhs='(inl '+CONV[f](v[2][0])+')'
        else: rhs='(inr '+errs(v[2][0])+')'
        parser='parse_file_p kt '+by(src) if f=='parse_file' else 'tp_'+f
        print(f'Example {nm} : case_ ({parser}) {by(src)} = Some {rhs}.\nProof. vm_compute. reflexivity. Qed.'); n+=1
t=open(R+'tests.rs').read()
for fn in re.split(r'#\[test\]',t)[1:]:
    name=re.search(r'fn (\w+)',fn).group(1); i=0
    for m in re.finditer(r'assert_debug_snapshot!\(\s*parse\(\s*'+LIT+r'\s*\)\s*\)',fn,re.S):
        i+=1; src=unq(m.group(1))
        p=R+f'snapshots/protox_parse__tests__{name}'+(f'-{i}' if i>1 else '')+'.snap'
        v=snap(p)
        rhs='(inl '+fd(v[2][0])+')' if v[1]=='Ok' else '(inr '+errs(v[2][0])+')'
        print(f'Example f_{name}_{i} : full {by(src)} = Some {rhs}.\nProof. vm_compute. reflexivity. Qed.'); n+=1
    i=0
    for m in re.finditer(r'assert_eq!\(\s*parse\(\s*'+LIT+r'\s*\),\s*Err\((vec!.*?\])\),?\s*\);',fn,re.S):
        i+=1; src=unq(m.group(1))
        tx=re.sub(r'\.to_(owned|string)\(\)','',m.group(2)[4:])
        v=P(lex(tx)).val()
        print(f'Example e_{name}_{i} : full {by(src)} = Some (inr {errs(v)}).\nProof. vm_compute. reflexivity. Qed.'); n+=1
print(n,file=sys.stderr)
