"""Writes theories/RepoDecls.v and theories/RepoUnit.v from mockall's tests and documentation.

    python3 tools/repo_tests.py /repo rocq/theories

RepoDecls.v: every declaration of a mock in mockall's integration tests, examples and
documentation, with the names that the surrounding text uses.  RepoUnit.v: the unit tests
of mockall_derive and mockall_double as equations.  RepoTests.v (not generated) says what
the model has to do with them.
"""
import glob
import os
import re
import sys
from rust2coq import *

def blocks(path):
    """The code blocks of the documentation: (info, first line, text)."""
    out, cur = [], None
    for n, l in enumerate(open(path), 1):
        m = re.match(r'(.*)$' if path.endswith('.md') else r'\s*//[!/] ?(.*)$', l)
        if not m:
            cur = None
            continue
        x = m.group(1)
        if x.strip().startswith('```'):
            if cur is None:
                cur = (x.strip()[3:], n + 1, [])
            else:
                out.append((cur[0], cur[1], '\n'.join(cur[2])))
                cur = None
        elif cur is not None:
            if x == '#':
                x = ''
            elif x.startswith('# '):
                x = x[2:]
            cur[2].append(x)
    return out

def used(toks):
    """Names that only the macros can have made: mocks, their modules, expect_ and context functions."""
    t = [v for k, v in toks if k in ('id', 'p')]
    out = []
    for i in range(1, len(t) - 1):
        if (t[i - 1] == '.' and t[i].startswith('expect_') and t[i + 1] in ('(', '::')
                or t[i - 1] == '::' and t[i].endswith('_context') and t[i + 1] in ('(', '::')
                or re.match(r'Mock[A-Z]\w*$', t[i]) and t[i + 1] in ('::', '<')
                or re.match(r'mock_\w+$', t[i]) and t[i + 1] == '::'):
            if str(t[i]) not in out:
                out.append(str(t[i]))
    return out

DECL = {'mock': 'DMock', 'trait': 'DTrait', 'impl': 'DImpl', 'mod': 'DMod'}

HEAD = '''From Coq Require Import List Bool String NArith.
From Verif Require Import %s.
Import ListNotations.
Open Scope string_scope.
Open Scope list_scope.
'''

def decls(repo, out):
    w = ['''(** * RepoDecls: the declarations of mocks in mockall's own tests and documentation

    Written by tools/repo_tests.py from mockall/tests, mockall/examples, README.md and the
    documentation in mockall/src/lib.rs; all of them compile.  Bodies of functions are left
    out.  Each entry is the file and the line, the declarations, and the names of mocks, of
    their modules and of their [expect_] and [context] functions that the same text uses. *)
''', HEAD % 'Ast Derive Sig Item RepoChecks', '''Definition repo_decls : list entry := [''']
    entries, bad, n = [], [], 0
    def entry(f, line, toks, names=True):
        ds = find_decls(list(toks))
        if not ds:
            return None, 0
        u = used(toks) if names else []
        return '(* %s %d *)\n Entry %s %d\n  %s\n  %s' % (
            f, line, s(f), line,
            '[' + ';\n   '.join('%s %s' % (DECL[d[0]], d[2]) for d in ds) + ']', lst(map(s, u))), len(ds)
    for f in sorted(glob.glob(repo + '/mockall/tests/*.rs') + glob.glob(repo + '/mockall/examples/*.rs')):
        toks = lex(open(f).read())
        e, k = entry(os.path.relpath(f, repo), 1, toks)
        if e:
            entries.append(e)
            n += k
    for f in ['mockall/src/lib.rs', 'README.md']:
        for info, line, t in blocks(repo + '/' + f):
            e, k = entry(f, line, lex(t, line))
            if e and 'compile_fail' in info:
                bad.append(e)
            elif e:
                entries.append(e)
                n += k
    w.append(';\n'.join(entries) + '].\n')
    w.append('(** Declarations that the documentation says do not compile. *)\nDefinition repo_bad_decls : list entry := [')
    w.append(';\n'.join(bad) + '].')
    w.append('\n(** The inputs of the tests of the whole output: mockall_derive/src/lib.rs 1396-1590. *)')
    src = open(repo + '/mockall_derive/src/lib.rs').read()
    src = src[src.index('mod mock {'):src.index('mod concretize_args {')]
    for m in re.finditer(r'fn (\w+)\(\) \{\s*let code =\s*"([^"]*)";', src):
        auto = m.start() > src.index('mod automock {')
        code = '#[automock]\n' + m.group(2) if auto else 'mock! {' + m.group(2) + '}'
        (kind, _, term, _), = find_decls(list(lex(code)))
        w.append('Definition whole_%s : decl :=\n  %s %s.' % (m.group(1), DECL[kind], term))
    open(out + '/RepoDecls.v', 'w').write('\n'.join(w) + '\n')
    print(len(entries), 'entries', n, 'declarations', len(bad), 'bad')

# ---------------------------------------------------------------- unit tests

def sig(x):
    return P(lex(x)).signature()[0]
def args(xs):
    return lst([P(lex(x)).arg() for x in xs])
def ty(x):
    return P(lex(x)).ty()
def gen(x, wc=''):
    l, ps = P(lex(x)).generics()
    return '(Generics %s %s %s)' % (b(l), lst(ps), P(lex(wc)).where())
def pid(i, mut=False):
    return '(PatIdent false %s %s false)' % (b(mut), s(i))
def bnds(x):
    return P(lex(x)).bounds()
def use(x):
    p = P(lex(x))
    def tree_of(p):
        i = p.ident()
        if p.eat('::'):
            if p.at('*'):
                p.next()
                return '(UPath %s UGlob)' % s(i)
            if p.at('{'):
                r = P(p.group())
                items = []
                while not r.end():
                    items.append(tree_of(r))
                    r.eat(',')
                return '(UPath %s (UGroup %s))' % (s(i), lst(items))
            return '(UPath %s %s)' % (s(i), tree_of(p))
        if p.eat('as'):
            return '(URename %s %s)' % (s(i), s(p.ident()))
        return '(UName %s)' % s(i)
    return tree_of(p)

def unit(repo, out):
    w = ['''(** * RepoUnit: the unit tests of mockall_derive and mockall_double

    Written by tools/repo_tests.py: the inputs and the expected outputs of the unit tests
    that compare syntax trees. *)
''', HEAD % 'Ast AstSpec TyEq Rewrite Derive Names Subst Sig']
    n = 0
    cur = [None]
    def section(title):
        w.append('(** ** %s *)\n' % title)
        cur[0] = re.sub(r'\W', '_', title.split(':')[0])
    def ex(name, stmt):
        nonlocal n
        n += 1
        w.append('Example unit_%s_%s :\n  %s.\nProof. vm_compute. reflexivity. Qed.\n' % (cur[0], name, stmt))

    section('concretize_args: mockall_derive/src/lib.rs 1592-1729')
    def conc(name, f, ins, calls, sigs):
        ex(name, 'let f := %s in\n  concretize_args (sg_generics f) (sg_inputs f)\n  = (no_generics, %s, %s, %s)'
           % (sig(f), args(ins), lst(calls), args(sigs)))
    ref = lambda i: 'CRefTo ' + pid(i)
    mref = lambda i: 'CMutRefTo ' + pid(i)
    arg = lambda i: 'CArg ' + pid(i)
    sl = lambda i, bs: 'CDynSlice %s %s' % (pid(i), bnds(bs))
    conc('bystanders', 'fn foo<P: AsRef<Path>>(x: i32, p: P, y: &f64)',
         ['x: i32', 'p: &(dyn AsRef<Path>)', 'y: &f64'], [arg('x'), ref('p'), arg('y')],
         ['x: i32', 'p: P', 'y: &f64'])
    conc('function_args', 'fn foo<F1: Fn(u32) -> u32, F2: FnMut(&mut u32) -> u32, F3: FnOnce(u32) -> u32, F4: Fn() + Send>(f1: F1, f2: F2, f3: F3, f4: F4)',
         ['f1: &(dyn Fn(u32) -> u32)', 'f2: &mut(dyn FnMut(&mut u32) -> u32)', 'f3: &(dyn FnOnce(u32) -> u32)', 'f4: &(dyn Fn() + Send)'],
         [ref('f1'), mref('f2'), ref('f3'), ref('f4')], ['f1: F1', 'mut f2: F2', 'f3: F3', 'f4: F4'])
    conc('multi_bounds', 'fn foo<P: AsRef<String> + AsMut<String>>(p: P)',
         ['p: &(dyn AsRef<String> + AsMut<String>)'], [ref('p')], ['p: P'])
    conc('mutable_reference_arg', 'fn foo<P: AsMut<Path>>(p: &mut P)',
         ['p: &mut (dyn AsMut<Path>)'], [arg('p')], ['p: &mut P'])
    conc('mutable_reference_multi_bounds', 'fn foo<P: AsRef<String> + AsMut<String>>(p: &mut P)',
         ['p: &mut (dyn AsRef<String> + AsMut<String>)'], [arg('p')], ['p: &mut P'])
    conc('reference_arg', 'fn foo<P: AsRef<Path>>(p: &P)',
         ['p: &(dyn AsRef<Path>)'], [arg('p')], ['p: &P'])
    conc('simple', 'fn foo<P: AsRef<Path>>(p: P)', ['p: &(dyn AsRef<Path>)'], [ref('p')], ['p: P'])
    conc('slice', 'fn foo<P: AsRef<Path>>(p: &[P])', ['p: &[&(dyn AsRef<Path>)]'],
         [sl('p', 'AsRef<Path>')], ['p: &[P]'])
    conc('slice_with_multi_bounds', 'fn foo<P: AsRef<Path> + AsMut<String>>(p: &[P])',
         ['p: &[&(dyn AsRef<Path> + AsMut<String>)]'], [sl('p', 'AsRef<Path> + AsMut<String>')], ['p: &[P]'])
    conc('where_clause', 'fn foo<P>(p: P) where P: AsRef<Path>', ['p: &(dyn AsRef<Path>)'], [ref('p')], ['p: P'])

    section('declosurefy: mockall_derive/src/lib.rs 1731-1819')
    def declo(name, f, ins, calls):
        ex(name, 'let f := %s in\n  option_map (fun r => let \'(g, a, c) := r in (params g, a, c)) (declosurefy (sg_generics f) (sg_inputs f))\n  = Some ([], %s, %s)'
           % (sig(f), args(ins), lst(calls)))
    box = 'CBoxNew ' + pid('f')
    declo('bounds', 'fn foo<F: Fn(u32) -> u32 + Send>(f: F)', ['f: Box<dyn Fn(u32) -> u32 + Send>'], [box])
    declo('fn', 'fn foo<F: Fn(u32) -> u32>(f: F)', ['f: Box<dyn Fn(u32) -> u32>'], [box])
    declo('fn_mut', 'fn foo<F: FnMut(u32) -> u32>(f: F)', ['f: Box<dyn FnMut(u32) -> u32>'], [box])
    declo('fn_once', 'fn foo<F: FnOnce(u32) -> u32>(f: F)', ['f: Box<dyn FnOnce(u32) -> u32>'], [box])
    declo('mutable_pattern', 'fn foo<F: FnMut(u32) -> u32>(mut f: F)', ['f: Box<dyn FnMut(u32) -> u32>'], [box])
    declo('where_clause', 'fn foo<F>(f: F) where F: Fn(u32) -> u32', ['f: Box<dyn Fn(u32) -> u32>'], [box])
    declo('where_clause_with_bounds', 'fn foo<F>(f: F) where F: Fn(u32) -> u32 + Send', ['f: Box<dyn Fn(u32) -> u32 + Send>'], [box])

    section('deimplify: mockall_derive/src/lib.rs 1821-1874')
    for name, x, y in [
            ('impl_future', 'impl Future<Output=i32>', '::std::pin::Pin<Box<dyn Future<Output=i32>>>'),
            ('impl_future_reverse', 'impl Send + Future<Output=i32>', '::std::pin::Pin<Box<dyn Send + Future<Output=i32>>>'),
            ('impl_stream', 'impl Stream<Item=i32>', '::std::pin::Pin<Box<dyn Stream<Item=i32>>>'),
            ('impl_trait', 'impl Foo', 'Box<dyn Foo>'),
            ('impl_trait2', 'impl Foo + Send', 'Box<dyn Foo + Send>')]:
        ex(name, 'deimplify (Some %s) = Some %s' % (ty(x), ty(y)))

    section('deselfify: mockall_derive/src/lib.rs 1876-1943')
    for name, x, y in [
            ('arc', 'Arc<Self>', 'Arc<Foo>'),
            ('future', 'Box<dyn Future<Output=Self>>', 'Box<dyn Future<Output=Foo>>'),
            ('qself', '<Self as Self>::Self', '<Foo as Foo>::Foo'),
            ('trait_object', 'Box<dyn Self>', 'Box<dyn Foo>'),
            ('trait_object2', 'Box<dyn Self + Send>', 'Box<dyn Foo + Send>')]:
        ex(name, 'tokens (deselfify "Foo" no_generics %s) = tokens %s' % (ty(x), ty(y)))

    section('dewhereselfify: mockall_derive/src/lib.rs 1945-1983')
    for name, x, y in [
            ('lifetime', "fn foo<'a>(&self) where 'a: 'static, Self: Sized {}", "fn foo<'a>(&self) where 'a: 'static {}"),
            ('normal_method', 'fn foo(&self) where Self: Sized {}', 'fn foo(&self) {}'),
            ('with_real_generics', 'fn foo<T>(&self, t: T) where Self: Sized, T: Copy {}', 'fn foo<T>(&self, t: T) where T: Copy {}')]:
        ex(name, 'let f := %s in with_generics f (dewhereselfify (sg_generics f)) = %s' % (sig(x), sig(y)))

    section('gen_keyid: mockall_derive/src/lib.rs 1985-2008')
    for name, x, y in [('empty', '', '()'), ('onetype', '<T>', 'T'), ('twotypes', '<T, V>', '(T, V)')]:
        ex(name, 'gen_keyid %s = [GaType %s]' % (gen(x), ty(y)))

    section('merge_generics: mockall_derive/src/lib.rs 2010-2093')
    tv, td = "<T: 'static, V: Copy>", 'where T: Default'
    ex('both', 'merge_generics %s %s = %s' % (gen(tv, td), gen('<Q: Send, V: Clone>', 'where T: Sync, Q: Debug'),
       gen("<T: 'static, V: Copy + Clone, Q: Send>", 'where T: Default + Sync, Q: Debug')))
    ex('eq', 'merge_generics %s %s = %s' % (gen(tv, td), gen(tv, td), gen(tv, td)))
    ex('lhs_only', 'merge_generics %s no_generics = %s' % (gen(tv, td), gen(tv, td)))
    ex('lhs_wc_only', 'merge_generics %s no_generics = %s' % (gen('', td), gen('', td)))
    qv = ('<Q: Send, V: Clone>', 'where T: Sync, Q: Debug')
    ex('rhs_only', 'merge_generics no_generics %s = %s' % (gen(*qv), gen(*qv)))

    section('supersuperfy: mockall_derive/src/lib.rs 2095-2220')
    for name, x, y in [
            ('array', '[super::X; n]', '[super::super::X; n]'),
            ('barefn', 'fn(super::A) -> super::B', 'fn(super::super::A) -> super::super::B'),
            ('infer', '_', '_'),
            ('never', '!', '!'),
            ('paren', '(super::X)', '(super::super::X)'),
            ('path', '::super::SuperT<u32>', '::super::super::SuperT<u32>'),
            ('path_with_qself', '<super::X as super::Y>::Foo<u32>', '<super::super::X as super::super::Y>::Foo<u32>'),
            ('angle_bracketed_generic_arguments', 'mod_::T<super::X>', 'mod_::T<super::super::X>'),
            ('ptr', '*const super::X', '*const super::super::X'),
            ('reference', "&'a mut super::X", "&'a mut super::super::X"),
            ('slice', '[super::X]', '[super::super::X]'),
            ('trait_object', 'dyn super::X + super::Y', 'dyn super::super::X + super::super::Y'),
            ('tuple', '(super::A, super::B)', '(super::super::A, super::super::B)')]:
        ex(name, '(supersuperfy_error %s, supersuperfy 1 %s) = (false, %s)' % (ty(x), ty(x), ty(y)))
    ex('group', 'supersuperfy 1 (TGroup %s) = TGroup %s' % (ty('super::T'), ty('super::super::T')))

    section('supersuperfy_generics: mockall_derive/src/lib.rs 2222-2299')
    for name, x, wx, y, wy in [
            ('default', '<T: X = super::Y>', '', '<T: X = super::super::Y>', ''),
            ('empty', '', '', '', ''),
            ('everything', '<T: super::A = super::B>', 'where super::C: super::D',
             '<T: super::super::A = super::super::B>', 'where super::super::C: super::super::D'),
            ('bound', '<T: super::A>', '', '<T: super::super::A>', ''),
            ('closure', '<F: Fn(u32) -> super::SuperT>', '', '<F: Fn(u32) -> super::super::SuperT>', ''),
            ('wc_bounded_ty', '', 'where super::T: X', '', 'where super::super::T: X'),
            ('wc_bounds', '', 'where T: super::X', '', 'where T: super::super::X')]:
        ex(name, 'supersuperfy_generics 1 %s = %s' % (gen(x, wx), gen(y, wy)))

    section('substitute_type: mockall_derive/src/automock.rs 276-319')
    a = lst(['("T", %s)' % ty('u32')])
    for name, x, r in [
            ('qself', '<Self as Foo>::T', '(false, %s)' % ty('u32'))]:
        ex(name, '(substitute_error %s "Foo" %s, substitute_type %s "Foo" %s) = %s' % (a, ty(x), a, ty(x), r))
    for name, x in [('qself_other', '<Self as AsRef>::T'), ('unknown_substitution', '<Self as Foo>::Q')]:
        ex(name, 'substitute_error %s "Foo" %s = true' % (a, ty(x)))

    section('add_lifetime_parameters: mockall_derive/src/mockable_struct.rs 540-656')
    for name, x, y in [
            ('array', 'fn foo(&self, x: [&dyn T; 1]);', "fn foo<'__mockall_x>(&self, x: [&(dyn T + '__mockall_x); 1]);"),
            ('bare_fn_with_named_args', 'fn foo(&self, x: fn(&dyn T));', 'fn foo(&self, x: fn(&dyn T));'),
            ('plain', 'fn foo(&self, x: &dyn T);', "fn foo<'__mockall_x>(&self, x: &(dyn T + '__mockall_x));"),
            ('slice', 'fn foo(&self, x: &[&dyn T]);', "fn foo<'__mockall_x>(&self, x: &[&(dyn T + '__mockall_x)]);"),
            ('tuple', 'fn foo(&self, x: (&dyn T, u32));', "fn foo<'__mockall_x>(&self, x: (&(dyn T + '__mockall_x), u32));"),
            ('with_anonymous_lifetime', "fn foo(&self, x: &(dyn T + '_));", "fn foo(&self, x: &(dyn T + '_));"),
            ('with_parens', 'fn foo(&self, x: &(dyn T));', "fn foo<'__mockall_x>(&self, x: &(dyn T + '__mockall_x));"),
            ('with_lifetime_parameter', "fn foo<'a>(&self, x: &(dyn T + 'a));", "fn foo<'a>(&self, x: &(dyn T + 'a));"),
            ('with_static_lifetime', "fn foo(&self, x: &(dyn T + 'static));", "fn foo(&self, x: &(dyn T + 'static));")]:
        ex(name, '(add_lifetime_parameters_error %s, add_lifetime_parameters %s) = (false, %s)' % (sig(x), sig(x), sig(y)))

    section('sanity_check_sig: mockall_derive/src/mockable_struct.rs 658-670')
    ex('impl_trait', 'sanity_check_error %s = true' % sig('fn foo(&self, x: impl SomeTrait) {}'))

    section('double: mockall_double/src/lib.rs 228-348')
    wide = '(fun _ => false)'
    for name, x, y in [
            ('group', 'foo::bar::{ Baz, Bean }', 'foo::bar::{ MockBaz as Baz, MockBean as Bean }'),
            ('module', 'foo::bar', 'foo::mock_bar as bar'),
            ('path', 'foo::bar::Baz', 'foo::bar::MockBaz as Baz'),
            ('rename', 'Foo as Bar', 'MockFoo as Bar')]:
        ex(name, '(mock_item_error (DUse %s), do_double %s (DUse %s)) = (false, (DUse %s, DUse %s))'
           % (use(x), wide, use(x), use(x), use(y)))
    for name, x in [('glob', 'foo::*'), ('name', 'Foo')]:
        ex(name, 'mock_item_error (DUse %s) = true' % use(x))
    alias = lambda x: '(DType "Foo" no_generics %s)' % ty(x)
    ex('type_', '(mock_item_error %s, do_double %s %s) = (false, (%s, %s))'
       % (alias('bar::Baz'), wide, alias('bar::Baz'), alias('bar::Baz'), alias('bar::MockBaz')))
    ex('undoubleable', 'mock_item_error (DOther "struct Foo { }") = true')
    open(out + '/RepoUnit.v', 'w').write('\n'.join(w))
    print(n, 'unit tests')

if __name__ == '__main__':
    decls(sys.argv[1], sys.argv[2])
    unit(sys.argv[1], sys.argv[2])
