#!/usr/bin/env python3
"""Runs the model on the test data of /repo/pkg/lockfile and compares with what
the Go tests expect.

Every test that calls lockfile.ParseX on a file of testdata becomes one
comparison, evaluated by coqc in a scratch directory (/tmp/conf); the packages
are compared like expectPackages does.  Formats whose decoder is a parameter of
the model (TOML, YAML, XML, go.mod, JSON with comments, URLs) are decoded here.

usage: lockfiles.py        (after the build in /verif/rocq)
"""
import glob, os, re, subprocess, sys, tomllib
import xml.etree.ElementTree as ET
REPO = '/repo/pkg/lockfile'; OUT = '/tmp/conf'; ROCQ = os.environ.get('ROCQ', '/verif/rocq')

def lit(s):
    return '"' + s.replace('"', '""') + '"'
def lst(xs):
    return '[' + '; '.join(xs) + ']'

# -- what the tests say
CONST = {}
for f in glob.glob(REPO + '/*.go'):
    for n, v in re.findall(r'const (\w+Ecosystem)(?: Ecosystem)? = (.+)', open(f).read()): CONST[n] = v.strip()
def eco(e):
    e = e.replace('lockfile.', '').strip()
    while e in CONST: e = CONST[e]
    return e.strip('"')
def go_string(s):
    return s[1:-1].encode().decode('unicode_escape') if s.startswith('"') else s.strip('`')
def fields(body):
    d = dict(re.findall(r'(\w+):\s*("(?:[^"\\]|\\.)*"|[\w.]+)', body))
    return 'mkPkg %s %s %s %s %s' % (lit(go_string(d.get('Name', '""'))), lit(go_string(d.get('Version', '""'))),
        lit(go_string(d.get('Commit', '""'))), lit(eco(d.get('Ecosystem', '""'))), lit(eco(d.get('CompareAs', '""'))))
def tests():
    for f in sorted(glob.glob(REPO + '/parse-*_test.go')):
        for name, body in re.findall(r'\nfunc (Test\w+)\(t \*testing\.T\) \{\n(.*?)\n\}\n', open(f).read(), re.S):
            call = re.search(r'lockfile\.(Parse\w+)\("([^"]*)"\)', body)
            if not call: call = re.search(r'lockfile\.(Parse\w+)\(filepath\.FromSlash\("([^"]*)"\)\)', body)
            if not call: print('no call in', name); continue
            some = re.findall(r'expectPackage\(t, packages, lockfile\.PackageDetails\{(.*?)\}\)', body, re.S)
            if some: yield name, call.group(1), call.group(2), [fields(b) for b in some], 'some'; continue
            exp = re.search(r'expectPackages\(t, packages, \[\]lockfile\.PackageDetails\{(.*)\}\)', body, re.S)
            if 't.Skip(' in body: continue
            if not exp: print('no packages in', name); continue
            pkgs = [fields(b) for b in re.findall(r'\{([^{}]*)\}', exp.group(1))]
            if 'os.ErrNotExist' in body: err = 'not_exist'
            else:
                m = re.search(r'expectErrContaining\(t, err, "([^"]*)"\)', body)
                err = {'could not parse': 'parse', 'could not open': 'not_exist', 'invalid package path': 'parse',
                       'unsupported lockfile version': 'version', 'XML syntax error': 'parse'}[m.group(1)] if m else None
            yield name, call.group(1), call.group(2), pkgs, err

# -- decoders
def toml(text, key, conv):
    try: d = tomllib.loads(text)
    except tomllib.TOMLDecodeError: return 'None'
    return 'Some ' + lst([conv(p) for p in d.get(key, [])])
def g(d, *ks):
    for k in ks: d = d.get(k, {}) if isinstance(d, dict) else {}
    return lit(d if isinstance(d, str) else '')
def scalar(s):
    s = s.strip()
    if len(s) > 1 and s[0] == s[-1] and s[0] in '\'"': return s[1:-1]
    return s
def flow(s):
    s = s.strip()
    if s.startswith('{') and s.endswith('}'):
        d, depth, cur, parts = {}, 0, '', []
        for c in s[1:-1]:
            if c in '{[': depth += 1
            if c in ']}': depth -= 1
            if c == ',' and depth == 0: parts.append(cur); cur = ''
            else: cur += c
        for p in parts + [cur]:
            if ':' in p: k, v = p.split(': ', 1) if ': ' in p else p.split(':', 1); d[scalar(k)] = flow(v)
        return d
    return scalar(s)
class NotYaml(Exception): pass
def yaml(text):
    """block mappings, flow mappings and scalars; None for an empty document"""
    lines = [l for l in text.split('\n') if l.strip() and not l.lstrip().startswith('#')]
    if not lines: return None
    pos = 0
    def block(indent):
        nonlocal pos
        d = {}
        while pos < len(lines):
            l = lines[pos]; i = len(l) - len(l.lstrip())
            if i < indent: return d
            if i > indent: raise NotYaml(l)
            s = l.strip()
            if s.startswith('- '):
                while pos < len(lines) and (len(lines[pos]) - len(lines[pos].lstrip()) > indent or lines[pos].strip().startswith('- ')): pos += 1
                continue
            m = re.match(r"('(?:[^'])*'|\"(?:[^\"])*\"|[^'\"].*?):(?:\s+(.*))?$", s)
            if not m: raise NotYaml(l)
            k, v = scalar(m.group(1)), m.group(2)
            pos += 1
            if v in ('|', '>', '>-', '|-'):
                while pos < len(lines) and len(lines[pos]) - len(lines[pos].lstrip()) > indent: pos += 1
                d[k] = ''
            elif v is not None and v.strip(): d[k] = flow(v)
            elif pos < len(lines) and len(lines[pos]) - len(lines[pos].lstrip()) > indent: d[k] = block(len(lines[pos]) - len(lines[pos].lstrip()))
            else: d[k] = None
        return d
    return block(0)
def pnpm(text):
    try: d = yaml(text)
    except NotYaml: return 'None'
    if d is None: return 'Some None'
    one = lambda k, p: '(%s, mkPnpm %s %s %s %s)' % (lit(k), g(p, 'resolution', 'tarball'), g(p, 'resolution', 'commit'), g(p, 'name'), g(p, 'version'))
    ps = d.get('packages')
    return 'Some (Some (Some (%s, %s)))' % (g(d, 'lockfileVersion'), 'None' if ps is None else 'Some ' + lst([one(k, p or {}) for k, p in ps.items()]))
def pubspec(text):
    try: d = yaml(text)
    except NotYaml: return 'None'
    if d is None: return 'Some None'
    def one(k, p):
        ds = p.get('description')
        dd = 'mkPubD %s %s %s %s' % (g(ds, 'name'), g(ds, 'url'), g(ds, 'path'), g(ds, 'resolved-ref')) if isinstance(ds, dict) else 'mkPubD "" "" %s ""' % lit(ds or '')
        return '(%s, mkPub %s (%s))' % (lit(k), g(p, 'version'), dd)
    ps = d.get('packages')
    return 'Some (Some %s)' % ('None' if ps is None else '(Some %s)' % lst([one(k, p) for k, p in ps.items()]) if ps != '{}' else '(Some [])')
def xml(text):
    try: r = ET.fromstring(text)
    except ET.ParseError: return 'None'
    def node(e):
        cs = ['XText ' + lit(e.text)] if e.text else []
        for c in e:
            cs.append(node(c))
            if c.tail: cs.append('XText ' + lit(c.tail))
        return 'XElem %s %s' % (lit(re.sub(r'^\{.*\}', '', e.tag)), lst(cs))
    return 'Some (%s)' % node(r)
def modfile(text):
    req, rep, block = [], [], None
    mod = lambda ws: 'mkModule %s %s' % (lit(ws[0].strip('"')), lit(ws[1] if len(ws) > 1 else ''))
    for l in text.split('\n'):
        ws = l.split('//')[0].split() if not re.match(r'\s*https?:', l) else l.split()
        if not ws: continue
        if block is None:
            if ws[0] not in ('module', 'go', 'require', 'replace', 'exclude', 'retract', 'toolchain'): return 'None'
            if ws[1:] == ['(']: block = ws[0]; continue
            k, ws = ws[0], ws[1:]
        else:
            if ws == [')']: block = None; continue
            k = block
        if k == 'require': req.append(mod(ws))
        if k == 'replace':
            i = ws.index('=>'); rep.append('mkReplace (%s) (%s)' % (mod(ws[:i]), mod(ws[i+1:])))
    return 'Some (mkGoMod %s %s)' % (lst(req), lst(rep))
def jsonc(text):
    out, i, s = '', 0, False
    while i < len(text):
        c = text[i]
        if s:
            out += c
            if c == '\\': out += text[i+1]; i += 1
            elif c == '"': s = False
        elif c == '"': s = True; out += c
        elif text.startswith('//', i):
            while i < len(text) and text[i] != '\n': i += 1
            continue
        elif text.startswith('/*', i): i = text.index('*/', i) + 2; continue
        else: out += c
        i += 1
    return re.sub(r',(\s*[}\]])', r'\1', out)

HEAD = '''From Coq Require Import QArith.
From Verif Require Import GoStr Types Regex MemDB GoMap Scan Ecosystems LockIO Commit Lockfile ListLocks PnpmLock MavenLock GoLock Parsers.
Local Open Scope string_scope.
Definition look {A} (d : A) (t : list (string * A)) (k : string) : A := match map_get k t with Some a => a | None => d end.
Definition pkg_eqb (a b : Pkg) : bool := seqb (p_name a) (p_name b) && seqb (p_version a) (p_version b) && seqb (p_commit a) (p_commit b) && seqb (p_eco a) (p_eco b) && seqb (p_cmp a) (p_cmp b).
Definition among (l m : list Pkg) : bool := forallb (fun a => existsb (pkg_eqb a) m) l.
Inductive want := WPkgs (l : list Pkg) | WErr (kind : string) | WSome (l : list Pkg).
Fixpoint kind (f : lock_fail) : string := match f with FRead _ => "not_exist" | FParse _ => "parse" | FVersion _ => "version" | FPath _ => "path" | FScan _ => "scan" | FInclude _ f => kind f end.
Definition meets (r : option pres) (w : want) : bool :=
  match r, w with
  | Some (Ok (inr ps)), WPkgs l => Nat.eqb (List.length ps) (List.length l) && among ps l && among l ps
  | Some (Ok (inr ps)), WSome l => among l ps
  | Some (Ok (inl f)), WErr k => seqb (kind f) k
  | _, _ => false
  end.
(* net/url as far as it matters here *)
Fixpoint after (p s : string) : option string := if has_prefix s p then Some (String.substring (String.length p) (String.length s) s) else match s with "" => None | String _ s' => after p s' end.
Fixpoint upto (stop : ascii -> bool) (s : string) : string := match s with "" => "" | String c s' => if stop c then "" else String c (upto stop s') end.
Definition stop_host (c : ascii) : bool := Ascii.eqb c "/" || Ascii.eqb c "?" || Ascii.eqb c "#".
Definition conf_url (s : string) : option Url :=
  match after "://" s with
  | None => Some (mkUrl "" "" None (cut_after s "#"))
  | Some rest =>
      let auth := upto stop_host rest in
      let host := if has_char "@" auth then cut_after auth "@" else auth in
      let q := cut_after (cut_before rest "#") "?" in
      Some (mkUrl host q (if has_prefix q "ref=" then Some (upto (fun c => Ascii.eqb c "&") (trim_prefix q "ref=")) else None) (cut_after rest "#"))
  end.
Definition conf_float (s : string) : option Q := look None [("5.2", Some (52 # 10)); ("5.3", Some (53 # 10)); ("5.4", Some (54 # 10)); ("6.0", Some (6 # 1)); ("6.1", Some (61 # 10)); ("9.0", Some (9 # 1))]%Q s.
'''
def read(path):
    return open(path, encoding='utf-8', errors='surrogateescape', newline='').read()
def main():
    os.makedirs(OUT, exist_ok=True)
    groups = {}
    for t in tests(): groups.setdefault(t[1], []).append(t)
    total = 0; bad = []
    for fn, ts in sorted(groups.items()):
        dirs = sorted({os.path.dirname(t[2]) for t in ts})
        texts = {}
        for d in dirs:
            for base, _, fs in os.walk(f'{REPO}/{d}'):
                for f in fs:
                    p = os.path.join(base, f); texts[os.path.relpath(p, REPO)] = read(p)
        used = {t[2] for t in ts} if fn != 'ParseRequirementsTxt' else set(texts)
        if fn == 'ParseBunLock': texts = {p: jsonc(t) for p, t in texts.items()}
        v = [HEAD]
        tab = lambda conv: lst(['(%s, %s)' % (lit(texts[p]), conv(texts[p])) for p in sorted(used) if p in texts])
        dec = {k: '(fun _ => None)' for k in ('cargo', 'pdm', 'poetry', 'pylock', 'uv', 'pubspec', 'pnpm', 'xml')}
        mf = '(fun _ _ => None)'
        if fn == 'ParseCargoLock': dec['cargo'] = '(look None %s)' % tab(lambda t: toml(t, 'package', lambda p: 'mkCargo %s %s' % (g(p, 'name'), g(p, 'version'))))
        if fn == 'ParsePdmLock': dec['pdm'] = '(look None %s)' % tab(lambda t: toml(t, 'package', lambda p: 'mkPdm %s %s %s' % (g(p, 'name'), g(p, 'version'), g(p, 'revision'))))
        if fn == 'ParsePoetryLock': dec['poetry'] = '(look None %s)' % tab(lambda t: toml(t, 'package', lambda p: 'mkPoetry %s %s %s' % (g(p, 'name'), g(p, 'version'), g(p, 'source', 'resolved_reference'))))
        if fn == 'ParsePylock': dec['pylock'] = '(look None %s)' % tab(lambda t: toml(t, 'packages', lambda p: 'mkPylock %s %s %s %s' % (g(p, 'name'), g(p, 'version'), g(p, 'vcs', 'commit-id'), g(p, 'directory', 'path'))))
        if fn == 'ParseUvLock': dec['uv'] = '(look None %s)' % tab(lambda t: toml(t, 'package', lambda p: 'mkUv %s %s %s %s' % (g(p, 'name'), g(p, 'version'), g(p, 'source', 'virtual'), g(p, 'source', 'git'))))
        if fn == 'ParsePubspecLock': dec['pubspec'] = '(look None %s)' % tab(pubspec)
        if fn == 'ParsePnpmLock': dec['pnpm'] = '(look None %s)' % tab(pnpm)
        if fn == 'ParseMavenLock': dec['xml'] = '(look None %s)' % tab(xml)
        if fn == 'ParseGoLock': mf = '(fun _ => look None %s)' % tab(modfile)
        v.append('Definition D : Decoders := mkDecoders %s %s conf_float %s %s (fun s => s) conf_url.' % (
            ' '.join(dec[k] for k in ('cargo', 'pdm', 'poetry', 'pylock', 'uv', 'pubspec')), dec['pnpm'], dec['xml'], mf))
        v.append('Definition files : string -> txt := look Gone %s.' % lst(['(%s, Text %s false)' % (lit(p), lit(texts[p])) for p in sorted(used) if p in texts]))
        v.append('Definition it : Iter := fun _ l => l.')
        for name, _, path, pkgs, err in ts:
            w = 'WSome ' + lst(pkgs) if err == 'some' else f'WErr {lit(err)}' if err else 'WPkgs ' + lst(pkgs)
            v.append('Definition r_%s := Eval vm_compute in meets (fst (run_parser D it files 10 %s %s)) (%s).' % (name, fn, lit(path), w))
        v.append('Definition failing := Eval vm_compute in map fst (filter (fun x => negb (snd x)) %s).' % lst(['(%s, r_%s)' % (lit(t[0]), t[0]) for t in ts]))
        v.append('Print failing.')
        p = f'{OUT}/Conf{fn}.v'
        open(p, 'w', encoding='utf-8', errors='surrogateescape', newline='').write('\n'.join(v) + '\n')
        o = subprocess.run(['bash', '-c', f'ulimit -s unlimited; timeout 900 coqc -q -Q {ROCQ}/theories Verif {p}'], stdout=subprocess.PIPE, stderr=subprocess.STDOUT, text=True, cwd=OUT).stdout
        total += len(ts)
        names = re.findall(r'"(Test\w+)"', o) if 'failing =' in o else ['could not run: ' + o[-600:]]
        bad += names
        print(f'{fn}: {len(ts)} tests, {len(names)} differ', *names, flush=True)
    print(f'{total} tests, {len(bad)} differ')
if __name__ == "__main__": main()
