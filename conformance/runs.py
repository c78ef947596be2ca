#!/usr/bin/env python3
"""Runs the model of main.go on the cases of /repo/main_test.go and compares
stdout, stderr, the exit code and the rewritten configs with the snapshots.

The cases of TestRun_EndToEnd are compared with testdata/locks-e2e/*.out.txt.
The databases of osv.dev are made up from the advisories the snapshots mention;
every advisory lists the versions it affects.  The texts of errors that Go's
library makes are given here, and so is YAML.

usage: runs.py [pattern]       (after the build in /verif/rocq)
"""
import difflib, json, os, re, subprocess, sys
sys.dont_write_bytecode = True; sys.path.insert(0, os.path.dirname(os.path.abspath(__file__)))
import lockfiles as lf
from lockfiles import lit, lst, read, ROCQ
REPO = '/repo'; OUT = '/tmp/conf'
TEMP = '/tmp/osv-detector-test-1'; API = 'http://127.0.0.1:8080'
DATE = 'Mon, 16 Nov 2026 10:00:00 GMT'

# -- the cases
def args_of(s):
    s = re.sub(r'filepath\.Join\(testdataDir, "([^"]*)"\)', rf'"{REPO}/testdata/\1"', s)
    return re.findall(r'"((?:[^"\\]|\\.)*)"', s)
def cases():
    src = open(REPO + '/main_test.go').read()
    for name, body in re.findall(r'\nfunc (TestRun\w*)\(t \*testing\.T\) \{\n(.*?)\n\}\n', src, re.S):
        if name in ('TestRun_EndToEnd', 'TestRun_APIError'): continue
        for i, c in enumerate(re.split(r'\n\t\t\{\n\t\t\tname: "",\n', body)[1:]):
            args = args_of(re.search(r'args: \[\]string\{(.*?)\},\n\t\t\texit', c, re.S).group(1))
            code = int(re.search(r'exit: (\d+)', c).group(1))
            files = re.findall(r'setupConfigForUpdating\(t,\s*"([^"]*)",\s*"([^"]*)",?\s*\)', c)
            yield '%s/#%02d' % (name, i), args, code, files, {}
    gem = '\nGEM\n  remote: https://rubygems.org/\n  specs:\n    ast (2.4.2)\n'
    for i in (0, 1):
        yield 'TestRun_APIError/#%02d' % i, [TEMP], 127, [(TEMP + '/.osv-detector.yml', '\nextra-databases:\n  - url: ' + API)], {TEMP + '/Gemfile.lock': gem}
def snapshots():
    text = open(REPO + '/__snapshots__/main_test.snap').read()
    return {m[0]: m[1] for m in re.findall(r'\n\[(TestRun[^\]]* - \d)\]\n(.*?)\n---\n', text, re.S)}
SNAP = snapshots()
def e2e():
    d = REPO + '/testdata/locks-e2e'
    for f in sorted(os.listdir(d)):
        if f.endswith('.out.txt'): continue
        parse_as = re.match(r'\d+-(.*)', f).group(1)
        yield 'TestRun_EndToEnd/' + f, [parse_as + ':testdata/locks-e2e/' + f], 1, read(f'{d}/{f}.out.txt')
def advisories(texts):
    dbs = {}
    for t in texts:
        using, pkg = [], None
        for l in t.split('\n'):
            m = re.match(r'  Using db (\w[\w.]*) \(%%', l)
            if l and not l.startswith(' '): using = []
            if m: using.append(m.group(1))
            m = re.match(r'  (\S+)@(\S*) is affected by', l)
            if m: pkg = m.groups()
            m = re.match(r'    ((?:GHSA|CVE|GO|PYSEC|MAL|RUSTSEC|OSV)-\S+): (.*) \((https?://\S*)\)$', l)
            if not m: m = re.match(r'    (\S+): (.*?)(?: \((https?://\S*)\))?$', l) if pkg and l.startswith('    ') else None
            if m:
                for u in using:
                    o = dbs.setdefault(u, {}).setdefault(m.group(1), (m.group(2), []))
                    if pkg not in o[1]: o[1].append(pkg)
    return {u: [json.dumps({'id': i, 'summary': s, 'affected': [{'package': {'name': n, 'ecosystem': u}, 'versions': [v]} for n, v in ps]}, ensure_ascii=False)
                for i, (s, ps) in sorted(os_.items())] for u, os_ in dbs.items()}

# -- YAML, as far as configs in these tests go
def config(text):
    if text.startswith('ignore\n'): return 'None'
    ign, dbs, sect = [], [], None
    for l in text.split('\n'):
        l = re.sub(r'(^|\s)#.*', '', l).rstrip()
        m = re.match(r'(\S+):\s*(.*)$', l)
        if m and not l.startswith(' '):
            sect = m.group(1)
            ign += [x.strip() for x in m.group(2).strip('[]').split(',') if x.strip()] if sect == 'ignore' else []
        elif sect == 'ignore' and l.strip().startswith('- '): ign.append(l.strip()[2:])
        elif sect == 'extra-databases' and l.strip():
            k, v = l.strip().removeprefix('- ').split(': ', 1)
            if l.strip().startswith('- '): dbs.append({})
            dbs[-1][k] = v.strip('\'"')
    return 'Some (mkRC %s %s)' % (lst(map(lit, ign)), lst(['mkRD %s %s %s %s' % tuple(lit(d.get(k, '')) for k in ('url', 'name', 'type', 'working-directory')) for d in dbs]))

HEAD = lf.HEAD.replace('PnpmLock MavenLock GoLock Parsers.', 'PnpmLock MavenLock GoLock Parsers SemNum Path GoSort Json OsvJson Osv Api ZipDB DirDB DbConfig Configer Csv Report Main MainSpec Flags.') + '''
Definition nl := String "010" "".
Definition by_path {A} (d : A) (t : list (string * A)) (k : string) : A := look d t (clean k).
Definition lock_text (f : lock_fail) : string :=
  match f with
  | FParse p => "could not parse " +s+ p +s+ ": " +s+ look "?" [("testdata/locks-empty/Gemfile.lock", "unexpected end of JSON input"); ("testdata/locks-empty/yarn.lock", "invalid character '#' looking for beginning of value")] p
  | _ => "?"
  end.
Definition row_text (e : from_err) : string := match e with RowErr 1 NotEnoughFields => "row 1: not enough fields (expected at least four)" | _ => "?" end.
Definition err_text (api : string) (e : any_err) : string :=
  match e with
  | AParse (PNoParser p) => "could not determine parser for " +s+ p
  | AParse (PParser m) => m
  | ACsvRows e => row_text e
  | ACsvFile (InFile p e) => p +s+ ": " +s+ row_text e
  | AConfig (CYaml p) => "could not read " +s+ p +s+ ": yaml: unmarshal errors:" +s+ nl +s+ "  line 1: cannot unmarshal !!str `ignore ...` into configer.rawConfig"
  | ALoad (LZip (ZStatus _)) => "unable to fetch OSV database: db host returned an unexpected status code (404 Not Found)"
  | AApi (EStatus _) => "api returned unexpected status (POST " +s+ api +s+ "/querybatch 400)"
  | AApi ENotJSON => "api response could not be parsed as json (POST " +s+ api +s+ "/querybatch): invalid character '<' looking for beginning of value"
  | AOpen p => "open " +s+ p +s+ ": no such file or directory"
  | _ => "?"
  end.
Definition uri (s : string) : option URL := Some (mkURL (match after "://" s with Some r => trim_prefix r (upto stop_host r) | None => cut_after s ":" end) (fun p => p)).
Definition enc (r : raw_config) : string := "ignore:" +s+ nl +s+ String.concat "" (map (fun i => "  - " +s+ i +s+ nl) (rc_ignore r)).
Definition codes (s : string) := map N_of_ascii (list_ascii_of_string s).
Definition stderr (tr : list ev) : list string := flat_map (fun e => match e with EOut _ Stderr t => [t] | _ => [] end) tr.
Definition written (fs : string -> fread) (p : string) : list N := match fs p with FOk c => codes c | _ => [] end.
'''
def tree(p):
    if os.path.isdir(p): return 'NDir (Some %s)' % lst(['(%s, %s)' % (lit(n), tree(f'{p}/{n}')) for n in sorted(os.listdir(p))])
    return 'NFile (Some %s)' % lit(read(p))
def world(texts, dbs, api):
    """the definitions of the environment E"""
    dirs = {}
    for p in texts:
        q = p
        while '/' in q.strip('/'):
            d, b = q.rsplit('/', 1); dirs.setdefault(d, {}).setdefault(b, q in dirs); q = d
    for d in dirs: dirs[d] = {b: f'{d}/{b}' in dirs for b in dirs[d]}
    v = []
    dec = {k: '(fun _ => None)' for k in ('cargo', 'pdm', 'poetry', 'pylock', 'uv', 'pubspec', 'pnpm', 'xml')}
    tab = lambda suffix, conv: '(look None %s)' % lst(['(%s, %s)' % (lit(t), conv(t)) for p, t in texts.items() if p.endswith(suffix)])
    dec['poetry'] = tab('poetry.lock', lambda t: lf.toml(t, 'package', lambda p: 'mkPoetry %s %s %s' % (lf.g(p, 'name'), lf.g(p, 'version'), lf.g(p, 'source', 'resolved_reference'))))
    dec['xml'] = tab('pom.xml', lf.xml)
    v.append('Definition D : Decoders := mkDecoders %s %s conf_float %s (fun _ => %s) (fun s => s) conf_url.' % (
        ' '.join(dec[k] for k in ('cargo', 'pdm', 'poetry', 'pylock', 'uv', 'pubspec')), dec['pnpm'], dec['xml'], tab('go.mod', lf.modfile)))
    v.append('Definition files : string -> txt := by_path Gone %s.' % lst(['(%s, Text %s false)' % (lit(p), lit(t)) for p, t in texts.items()]))
    v.append('Definition stat : string -> path_kind := by_path KNoOpen %s.' % lst(
        ['(%s, KFile)' % lit(p) for p in texts] + ['(%s, KDir %s)' % (lit(d), lst(['(%s, %s)' % (lit(b), 'true' if x else 'false') for b, x in sorted(es.items())])) for d, es in dirs.items()]))
    v.append('Definition archive (eco : string) : option (list (string * option string)) := Some (look [] %s eco).' % lst(
        ['(%s, %s)' % (lit(u), lst(['(%s, Some %s)' % (lit(f'{i}.json'), lit(o)) for i, o in enumerate(os_)])) for u, os_ in dbs.items()]))
    v.append('''Definition answer (r : zreq) : zresp :=
  if has_prefix (rq_url r) "https://example.com" then ZResp 404 "" "" None
  else ZResp 200 "e" %s (Some (cut_before (match after ".com/" (rq_url r) with Some s => s | None => "" end) "/")).''' % lit(DATE))
    v.append('Definition W : World := mkWorld uri archive (dec_osv Some) answer (by_path NGone [("testdata/configs-extra-dbs", %s)]).' % tree(REPO + '/testdata/configs-extra-dbs'))
    yml = sorted({t for p, t in texts.items() if p.endswith(('.yml', '.yaml'))})
    v.append('Definition yaml : string -> option raw_config := look (Some (mkRC [] [])) %s.' % lst(['(%s, %s)' % (lit(t), config(t)) for t in yml]))
    v.append('Definition conf : string -> fread := fun p => match files p with Text t _ => FOk t | _ => FNotExist end.')
    v.append('''Definition E : Env := mkEnv W num_sem isort (fun _ l => l) (fun _ s => s) (err_text %s) (enc_osv JNull) stat
  (impl D (fun _ l => l) files 10 lock_text) (fun p => match files p with Text t _ => Some t | _ => None end) (fun u => u) yaml enc (fun _ => true)
  (fun _ _ ps => Ok (%s)) ("osv-detector dev (unknown, commit none)" +s+ nl).''' % (lit(API), api))
    return v
def normal(s):
    s = s.replace(REPO, '<rootdir>').replace(TEMP, '<tempdir>')
    s = re.sub(r'(\w+) \(\d+ vulnerabilit(?:y|ies), including withdrawn - last updated \w{3}, \d\d \w{3} \d{4} [012]\d:\d\d:\d\d GMT\)', r'\1 (%% vulnerabilities, including withdrawn - last updated %%)', s)
    return re.sub(r'127\.0\.0\.1:\d+', '<localhost>:<port>', s)
def evaluate(n, texts, dbs, api, runs):
    """the exit code and the texts of every run (arguments, configs)"""
    v = [HEAD] + world(texts, dbs, api)
    for i, (args, configs) in enumerate(runs):
        v.append('''Definition shown_%d := Eval vm_compute in let '(c, s) := run_args E "" %s (start conf (fun _ => None)) in
  (match c with Ok z => z | Panic => (-1)%%Z end, codes (String.concat "" (stdout (s_trace s))), codes (String.concat "" (stderr (s_trace s))), (%s : list (list N))).''' % (
            i, lst(map(lit, args)), lst(['written (s_files s) %s' % lit(p) for p, _ in configs])))
        v.append('Set Printing Depth 1000000. Print shown_%d.' % i)
    p = f'{OUT}/Run{n}.v'
    open(p, 'w', encoding='utf-8', errors='surrogateescape', newline='').write('\n'.join(v) + '\n')
    o = subprocess.run(['bash', '-c', f'ulimit -s unlimited; timeout 900 coqc -q -Q {ROCQ}/theories Verif {p}'], stdout=subprocess.PIPE, stderr=subprocess.STDOUT, text=True, cwd=OUT).stdout
    for i, _ in enumerate(runs):
        m = re.search(r'shown_%d =\s*(.*?)\n\s*: ' % i, o, re.S)
        if not m: yield None, o[-800:]; continue
        parts = [bytes(int(x) for x in re.findall(r'\d+', p)).decode('utf-8', 'replace') for p in re.findall(r'\[([\d%N;\s]*)\]', m.group(1))]
        yield int(re.search(r'-?\d+', m.group(1)).group(0)), parts[:2 + len(runs[i][1])]
def main():
    os.makedirs(OUT, exist_ok=True)
    pat = re.compile(sys.argv[1] if len(sys.argv) > 1 else '')
    base = {}
    for d, _, fs in os.walk(REPO + '/testdata'):
        if 'locks-e2e' in d: continue
        for f in fs: base[os.path.relpath(f'{d}/{f}', REPO)] = read(f'{d}/{f}')
    both = dict(base); both.update({f'{REPO}/{p}': t for p, t in base.items()})
    dbs = advisories(SNAP.values())
    todo = []
    for name, args, code, configs, more in cases():
        texts = dict(both); texts.update(more); texts.update(dict(configs))
        api = 'inl (EStatus 400)' if name == 'TestRun_APIError/#00' else 'inl ENotJSON' if name == 'TestRun_APIError/#01' else 'inr (map (fun _ => []) ps)'
        want = [SNAP.get(f'{name} - {k}', '') for k in range(1, 3 + len(configs))] if 'APIError' not in name else [SNAP[f'{name} - 1'], SNAP[f'{name} - 2']]
        todo.append((name, texts, dbs, api, args, configs if 'APIError' not in name else [], code, want))
    for name, args, code, want in e2e():
        p = 'testdata/locks-e2e/' + name.split('/')[1]
        todo.append((name, {p: read(f'{REPO}/{p}')}, advisories([want]), 'inr (map (fun _ => []) ps)', args, [], code, [want, '']))
    groups = {}
    for t in todo:
        if pat.search(t[0]): groups.setdefault(json.dumps([t[1], t[2], t[3]]), []).append(t)
    bad = total = 0
    for k, ts in enumerate(groups.values()):
        for t, (got, parts) in zip(ts, evaluate(k, *ts[0][1:4], [(t[4], t[5]) for t in ts])):
            name, code, want = t[0], t[6], t[7]; total += 1
            if got is not None: parts = [normal(p) for p in parts]
            if (got, parts) == (code, want): print(f'{name} ok'); continue
            bad += 1; print(f'{name} differs: exit {got}, not {code}')
            if got is None: print(parts); continue
            for a, b in zip(parts, want): print(*list(difflib.unified_diff(b.split('\n'), a.split('\n'), 'expected', 'model', lineterm='', n=1))[:40], sep='\n')
        sys.stdout.flush()
    print(f'{total} runs, {bad} differ')
main()
