#!/usr/bin/env python3
"""seeded/LOG.jsonl from the records of the mutation runs (argument: their directory)."""
import json,glob,os,sys,re
NOTES={
 "h18":("none (C20 as stated stays true)","control: without the refresh timestamps never move, which C20 allows; other theorems fail",[]),
 "v01":("none (control)","control",[]),
 "n05":("C69 (traversal at depth other than 1)","survived: at depth 1 no endpoint is followed, C32 and C33 as stated stay true; C69 was added for every depth",["C69_any_depth"]),
 "n13":("C70 (what a failed traversal leaves behind)","survived: C55 as stated stays true; C70 was added",["C70_cycle_fails"]),
 "q05":("C43","survived: the statement used the filter of the model; it now spells out which elements a query looks at",["C43_any_schedule","C57_several_names"]),
 "c01":("C44","C45 as stated stays true, C44 is the claim that breaks",[]),
 "c08":("C44 (contents of the message)","no theorem stated the number of the direction, C44 failed only because of its proof; C44_contents was added",["C44_contents"]),
 "k04":("C71, C72 (text of the spawn script)","survived: the statements named the text through the model; C71_links_exported and C72 now state it literally",["C71_links_exported"]),
 "y04":("C75","C74 as stated stays true, C75 is the claim that breaks",[]),
 "y06":("C75","C74 as stated stays true, C75 is the claim that breaks",[]),
 "D02":("C81","survived: the tuples were described through the tuples of the model; C81_semantic_tuples was added, which fails (D02b)",["C81_semantic_tuples"]),
 "N14":("C100 (a failed message)","survived: no theorem said what a failed message leaves in the encoder; C100 was added, which fails (N14b)",["C100_clean_refuted"]),
 "c10":("C44","C45 as stated stays true, C44 is the claim that breaks",[]),
}
START=re.compile(r'^\s*(?:Definition|Fixpoint|Record|Inductive|Function)\s+([\w\']+)',re.M)
def main(d,src):
    out=[]
    for f in sorted(glob.glob(d+'/*.json')):
        if os.path.basename(f).startswith('base'): continue
        r=json.load(open(f))
        defs=[]
        for fn,old,new in r['edits']:
            for b in src:   # the snapshot the run was made on
                pth=os.path.join(b,fn)
                s=open(pth).read() if os.path.exists(pth) else ''
                i=s.find(old)
                if i>=0: break
            nm=None
            for m in START.finditer(s):
                if m.start()<=max(i,0)+len(old)//2: nm=m.group(1)
            defs.append(fn+': '+(nm or '?'))
        claim,note,tight=NOTES.get(r['id'],(r['claim'],'',r.get('tightened',[])))
        out.append({"id":r['id'],"definition":'; '.join(dict.fromkeys(defs)),"edit":r['desc'],"diff":[{"old":o,"new":n} for _,o,n in r['edits']],"claim_broken":claim,
          "broken_lemmas":[a+'.'+b for a,b in r['broken_lemmas']],"theorems_failed":sorted(r['failed']),"theorems_tightened":tight,"note":note})
    with open(os.path.join(os.path.dirname(__file__),"..","seeded","LOG.jsonl"),"w") as g:
        for x in out: g.write(json.dumps(x)+"\n")
    print(len(out))
main(sys.argv[1],sys.argv[2:])
