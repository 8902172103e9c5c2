import json
D='/repo/testdata/'
def coq(j,key=''):
    if j is None: return 'JNull'
    if isinstance(j,int): return 'JNum %d'%j
    if isinstance(j,str): return ('JBytes (str "%s")' if key=='label' else 'JBytes (hex "%s")')%j
    if isinstance(j,list): return 'JList ['+'; '.join(coq(x,key) for x in j)+']'
    return 'JObject ['+';\n  '.join('("%s"%%string, %s)'%(k,coq(v,k)) for k,v in j.items())+']'
def cut(j,**kw):
    j=dict(j)
    for k,n in kw.items():
        j[k]=j[k][:n]
    return j
def gen(fname,title,sel):
    out='(** %s *)\nFrom Verif Require Import VectorChecks.\nOpen Scope N_scope.\n'%title
    for (f,check,crypto,idx,kw) in sel:
        d=json.load(open(D+f+'.json'))
        for i in idx:
            n=f.replace('-','_')+'_%d'%i
            out+='\n(** testdata/%s.json, vector %d%s *)\nDefinition %s : json := Eval vm_compute in\n %s.\n'%(f,i,''.join(', first %d of %s'%(v,k) for k,v in kw.items()),n,coq(cut(d[i],**kw)))
            out+='Definition %s_failures : failures := Eval vm_compute in %s %s.\nExample %s_passes : %s_failures = []. Proof. reflexivity. Qed.\n'%(n,check,('(C := real) ' if crypto else '')+n,n,n)
    open('../rocq/theories/%s.v'%fname,'w').write(out)
R=True
gen('Vectors','''A selection of the test vectors of the project (/repo/testdata), run on the
    model when this file is built: wire format, tree arithmetic, key schedule
    and trees.  These are tests, not proofs.''',[
 ('deserialization','checkDeserialization',0,range(14),{}),
 ('tree-math','checkTreeMath',0,range(5),{}),
 ('messages','checkMessages',0,[99,7],{}),
 ('psk_secret','checkPSKSecret',R,[0,1,3,67],{}),
 ('key-schedule','checkKeySchedule',R,[0],{'epochs':2}),
 ('transcript-hashes','checkTranscriptHashes',R,[0,6],{}),
 ('secret-tree','checkSecretTree',R,[0,1,6],{}),
 ('tree-validation','checkTreeValidation',R,[0,5],{}),
 ('tree-operations','checkTreeOperations',R,range(5),{}),
 ('treekem','checkTreeKEM',R,[0],{}),
])
gen('VectorsGroup','''A selection of the test vectors of the project (/repo/testdata), run on the
    model when this file is built: labelled primitives, message protection and
    Welcomes.  These are tests, not proofs.''',[
 ('crypto-basics','checkCryptoBasics',R,[0],{}),
 ('welcome','checkWelcome',R,[0],{}),
 ('message-protection','checkMessageProtection',R,[0],{}),
])
gen('VectorsClient','''A selection of the test vectors of the project (/repo/testdata), run on the
    model when this file is built: clients that join and follow commits.  These
    are tests, not proofs.''',[
 ('passive-client-handling-commit','checkPassiveClient',R,[2],{}),
])

open('../rocq/theories/VectorsClient.v','a').write('''
(** group_test.go ExampleGroup with suite 3 *)
Definition exampleGroup_failures : failures := Eval vm_compute in checkExampleGroup (C := real) 3.
Example exampleGroup_passes : exampleGroup_failures = []. Proof. reflexivity. Qed.
''')
