import json
M=json.load(open("/verif/tools/mutations.json"))
have=set((x["def"],x["edit"]) for x in M)
def m(f,d,old,new,edit,claims,breaks,count=1):
    if (d,edit) in have: return
    o={"file":f,"def":d,"old":old,"new":new,"edit":edit,"claims":claims,"breaks":breaks}
    if count!=1: o["count"]=count
    M.append(o)
T=lambda t: M[-1].__setitem__("tightened",t)
m("Metric.v","MinY","| Cosine => int_ceil (fmul (fmul alpha alpha) (of_int size))","| Cosine => int_ceil (fmul alpha (of_int size))","cosine minimum uses alpha, not its square",["C101","C102","C35"],"cosine returns fewer than dice")
m("Metric.v","MinY","| Jaccard => int_ceil (fmul alpha (of_int size))","| Jaccard => int_ceil (fmul (fmul alpha alpha) (of_int size))","jaccard minimum uses alpha squared",["C35"],"the bound is not tight")
m("Metric.v","MaxY","| Cosine => int_floor (fdiv (of_int size) (fmul alpha alpha))","| Cosine => int_floor (fdiv (of_int size) alpha)","cosine maximum not squared",["C102","C35"],"cosine loses long entries dice returns")
m("Metric.v","MaxY","| Jaccard => int_floor (fdiv (of_int size) alpha)","| Jaccard => int_ceil (fdiv (of_int size) alpha)","jaccard maximum rounded up",["C102"],"one more size is looked at")
m("Metric.v","MaxY","| Dice => int_floor (fmul (fdiv (fsub f_two alpha) alpha) (of_int size))","| Dice => int_floor (fmul (fdiv alpha (fsub f_two alpha)) (of_int size))","dice maximum inverted",["C102","C101","C35"],"dice returns nothing longer")
m("Metric.v","Threshold","| Jaccard => int_ceil (fdiv (fmul alpha (of_int (wrapi64 (sizeA + sizeB)))) (fadd f_one alpha))","| Jaccard => int_ceil (fdiv (fmul alpha (of_int (wrapi64 (sizeA + sizeB)))) f_two)","jaccard threshold is the dice threshold",["C35","C102"],"jaccard returns too much")
m("Metric.v","Threshold","int_ceil (fmul alpha (fmin (of_int sizeA) (of_int sizeB)))","int_ceil (fmul alpha (of_int sizeB))","overlap threshold over the entry only",["C102","C35"],"long entries are lost")
m("Metric.v","Threshold","| Cosine => int_ceil (fmul alpha (fsqrt (of_int (wrapi64 (sizeA * sizeB)))))","| Cosine => int_floor (fmul alpha (fsqrt (of_int (wrapi64 (sizeA * sizeB)))))","cosine threshold rounded down",["C35"],"too many pass")
m("Metric.v","Threshold","| Dice => int_ceil (fmul (fmul f_half alpha) (of_int (wrapi64 (sizeA + sizeB))))","| Dice => int_ceil (fmul alpha (of_int (wrapi64 (sizeA + sizeB))))","dice threshold without the half",["C101","C102","C35"],"dice returns fewer than jaccard")
m("Metric.v","Distance","| Jaccard => fsub f_one (fdiv (of_int inter) (of_int (wrapi64 (wrapi64 (sizeA + sizeB) - inter))))","| Jaccard => fsub f_one (fdiv (of_int inter) (of_int (wrapi64 (sizeA + sizeB))))","jaccard distance over the sum",["C36"],"scores are wrong")
json.dump(M,open("/verif/tools/mutations.json","w"),indent=1,ensure_ascii=False)
