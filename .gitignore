*.vo
*.vos
*.vok
*.glob
*.aux
.*.aux
.lia.cache
.nia.cache
.csdp.cache
Makefile
Makefile.conf
.Makefile.d
__pycache__/
